(** garbled_circuit_util.cpp: the gates before a gate, as printed for debugging. *)
From Coq Require Import ZArith NArith List Bool Lia.
From Verif Require Import Base Gate Circuit.
Import ListNotations.
Open Scope Z_scope.

(** * Model *)
(** What is printed for a gate (without the number of the cycle): its number and the labels of its wires *)
Record entry (L : Type) := Entry { e_gid : Z; e_in0 : L; e_in1 : L; e_out : L }.
Arguments Entry {L}. Arguments e_gid {L}. Arguments e_in0 {L}. Arguments e_in1 {L}. Arguments e_out {L}.
(** [Undefined]: an array is read outside its bounds; [Running]: more than [fuel] nested calls *)
Inductive outcome (L : Type) := Ends (l : list (entry L)) | Undefined | Running.
Arguments Ends {L}. Arguments Undefined {L}. Arguments Running {L}.
(** PrintPredecessorsGarble and PrintPredecessorsEval, garbled_circuit_util.cpp:520-554 and 556-589, which
    differ in what is kept for a wire: [L] with the value [none] for no wire and [key] the block compared
    with zero. *)
Section Print.
Variable L : Type.
Variable none : L.
Variable key : L -> block.
Variable c : GarbledCircuit.
Variable wires : list L.
Definition wire_label (i : Z) : option L := if (0 <=? i) && (i <? wsz c) then rd wires i else Some none.
Definition follow (call : Z -> outcome L) (v : L) (i : Z) : outcome L :=
  if negb (CmpBlock (key v) ZeroBlock) then call (i - get_gate_lo_index c) else Ends [].
Fixpoint print_predecessors (fuel : nat) (gid : Z) : outcome L :=
  match fuel with
  | O => Running
  | S fuel =>
    if gid <? 0 then Ends [] else
    match rd (garbledGates c) gid with
    | None => Undefined
    | Some g =>
      match wire_label (input0 g), wire_label (input1 g), rd wires (output g) with
      | Some v0, Some v1, Some o =>
        match follow (print_predecessors fuel) v0 (input0 g) with
        | Ends l0 => match follow (print_predecessors fuel) v1 (input1 g) with
                     | Ends l1 => Ends (Entry gid v0 v1 o :: l0 ++ l1)
                     | r => r end
        | r => r end
      | _, _, _ => Undefined
      end
    end
  end.
End Print.
Definition PrintPredecessorsGarble := print_predecessors (block * block) (ZeroBlock, ZeroBlock) fst.
Definition PrintPredecessorsEval := print_predecessors block ZeroBlock (fun v => v).

(** * Specification *)
Section Spec.
Context {L : Type}.
Variable key : L -> block.
Variable c : GarbledCircuit.
Variable wires : list L.
(** Gate [b] drives an input of gate [a], and the label there has a lower half other than zero. *)
Definition drives (b a : Z) : Prop := exists g i v, nth_error (garbledGates c) (Z.to_nat a) = Some g /\ (i = input0 g \/ i = input1 g) /\ 0 <= i < wsz c /\
  nth_error wires (Z.to_nat i) = Some v /\ (key v mod 2 ^ 64 <> 0)%N /\ b = i - get_gate_lo_index c /\ 0 <= b.
Inductive before (a : Z) : Z -> Prop := before_self : before a a | before_more b d : before a b -> drives d b -> before a d.
(** The labels of a wire; of a constant none *)
Definition shown (none : L) (i : Z) (v : L) : Prop := if (0 <=? i) && (i <? wsz c) then nth_error wires (Z.to_nat i) = Some v else v = none.
Definition right_entry (none : L) (e : entry L) : Prop := exists g, nth_error (garbledGates c) (Z.to_nat (e_gid e)) = Some g /\
  shown none (input0 g) (e_in0 e) /\ shown none (input1 g) (e_in1 e) /\ nth_error wires (Z.to_nat (output g)) = Some (e_out e).
(** The whole listing, in its order: the gate, then all that is before its first input, then all that is
    before its second one, each as often as there are ways to it. *)
Inductive listing (none : L) : Z -> list (entry L) -> Prop :=
| listing_gate a g e l0 l1 : nth_error (garbledGates c) (Z.to_nat a) = Some g -> e_gid e = a -> right_entry none e ->
    side none (input0 g) l0 -> side none (input1 g) l1 -> listing none a (e :: l0 ++ l1)
with side (none : L) : Z -> list (entry L) -> Prop :=
| side_gate i v l : get_gate_lo_index c <= i < wsz c -> nth_error wires (Z.to_nat i) = Some v -> (key v mod 2 ^ 64 <> 0)%N ->
    listing none (i - get_gate_lo_index c) l -> side none i l
| side_zero i v : 0 <= i < wsz c -> nth_error wires (Z.to_nat i) = Some v -> (key v mod 2 ^ 64 = 0)%N -> side none i []
| side_input i : i < get_gate_lo_index c -> side none i [].
End Spec.
(** Gates come after the gates that drive them, and drive wires that exist. *)
Definition sorted (c : GarbledCircuit) : Prop := forall k g, nth_error (garbledGates c) k = Some g ->
  input0 g < get_gate_lo_index c + Z.of_nat k /\ input1 g < get_gate_lo_index c + Z.of_nat k /\ 0 <= output g < wsz c.

(** * Proofs *)
Lemma rd_in {A} (l : list A) i : 0 <= i < Z.of_nat (length l) -> exists v, rd l i = Some v /\ nth_error l (Z.to_nat i) = Some v.
Proof.
  intros H. destruct (nth_error l (Z.to_nat i)) as [v|] eqn:E; [|apply nth_error_None in E; lia]. exists v. split; [|reflexivity].
  unfold rd. destruct (Z.ltb_spec i 0); [lia|]. exact E.
Qed.
Lemma nonzero_low v : negb (CmpBlock v ZeroBlock) = true <-> (v mod 2 ^ 64 <> 0)%N.
Proof. unfold CmpBlock, ZeroBlock. rewrite N.mod_0_l by discriminate. destruct (N.eqb_spec (v mod 2 ^ 64) 0) as [E|E]; cbn [negb]; split; intros H; [discriminate|contradiction|exact E|reflexivity]. Qed.

Section Run.
Variable L : Type.
Variable none : L.
Variable key : L -> block.
Hypothesis none_zero : (key none mod 2 ^ 64 = 0)%N.
Variable c : GarbledCircuit.
Variable wires : list L.
Hypothesis size : Z.of_nat (length wires) = wsz c.
Hypothesis order : sorted c.
Local Notation print := (print_predecessors L none key c wires).
Local Notation past := (before key c wires).
Lemma lo_size : wsz c = get_gate_lo_index c + Z.of_nat (length (garbledGates c)) /\ 0 <= get_gate_lo_index c.
Proof. unfold wsz, get_wire_size, get_gate_lo_index, gate_size. lia. Qed.
Lemma label_ok i : exists v, wire_label L none c wires i = Some v /\ shown c wires none i v.
Proof.
  unfold wire_label, shown. destruct (0 <=? i) eqn:E1, (i <? wsz c) eqn:E2; cbn [andb]; try (exists none; split; reflexivity).
  apply Z.leb_le in E1. apply Z.ltb_lt in E2. destruct (rd_in wires i) as (v & H1 & H2); [lia|]. exists v. now split.
Qed.
Lemma before_first a b d : drives key c wires d a -> past d b -> past a b.
Proof. intros D H. induction H as [|b e H IH E]; [eapply before_more; [apply before_self|exact D]|eapply before_more; eauto]. Qed.
Lemma before_cases a b : past a b -> b = a \/ exists d, drives key c wires d a /\ past d b.
Proof.
  induction 1 as [|b d H [->|(e & D & P)] E]; [now left| |].
  - right. exists d. split; [exact E|apply before_self].
  - right. exists e. split; [exact D|]. eapply before_more; eauto.
Qed.
Definition good (a : Z) (l : list (entry L)) : Prop := (forall b, In b (map e_gid l) <-> past a b) /\ Forall (right_entry c wires none) l /\ listing key c wires none a l.
Lemma print_ends n : forall gid, gid < Z.of_nat n -> gid < Z.of_nat (length (garbledGates c)) ->
  exists l, (forall fuel, (S (Z.to_nat (gid + 1)) <= fuel)%nat -> print fuel gid = Ends l) /\ (0 <= gid -> good gid l) /\ (gid < 0 -> l = []).
Proof.
  induction n as [|n IH]; intros gid Hn Hg.
  - exists []. split; [|split; [lia|reflexivity]]. intros [|fuel] F; [lia|]. cbn [print_predecessors]. destruct (Z.ltb_spec gid 0); [reflexivity|lia].
  - destruct (Z_lt_ge_dec gid 0) as [Neg|Pos].
    { exists []. split; [|split; [lia|reflexivity]]. intros [|fuel] F; [lia|]. cbn [print_predecessors]. destruct (Z.ltb_spec gid 0); [reflexivity|lia]. }
    destruct (rd_in (garbledGates c) gid) as (g & R & N); [lia|]. destruct (order _ _ N) as (O0 & O1 & O2). rewrite Z2Nat.id in O0, O1 by lia.
    destruct (label_ok (input0 g)) as (v0 & W0 & S0). destruct (label_ok (input1 g)) as (v1 & W1 & S1). destruct (rd_in wires (output g)) as (o & RO & NO); [lia|].
    destruct lo_size as (LS & LP).
    assert (F : forall i v, i < get_gate_lo_index c + gid -> (i = input0 g \/ i = input1 g) -> shown c wires none i v -> exists l,
      (forall fuel, (S (Z.to_nat gid) <= fuel)%nat -> follow L key c (print fuel) v i = Ends l) /\ (Forall (right_entry c wires none) l /\ side key c wires none i l) /\
      forall b, In b (map e_gid l) <-> (key v mod 2 ^ 64 <> 0)%N /\ 0 <= i - get_gate_lo_index c /\ past (i - get_gate_lo_index c) b).
    { intros i v Hi _ SH. unfold follow. destruct (negb (CmpBlock (key v) ZeroBlock)) eqn:Z0.
      - destruct (IH (i - get_gate_lo_index c)) as (l & P & G & E); [lia|lia|]. exists l. split; [intros fuel Hf; apply P; lia|].
        destruct (Z_lt_ge_dec (i - get_gate_lo_index c) 0) as [NG|PS].
        + rewrite (E NG). split; [split; [constructor|apply side_input; lia]|]. intros b. cbn [map In]. split; [tauto|lia].
        + destruct (G ltac:(lia)) as (G1 & G2 & G3). apply nonzero_low in Z0. split.
          { split; [exact G2|]. apply (side_gate key c wires none i v l); [lia| |exact Z0|exact G3]. unfold shown in SH. destruct (Z.leb_spec 0 i), (Z.ltb_spec i (wsz c)); try lia. exact SH. }
          intros b. rewrite (G1 b). split; [intros H; repeat split; auto; lia|tauto].
      - exists []. split; [reflexivity|]. split.
        { split; [constructor|]. destruct (Z_lt_ge_dec i 0); [apply side_input; lia|]. apply (side_zero key c wires none i v); [lia| |].
          - unfold shown in SH. destruct (Z.leb_spec 0 i), (Z.ltb_spec i (wsz c)); try lia. exact SH.
          - destruct (N.eq_dec (key v mod 2 ^ 64) 0) as [Q|Q]; [exact Q|]. apply nonzero_low in Q. congruence. }
        intros b. cbn [map In]. split; [tauto|]. intros (H & _). apply nonzero_low in H. congruence. }
    destruct (F (input0 g) v0 O0 (or_introl eq_refl) S0) as (l0 & P0 & (E0 & D0) & B0). destruct (F (input1 g) v1 O1 (or_intror eq_refl) S1) as (l1 & P1 & (E1 & D1) & B1).
    exists (Entry gid v0 v1 o :: l0 ++ l1). split; [|split; [|lia]].
    + intros [|fuel] Hf; [lia|]. cbn [print_predecessors]. destruct (Z.ltb_spec gid 0); [lia|]. rewrite R, W0, W1, RO, P0, P1 by lia. reflexivity.
    + intros _. split.
      * intros b. cbn [map e_gid In]. rewrite map_app, in_app_iff, (B0 b), (B1 b). split.
        -- assert (ST : forall i v, (i = input0 g \/ i = input1 g) -> shown c wires none i v -> (key v mod 2 ^ 64 <> 0)%N /\ 0 <= i - get_gate_lo_index c /\ past (i - get_gate_lo_index c) b -> past gid b).
           { intros i v Hi S (K & P & H). apply (before_first gid b (i - get_gate_lo_index c)); [|exact H]. unfold shown in S. destruct (0 <=? i) eqn:A1, (i <? wsz c) eqn:A2; cbn [andb] in S; try (subst v; contradiction).
             apply Z.leb_le in A1. apply Z.ltb_lt in A2. exists g, i, v. repeat split; auto; lia. }
           intros [<-|[H|H]]; [apply before_self|exact (ST _ _ (or_introl eq_refl) S0 H)|exact (ST _ _ (or_intror eq_refl) S1 H)].
        -- intros H. apply before_cases in H. destruct H as [->|(d & (g' & i & v & N' & Hi & Rg & Nv & K & -> & P) & H)]; [now left|]. right. rewrite N in N'. injection N' as <-.
           assert (IN : (0 <=? i) && (i <? wsz c) = true) by (apply andb_true_intro; split; [apply Z.leb_le|apply Z.ltb_lt]; lia).
           destruct Hi as [-> | ->]; [left|right]; (split; [|split; [exact P|exact H]]).
           ++ unfold shown in S0. rewrite IN in S0. congruence.
           ++ unfold shown in S1. rewrite IN in S1. congruence.
      * assert (RE : right_entry c wires none (Entry gid v0 v1 o)) by (exists g; cbn [e_gid e_in0 e_in1 e_out]; now repeat split).
        split; [constructor; [exact RE|apply Forall_app; now split]|]. now apply (listing_gate key c wires none gid g).
Qed.
Theorem predecessors gid : 0 <= gid < Z.of_nat (length (garbledGates c)) -> exists l, (forall fuel, gid + 2 <= Z.of_nat fuel -> print fuel gid = Ends l) /\
  (forall b, In b (map e_gid l) <-> past gid b) /\ Forall (right_entry c wires none) l /\ listing key c wires none gid l.
Proof.
  intros H. destruct (print_ends (S (Z.to_nat gid)) gid) as (l & P & G & _); [lia|lia|]. exists l. split; [intros fuel F; apply P; lia|]. apply G. lia.
Qed.
End Run.
Theorem garble_predecessors c wires gid : Z.of_nat (length wires) = wsz c -> sorted c -> 0 <= gid < Z.of_nat (length (garbledGates c)) ->
  exists l, (forall fuel, gid + 2 <= Z.of_nat fuel -> PrintPredecessorsGarble c wires fuel gid = Ends l) /\
    (forall b, In b (map e_gid l) <-> before fst c wires gid b) /\ Forall (right_entry c wires (0, 0)%N) l /\ listing fst c wires (0, 0)%N gid l.
Proof. intros S O H. exact (predecessors (block * block) (ZeroBlock, ZeroBlock) fst eq_refl c wires S O gid H). Qed.
Theorem eval_predecessors c wires gid : Z.of_nat (length wires) = wsz c -> sorted c -> 0 <= gid < Z.of_nat (length (garbledGates c)) ->
  exists l, (forall fuel, gid + 2 <= Z.of_nat fuel -> PrintPredecessorsEval c wires fuel gid = Ends l) /\
    (forall b, In b (map e_gid l) <-> before (fun v => v) c wires gid b) /\ Forall (right_entry c wires 0%N) l /\ listing (fun v => v) c wires 0%N gid l.
Proof. intros S O H. exact (predecessors block ZeroBlock (fun v => v) eq_refl c wires S O gid H). Qed.

(** * What does not hold *)
(** A chain of [n] gates, each with both inputs driven by the one before: the last one takes 2^n - 1 entries *)
Definition chain (n : nat) : GarbledCircuit :=
  mkCircuit 0 0 0 0 1 0 (map (fun k => mkGate (Z.of_nat k) (Z.of_nat k) (Z.of_nat k + 1) ANDGATE) (seq 0 n)) [] [] [] 0.
Lemma chain_gate n k : (k < n)%nat -> rd (garbledGates (chain n)) (Z.of_nat k) = Some (mkGate (Z.of_nat k) (Z.of_nat k) (Z.of_nat k + 1) ANDGATE).
Proof.
  intros H. unfold rd. destruct (Z.ltb_spec (Z.of_nat k) 0); [lia|]. rewrite Nat2Z.id. cbn [chain garbledGates].
  apply (map_nth_error (fun k => mkGate (Z.of_nat k) (Z.of_nat k) (Z.of_nat k + 1) ANDGATE)).
  rewrite nth_error_nth' with (d := O) by (rewrite seq_length; exact H). rewrite seq_nth by exact H. reflexivity.
Qed.
Lemma chain_sizes n : wsz (chain n) = Z.of_nat n + 1 /\ get_gate_lo_index (chain n) = 1.
Proof. unfold wsz, get_wire_size, get_gate_lo_index, gate_size. cbn. rewrite map_length, seq_length. lia. Qed.
Theorem many_times n : exists l, PrintPredecessorsEval (chain n) (repeat 1%N (S n)) (S n) (Z.of_nat n - 1) = Ends l /\ Z.of_nat (length l) = 2 ^ Z.of_nat n - 1.
Proof.
  destruct (chain_sizes n) as (WS & LO). unfold PrintPredecessorsEval.
  assert (R : forall i, 0 <= i < Z.of_nat n + 1 -> rd (repeat 1%N (S n)) i = Some 1%N).
  { intros i Hi. unfold rd. destruct (Z.ltb_spec i 0); [lia|]. rewrite nth_error_nth' with (d := 1%N) by (rewrite repeat_length; lia). f_equal. apply nth_repeat. }
  assert (G : forall k, (k <= n)%nat -> exists l, print_predecessors block ZeroBlock (fun v => v) (chain n) (repeat 1%N (S n)) (S k) (Z.of_nat k - 1) = Ends l /\ Z.of_nat (length l) = 2 ^ Z.of_nat k - 1);
    [|apply G; lia].
  induction k as [|k IH]; intros Hk; [exists []; split; reflexivity|]. destruct IH as (l & P & E); [lia|].
  exists (Entry (Z.of_nat k) 1%N 1%N 1%N :: l ++ l). split.
  - remember (S k) as f. cbn [print_predecessors]. replace (Z.of_nat f - 1) with (Z.of_nat k) by lia. destruct (Z.ltb_spec (Z.of_nat k) 0); [lia|].
    rewrite chain_gate by lia. cbn [input0 input1 output]. unfold wire_label. rewrite WS. destruct (Z.leb_spec 0 (Z.of_nat k)), (Z.ltb_spec (Z.of_nat k) (Z.of_nat n + 1)); try lia. cbn [andb].
    rewrite !R by lia. unfold follow. change (negb (CmpBlock 1%N ZeroBlock)) with true. cbv iota. rewrite LO, P. reflexivity.
  - cbn [length]. rewrite app_length. replace (Z.of_nat (S k)) with (Z.succ (Z.of_nat k)) by lia. rewrite Z.pow_succ_r by lia. lia.
Qed.
(** A gate that drives itself: the recursion does not end *)
Definition looping : GarbledCircuit := mkCircuit 0 0 0 0 1 0 [mkGate 1 0 1 ANDGATE] [] [] [] 0.
Theorem loop_refuted : forall fuel, PrintPredecessorsEval looping [1; 1]%N fuel 0 = Running.
Proof.
  unfold PrintPredecessorsEval. induction fuel as [|fuel IH]; [reflexivity|]. cbn [print_predecessors].
  change (0 <? 0) with false. cbv iota. change (rd (garbledGates looping) 0) with (Some (mkGate 1 0 1 ANDGATE)). cbv iota. cbn [input0 input1 output].
  change (wire_label block ZeroBlock looping [1; 1]%N 1) with (Some 1%N). change (wire_label block ZeroBlock looping [1; 1]%N 0) with (Some 1%N). change (rd [1; 1]%N 1) with (Some 1%N). cbv iota.
  unfold follow at 1. change (negb (CmpBlock 1%N ZeroBlock)) with true. cbv iota. change (1 - get_gate_lo_index looping) with 0. rewrite IH. reflexivity.
Qed.
(** A gate with a label that is not zero, but has a lower half of zero, is left out *)
Theorem half_refuted : ~ forall c wires gid g v l, nth_error (garbledGates c) (Z.to_nat gid) = Some g -> 0 <= gid -> rd wires (input0 g) = Some v -> v <> 0%N -> get_gate_lo_index c <= input0 g ->
  PrintPredecessorsEval c wires 5 gid = Ends l -> In (input0 g - get_gate_lo_index c) (map e_gid l).
Proof.
  intros H. specialize (H (chain 2) [1; 2 ^ 64; 1]%N 1 (mkGate 1 1 2 ANDGATE) (2 ^ 64)%N [Entry 1 (2 ^ 64)%N (2 ^ 64)%N 1%N] eq_refl).
  destruct H as [H|[]]; [lia|reflexivity|discriminate|vm_compute; discriminate|vm_compute; reflexivity|]. vm_compute in H. discriminate H.
Qed.
Lemma predecessors_case : sorted (chain 2) /\ PrintPredecessorsEval (chain 2) [5; 6; 7]%N 3 1 = Ends [Entry 1 6%N 6%N 7%N; Entry 0 5%N 5%N 6%N; Entry 0 5%N 5%N 6%N].
Proof.
  split; [|vm_compute; reflexivity]. intros [|[|[|k]]] g H; cbn in H; try discriminate; injection H as <-; vm_compute; repeat split; congruence.
Qed.
(** Three gates, one with a constant as an input: gate 0 comes before gate 1; wire 0 has a first label of zero *)
Definition three : GarbledCircuit := mkCircuit 0 0 0 0 1 0 [mkGate 0 (-2) 1 ANDGATE; mkGate 0 0 2 XORGATE; mkGate 1 2 3 ORGATE] [] [] [] 0.
Lemma garble_case : sorted three /\ PrintPredecessorsGarble three [(0, 9); (5, 0); (6, 3); (0, 8)]%N 4 2 =
  Ends [Entry 2 (5, 0)%N (6, 3)%N (0, 8)%N; Entry 0 (0, 9)%N (0, 0)%N (5, 0)%N; Entry 1 (0, 9)%N (0, 9)%N (6, 3)%N].
Proof.
  split; [|vm_compute; reflexivity]. intros [|[|[|[|k]]]] g H; cbn in H; try discriminate; injection H as <-; vm_compute; repeat split; congruence.
Qed.
(** A gate with an input that is no wire, just past the last one *)
Lemma outside_case : PrintPredecessorsEval (mkCircuit 0 0 0 0 1 0 [mkGate 2 0 1 ANDGATE] [] [] [] 0) [5; 6]%N 2 0 = Ends [Entry 0 0%N 5%N 6%N].
Proof. vm_compute. reflexivity. Qed.
