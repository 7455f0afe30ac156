(** Bristol circuits run by the programs, and an instance. *)
From Coq Require Import ZArith NArith List Bool Lia Ascii String.
From Verif Require Import Base Gate Circuit CycleModel Spec Plain Run Demo Results
  Proc Codec Tcp BN Rand Bounded Tables Protocol Transfer OutTransfer ProtocolOk ProtocolRun EndToEnd ProtocolDemo ProtocolResults
  Text Netlist Scd Parse Hex Format Programs ProgramsOk ProgramsDemo Bristol BristolOk BristolText.
Import ListNotations.
Open Scope string_scope.
Open Scope list_scope.
Open Scope Z_scope.

Theorem bristol_programs b t ws : b_valid b -> spaced (bristol_words b ++ ws) t ->
  exists file c, (forall log junk0 junk, Bris2SCD log junk0 junk (Some t) = Done file) /\ (forall jf, ReadSCD jf file = c) /\
  forall ja jb a a' u V T, u_c u = c -> scd_file a = Some file -> started a a' u -> good_run (low_mem_foot a) u V T ->
    Z.of_nat (u_n u * b_o b) < 2 ^ 31 -> (forall cy i, (cy < T)%nat -> ~ hidden (sess (low_mem_foot a) u) u V cy i) ->
  let out cy := b_output b (fun j => bit (g_input (u_x u)) (cy * b_g b + j)) (fun j => bit (e_input (u_x u)) (cy * b_e b + j)) in
    T = u_n u /\
    exists ta tb, always_finish (garbler_program ja a u) (evaluator_program jb a' u) (Some ta) (Some tb) /\
      displays (output_mode (u_opt u)) (b_o b) T ta (fun cy i => out cy i && to_garbler u i) /\
      displays (output_mode (u_opt u)) (b_o b) T tb (fun cy i => out cy i && negb (to_garbler u i)).
Proof.
  intros BV S. destruct (bristol_reads b t ws BV S) as (file & c & TR & RD & [WF RS RT RV]). exists file, c. split; [exact TR|]. split; [exact RD|].
  intros ja jb a a' u V T EC FA ST G SO NH out. subst c. pose proof (gr_V _ _ _ _ G) as CV. pose proof (RV (u_x u) V CV) as VAL.
  destruct RS as (_ & _ & _ & _ & _ & _ & OW & _). change (output_size (u_c u) = b_o b) in OW.
  destruct (gr_T _ _ _ _ G) as ((T1 & T2) & _ & T3).
  assert (ET : T = u_n u). { destruct T3 as [T3|[(_ & H & _) _]]; [exact T3|]. rewrite RT in H. lia. }
  split; [exact ET|]. rewrite <- OW in SO. destruct (programs_ok ja jb a a' u V T ST G SO NH) as (ta & tb & AF & DA & DB). rewrite OW in DA, DB.
  exists ta, tb. split; [exact AF|]. split; (eapply displays_ext; [lia| |eassumption]); intros cy i Hc Hi; cbv beta; rewrite VAL by exact Hi; reflexivity.
Qed.

(** * Outputs that are inputs *)
(** As [b_valid], but an output may be an input wire. *)
Record b_sound (b : bristol) : Prop := {
  bs_some : b_gates b <> [];
  bs_order : forall l g r, b_gates b = l ++ g :: r -> forall a, In a (bg_ins g) -> (a < b_g b + b_e b)%nat \/ In a (map bg_out l);
  bs_single : NoDup (map bg_out (b_gates b));
  bs_range : forall g, In g (b_gates b) -> (b_g b + b_e b <= bg_out g < b_wires b)%nat;
  bs_outputs : (b_o b <= b_wires b)%nat /\ forall i, (i < b_o b)%nat -> (b_wires b - b_o b + i < b_g b + b_e b)%nat \/ In (b_wires b - b_o b + i)%nat (map bg_out (b_gates b));
  bs_size : Z.of_nat (b_wires b) < 2 ^ 63 }.
Definition pass : bristol := mkBristol 3 1 1 2 [AND 0 1 2].
Definition pass_text : text := list_ascii_of_string "1 3
1 1 2

2 1 0 1 2 AND
".
Lemma pass_sound : b_sound pass.
Proof.
  split; cbn.
  - discriminate.
  - intros [|h [|k l]] g r E; [|discriminate|discriminate]. cbn in E. injection E as <- <-. cbn. intros a [<-|[<-|[]]]; left; lia.
  - repeat constructor. cbn. tauto.
  - intros g [<-|[]]. cbn. lia.
  - split; [lia|]. intros [|[|i]] H; [left; lia|right; cbn; auto|lia].
  - lia.
Qed.
(** Deciding [spaced]. *)
Fixpoint split_ws (fuel : nat) (t : text) : list text :=
  match fuel with
  | O => []
  | S fuel => match skip_ws t with [] => [] | t => let (w, r) := span_word t in w :: split_ws fuel r end
  end.
Lemma skip_split t : exists b, t = b ++ skip_ws t /\ blank b.
Proof.
  induction t as [|c t (b & E & B)]; [exists []; split; [reflexivity|constructor]|]. cbn [skip_ws]. destruct (is_space c) eqn:SC.
  - exists (c :: b). split; [cbn; rewrite <- E; reflexivity|constructor; assumption].
  - exists []. split; [reflexivity|constructor].
Qed.
Lemma skip_head t : match skip_ws t with [] => True | c :: _ => is_space c = false end.
Proof. induction t as [|c t IH]; cbn; [exact Logic.I|]. destruct (is_space c) eqn:SC; [exact IH|exact SC]. Qed.
Lemma span_split t : let (w, r) := span_word t in t = w ++ r /\ Forall (fun c => is_space c = false) w /\ stops r.
Proof.
  induction t as [|c t IH]; cbn [span_word]; [repeat split; constructor|]. destruct (is_space c) eqn:SC.
  - repeat split; [constructor|exact SC].
  - destruct (span_word t) as [w r]. destruct IH as (-> & F & S). repeat split; auto.
Qed.
Lemma split_ws_ok : forall n t, (List.length t < n)%nat -> spaced (split_ws n t) t.
Proof.
  induction n as [|n IH]; intros t L; [lia|]. cbn [split_ws]. destruct (skip_split t) as (b & E & B). pose proof (skip_head t) as H.
  destruct (skip_ws t) as [|c s] eqn:ES; [rewrite app_nil_r in E; subst b; constructor; exact B|].
  pose proof (span_split (c :: s)) as SP. destruct (span_word (c :: s)) as [w r] eqn:EW. destruct SP as (EC & F & S).
  assert (NE : w <> []). { cbn [span_word] in EW. rewrite H in EW. destruct (span_word s). injection EW as <- _. discriminate. }
  rewrite E, EC. constructor; auto. apply IH. rewrite E, EC, !app_length in L. destruct w; [congruence|]. cbn in L. lia.
Qed.
Definition spacedb (ws : list text) (t : text) : bool := if list_eq_dec (list_eq_dec ascii_dec) (split_ws (S (List.length t)) t) ws then true else false.
Lemma spacedb_ok ws t : spacedb ws t = true -> spaced ws t.
Proof. unfold spacedb. destruct (list_eq_dec _ _ _) as [<-|]; [intros _; apply split_ws_ok; lia|discriminate]. Qed.

Definition pass_x : inputs := mkInputs 0 0 0 0 0 1.
Theorem passthrough_refuted : ~ forall b t, b_sound b -> spaced (bristol_words b) t ->
  exists file, (forall junk0 junk, Bris2SCD false junk0 junk (Some t) = Done file) /\
    forall jf x V, consistent (ReadSCD jf file) x V -> forall cy i, (i < b_o b)%nat ->
      V cy (nth i (outputs (ReadSCD jf file)) 0) = b_output b (fun j => bit (g_input x) (cy * b_g b + j)) (fun j => bit (e_input x) (cy * b_e b + j)) i.
Proof.
  intros C. destruct (C pass pass_text pass_sound) as (file & T & V). { apply spacedb_ok. vm_compute. reflexivity. }
  specialize (T (fun _ => 0) (fun _ _ => 0)). assert (EF : Bris2SCD false (fun _ => 0) (fun _ _ => 0) (Some pass_text) = Done file) by exact T. clear T C.
  vm_compute in EF. injection EF as <-.
  match type of V with forall jf x V, consistent (ReadSCD jf ?f) x V -> _ => set (file := f) in V end.
  assert (WF : well_formed (ReadSCD (fun _ _ => 0) file)) by (apply well_formedb_ok; vm_compute; reflexivity).
  specialize (V (fun _ _ => 0) pass_x _ (plain_ok _ pass_x WF) 0%nat 0%nat ltac:(cbn; lia)). vm_compute in V. discriminate.
Qed.

(** * An adder for two-bit numbers *)
Definition adder : bristol := mkBristol 14 2 2 3
  [AND 0 2 4; XOR 1 3 5; AND 1 3 6; AND 4 5 7; INV 6 8; INV 7 9; AND 8 9 10; XOR 0 2 11; XOR 5 4 12; INV 10 13].
Definition adder_text : text := list_ascii_of_string "10 14
2 2 3

2 1 0 2 4 AND
2 1 1 3 5 XOR
2 1 1 3 6 AND
2 1 4 5 7 AND
1 1 6 8 INV
1 1 7 9 INV
2 1 8 9 10 AND
2 1 0 2 11 XOR
2 1 5 4 12 XOR
1 1 10 13 INV
".
Definition b_validb (b : bristol) : bool :=
  negb (match b_gates b with [] => true | _ => false end) &&
  snd (fold_left (fun (st : list nat * bool) g => (bg_out g :: fst st,
        snd st && forallb (fun a => (a <? b_g b + b_e b)%nat || existsb (Nat.eqb a) (fst st)) (bg_ins g)
        && negb (existsb (Nat.eqb (bg_out g)) (fst st)) && (b_g b + b_e b <=? bg_out g)%nat && (bg_out g <? b_wires b)%nat)) (b_gates b) ([], true)) &&
  (b_o b <=? b_wires b)%nat && forallb (fun i => existsb (Nat.eqb (b_wires b - b_o b + i)%nat) (map bg_out (b_gates b))) (seq 0 (b_o b)) &&
  (Z.of_nat (b_wires b) <? 2 ^ 63).
Lemma mem_nat a l : existsb (Nat.eqb a) l = true <-> In a l.
Proof. rewrite existsb_exists. split; [intros (x & I & E); apply Nat.eqb_eq in E; subst; exact I|intros I; exists a; split; [exact I|apply Nat.eqb_refl]]. Qed.
Lemma b_validb_ok b : b_validb b = true -> b_valid b.
Proof.
  unfold b_validb. rewrite !andb_true_iff. intros ((((H1 & H2) & H3) & H4) & H5).
  set (step := fun (st : list nat * bool) g => (bg_out g :: fst st,
        snd st && forallb (fun a => (a <? b_g b + b_e b)%nat || existsb (Nat.eqb a) (fst st)) (bg_ins g)
        && negb (existsb (Nat.eqb (bg_out g)) (fst st)) && (b_g b + b_e b <=? bg_out g)%nat && (bg_out g <? b_wires b)%nat)) in *.
  assert (SF : forall gs st, snd (fold_left step gs st) = true -> snd st = true).
  { induction gs as [|g gs IH]; cbn [fold_left]; intros st H; [exact H|]. apply IH in H. cbn [step snd] in H. rewrite !andb_true_iff in H. tauto. }
  assert (G : forall gs seen, snd (fold_left step gs (seen, true)) = true -> NoDup seen ->
    (forall l g r, gs = l ++ g :: r -> (forall a, In a (bg_ins g) -> (a < b_g b + b_e b)%nat \/ In a seen \/ In a (map bg_out l)) /\ (b_g b + b_e b <= bg_out g < b_wires b)%nat) /\
    NoDup (rev (map bg_out gs) ++ seen)).
  { induction gs as [|g gs IH]; cbn [fold_left]; intros seen H ND.
    - split; [intros [|? l] ? ? E; discriminate|exact ND].
    - pose proof (SF _ _ H) as S1. cbn [step fst snd] in S1. rewrite !andb_true_iff, Nat.leb_le, Nat.ltb_lt, negb_true_iff, forallb_forall in S1. destruct S1 as ((((_ & S1) & S2) & S3) & S4).
      assert (NI : ~ In (bg_out g) seen) by (rewrite <- mem_nat; congruence).
      unfold step in H at 2. cbn [fst snd] in H. rewrite S2 in H. assert (FA : forallb (fun a => (a <? b_g b + b_e b)%nat || existsb (Nat.eqb a) seen) (bg_ins g) = true) by (apply forallb_forall; exact S1).
      rewrite FA, (proj2 (Nat.leb_le _ _) S3), (proj2 (Nat.ltb_lt _ _) S4) in H. cbn [negb andb] in H.
      destruct (IH (bg_out g :: seen) H ltac:(constructor; auto)) as [A B]. split.
      + intros [|h l] g' r E; injection E as <- E.
        * split; [|lia]. intros a Ia. specialize (S1 a Ia). rewrite orb_true_iff, Nat.ltb_lt, mem_nat in S1. tauto.
        * destruct (A l g' r E) as [A1 A2]. split; [|exact A2]. intros a Ia. specialize (A1 a Ia). cbn in *. tauto.
      + cbn [map rev]. rewrite <- app_assoc. exact B. }
  destruct (G (b_gates b) [] H2 (NoDup_nil _)) as [A B]. rewrite app_nil_r in B. split.
  - destruct (b_gates b); [discriminate|discriminate].
  - intros l g r E a Ia. destruct (A l g r E) as [A1 _]. specialize (A1 a Ia). cbn in A1. tauto.
  - apply NoDup_rev in B. rewrite rev_involutive in B. exact B.
  - intros g Ig. apply in_split in Ig as (l & r & E). apply (A l g r E).
  - split; [apply Nat.leb_le; exact H3|]. intros i Hi. rewrite forallb_forall in H4. apply mem_nat. apply H4. apply in_seq. lia.
  - apply Z.ltb_lt. exact H5.
Qed.
Lemma adder_valid : b_valid adder.
Proof. apply b_validb_ok. vm_compute. reflexivity. Qed.
Lemma adder_spaced : spaced (bristol_words adder ++ []) adder_text.
Proof. apply spacedb_ok. vm_compute. reflexivity. Qed.
(** The three output bits are the sum. *)
Lemma adder_adds x y : (x < 4)%N -> (y < 4)%N ->
  forall i, (i < 3)%nat -> b_output adder (bit x) (bit y) i = N.testbit (x + y) (N.of_nat i).
Proof.
  intros HX HY i Hi. assert (X : x = 0%N \/ x = 1%N \/ x = 2%N \/ x = 3%N) by lia. assert (Y : y = 0%N \/ y = 1%N \/ y = 2%N \/ y = 3%N) by lia.
  assert (I : i = 0%nat \/ i = 1%nat \/ i = 2%nat) by lia.
  destruct X as [->|[->|[->| ->]]]; destruct Y as [->|[->|[->| ->]]]; destruct I as [->|[->| ->]]; reflexivity.
Qed.
Definition adder_file : text := Eval vm_compute in match Bris2SCD true (fun _ => 0) (fun _ _ => 0) (Some adder_text) with Done f => f | _ => [] end.
Definition adder_circuit : GarbledCircuit := Eval vm_compute in ReadSCD (fun _ _ => 0) adder_file.
Lemma adder_translated log junk0 junk : Bris2SCD log junk0 junk (Some adder_text) = Done adder_file /\ forall jf, ReadSCD jf adder_file = adder_circuit.
Proof.
  destruct (bristol_reads _ _ _ adder_valid adder_spaced) as (f & c & T & R & _).
  assert (E : Bris2SCD true (fun _ => 0) (fun _ _ => 0) (Some adder_text) = Done adder_file) by (vm_compute; reflexivity).
  rewrite T in E. injection E as ->. split; [apply T|]. intros jf. rewrite R, <- (R (fun _ _ => 0)). vm_compute. reflexivity.
Qed.
Lemma adder_wf : well_formed adder_circuit.
Proof. apply well_formedb_ok. vm_compute. reflexivity. Qed.
(** 3 + 2; the mask 3 gives the two low bits to the garbler. *)
Definition adder_in : inputs := mkInputs 0 0 0 0 3 2.
Definition adder_u : setup := example adder_circuit (mkOptions 1 3 0 consecutive false) adder_in.
Definition adder_plain : nat -> Z -> bool := plain adder_circuit adder_in.
Lemma adder_good foot : good_run foot adder_u adder_plain 1.
Proof.
  constructor.
  - apply example_ready; cbn; auto using adder_wf; try lia; try reflexivity.
  - apply plain_ok. apply adder_wf.
  - destruct foot; apply free_upto_ok; vm_compute; reflexivity.
  - split; [cbn; lia|]. split; [|left; reflexivity]. intros cy _ [[H _] _]. apply H. reflexivity.
  - intros cy _ [H _]. exfalso. apply H. reflexivity.
Qed.
Lemma adder_visible foot cy i : (cy < 1)%nat -> ~ hidden (sess foot adder_u) adder_u adder_plain cy i.
Proof.
  intros Hc (S1 & _ & _ & w & HW & _). assert (cy = O) by lia. subst cy.
  assert (Hi : (i < 3)%nat) by (change 3%nat with (List.length (outputs adder_circuit)); apply nth_error_Some; change (u_c adder_u) with adder_circuit in HW; congruence).
  assert (E : forall i, (i < 3)%nat -> out_secret (sess foot adder_u) 0 i = true) by (intros [|[|[|j]]] H; try lia; destruct foot; vm_compute; reflexivity).
  rewrite E in S1 by exact Hi. discriminate.
Qed.
Definition adder_args (input mask : string) (foot : bool) : arguments :=
  mkArguments (Some adder_file) (str "0") (str "0") (str "0") (str input) 1 (str mask) 0 consecutive false foot.
Lemma adder_started foot : started (adder_args "3" "3" foot) (adder_args "2" "3" foot) adder_u.
Proof.
  split; [exists adder_file; split; [reflexivity|]; split; [reflexivity|]; apply (adder_translated true (fun _ => 0) (fun _ _ => 0))|..]; try (split; reflexivity); try reflexivity;
    repeat (split; [split; reflexivity|]); split; reflexivity.
Qed.
