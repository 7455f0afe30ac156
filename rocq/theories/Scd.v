(** The SCD file format (scd/scd.cpp), character by character. *)
From Coq Require Import ZArith NArith List Bool Lia Ascii String.
From Verif Require Import Base Gate Circuit Spec Sort SortOk Text.
Import ListNotations.
Open Scope Z_scope.

Definition sp : ascii := " "%char.
Definition nl : ascii := "010"%char.
(** One line of numbers, each followed by a space (scd.cpp:138-187). *)
Definition line (print : Z -> text) (l : list Z) : text := flat_map (fun z => print z ++ [sp]) l ++ [nl].
(** operator<< of a uint64_t *)
Definition dec_u64 (z : Z) : text := dec (Z.to_N (z mod 2 ^ 64)).
Definition dec_nat (n : nat) : text := dec (N.of_nat n).

(** scd.cpp:122-192 WriteSCD: the text written to the file; [None] when the task
    schedule names a gate that does not exist.  ([int gindex] is taken not to
    overflow: fewer than 2^31 gates.) *)
Definition WriteSCD (rc : ReadCircuit) : option text :=
  do gs <- scheduled rc;
  Some (dec_nat (rc_p_init rc) ++ [sp] ++ dec_nat (rc_g_init rc) ++ [sp] ++ dec_nat (rc_e_init rc) ++ [sp] ++
        dec_nat (rc_p_input rc) ++ [sp] ++ dec_nat (rc_g_input rc) ++ [sp] ++ dec_nat (rc_e_input rc) ++ [sp] ++
        dec_nat (List.length (dff_list rc)) ++ [sp] ++ dec_nat (List.length (output_list rc)) ++ [sp] ++
        dec_u64 (rc_terminate_id rc) ++ [sp] ++ dec_nat (List.length (gate_list rc)) ++ [nl] ++
        line dec_Z (map rg_in0 gs) ++ line dec_Z (map rg_in1 gs) ++ line dec_Z (map rg_type gs) ++
        line dec_u64 (output_list rc) ++
        line dec_Z (map rg_in0 (dff_list rc)) ++ line dec_Z (map rg_in1 (dff_list rc))).

(** scd.cpp:46-120 ReadSCD.  [junk] is what uninitialised memory holds (first
    argument: which array).  Allocation is taken to succeed. *)
Section Read.
Variable junk : nat -> nat -> Z.
Definition ReadSCD (file : text) : GarbledCircuit :=
  let (sizes, s) := extract_list extract_u64 10 (junk 0%nat) (mkS file true) in
  let sz i := Z.to_nat (nth i sizes 0) in
  let gate_size := sz 9%nat in
  let lo := (sz 0 + sz 1 + sz 2 + sz 3 + sz 4 + sz 5 + sz 6)%nat in
  let (in0, s) := extract_list extract_i64 gate_size (junk 1%nat) s in
  let (in1, s) := extract_list extract_i64 gate_size (junk 2%nat) s in
  let (types, s) := extract_list extract_int gate_size (junk 3%nat) s in
  let (outs, s) := extract_list extract_i64 (sz 7%nat) (junk 4%nat) s in
  let (ds, s) := extract_list extract_i64 (sz 6%nat) (junk 5%nat) s in
  let (is_, s) := extract_list extract_i64 (sz 6%nat) (junk 6%nat) s in
  mkCircuit (sz 0%nat) (sz 1%nat) (sz 2%nat) (sz 3%nat) (sz 4%nat) (sz 5%nat)
    (map (fun i => mkGate (nth i in0 0) (nth i in1 0) (Z.of_nat (lo + i)) (nth i types 0)) (seq 0 gate_size))
    outs ds is_ (nth 8 sizes 0).
End Read.

(** * Round trip *)
Definition i64 (z : Z) : Prop := - 2 ^ 63 <= z <= 2 ^ 63 - 1.
Definition u64 (n : nat) : Prop := Z.of_nat n <= 2 ^ 64 - 1.
(** The numbers of the netlist fit the types of the program. *)
Record fits (rc : ReadCircuit) (gs : list ReadGate) : Prop := {
  fit_sizes : u64 (rc_p_init rc) /\ u64 (rc_g_init rc) /\ u64 (rc_e_init rc) /\ u64 (rc_p_input rc) /\ u64 (rc_g_input rc) /\ u64 (rc_e_input rc) /\
              u64 (List.length (dff_list rc)) /\ u64 (List.length (output_list rc)) /\ u64 (List.length (gate_list rc));
  fit_len : List.length gs = List.length (gate_list rc);
  fit_gate : forall g, In g gs -> i64 (rg_in0 g) /\ i64 (rg_in1 g) /\ - 2 ^ 31 <= rg_type g <= 2 ^ 31 - 1;
  fit_dff : forall d, In d (dff_list rc) -> i64 (rg_in0 d) /\ i64 (rg_in1 d);
  fit_out : forall w, In w (output_list rc) -> 0 <= w <= 2 ^ 63 - 1;
  fit_term : 0 <= rc_terminate_id rc <= 2 ^ 64 - 1 }.

Definition space (c : ascii) : Prop := is_space c = true.
Lemma space_no_digit c t : space c -> no_digit (c :: t).
Proof.
  unfold space, is_space, no_digit, char_digit. intros H. destruct (N.leb_spec 48 (N_of_ascii c)); [|auto]. exfalso.
  destruct (N.eqb_spec (N_of_ascii c) 32); [lia|]. cbn in H. destruct (N.leb_spec 9 (N_of_ascii c)); [|discriminate]. destruct (N.leb_spec (N_of_ascii c) 13); [lia|discriminate].
Qed.

Section Lists.
Variable ex : stream -> Z -> Z * stream.
Variable print : Z -> text.
Variable ok : Z -> Prop.
Hypothesis EX : forall w z r old, Forall space w -> no_digit r -> ok z -> ex (mkS (w ++ print z ++ r) true) old = (z, mkS r true).
(** Reading a line leaves white space before the rest. *)
Lemma read_line l : (forall z, In z l -> ok z) -> forall w r old, Forall space w ->
  exists w', Forall space w' /\ extract_list ex (List.length l) old (mkS (w ++ line print l ++ r) true) = (l, mkS (w' ++ r) true).
Proof.
  unfold line. induction l as [|z l IH]; intros H w r old W; cbn [flat_map List.length extract_list].
  - exists (w ++ [nl]). split; [apply Forall_app; split; auto; repeat constructor|]. rewrite <- !app_assoc. reflexivity.
  - rewrite <- !app_assoc. cbn [app]. rewrite EX; auto; [|apply space_no_digit; reflexivity|apply H; cbn; auto].
    destruct (IH ltac:(intros; apply H; cbn; auto) [sp] r (fun j => old (S j))) as (w' & W' & E); [repeat constructor|].
    exists w'. split; auto. cbn [app] in E. rewrite <- ?app_assoc in E. cbn [app] in E. rewrite <- ?app_assoc. cbn [app]. rewrite E. reflexivity.
Qed.
End Lists.

Lemma ex_i64 w z r old : Forall space w -> no_digit r -> i64 z -> extract_i64 (mkS (w ++ dec_Z z ++ r) true) old = (z, mkS r true).
Proof. intros W R H. apply extract_Z; auto; unfold i64 in *; lia. Qed.
Lemma ex_int w z r old : Forall space w -> no_digit r -> - 2 ^ 31 <= z <= 2 ^ 31 - 1 -> extract_int (mkS (w ++ dec_Z z ++ r) true) old = (z, mkS r true).
Proof. intros W R H. apply extract_Z; auto; lia. Qed.
Lemma ex_out w z r old : Forall space w -> no_digit r -> 0 <= z <= 2 ^ 63 - 1 -> extract_i64 (mkS (w ++ dec_u64 z ++ r) true) old = (z, mkS r true).
Proof.
  intros W R H. unfold dec_u64, extract_i64. rewrite Z.mod_small by lia. rewrite extract_nat by (auto; rewrite ?Z2N.id; lia).
  rewrite Z2N.id by lia. reflexivity.
Qed.
Lemma ex_u64 w z r old : Forall space w -> no_digit r -> 0 <= z <= 2 ^ 64 - 1 -> extract_u64 (mkS (w ++ dec_u64 z ++ r) true) old = (z, mkS r true).
Proof.
  intros W R H. unfold dec_u64, extract_u64. rewrite Z.mod_small by lia. rewrite extract_nat by (auto; rewrite ?Z2N.id; lia).
  rewrite Z2N.id by lia. reflexivity.
Qed.
Lemma ex_nat w n r old : Forall space w -> no_digit r -> u64 n -> extract_u64 (mkS (w ++ dec_nat n ++ r) true) old = (Z.of_nat n, mkS r true).
Proof.
  intros W R H. unfold dec_nat, extract_u64. rewrite extract_nat by (auto; rewrite ?nat_N_Z; unfold u64 in H; lia).
  rewrite nat_N_Z. reflexivity.
Qed.

Lemma extract_list_S ex k old s : extract_list ex (S k) old s =
  (let (v, s1) := ex s (old O) in let (l, s2) := extract_list ex k (fun j => old (S j)) s1 in (v :: l, s2)).
Proof. reflexivity. Qed.
Lemma combine_map_seq {A B} (d : A) (f : nat -> A -> B) (l : list A) : forall k,
  map (fun i => f i (nth (i - k) l d)) (seq k (List.length l)) = map (fun kg => f (fst kg) (snd kg)) (combine (seq k (List.length l)) l).
Proof.
  induction l as [|a l IH]; intros k; cbn [List.length seq combine map]; [auto|]. rewrite Nat.sub_diag. cbn [nth fst snd]. f_equal.
  rewrite <- IH. apply map_ext_in. intros i Hi. apply in_seq in Hi. replace (i - k)%nat with (S (i - S k)) by lia. reflexivity.
Qed.

(** Reading back what was written gives the circuit of the netlist in task order. *)
Theorem scd_round_trip rc gs junk : scheduled rc = Some gs -> fits rc gs ->
  exists file, WriteSCD rc = Some file /\ ReadSCD junk file = circuit_with rc gs.
Proof.
  intros SC F. unfold WriteSCD. rewrite SC. cbn [obind]. eexists. split; [reflexivity|].
  destruct (fit_sizes _ _ F) as (S1 & S2 & S3 & S4 & S5 & S6 & S7 & S8 & S9). pose proof (fit_term _ _ F) as ST.
  pose proof (fit_len _ _ F) as FL.
  assert (SPC : Forall space [sp]) by (repeat constructor).
  assert (ND : forall c t, space c -> no_digit (c :: t)) by apply space_no_digit.
  assert (SPS : space sp) by reflexivity. assert (NLS : space nl) by reflexivity.
  assert (NN : forall n r old c t, u64 n -> r = c :: t -> space c -> extract_u64 (mkS (dec_nat n ++ r) true) old = (Z.of_nat n, mkS r true)).
  { intros n r old c t U -> C. apply (ex_nat [] n); auto. }
  assert (NS : forall n r old c t, u64 n -> r = c :: t -> space c -> extract_u64 (mkS (sp :: dec_nat n ++ r) true) old = (Z.of_nat n, mkS r true)).
  { intros n r old c t U -> C. apply (ex_nat [sp] n); auto. }
  assert (TS : forall z r old c t, 0 <= z <= 2 ^ 64 - 1 -> r = c :: t -> space c -> extract_u64 (mkS (sp :: dec_u64 z ++ r) true) old = (z, mkS r true)).
  { intros z r old c t U -> C. apply (ex_u64 [sp] z); auto. }
  unfold ReadSCD.
  match goal with |- context [extract_list extract_u64 10 ?o (mkS ?f true)] => 
    assert (E : exists w, Forall space w /\ extract_list extract_u64 10 o (mkS f true) =
     ([Z.of_nat (rc_p_init rc); Z.of_nat (rc_g_init rc); Z.of_nat (rc_e_init rc); Z.of_nat (rc_p_input rc); Z.of_nat (rc_g_input rc); Z.of_nat (rc_e_input rc);
       Z.of_nat (List.length (dff_list rc)); Z.of_nat (List.length (output_list rc)); rc_terminate_id rc; Z.of_nat (List.length (gate_list rc))],
      mkS (w ++ line dec_Z (map rg_in0 gs) ++ line dec_Z (map rg_in1 gs) ++ line dec_Z (map rg_type gs) ++
        line dec_u64 (output_list rc) ++
        line dec_Z (map rg_in0 (dff_list rc)) ++ line dec_Z (map rg_in1 (dff_list rc))) true)) end.
  { exists [nl]. split; [repeat constructor|]. cbn [app].
    rewrite extract_list_S, (NN _ _ _ sp _ S1 eq_refl SPS).
    rewrite extract_list_S, (NS _ _ _ sp _ S2 eq_refl SPS).
    rewrite extract_list_S, (NS _ _ _ sp _ S3 eq_refl SPS).
    rewrite extract_list_S, (NS _ _ _ sp _ S4 eq_refl SPS).
    rewrite extract_list_S, (NS _ _ _ sp _ S5 eq_refl SPS).
    rewrite extract_list_S, (NS _ _ _ sp _ S6 eq_refl SPS).
    rewrite extract_list_S, (NS _ _ _ sp _ S7 eq_refl SPS).
    rewrite extract_list_S, (NS _ _ _ sp _ S8 eq_refl SPS).
    rewrite extract_list_S, (TS _ _ _ sp _ ST eq_refl SPS).
    rewrite extract_list_S, (NS _ _ _ nl _ S9 eq_refl NLS). reflexivity. }
  destruct E as (w & W & ->). cbn [nth]. rewrite !Nat2Z.id.
  assert (G : forall f : ReadGate -> Z, List.length (map f gs) = List.length (gate_list rc)) by (intros f; rewrite map_length; exact FL).
  rewrite <- (G rg_in0) at 1.
  destruct (read_line extract_i64 dec_Z i64 ex_i64 (map rg_in0 gs)) with (w := w) (old := junk 1%nat)
    (r := line dec_Z (map rg_in1 gs) ++ line dec_Z (map rg_type gs) ++ line dec_u64 (output_list rc) ++ line dec_Z (map rg_in0 (dff_list rc)) ++ line dec_Z (map rg_in1 (dff_list rc)))
    as (w1 & W1 & E1); [|exact W|].
  { intros z H. apply in_map_iff in H as (g & <- & H). apply (fit_gate _ _ F g H). }
  rewrite E1. rewrite <- (G rg_in1) at 1.
  destruct (read_line extract_i64 dec_Z i64 ex_i64 (map rg_in1 gs)) with (w := w1) (old := junk 2%nat)
    (r := line dec_Z (map rg_type gs) ++ line dec_u64 (output_list rc) ++ line dec_Z (map rg_in0 (dff_list rc)) ++ line dec_Z (map rg_in1 (dff_list rc)))
    as (w2 & W2 & E2); [|exact W1|].
  { intros z H. apply in_map_iff in H as (g & <- & H). apply (fit_gate _ _ F g H). }
  rewrite E2. rewrite <- (G rg_type) at 1.
  destruct (read_line extract_int dec_Z _ ex_int (map rg_type gs)) with (w := w2) (old := junk 3%nat)
    (r := line dec_u64 (output_list rc) ++ line dec_Z (map rg_in0 (dff_list rc)) ++ line dec_Z (map rg_in1 (dff_list rc)))
    as (w3 & W3 & E3); [|exact W2|].
  { intros z H. apply in_map_iff in H as (g & <- & H). apply (fit_gate _ _ F g H). }
  rewrite E3.
  destruct (read_line extract_i64 dec_u64 _ ex_out (output_list rc)) with (w := w3) (old := junk 4%nat)
    (r := line dec_Z (map rg_in0 (dff_list rc)) ++ line dec_Z (map rg_in1 (dff_list rc)))
    as (w4 & W4 & E4); [apply (fit_out _ _ F)|exact W3|].
  rewrite E4. rewrite <- (map_length rg_in0 (dff_list rc)) at 1.
  destruct (read_line extract_i64 dec_Z i64 ex_i64 (map rg_in0 (dff_list rc))) with (w := w4) (old := junk 5%nat)
    (r := line dec_Z (map rg_in1 (dff_list rc))) as (w5 & W5 & E5); [|exact W4|].
  { intros z H. apply in_map_iff in H as (g & <- & H). apply (fit_dff _ _ F g H). }
  rewrite E5. rewrite <- (map_length rg_in1 (dff_list rc)) at 1.
  destruct (read_line extract_i64 dec_Z i64 ex_i64 (map rg_in1 (dff_list rc))) with (w := w5) (old := junk 6%nat)
    (r := @nil ascii) as (w6 & W6 & E6); [|exact W5|].
  { intros z H. apply in_map_iff in H as (g & <- & H). apply (fit_dff _ _ F g H). }
  rewrite app_nil_r in E6. rewrite E6. unfold circuit_with. f_equal.
  rewrite <- FL. rewrite <- (combine_map_seq (mkRG 0 0 0 0)
    (fun i g => mkGate (rg_in0 g) (rg_in1 g) (Z.of_nat (init_input_dff_size rc + i)) (rg_type g))).
  apply map_ext_in. intros i Hi. apply in_seq in Hi. rewrite Nat.sub_0_r.
  rewrite !(nth_indep _ 0 (rg_in0 (mkRG 0 0 0 0))) by (rewrite map_length; lia). rewrite map_nth.
  change (rg_in0 (mkRG 0 0 0 0)) with 0.
  rewrite (nth_indep (map rg_in1 gs) 0 (rg_in1 (mkRG 0 0 0 0))) by (rewrite map_length; lia). rewrite map_nth.
  rewrite (nth_indep (map rg_type gs) 0 (rg_type (mkRG 0 0 0 0))) by (rewrite map_length; lia). rewrite map_nth.
  reflexivity.
Qed.
