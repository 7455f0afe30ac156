(** The theorems of PropertiesProtocol, assembled. *)
From Coq Require Import ZArith NArith List Bool Lia.
From Verif Require Import Base Gate Circuit CycleModel Spec Run Results
  Proc Codec BN OT Rsa Rand Bounded Tables Protocol Transfer OutTransfer ProtocolOk ProtocolRun EndToEnd Modes Leaks ProtocolDemo.
Import ListNotations.
Open Scope Z_scope.

(** A run between honest parties. *)
Record good_run (foot : bool) (u : setup) (V : nat -> Z -> bool) (T : nat) : Prop := {
  gr_ready : ready u;
  gr_V : consistent (u_c u) (u_x u) V;
  gr_free : no_collisions (sess foot u) T;
  gr_T : executes u V T;
  gr_public : public_terminate (sess foot u) (terminate_period (u_opt u)) T }.

Definition both_end (foot : bool) (u : setup) (T : nat) (A B : N) : Prop :=
  always_finish (garbler foot u) (evaluator foot u) (Some (T, Z.of_N A)) (Some (T, Z.of_N B)).
Lemma both_finish foot u V T : good_run foot u V T -> both_end foot u T (outA foot u V T) (outB foot u V T).
Proof. intros [H1 H2 H3 H4 H5]. apply finish; auto. Qed.
(** A run has one outcome. *)
Lemma both_end_unique foot u T A B T' A' B' : both_end foot u T A B -> both_end foot u T' A' B' -> T = T' /\ A = A' /\ B = B'.
Proof.
  intros (n & R & _) (n' & R' & _). destruct (outcome_unique n n' _ _ _ (done_stuck _ _) (done_stuck _ _) R R') as [_ E].
  unfold done_cfg in E. injection E as E1 E2 _ E3. apply N2Z.inj in E2. apply N2Z.inj in E3. auto.
Qed.

(** The cycle whose outputs are found at index 0 of the results, and the number
    of cycles found there. *)
Definition shown_from (foot : bool) (u : setup) (T : nat) : nat :=
  if is_low foot u then match output_mode (u_opt u) with last_clock => (T - 1)%nat | _ => O end else O.

Lemma keeps_dec foot u : keeps_all foot u \/ ~ keeps_all foot u.
Proof. unfold keeps_all. destruct (is_low foot u), (output_mode (u_opt u)); intuition congruence. Qed.
Lemma shown_keeps foot u T : keeps_all foot u -> shown_from foot u T = O.
Proof. unfold keeps_all, shown_from. destruct (is_low foot u), (output_mode (u_opt u)); intuition congruence. Qed.
Lemma shown_last foot u T : ~ keeps_all foot u -> shown_from foot u T = (T - 1)%nat.
Proof. unfold keeps_all, shown_from. destruct (is_low foot u), (output_mode (u_opt u)); intuition congruence. Qed.

(** Result bits, for the cycles shown. *)
Theorem result_bits foot u V T A B : good_run foot u V T -> both_end foot u T A B ->
  forall cy i w, (shown_from foot u T <= cy < T)%nat -> nth_error (outputs (u_c u)) i = Some w ->
  bit_of A u (cy - shown_from foot u T) i = (V cy w && to_garbler u i)%bool /\
  (to_garbler u i = true -> bit_of B u (cy - shown_from foot u T) i = false) /\
  (~ hidden (sess foot u) u V cy i -> bit_of B u (cy - shown_from foot u T) i = (V cy w && negb (to_garbler u i))%bool).
Proof.
  intros G E cy i w HC HW. destruct (both_end_unique _ _ _ _ _ _ _ _ E (both_finish foot u V T G)) as (_ & -> & ->).
  destruct (keeps_dec foot u) as [K|K].
  - rewrite shown_keeps in * by exact K. rewrite Nat.sub_0_r. destruct (results u foot V T K cy i w ltac:(lia) HW) as (R1 & R2 & R3).
    assert (R4 : to_garbler u i = true -> bit_of (outB foot u V T) u cy i = false).
    { intros M. destruct (out_secret (sess foot u) cy i) eqn:S1; [rewrite R2 by auto; rewrite M; apply andb_false_r|].
      destruct (N.le_gt_cases (N.size (output_mask (u_opt u))) (N.of_nat i)) as [L|L]; [rewrite R2 by auto; rewrite M; apply andb_false_r|].
      apply R3; [reflexivity|unfold above_mask; lia]. }
    split; [exact R1|]. split; [exact R4|]. intros NH.
    destruct (out_secret (sess foot u) cy i) eqn:S1; [apply R2; auto|].
    destruct (N.le_gt_cases (N.size (output_mask (u_opt u))) (N.of_nat i)) as [L|L]; [apply R2; auto|].
    rewrite R3 by (auto; unfold above_mask; lia). destruct (V cy w) eqn:VT; [|reflexivity]. cbn [andb].
    destruct (to_garbler u i) eqn:M; [reflexivity|]. exfalso. apply NH.
    split; [exact S1|]. split; [exact M|]. split; [unfold above_mask; lia|eauto].
  - rewrite shown_last in * by exact K. destruct (gr_T _ _ _ _ G) as ((L & _) & _). assert (cy = T - 1)%nat by lia. subst cy.
    rewrite Nat.sub_diag. destruct T as [|T']; [lia|]. replace (S T' - 1)%nat with T' in * by lia.
    apply (results_last u foot V T' K i w HW).
Qed.
(** Nothing else in the results. *)
Theorem result_nothing_else foot u V T A B : good_run foot u V T -> both_end foot u T A B ->
  forall p, (N.of_nat ((T - shown_from foot u T) * output_size (u_c u)) <= p)%N -> N.testbit A p = false /\ N.testbit B p = false.
Proof.
  intros G E p HP. destruct (both_end_unique _ _ _ _ _ _ _ _ E (both_finish foot u V T G)) as (_ & -> & ->).
  destruct (keeps_dec foot u) as [K|K].
  - rewrite shown_keeps in HP by exact K. rewrite Nat.sub_0_r in HP. apply results_none; auto.
  - rewrite shown_last in HP by exact K. destruct (gr_T _ _ _ _ G) as ((L & _) & _).
    replace (T - (T - 1))%nat with 1%nat in HP by lia. rewrite Nat.mul_1_l in HP. apply results_last_none; auto.
Qed.

(** ** C12 *)
Theorem secret_outputs foot u V T : good_run foot u V T -> exists A B, both_end foot u T A B /\
  forall cy i w, (shown_from foot u T <= cy < T)%nat -> nth_error (outputs (u_c u)) i = Some w -> out_secret (sess foot u) cy i = true ->
    let c := (cy - shown_from foot u T)%nat in
    if to_garbler u i then bit_of A u c i = V cy w /\ bit_of B u c i = false
    else bit_of A u c i = false /\ bit_of B u c i = V cy w.
Proof.
  intros G. exists (outA foot u V T), (outB foot u V T). pose proof (both_finish foot u V T G) as E. split; [exact E|].
  intros cy i w HC HW S1 c. destruct (result_bits foot u V T _ _ G E cy i w HC HW) as (R1 & R2 & R3). fold c in R1, R2, R3.
  rewrite R1. rewrite R3 by (intros [Q _]; congruence). destruct (to_garbler u i); cbn [negb]; rewrite andb_true_r, andb_false_r; auto.
Qed.

(** ** C13 *)
Theorem public_lost foot u V T A B : good_run foot u V T -> both_end foot u T A B -> keeps_all foot u ->
  forall cy i, (cy < T)%nat -> hidden (sess foot u) u V cy i -> bit_of A u cy i = false /\ bit_of B u cy i = false.
Proof.
  intros G E K cy i HC (S1 & M & L & w & HW & VT).
  destruct (both_end_unique _ _ _ _ _ _ _ _ E (both_finish foot u V T G)) as (_ & -> & ->).
  destruct (results u foot V T K cy i w HC HW) as (R1 & _ & R3). rewrite R1, M, andb_false_r. split; [reflexivity|]. apply R3; auto.
Qed.

(** ** C14 *)
Theorem same_cycles foot u V : ready u -> consistent (u_c u) (u_x u) V ->
  exists T, executes u V T /\ (forall T', executes u V T' -> T' = T) /\
    (no_collisions (sess foot u) T -> public_terminate (sess foot u) (terminate_period (u_opt u)) T ->
     exists A B, always_finish (garbler foot u) (evaluator foot u) (Some (T, A)) (Some (T, B))).
Proof.
  intros RU CV. destruct (executes_exists u V (proj1 (rd_cycles u RU))) as [T HT]. exists T. split; [exact HT|].
  split; [intros T' HT'; eapply executes_unique; eauto|]. intros NC HP. do 2 eexists. apply (finish u RU foot V CV T NC HT HP).
Qed.

(** ** C25 *)
Theorem end_to_end foot u V T : good_run foot u V T ->
  (forall cy i, (cy < T)%nat -> ~ hidden (sess foot u) u V cy i) ->
  exists A B, both_end foot u T A B /\
  (forall cy i w, (shown_from foot u T <= cy < T)%nat -> nth_error (outputs (u_c u)) i = Some w ->
     (if to_garbler u i then bit_of A u (cy - shown_from foot u T) i else bit_of B u (cy - shown_from foot u T) i) = V cy w) /\
  (forall p, (N.of_nat ((T - shown_from foot u T) * output_size (u_c u)) <= p)%N -> N.testbit A p = false /\ N.testbit B p = false).
Proof.
  intros G NH. exists (outA foot u V T), (outB foot u V T). pose proof (both_finish foot u V T G) as E. split; [exact E|]. split.
  - intros cy i w HC HW. destruct (result_bits foot u V T _ _ G E cy i w HC HW) as (R1 & R2 & R3).
    destruct (to_garbler u i); [rewrite R1|rewrite R3 by (apply NH; lia)]; apply andb_true_r.
  - apply (result_nothing_else foot u V T _ _ G E).
Qed.
(** Masks that hide nothing: none, or all outputs to the garbler. *)
Lemma zero_mask_hides_nothing s u V cy i : output_mask (u_opt u) = 0%N -> ~ hidden s u V cy i.
Proof. intros E (_ & _ & L & _). apply L. unfold above_mask. rewrite E. cbn. lia. Qed.
Lemma full_mask_hides_nothing s u V cy i : output_mask (u_opt u) = N.ones (N.of_nat (output_size (u_c u))) -> ~ hidden s u V cy i.
Proof.
  intros E (_ & M & _ & w & HW & _). unfold to_garbler in M. rewrite E in M.
  assert (L : (i < output_size (u_c u))%nat) by (apply nth_error_Some; congruence).
  rewrite N.ones_spec_low in M by lia. discriminate.
Qed.
Theorem evaluator_learns_all foot u V T : good_run foot u V T -> output_mask (u_opt u) = 0%N ->
  exists B, both_end foot u T 0 B /\
  forall cy i w, (shown_from foot u T <= cy < T)%nat -> nth_error (outputs (u_c u)) i = Some w -> bit_of B u (cy - shown_from foot u T) i = V cy w.
Proof.
  intros G M. destruct (end_to_end foot u V T G ltac:(intros; apply zero_mask_hides_nothing; exact M)) as (A & B & E & R & Z).
  assert (TG : forall i, to_garbler u i = false) by (intros i; unfold to_garbler; rewrite M; apply N.bits_0).
  exists B. assert (A = 0%N); [|subst A; split; [exact E|]; intros cy i w HC HW; specialize (R cy i w HC HW); rewrite TG in R; exact R].
  apply N.bits_inj. intros p. rewrite N.bits_0. set (sh := shown_from foot u T) in *. set (osz := output_size (u_c u)) in *.
  destruct (N.le_gt_cases (N.of_nat ((T - sh) * osz)) p) as [L|L]; [apply Z; exact L|].
  assert (OZ : (0 < osz)%nat) by (destruct osz; [rewrite Nat.mul_0_r in L; lia|lia]).
  pose proof (Nat.div_mod (N.to_nat p) osz ltac:(lia)) as DM. pose proof (Nat.mod_upper_bound (N.to_nat p) osz ltac:(lia)) as MB.
  set (q := (N.to_nat p / osz)%nat) in *. set (i := (N.to_nat p mod osz)%nat) in *.
  assert (HQ : (q < T - sh)%nat) by (apply (Nat.mul_lt_mono_pos_l osz); nia).
  destruct (nth_error (outputs (u_c u)) i) as [w|] eqn:HW; [|apply nth_error_None in HW; unfold osz, output_size in MB; lia].
  destruct (result_bits foot u V T A B G E (sh + q)%nat i w ltac:(fold sh; lia) HW) as (R1 & _). fold sh in R1.
  replace (sh + q - sh)%nat with q in R1 by lia. rewrite TG, andb_false_r in R1. unfold bit_of in R1. fold osz in R1.
  replace p with (N.of_nat (q * osz + i)) by lia. exact R1.
Qed.
Theorem garbler_learns_all foot u V T : good_run foot u V T ->
  output_mask (u_opt u) = N.ones (N.of_nat (output_size (u_c u))) ->
  exists A, both_end foot u T A 0 /\
  forall cy i w, (shown_from foot u T <= cy < T)%nat -> nth_error (outputs (u_c u)) i = Some w -> bit_of A u (cy - shown_from foot u T) i = V cy w.
Proof.
  intros G M. destruct (end_to_end foot u V T G ltac:(intros; apply full_mask_hides_nothing; exact M)) as (A & B & E & R & Z).
  assert (TG : forall i w, nth_error (outputs (u_c u)) i = Some w -> to_garbler u i = true).
  { intros i w HW. assert (L : (i < output_size (u_c u))%nat) by (apply nth_error_Some; congruence).
    unfold to_garbler; rewrite M. apply N.ones_spec_low. lia. }
  exists A. assert (B = 0%N); [|subst B; split; [exact E|]; intros cy i w HC HW; specialize (R cy i w HC HW); rewrite (TG i w HW) in R; exact R].
  apply N.bits_inj. intros p. rewrite N.bits_0. set (sh := shown_from foot u T) in *. set (osz := output_size (u_c u)) in *.
  destruct (N.le_gt_cases (N.of_nat ((T - sh) * osz)) p) as [L|L]; [apply Z; exact L|].
  assert (OZ : (0 < osz)%nat) by (destruct osz; [rewrite Nat.mul_0_r in L; lia|lia]).
  pose proof (Nat.div_mod (N.to_nat p) osz ltac:(lia)) as DM. pose proof (Nat.mod_upper_bound (N.to_nat p) osz ltac:(lia)) as MB.
  set (q := (N.to_nat p / osz)%nat) in *. set (i := (N.to_nat p mod osz)%nat) in *.
  assert (HQ : (q < T - sh)%nat) by (apply (Nat.mul_lt_mono_pos_l osz); nia).
  destruct (nth_error (outputs (u_c u)) i) as [w|] eqn:HW; [|apply nth_error_None in HW; unfold osz, output_size in MB; lia].
  destruct (result_bits foot u V T A B G E (sh + q)%nat i w ltac:(fold sh; lia) HW) as (_ & R1 & _). fold sh in R1.
  replace (sh + q - sh)%nat with q in R1 by lia. specialize (R1 (TG i w HW)). unfold bit_of in R1. fold osz in R1.
  replace p with (N.of_nat (q * osz + i)) by lia. exact R1.
Qed.

(** ** C46: stale outputs *)
Theorem stale_output : exists u V T Al Bl Ah Bh i,
  good_run true u V T /\ good_run false u V T /\ both_end true u T Al Bl /\ both_end false u T Ah Bh /\
  output_mode (u_opt u) = last_clock /\ (i < output_size (u_c u))%nat /\
  N.testbit Bl (N.of_nat i) = true /\ bit_of Bh u (T - 1) i = false.
Proof.
  assert (G : forall foot, good_run foot por_u por_plain 2).
  { intros foot. constructor; [apply por_ready|apply plain_ok; apply por_wf|apply por_free|apply por_executes|apply por_public]. }
  exists por_u, por_plain, 2%nat, (outA true por_u por_plain 2), (outB true por_u por_plain 2), (outA false por_u por_plain 2), (outB false por_u por_plain 2), O.
  split; [apply G|]. split; [apply G|]. split; [apply both_finish; apply G|]. split; [apply both_finish; apply G|].
  split; [reflexivity|]. split; [cbn; lia|]. split; vm_compute; reflexivity.
Qed.

(** ** Examples *)
Lemma demo_good mask mode foot : good_run foot (demo_u mask mode) demo_plain 4.
Proof. constructor; [apply demo_u_ready|apply demo_u_plain|apply demo_u_free|apply demo_u_executes|apply demo_u_public]. Qed.
Lemma demo_hidden : hidden (sess true (demo_u 8 consecutive)) (demo_u 8 consecutive) demo_plain 0 2.
Proof.
  split; [vm_compute; reflexivity|]. split; [reflexivity|]. split; [intros H; vm_compute in H; apply H; reflexivity|].
  exists 19. split; [reflexivity|vm_compute; reflexivity].
Qed.
Theorem every_one_reported_refuted :
  ~ (forall foot u V T A B, good_run foot u V T -> both_end foot u T A B -> keeps_all foot u ->
     forall cy i w, (cy < T)%nat -> nth_error (outputs (u_c u)) i = Some w -> V cy w = true ->
     bit_of A u cy i = true \/ bit_of B u cy i = true).
Proof.
  intros H. pose proof (demo_good 8 consecutive true) as G. pose proof (both_finish _ _ _ _ G) as E.
  assert (K : keeps_all true (demo_u 8 consecutive)) by (right; discriminate).
  destruct (public_lost _ _ _ _ _ _ G E K 0%nat 2%nat ltac:(lia) demo_hidden) as [B1 B2].
  destruct (H _ _ _ _ _ _ G E K 0%nat 2%nat 19 ltac:(lia) eq_refl ltac:(vm_compute; reflexivity)); congruence.
Qed.

Lemma secret_demo : ready secret_u /\ consistent (u_c secret_u) (u_x secret_u) (plain demo_secret demo_in) /\
  no_collisions (sess true secret_u) 1 /\ checked (u_c secret_u) (terminate_period (u_opt secret_u)) 0 /\
  term_secret (sess true secret_u) 0 = true.
Proof.
  split; [apply secret_u_ready|]. split; [apply plain_ok; apply demo_secret_wf|].
  split; [apply free_upto_ok; vm_compute; reflexivity|].
  split; [split; [discriminate|]; split; [reflexivity|]; exists 0; reflexivity|vm_compute; reflexivity].
Qed.
Theorem always_finish_refuted :
  ~ (forall foot u V, ready u -> consistent (u_c u) (u_x u) V -> no_collisions (sess foot u) (u_n u) ->
     exists a b, always_finish (garbler foot u) (evaluator foot u) a b).
Proof.
  intros H. destruct secret_demo as (RU & CV & _ & CH & TS).
  assert (NC : no_collisions (sess true secret_u) 6) by (apply free_upto_ok; vm_compute; reflexivity).
  destruct (H true secret_u _ RU CV NC) as (a & b & n & R & _).
  assert (DL : always_deadlock (garbler true secret_u) (evaluator true secret_u)).
  { apply (secret_terminate secret_u true (plain demo_secret demo_in) 0); auto.
    - cbn; lia.
    - eapply free_prefix; [exact NC|lia].
    - intros cy L; lia.
    - intros cy L; lia. }
  destruct (deadlock_never_returns _ _ DL n _ R) as [Q _]. apply (Q a). reflexivity.
Qed.

(** ** C41 at the evaluator's table buffer *)
Theorem oversized_refuted :
  ~ (forall et sent, exists d m, reach m (mkCfg (Send sent (Ret tt)) (RecvTables et) [] []) d /\ stuck d /\ pB d <> Crash).
Proof.
  intros H. destruct (H [] (le 8 1 ++ repeat 0%N 48)) as (d & m & R & SD & NC).
  destruct (oversized_count [] 1 (repeat 0%N 48)) as [k Rk]; [reflexivity|reflexivity|reflexivity|].
  assert (SC : stuck (mkCfg (Ret tt) (Crash : proc (N * list GarbledTable)) [] [])) by (split; reflexivity).
  destruct (outcome_unique _ _ _ _ _ SC SD Rk R) as [_ ->]. apply NC. reflexivity.
Qed.
