(** The two memory modes agree; what a secret terminate signal does. *)
From Coq Require Import ZArith NArith List Bool Lia.
From Verif Require Import Base Gate Circuit CycleModel Spec Run Results
  Proc Codec BN Rand Bounded Tables Protocol Transfer OutTransfer ProtocolOk ProtocolRun EndToEnd.
Import ListNotations.
Open Scope Z_scope.

Lemma free_prefix s n k : no_collisions s n -> (k <= n)%nat -> no_collisions s k.
Proof. intros H L i w os Hi. apply H. lia. Qed.

(** Runs on the same circuit and public inputs treat the same outputs as secret. *)
Section Two.
Variables s1 s2 : session.
Variables V1 V2 : nat -> Z -> bool.
Hypothesis H1 : honest s1.
Hypothesis H2 : honest s2.
Hypothesis EC : s_c s1 = s_c s2.
Hypothesis E0 : p_init (s_x s1) = p_init (s_x s2).
Hypothesis E1 : p_input (s_x s1) = p_input (s_x s2).
Hypothesis CV1 : consistent (s_c s1) (s_x s1) V1.
Hypothesis CV2 : consistent (s_c s2) (s_x s2) V2.

Lemma same_public cy : no_collisions s1 (S cy) -> no_collisions s2 (S cy) ->
  exists o1 o2, out_at s1 cy = Some o1 /\ out_at s2 cy = Some o2 /\ public_trace o1 = public_trace o2.
Proof.
  intros N1 N2. destruct (run_public s1 s2 (S cy) V1 V2 H1 H2 N1 N2 EC E0 E1 CV1 CV2) as (m1 & os1 & m2 & os2 & R1 & R2 & TR & _).
  destruct (run_tables s1 (S cy) H1) as (? & ? & Q1 & L1 & _). rewrite R1 in Q1. injection Q1 as <- <-.
  destruct (run_tables s2 (S cy) H2) as (? & ? & Q2 & L2 & _). rewrite R2 in Q2. injection Q2 as <- <-.
  unfold out_at. rewrite R1, R2.
  destruct (nth_error os1 cy) as [o1|] eqn:O1; [|apply nth_error_None in O1; lia].
  destruct (nth_error os2 cy) as [o2|] eqn:O2; [|apply nth_error_None in O2; lia].
  exists o1, o2. split; [auto|]. split; [auto|].
  apply (map_nth_error public_trace) in O1. apply (map_nth_error public_trace) in O2. rewrite TR in O1. congruence.
Qed.
Lemma same_secret cy i : no_collisions s1 (S cy) -> no_collisions s2 (S cy) -> out_secret s1 cy i = out_secret s2 cy i.
Proof.
  intros N1 N2. destruct (same_public cy N1 N2) as (o1 & o2 & O1 & O2 & TR). unfold out_secret. rewrite O1, O2.
  unfold public_trace in TR. injection TR as _ TR _.
  pose proof (f_equal (fun l => nth_error l i) TR) as Q. cbv beta in Q. rewrite !nth_error_map in Q.
  destruct (nth_error (o_gouts o1) i), (nth_error (o_gouts o2) i); cbn [option_map] in Q; try discriminate; [|reflexivity].
  injection Q as ->. reflexivity.
Qed.
Lemma same_term cy : no_collisions s1 (S cy) -> no_collisions s2 (S cy) -> term_secret s1 cy = term_secret s2 cy.
Proof.
  intros N1 N2. destruct (same_public cy N1 N2) as (o1 & o2 & O1 & O2 & TR). unfold term_secret. rewrite O1, O2.
  unfold public_trace in TR. injection TR as _ _ Q.
  destruct (o_gterm o1), (o_gterm o2); cbn [option_map] in Q; try discriminate; [|reflexivity].
  injection Q as ->. reflexivity.
Qed.
End Two.

(** * Modes *)
Section Agree.
Variables ul uh : setup.
Hypothesis RL : ready ul.
Hypothesis RH : ready uh.
Hypothesis EC : u_c ul = u_c uh.
Hypothesis EO : u_opt ul = u_opt uh.
Hypothesis EX : u_x ul = u_x uh.
Variable V : nat -> Z -> bool.
Hypothesis CV : consistent (u_c ul) (u_x ul) V.
Variable T : nat.
Notation sl := (sess true ul).
Notation sh := (sess false uh).
Hypothesis NL : no_collisions sl T.
Hypothesis NH : no_collisions sh T.
Hypothesis HE : executes ul V T.
Hypothesis HP : public_terminate sl (terminate_period (u_opt ul)) T.

Lemma agree_secret cy i : (cy < T)%nat -> out_secret sl cy i = out_secret sh cy i.
Proof.
  intros HC. eapply (same_secret sl sh V V); try (apply session_honest; assumption); try exact EC; try exact CV;
    try (unfold sess; cbn [session_of s_x]; rewrite EX; reflexivity).
  - unfold sess; cbn [session_of s_x s_c]. rewrite <- EC, <- EX. exact CV.
  - eapply free_prefix; [exact NL|lia].
  - eapply free_prefix; [exact NH|lia].
Qed.
Lemma executes_same : executes uh V T.
Proof.
  clear - HE EC EO. unfold executes, terminates, u_n in *. rewrite <- EC, <- EO. exact HE.
Qed.
Lemma public_same : public_terminate sh (terminate_period (u_opt uh)) T.
Proof.
  intros cy HC HK. rewrite <- (same_term sl sh V V); try (apply session_honest; assumption); try exact EC; try exact CV;
    try (unfold sess; cbn [session_of s_x]; rewrite EX; reflexivity).
  - apply HP; [exact HC|]. unfold sess in *. cbn [session_of s_c] in *. rewrite EC, EO. exact HK.
  - unfold sess; cbn [session_of s_x s_c]. rewrite <- EC, <- EX. exact CV.
  - eapply free_prefix; [exact NL|lia].
  - eapply free_prefix; [exact NH|lia].
Qed.

Theorem modes_agree : exists Al Bl Ah Bh,
  always_finish (garbler true ul) (evaluator true ul) (Some (T, Z.of_N Al)) (Some (T, Z.of_N Bl)) /\
  always_finish (garbler false uh) (evaluator false uh) (Some (T, Z.of_N Ah)) (Some (T, Z.of_N Bh)) /\
  (output_mode (u_opt ul) <> last_clock -> Al = Ah /\ Bl = Bh) /\
  (output_mode (u_opt ul) = last_clock -> (1 < u_n ul)%nat -> forall i, (i < output_size (u_c ul))%nat ->
     N.testbit Al (N.of_nat i) = bit_of Ah uh (T - 1) i /\
     (~ hidden sl ul V (T - 1) i -> N.testbit Bl (N.of_nat i) = bit_of Bh uh (T - 1) i)).
Proof.
  assert (CVH : consistent (u_c uh) (u_x uh) V) by (rewrite <- EC, <- EX; exact CV).
  exists (outA true ul V T), (outB true ul V T), (outA false uh V T), (outB false uh V T).
  split; [apply finish; auto|]. split; [apply finish; auto; [apply executes_same|apply public_same]|].
  assert (KH : keeps_all false uh) by (left; reflexivity).
  split.
  - intros HM. assert (KL : keeps_all true ul) by (right; exact HM).
    destruct (out_spread ul true V T KL) as [-> ->], (out_spread uh false V T KH) as [-> ->].
    assert (Q : forall cy, (cy < T)%nat -> cycle_bits sl V cy = cycle_bits sh V cy).
    { intros cy HC. unfold cycle_bits. unfold sess. cbn [session_of s_c]. rewrite EC. f_equal. apply map_ext. intros i. apply agree_secret. exact HC. }
    assert (G : forall f g : nat -> N -> N, (forall cy n, (cy < T)%nat -> f cy n = g cy n) ->
      forall d cid n, (cid + d <= T)%nat -> collect f cid d n = collect g cid d n).
    { intros f g HF. induction d as [|d IH]; intros cid n L; cbn [collect]; [auto|]. rewrite HF by lia. apply IH. lia. }
    unfold sess in *. cbn [session_of s_c] in *. rewrite EC, EO.
    split; apply G; auto; intros cy n HC; unfold cA, cB; rewrite Q by exact HC; reflexivity.
  - intros HM H1 i Hi. assert (KL : ~ keeps_all true ul).
    { intros [K|K]; [|auto]. unfold is_low in K. cbn [andb] in K. apply Nat.ltb_ge in K. lia. }
    destruct HE as ((L1 & _) & _).
    destruct (nth_error (outputs (u_c ul)) i) as [w|] eqn:HW; [|apply nth_error_None in HW; unfold output_size in Hi; lia].
    assert (HW' : nth_error (outputs (u_c uh)) i = Some w) by (rewrite <- EC; exact HW).
    destruct (results uh false V T KH (T - 1) i w ltac:(lia) HW') as (A1 & A2 & A3).
    assert (ET : S (T - 1) = T) by lia.
    destruct (results_last ul true V (T - 1) KL i w HW) as (B1 & B2 & B3). rewrite ET in B1, B2, B3. unfold bit_of in B1, B2, B3. cbn [Nat.mul Nat.add] in B1, B2, B3.
    assert (MG : to_garbler uh i = to_garbler ul i) by (unfold to_garbler; rewrite EO; reflexivity).
    rewrite MG in *. rewrite B1, A1. split; [reflexivity|]. intros HN. rewrite (B3 HN).
    rewrite <- (agree_secret (T - 1) i ltac:(lia)) in A2, A3. symmetry.
    destruct (out_secret sl (T - 1) i) eqn:ES; [apply A2; auto|].
    destruct (N.le_gt_cases (N.size (output_mask (u_opt uh))) (N.of_nat i)) as [L|L]; [apply A2; right; exact L|].
    rewrite A3 by (auto; unfold above_mask; lia).
    destruct (V (T - 1)%nat w) eqn:VT; [|reflexivity]. destruct (to_garbler ul i) eqn:TG; [reflexivity|].
    exfalso. apply HN. split; [exact ES|]. split; [exact TG|]. split; [unfold above_mask; rewrite EO; lia|]. eauto.
Qed.
End Agree.

(** * A secret terminate signal *)
Theorem secret_terminate u foot V D : ready u -> consistent (u_c u) (u_x u) V ->
  (D < u_n u)%nat -> no_collisions (sess foot u) (S D) ->
  (forall cy, (cy < D)%nat -> ~ terminates u V cy) ->
  public_terminate (sess foot u) (terminate_period (u_opt u)) D ->
  checked (u_c u) (terminate_period (u_opt u)) D -> term_secret (sess foot u) D = true ->
  always_deadlock (garbler foot u) (evaluator foot u).
Proof.
  intros RU CV HD NC HT HP HC HS. apply always_dead. eapply programs_dead; eauto.
  - intros j Hj. split.
    + destruct (stops u V j) eqn:E; [|reflexivity]. apply stops_iff in E. exfalso. apply (HT j Hj E).
    + intros HI. apply inspected_iff in HI. apply HP; auto.
  - apply inspected_iff. exact HC.
Qed.
