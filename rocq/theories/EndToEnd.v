(** What both programs deliver, stated against the plaintext circuit. *)
From Coq Require Import ZArith NArith List Bool Lia.
From Verif Require Import Base Gate Circuit CycleModel Spec Run Results
  Proc Codec BN Rand Bounded Tables Protocol Transfer OutTransfer ProtocolOk ProtocolRun.
Import ListNotations.
Open Scope Z_scope.

(** * Specification *)

(** Every schedule ends, after the same number of steps, with these results. *)
Definition always_finish {A B} (p : proc A) (q : proc B) (a : A) (b : B) : Prop :=
  exists n, reach n (start_cfg p q) (done_cfg a b) /\
    forall k d, reach k (start_cfg p q) d -> (k <= n)%nat /\ reach (n - k) d (done_cfg a b).

(** Every schedule ends, after the same number of steps, with both parties
    waiting to receive and nothing on the way. *)
Definition always_deadlock {A B} (p : proc A) (q : proc B) : Prop :=
  exists n e, waiting e /\ forall k d, reach k (start_cfg p q) d -> (k <= n)%nat /\ reach (n - k) d e.

(** The terminate signal is looked at in cycles divisible by the period (an
    int64_t converted to uint64_t). *)
Definition checked (c : GarbledCircuit) (period : Z) (cy : nat) : Prop :=
  period <> 0 /\ 0 < terminate_id c /\ (period mod 2 ^ 64 | Z.of_nat cy).
Definition terminates (u : setup) (V : nat -> Z -> bool) (cy : nat) : Prop :=
  checked (u_c u) (terminate_period (u_opt u)) cy /\ V cy (terminate_id (u_c u)) = true.
(** Number of cycles a plaintext evaluation executes. *)
Definition executes (u : setup) (V : nat -> Z -> bool) (T : nat) : Prop :=
  (1 <= T <= u_n u)%nat /\ (forall cy, (S cy < T)%nat -> ~ terminates u V cy) /\
  (T = u_n u \/ terminates u V (T - 1)).
(** The signal is publicly known whenever it is looked at. *)
Definition public_terminate (s : session) (period : Z) (T : nat) : Prop :=
  forall cy, (cy < T)%nat -> checked (s_c s) period cy -> term_secret s cy = false.

(** Bit [i] of the mask. *)
Definition to_garbler (u : setup) (i : nat) : bool := N.testbit (output_mask (u_opt u)) (N.of_nat i).
Definition above_mask (u : setup) (i : nat) : Prop := (N.size (output_mask (u_opt u)) <= N.of_nat i)%N.
(** A public 1 that the mask neither gives to the garbler nor lies above. *)
Definition hidden (s : session) (u : setup) (V : nat -> Z -> bool) (cy i : nat) : Prop :=
  out_secret s cy i = false /\ to_garbler u i = false /\ ~ above_mask u i /\
  exists w, nth_error (outputs (u_c u)) i = Some w /\ V cy w = true.
(** The results hold the outputs of every cycle. *)
Definition keeps_all (foot : bool) (u : setup) : Prop :=
  is_low foot u = false \/ output_mode (u_opt u) <> last_clock.
Definition bit_of (r : N) (u : setup) (cy i : nat) : bool := N.testbit r (N.of_nat (cy * output_size (u_c u) + i)).

(** * Facts *)
Lemma always_runs {A B} (p : proc A) (q : proc B) a b : runs p q a b -> always_finish p q a b.
Proof. intros [n R]. exists n. split; [exact R|]. intros k d H. apply (schedule_independent n _ _ (done_stuck a b) R k d H). Qed.
Lemma always_dead {A B} (p : proc A) (q : proc B) : deadlocks p q -> always_deadlock p q.
Proof.
  intros (n & d & R & W). exists n, d. split; [exact W|]. intros k e H.
  apply (schedule_independent n _ _ (waiting_stuck d W) R k e H).
Qed.
(** Neither party returns in a deadlock. *)
Lemma deadlock_never_returns {A B} (p : proc A) (q : proc B) : always_deadlock p q ->
  forall k d, reach k (start_cfg p q) d -> (forall a, pA d <> Ret a) /\ (forall b, pB d <> Ret b).
Proof.
  intros (n & e & W & H) k d R. destruct (H k d R) as [_ Q]. destruct W as ((i & f & WA) & (j & g & WB) & _).
  split.
  - intros a HA. assert (X : pA e = Ret a); [|rewrite WA in X; discriminate]. clear - Q HA. induction Q as [c|n0 c c' d S1 R IH|n0 c c' d S1 R IH]; auto.
    + unfold Proc.stepA in S1. rewrite HA in S1. discriminate.
    + apply IH. unfold Proc.stepB in S1. destruct (pstep _ _ _) as [[[? ?] ?]|]; [|discriminate]. injection S1 as <-. exact HA.
  - intros b HB. assert (X : pB e = Ret b); [|rewrite WB in X; discriminate]. clear - Q HB. induction Q as [c|n0 c c' d S1 R IH|n0 c c' d S1 R IH]; auto.
    + apply IH. unfold Proc.stepA in S1. destruct (pstep _ _ _) as [[[? ?] ?]|]; [|discriminate]. injection S1 as <-. exact HB.
    + unfold Proc.stepB in S1. rewrite HB in S1. discriminate.
Qed.

Lemma inspected_iff c period cy : inspected c period cy = true <-> checked c period cy.
Proof.
  unfold inspected, checked. rewrite !andb_true_iff, negb_true_iff, Z.eqb_neq, Z.ltb_lt, Z.eqb_eq.
  assert (E : Z.of_nat cy mod (period mod 2 ^ 64) = 0 <-> (period mod 2 ^ 64 | Z.of_nat cy)).
  { destruct (Z.eq_dec (period mod 2 ^ 64) 0) as [->|NZ].
    - rewrite Zmod_0_r. split; [intros ->; apply Z.divide_0_r|]. intros [k H]. lia.
    - apply Z.mod_divide. exact NZ. }
  rewrite E. tauto.
Qed.
Lemma stops_iff u V cy : stops u V cy = true <-> terminates u V cy.
Proof. unfold stops, terminates. rewrite andb_true_iff, inspected_iff. tauto. Qed.
Lemma executes_ends u V T : executes u V T <-> ((0 < T)%nat /\ ends_at (stops u V) (u_n u) 0 T).
Proof.
  assert (NS : forall k, ~ terminates u V k <-> stops u V k = false).
  { intros k. rewrite <- stops_iff. destruct (stops u V k); split; congruence. }
  unfold executes, ends_at. split.
  - intros (A & B & D). split; [lia|]. split; [lia|]. split.
    + intros k _ K. apply NS. apply B. exact K.
    + destruct D as [D|D]; [auto|]. right. split; [lia|]. apply stops_iff. exact D.
  - intros (L & A & B & D). split; [lia|]. split.
    + intros k K. apply NS. apply B; [lia|exact K].
    + destruct D as [D|[_ D]]; [auto|]. right. apply stops_iff. exact D.
Qed.
Lemma executes_exists u V : (0 < u_n u)%nat -> exists T, executes u V T.
Proof.
  intros H. enough (G : forall k cid, (cid + k = u_n u)%nat -> exists T, ends_at (stops u V) (u_n u) cid T).
  { destruct (G (u_n u) 0%nat eq_refl) as [T HT]. exists T. apply executes_ends. split; [|exact HT].
    destruct HT as (_ & _ & [->|[L _]]); lia. }
  induction k as [|k IH]; intros cid E.
  - exists cid. split; [lia|]. split; [intros; lia|]. left. lia.
  - destruct (stops u V cid) eqn:ES.
    + exists (S cid). split; [lia|]. split; [intros; lia|]. right. split; [lia|]. replace (S cid - 1)%nat with cid by lia. exact ES.
    + destruct (IH (S cid) ltac:(lia)) as (T & A & B & D). exists T. split; [lia|]. split.
      * intros j J1 J2. destruct (Nat.eq_dec j cid) as [->|]; [exact ES|apply B; lia].
      * destruct D as [D|[D1 D2]]; [auto|]. right. split; [lia|exact D2].
Qed.
Lemma executes_unique u V T1 T2 : executes u V T1 -> executes u V T2 -> T1 = T2.
Proof.
  assert (G : forall A B, executes u V A -> executes u V B -> ~ (A < B)%nat).
  { intros A B (A1 & A2 & A3) (B1 & B2 & B3) L. destruct A3 as [->|A3]; [lia|]. apply (B2 (A - 1)%nat); [lia|exact A3]. }
  intros H1 H2. pose proof (G _ _ H1 H2). pose proof (G _ _ H2 H1). lia.
Qed.

(** ** Bits of the results *)
Lemma collect_below f mask (offs : nat -> nat) (ys : nat -> list (bool * bool)) :
  (forall cid, exists step, (step = stepA mask (offs cid) \/ step = stepB mask (offs cid)) /\ f cid = deliver step 0 (ys cid)) ->
  forall p d cid n, (forall k, (cid <= k < cid + d)%nat -> (p < N.of_nat (offs k) \/ N.of_nat (offs k + length (ys k)) <= p)%N) ->
  N.testbit (collect f cid d n) p = N.testbit n p.
Proof.
  intros HF p. induction d as [|d IH]; intros cid n H; [reflexivity|]. cbn [collect]. rewrite IH by (intros k K; apply H; lia).
  destruct (HF cid) as (step & HS & ->). apply (deliver_other step mask (offs cid) HS). rewrite Nat.add_0_r. apply H. lia.
Qed.

Section Bits.
Variable s : session.
Variable mask : N.
Variable V : nat -> Z -> bool.
Notation osz := (output_size (s_c s)).
Notation ys := (cycle_bits s V).
Lemma ys_length k : length (ys k) = osz.
Proof. unfold cycle_bits. rewrite combine_length, !map_length, seq_length. unfold output_size. lia. Qed.
Lemma ys_nth k i w : nth_error (outputs (s_c s)) i = Some w -> nth_error (ys k) i = Some (out_secret s k i, V k w).
Proof.
  intros H. assert (L : (i < osz)%nat) by (apply nth_error_Some; congruence). unfold cycle_bits.
  pose proof (nth_error_seq_map (out_secret s k) osz i L) as E1. pose proof (map_nth_error (V k) i _ H) as E2.
  revert E1 E2. generalize (map (out_secret s k) (seq 0 osz)) (map (V k) (outputs (s_c s))) (out_secret s k i) (V k w). clear.
  induction i as [|i IH]; intros [|a l1] [|b l2] ya yb E1 E2; cbn in *; try discriminate; [congruence|].
  apply IH; auto.
Qed.
Definition cA (offs : nat -> nat) (cid : nat) : N -> N := deliver (stepA mask (offs cid)) 0 (ys cid).
Definition cB (offs : nat -> nat) (cid : nat) : N -> N := deliver (stepB mask (offs cid)) 0 (ys cid).
Notation spread := (fun cid : nat => (cid * osz)%nat).

Lemma spread_out p T : (N.of_nat (T * osz) <= p)%N ->
  N.testbit (collect (cA spread) 0 T 0) p = false /\ N.testbit (collect (cB spread) 0 T 0) p = false.
Proof.
  intros H. split.
  - rewrite (collect_below (cA spread) mask spread ys); [apply N.bits_0|unfold cA; eauto|]. intros k K. right. rewrite ys_length. nia.
  - rewrite (collect_below (cB spread) mask spread ys); [apply N.bits_0|unfold cB; eauto|]. intros k K. right. rewrite ys_length. nia.
Qed.
Lemma spread_at f step T cy i w : (step = stepA mask \/ step = stepB mask) -> f = (fun cid => deliver (step (spread cid)) 0 (ys cid)) ->
  (cy < T)%nat -> nth_error (outputs (s_c s)) i = Some w ->
  exists n, N.testbit n (N.of_nat (cy * osz + i)) = false /\
    N.testbit (collect f 0 T 0) (N.of_nat (cy * osz + i)) = N.testbit (step (cy * osz)%nat i (out_secret s cy i) (V cy w) n) (N.of_nat (cy * osz + i)).
Proof.
  intros HS -> HC HW. assert (L : (i < osz)%nat) by (apply nth_error_Some; congruence).
  set (f := fun cid => deliver (step (spread cid)) 0 (ys cid)).
  assert (HF : forall cid, exists st, (st = stepA mask (spread cid) \/ st = stepB mask (spread cid)) /\ f cid = deliver st 0 (ys cid)).
  { intros cid. exists (step (spread cid)). split; [destruct HS as [-> | ->]; auto|reflexivity]. }
  exists (collect f 0 cy 0%N). split.
  - rewrite (collect_below f mask spread ys HF); [apply N.bits_0|]. intros k K. right. rewrite ys_length. nia.
  - replace T with (S cy + (T - S cy))%nat by lia.
    assert (SP : forall a b cid n, collect f cid (a + b) n = collect f (cid + a) b (collect f cid a n)).
    { induction a as [|a IH]; intros b cid n; cbn [Nat.add collect]; [rewrite Nat.add_0_r; auto|]. rewrite IH. f_equal. lia. }
    rewrite SP. rewrite (collect_below f mask spread ys HF) by (intros k K; left; nia).
    rewrite collect_snoc. cbn [Nat.add].
    assert (HS' : step (spread cy) = stepA mask (spread cy) \/ step (spread cy) = stepB mask (spread cy)) by (destruct HS as [-> | ->]; auto).
    pose proof (deliver_at (step (spread cy)) mask (spread cy) HS' (ys cy) 0 (collect f 0 cy 0%N) i _ _ (ys_nth cy i w HW)) as Q.
    cbn [Nat.add] in Q. exact Q.
Qed.
Lemma spread_bits T cy i w : (cy < T)%nat -> nth_error (outputs (s_c s)) i = Some w ->
  N.testbit (collect (cA spread) 0 T 0) (N.of_nat (cy * osz + i)) = (V cy w && mbit mask i) /\
  N.testbit (collect (cB spread) 0 T 0) (N.of_nat (cy * osz + i)) =
    (V cy w && negb (mbit mask i) && (out_secret s cy i || (N.size mask <=? N.of_nat i)%N)).
Proof.
  intros HC HW. split.
  - destruct (spread_at (cA spread) (stepA mask) T cy i w (or_introl eq_refl) eq_refl HC HW) as (n & E0 & ->).
    unfold stepA. destruct (out_secret s cy i), (V cy w), (mbit mask i); cbn [orb negb andb]; rewrite ?put_testbit, ?N.eqb_refl; auto.
  - destruct (spread_at (cB spread) (stepB mask) T cy i w (or_intror eq_refl) eq_refl HC HW) as (n & E0 & ->).
    unfold stepB. destruct (out_secret s cy i), (V cy w), (N.size mask <=? N.of_nat i)%N; cbn [orb negb andb];
      rewrite ?put_testbit, ?N.eqb_refl, ?andb_true_r, ?andb_false_r; auto.
Qed.

(** Last-cycle mode: every cycle writes to the same place. *)
Notation same := (fun _ : nat => O).
Lemma same_out p T : (N.of_nat osz <= p)%N ->
  N.testbit (collect (cA same) 0 T 0) p = false /\ N.testbit (collect (cB same) 0 T 0) p = false.
Proof.
  intros H. split.
  - rewrite (collect_below (cA same) mask same ys); [apply N.bits_0|unfold cA; eauto|]. intros k K. right. rewrite ys_length. exact H.
  - rewrite (collect_below (cB same) mask same ys); [apply N.bits_0|unfold cB; eauto|]. intros k K. right. rewrite ys_length. exact H.
Qed.
Lemma same_step T i w : nth_error (outputs (s_c s)) i = Some w ->
  N.testbit (collect (cA same) 0 (S T) 0) (N.of_nat i) =
    N.testbit (stepA mask 0 i (out_secret s T i) (V T w) (collect (cA same) 0 T 0)) (N.of_nat i) /\
  N.testbit (collect (cB same) 0 (S T) 0) (N.of_nat i) =
    N.testbit (stepB mask 0 i (out_secret s T i) (V T w) (collect (cB same) 0 T 0)) (N.of_nat i).
Proof.
  intros HW. rewrite !collect_snoc. cbn [Nat.add]. split.
  - pose proof (deliver_at (stepA mask 0) mask 0 (or_introl eq_refl) (ys T) 0 (collect (cA same) 0 T 0%N) i _ _ (ys_nth T i w HW)) as Q. exact Q.
  - pose proof (deliver_at (stepB mask 0) mask 0 (or_intror eq_refl) (ys T) 0 (collect (cB same) 0 T 0%N) i _ _ (ys_nth T i w HW)) as Q. exact Q.
Qed.
Lemma same_bits T i w : nth_error (outputs (s_c s)) i = Some w ->
  N.testbit (collect (cA same) 0 (S T) 0) (N.of_nat i) = (V T w && mbit mask i) /\
  (mbit mask i = true -> N.testbit (collect (cB same) 0 (S T) 0) (N.of_nat i) = false) /\
  (out_secret s T i || negb (V T w) || (N.size mask <=? N.of_nat i)%N = true ->
    N.testbit (collect (cB same) 0 (S T) 0) (N.of_nat i) = (V T w && negb (mbit mask i))).
Proof.
  intros HW. 
  assert (ZA : mbit mask i = false -> forall T, N.testbit (collect (cA same) 0 T 0) (N.of_nat i) = false).
  { intros M. induction T0 as [|T0 IH]; [apply N.bits_0|]. destruct (same_step T0 i w HW) as [-> _].
    unfold stepA. rewrite M, andb_false_r. destruct (_ || _); [rewrite put_testbit, N.eqb_refl; auto|exact IH]. }
  assert (ZB : mbit mask i = true -> forall T, N.testbit (collect (cB same) 0 T 0) (N.of_nat i) = false).
  { intros M. induction T0 as [|T0 IH]; [apply N.bits_0|]. destruct (same_step T0 i w HW) as [_ ->].
    unfold stepB. rewrite M, andb_false_r. destruct (_ || _); [rewrite put_testbit, N.eqb_refl; auto|exact IH]. }
  destruct (same_step T i w HW) as [E1 E2]. split; [|split].
  - rewrite E1. unfold stepA. destruct (mbit mask i) eqn:M.
    + rewrite orb_true_r, put_testbit, N.eqb_refl. reflexivity.
    + rewrite orb_false_r, andb_false_r. destruct (_ || _); [rewrite put_testbit, N.eqb_refl; auto|apply ZA; auto].
  - intros M. apply ZB. exact M.
  - intros C. rewrite E2. unfold stepB. rewrite C, put_testbit, N.eqb_refl. reflexivity.
Qed.
End Bits.

(** * The programs *)
Section Programs.
Variable u : setup.
Hypothesis RU : ready u.
Variable foot : bool.
Notation s := (sess foot u).
Variable V : nat -> Z -> bool.
Hypothesis CV : consistent (u_c u) (u_x u) V.

Lemma term_bridge T : public_terminate s (terminate_period (u_opt u)) T ->
  forall j, (j < T)%nat -> inspected (u_c u) (terminate_period (u_opt u)) j = true -> term_secret s j = false.
Proof. intros H j Hj HI. apply H; [exact Hj|]. apply inspected_iff. exact HI. Qed.

Theorem finish T : no_collisions s T -> executes u V T -> public_terminate s (terminate_period (u_opt u)) T ->
  always_finish (garbler foot u) (evaluator foot u)
    (Some (T, Z.of_N (outA foot u V T))) (Some (T, Z.of_N (outB foot u V T))).
Proof.
  intros NC HE HP. apply always_runs. apply programs_ok; auto; [apply executes_ends in HE; apply HE|apply term_bridge; exact HP].
Qed.

Lemma offs_spread : keeps_all foot u -> forall cid, offset_of foot u cid = (cid * output_size (u_c u))%nat.
Proof.
  intros [H|H] cid; unfold offset_of; [rewrite H; auto|]. destruct (is_low foot u); [|auto]. unfold output_bit_offset.
  destruct (output_mode (u_opt u)); congruence.
Qed.
Lemma collect_ext f g : (forall k n, f k n = g k n) -> forall d cid n, collect f cid d n = collect g cid d n.
Proof. intros H. induction d as [|d IH]; intros cid n; cbn [collect]; [auto|]. rewrite H. apply IH. Qed.
Lemma out_spread T : keeps_all foot u ->
  outA foot u V T = collect (cA s (output_mask (u_opt u)) V (fun cid => (cid * output_size (s_c s))%nat)) 0 T 0 /\
  outB foot u V T = collect (cB s (output_mask (u_opt u)) V (fun cid => (cid * output_size (s_c s))%nat)) 0 T 0.
Proof.
  intros H. split; apply collect_ext; intros k n; rewrite (offs_spread H); reflexivity.
Qed.
Lemma out_same T : ~ keeps_all foot u ->
  outA foot u V T = collect (cA s (output_mask (u_opt u)) V (fun _ => O)) 0 T 0 /\
  outB foot u V T = collect (cB s (output_mask (u_opt u)) V (fun _ => O)) 0 T 0.
Proof.
  intros H. assert (E : forall cid, offset_of foot u cid = O).
  { intros cid. unfold offset_of, output_bit_offset, keeps_all in *. destruct (is_low foot u); [|tauto].
    destruct (output_mode (u_opt u)); [exfalso; apply H; right; discriminate| |reflexivity]. exfalso; apply H; right; discriminate. }
  split; apply collect_ext; intros k n; rewrite E; reflexivity.
Qed.

(** All cycles kept. *)
Theorem results T : keeps_all foot u -> forall cy i w, (cy < T)%nat -> nth_error (outputs (u_c u)) i = Some w ->
  bit_of (outA foot u V T) u cy i = (V cy w && to_garbler u i)%bool /\
  (out_secret s cy i = true \/ above_mask u i -> bit_of (outB foot u V T) u cy i = (V cy w && negb (to_garbler u i))%bool) /\
  (out_secret s cy i = false -> ~ above_mask u i -> bit_of (outB foot u V T) u cy i = false).
Proof.
  intros HK cy i w HC HW. destruct (out_spread T HK) as [-> ->]. unfold bit_of, to_garbler, above_mask.
  destruct (spread_bits s (output_mask (u_opt u)) V T cy i w HC HW) as [E1 E2]. change (output_size (s_c s)) with (output_size (u_c u)) in *.
  rewrite E1, E2. unfold mbit. split; [reflexivity|]. split.
  - intros [-> |L]; [cbn [orb]; rewrite andb_true_r; reflexivity|]. rewrite (proj2 (N.leb_le _ _) L), orb_true_r, andb_true_r. reflexivity.
  - intros -> L. apply N.leb_gt in L || (rewrite (proj2 (N.leb_gt _ _)) by lia). cbn [orb]. apply andb_false_r.
Qed.
Theorem results_none T : keeps_all foot u -> forall p, (N.of_nat (T * output_size (u_c u)) <= p)%N ->
  N.testbit (outA foot u V T) p = false /\ N.testbit (outB foot u V T) p = false.
Proof. intros HK p HP. destruct (out_spread T HK) as [-> ->]. apply spread_out. exact HP. Qed.

(** Last cycle only. *)
Theorem results_last T : ~ keeps_all foot u -> forall i w, nth_error (outputs (u_c u)) i = Some w ->
  bit_of (outA foot u V (S T)) u 0 i = (V T w && to_garbler u i)%bool /\
  (to_garbler u i = true -> bit_of (outB foot u V (S T)) u 0 i = false) /\
  (~ hidden s u V T i -> bit_of (outB foot u V (S T)) u 0 i = (V T w && negb (to_garbler u i))%bool).
Proof.
  intros HK i w HW. destruct (out_same (S T) HK) as [-> ->]. unfold bit_of, to_garbler.
  destruct (same_bits s (output_mask (u_opt u)) V T i w HW) as (E1 & E2 & E3). cbn [Nat.mul Nat.add].
  split; [exact E1|]. split; [exact E2|]. intros NH.
  destruct (mbit (output_mask (u_opt u)) i) eqn:M.
  - unfold mbit in M. rewrite (E2 eq_refl), M, andb_false_r. reflexivity.
  - unfold mbit in M. rewrite M. rewrite E3; [reflexivity|].
    destruct (out_secret s T i) eqn:S1; [reflexivity|]. destruct (V T w) eqn:VT; [|reflexivity]. cbn [negb orb].
    apply N.leb_le. destruct (N.le_gt_cases (N.size (output_mask (u_opt u))) (N.of_nat i)) as [L|L]; [exact L|].
    exfalso. apply NH. split; [exact S1|]. split; [exact M|]. split; [unfold above_mask; lia|]. eauto.
Qed.
Theorem results_last_none T : ~ keeps_all foot u -> forall p, (N.of_nat (output_size (u_c u)) <= p)%N ->
  N.testbit (outA foot u V T) p = false /\ N.testbit (outB foot u V T) p = false.
Proof. intros HK p HP. destruct (out_same T HK) as [-> ->]. apply same_out. exact HP. Qed.
End Programs.

