(** What the output transfer leaves in the two parties' output numbers, and what
    becomes of the terminate signal. *)
From Coq Require Import ZArith NArith List Bool Lia.
From Verif Require Import Base Gate Circuit CycleModel Spec Proc Codec Tcp BN GateFacts Results Tables Protocol Transfer.
Import ListNotations.
Open Scope Z_scope.

Definition put (n : N) (pos : N) (v : bool) : N := if v then N.setbit n pos else N.clearbit n pos.
Lemma put_testbit n pos v i : N.testbit (put n pos v) i = if (i =? pos)%N then v else N.testbit n i.
Proof.
  unfold put. rewrite (N.eqb_sym i pos). destruct v.
  - rewrite N.setbit_eqb. destruct (pos =? i)%N; reflexivity.
  - rewrite N.clearbit_eqb. destruct (pos =? i)%N; cbn [negb]; rewrite ?andb_true_r, ?andb_false_r; reflexivity.
Qed.

Lemma nonneg_mag a n : 0 <= a -> mag a = n -> a = Z.of_N n.
Proof. intros H <-. unfold mag. lia. Qed.
Lemma set_bit_of_N n p : BN_set_bit (Z.of_N n) p = Z.of_N (N.setbit n p).
Proof. apply nonneg_mag; [apply set_bit_nonneg; lia|]. rewrite set_bit_mag, mag_of_N. auto. Qed.
Lemma clear_bit_of_N n p : fst (BN_clear_bit (Z.of_N n) p) = Z.of_N (N.clearbit n p).
Proof. apply nonneg_mag; [apply clear_bit_nonneg; lia|]. rewrite clear_bit_mag, mag_of_N. auto. Qed.

(** The garbler's and the evaluator's number after output [i] of a cycle, which
    carries bit [b] and is secret or public. *)
Definition mbit (mask : N) (i : nat) : bool := N.testbit mask (N.of_nat i).
Definition stepA (mask : N) (off i : nat) (sec b : bool) (n : N) : N :=
  if sec || negb b || mbit mask i then put n (N.of_nat (off + i)) (b && mbit mask i) else n.
Definition stepB (mask : N) (off i : nat) (sec b : bool) (n : N) : N :=
  if sec || negb b || (N.size mask <=? N.of_nat i)%N then put n (N.of_nat (off + i)) (b && negb (mbit mask i)) else n.

Lemma lsb_short_eqb a b : (lsb_short a =? lsb_short b)%N = negb (xorb (get_LSB a) (get_LSB b)).
Proof. unfold lsb_short. destruct (get_LSB a), (get_LSB b); reflexivity. Qed.
Lemma lsb_short_wire a : of_le (le 2 (lsb_short a)) = lsb_short a.
Proof. apply of_le_small. unfold lsb_short. destruct (get_LSB a); reflexivity. Qed.
Lemma secret_not v : IsSecret v = true -> (v =? 0) = false /\ (v =? 1) = false.
Proof. unfold IsSecret. intros H. apply Z.ltb_lt in H. split; apply Z.eqb_neq; lia. Qed.
Lemma b2z_eqb b : (b2z b =? 0) = negb b /\ (b2z b =? 1) = b.
Proof. destruct b; split; reflexivity. Qed.
Lemma mask_cond mask i :
  ((BN_num_bits (Z.of_N mask) <=? N.of_nat i)%N || negb (BN.BN_is_bit_set (Z.of_N mask) (N.of_nat i)))%bool = negb (mbit mask i).
Proof.
  pose proof (input_bit_spec mask i) as H. unfold input_bit in H. rewrite <- (negb_involutive (_ || _)), H. reflexivity.
Qed.
Lemma masked_spec mask i : masked mask i = mbit mask i.
Proof.
  unfold masked, BN.BN_is_bit_set, BN_num_bits, mbit. rewrite mag_of_N.
  destruct (N.ltb_spec (N.of_nat i) (N.size mask)); cbn [andb]; [auto|]. symmetry. apply size_testbit. auto.
Qed.
Lemma unmasked_spec mask i :
  ((BN_num_bits (Z.of_N mask) <=? N.of_nat i)%N && negb (BN.BN_is_bit_set (Z.of_N mask) (N.of_nat i)))%bool = (N.size mask <=? N.of_nat i)%N.
Proof.
  unfold BN.BN_is_bit_set, BN_num_bits. rewrite mag_of_N.
  destruct (N.leb_spec (N.size mask) (N.of_nat i)); cbn [andb]; [|auto]. rewrite size_testbit by auto. auto.
Qed.

Lemma output_ok mask off i b g e na nb : decodes b g e ->
  runs (garble_output mask off i g (Z.of_N na)) (evaluate_output mask off i e (Z.of_N nb))
    (Z.of_N (stepA mask off i (IsSecret (snd g)) b na)) (Z.of_N (stepB mask off i (IsSecret (snd g)) b nb)).
Proof.
  intros H. unfold garble_output, evaluate_output, stepA, stepB.
  rewrite mask_cond, masked_spec, unmasked_spec, !clear_bit_of_N, !set_bit_of_N.
  destruct H as [[E1 E2]|(S1 & S2 & X)].
  - rewrite E1, E2. destruct (b2z_eqb b) as [-> ->]. replace (IsSecret (b2z b)) with false by (destruct b; reflexivity).
    cbn [orb]. destruct b; cbn [negb orb andb].
    + unfold put. destruct (N.leb_spec (N.size mask) (N.of_nat i)) as [L|L].
      * assert (M : mbit mask i = false) by (apply size_testbit; auto). rewrite M. apply runs_ret.
      * destruct (mbit mask i); apply runs_ret.
    + apply runs_ret.
  - destruct (secret_not _ S1) as [-> ->], (secret_not _ S2) as [-> ->]. rewrite S1. cbn [orb].
    destruct (mbit mask i); cbn [negb].
    + rewrite andb_true_r, andb_false_r. unfold put.
      eapply runs_bind; [apply runs_msg_back with (n := 2%nat) (bs := le 2 (lsb_short (fst e))); [rewrite le_length; auto|apply runs_ret]|].
      cbv beta. rewrite lsb_short_wire, lsb_short_eqb, negb_involutive, xorb_comm, X.
      destruct b; apply runs_ret.
    + rewrite andb_false_r, andb_true_r. unfold put.
      eapply runs_bind; [apply runs_msg with (n := 2%nat) (bs := le 2 (lsb_short (fst (fst g)))); [rewrite le_length; auto|apply runs_ret]|].
      cbv beta. rewrite lsb_short_wire, lsb_short_eqb, negb_involutive, X.
      destruct b; apply runs_ret.
Qed.

(** * The outputs of a cycle *)
(** [ys]: for each output, whether it is secret and its bit. *)
Fixpoint deliver (step : nat -> bool -> bool -> N -> N) (i : nat) (ys : list (bool * bool)) (n : N) : N :=
  match ys with
  | [] => n
  | (sec, b) :: t => deliver step (S i) t (step i sec b n)
  end.
Lemma deliver_snoc step : forall ys i y n, deliver step i (ys ++ [y]) n = step (i + length ys)%nat (fst y) (snd y) (deliver step i ys n).
Proof.
  induction ys as [|[s b] ys IH]; intros i [s' b'] n; cbn [app deliver fst snd].
  - rewrite Nat.add_0_r. reflexivity.
  - rewrite IH. cbn [length fst snd]. rewrite Nat.add_succ_r. reflexivity.
Qed.

Definition output_bits (gs : list (BlockPair * Z)) (bs : list bool) : list (bool * bool) :=
  combine (map (fun g => IsSecret (snd g)) gs) bs.

Lemma outputs_ok mask off gs es bs k n na nb :
  length bs = n -> length (firstn n gs) = n ->
  (forall i b, nth_error bs i = Some b -> exists g e, nth_error gs i = Some g /\ nth_error es i = Some e /\ decodes b g e) ->
  k = n ->
  runs (transfer_outputs (garble_output mask off) gs k (Z.of_N na)) (transfer_outputs (evaluate_output mask off) es k (Z.of_N nb))
    (Z.of_N (deliver (stepA mask off) 0 (output_bits (firstn n gs) bs) na))
    (Z.of_N (deliver (stepB mask off) 0 (output_bits (firstn n gs) bs) nb)).
Proof.
  intros HB HG HD ->. unfold transfer_outputs.
  set (ys := output_bits (firstn n gs) bs).
  assert (LY : length ys = n) by (unfold ys, output_bits; rewrite combine_length, map_length; lia).
  destruct (runs_pfor (fun i bn => match nth_error gs i with None => Crash | Some y => garble_output mask off i y bn end)
    (fun i bn => match nth_error es i with None => Crash | Some y => evaluate_output mask off i y bn end)
    (fun i a b => a = Z.of_N (deliver (stepA mask off) 0 (firstn i ys) na) /\ b = Z.of_N (deliver (stepB mask off) 0 (firstn i ys) nb))
    n 0 (Z.of_N na) (Z.of_N nb)) as (a & b & R & EA & EB).
  - split; reflexivity.
  - intros j a b Hj [-> ->].
    destruct (nth_error bs j) as [bj|] eqn:Bj; [|apply nth_error_None in Bj; lia].
    destruct (HD j bj Bj) as (g & e & Hg & He & D). rewrite Hg, He.
    do 2 eexists. split; [apply output_ok; exact D|].
    assert (Hy : nth_error ys j = Some (IsSecret (snd g), bj)).
    { unfold ys, output_bits. assert (Hg' : nth_error (firstn n gs) j = Some g).
      { change (firstn n gs) with (slice_of gs 0 n). rewrite slice_nth by lia. exact Hg. }
      clear - Hg' Bj. revert j bs Hg' Bj. induction (firstn n gs) as [|x l IH]; intros [|j] [|y bs] H1 H2; cbn in *; try discriminate.
      - congruence.
      - apply IH; auto. }
    rewrite (firstn_nth_snoc _ _ _ Hy), !deliver_snoc. cbn [fst snd]. rewrite firstn_length_le by lia.
    split; reflexivity.
  - cbn [Nat.add] in EA, EB. rewrite <- LY, firstn_all in EA, EB. subst a b. exact R.
Qed.

(** The bits of the result. *)
Lemma deliver_other step mask off : (step = stepA mask off \/ step = stepB mask off) ->
  forall ys i n p, (p < N.of_nat (off + i) \/ N.of_nat (off + i + length ys) <= p)%N ->
    N.testbit (deliver step i ys n) p = N.testbit n p.
Proof.
  intros HS. induction ys as [|[s b] ys IH]; intros i n p Hp; cbn [deliver]; [reflexivity|]. cbn [length] in Hp.
  rewrite IH by lia.
  assert (NE : (p =? N.of_nat (off + i))%N = false) by (apply N.eqb_neq; lia).
  destruct HS as [-> | ->]; [unfold stepA|unfold stepB]; destruct (_ || _); rewrite ?put_testbit, ?NE; reflexivity.
Qed.
Lemma deliver_at step mask off : (step = stepA mask off \/ step = stepB mask off) ->
  forall ys i n j s b, nth_error ys j = Some (s, b) ->
    N.testbit (deliver step i ys n) (N.of_nat (off + (i + j))) = N.testbit (step (i + j)%nat s b n) (N.of_nat (off + (i + j))).
Proof.
  intros HS. induction ys as [|[s' b'] ys IH]; intros i n [|j] s b H; cbn in H; try discriminate; cbn [deliver].
  - injection H as -> ->. rewrite Nat.add_0_r. rewrite (deliver_other step mask off HS) by lia. reflexivity.
  - specialize (IH (S i) (step i s' b' n) j s b H). replace (i + S j)%nat with (S i + j)%nat by lia. rewrite IH.
    assert (NE : (N.of_nat (off + (S i + j)) =? N.of_nat (off + i))%N = false) by (apply N.eqb_neq; lia).
    assert (Q : N.testbit (step i s' b' n) (N.of_nat (off + (S i + j))) = N.testbit n (N.of_nat (off + (S i + j)))).
    { destruct HS as [-> | ->]; [unfold stepA|unfold stepB]; destruct (_ || _); rewrite ?put_testbit, ?NE; reflexivity. }
    assert (ES : step = stepA mask off \/ step = stepB mask off) by exact HS.
    destruct ES as [-> | ->]; [unfold stepA at 1 3|unfold stepB at 1 3]; destruct (_ || _); rewrite ?put_testbit, ?N.eqb_refl; auto.
Qed.

(** * The terminate signal *)
Lemma terminate_ok b g e : decodes b g e -> IsSecret (snd g) = false ->
  runs (GarbleTransferTerminate (Some g)) (EvaluateTransferTerminate (Some e)) b b.
Proof.
  intros [[E1 E2]|(S1 & _)] NS; [|congruence]. destruct g as [gl gv], e as [el ev]. cbn [snd] in *.
  unfold GarbleTransferTerminate, EvaluateTransferTerminate. rewrite E1, E2. destruct (b2z_eqb b) as [-> ->].
  destruct b; apply runs_ret.
Qed.

(** Both parties wait for bytes that nobody sends. *)
Definition waiting {A B} (d : config A B) : Prop :=
  (exists n k, pA d = Recv (S n) k) /\ (exists n k, pB d = Recv (S n) k) /\ qAB d = [] /\ qBA d = [].
Lemma waiting_stuck {A B} (d : config A B) : waiting d -> stuck d.
Proof.
  destruct d as [p q ab ba]. intros ((n & k & E1) & (m & k' & E2) & E3 & E4). cbn [pA pB qAB qBA] in *. subst.
  split; reflexivity.
Qed.
Definition deadlocks {A B} (p : proc A) (q : proc B) : Prop :=
  exists n d, reach n (start_cfg p q) d /\ waiting d.
Lemma deadlocks_bind {A B A' B'} (p : proc A) (q : proc B) (f : A -> proc A') (g : B -> proc B') :
  deadlocks p q -> deadlocks (bind p f) (bind q g).
Proof.
  intros (n & d & R & ((i & k & E1) & (j & k' & E2) & E3 & E4)). exists n, (cbind d f g). split; [exact (reach_bind n _ _ f g R)|].
  unfold waiting, cbind. cbn [pA pB qAB qBA]. rewrite E1, E2, E3, E4. cbn [bind]. eauto 10.
Qed.
Lemma deadlocks_after {A B A' B'} (p : proc A) (q : proc B) a b (f : A -> proc A') (g : B -> proc B') :
  runs p q a b -> deadlocks (f a) (g b) -> deadlocks (bind p f) (bind q g).
Proof.
  intros [m S] (n & d & R & W). exists (m + n)%nat, d. split; [|exact W]. eapply reach_trans; [|exact R].
  apply (reach_bind m _ _ f g S).
Qed.
Lemma deadlocks_map_A {A B A'} (p : proc A) (q : proc B) (f : A -> proc A') : deadlocks p q -> deadlocks (bind p f) q.
Proof.
  intros (n & d & R & ((i & k & E1) & (j & k' & E2) & E3 & E4)). exists n. eexists. split; [exact (reach_bind_A n _ _ f R)|].
  unfold waiting. cbn [pA pB qAB qBA]. rewrite E1, E2, E3, E4. cbn [bind]. eauto 10.
Qed.
Lemma deadlocks_oafter {A B A' B'} (p : proc (option A)) (q : proc (option B)) a b (f : A -> proc (option A')) (g : B -> proc (option B')) :
  runs p q (Some a) (Some b) -> deadlocks (f a) (g b) -> deadlocks (obindp p f) (obindp q g).
Proof. intros H K. unfold obindp. eapply deadlocks_after; eauto. Qed.
Lemma deadlocks_obind {A B A' B'} (p : proc (option A)) (q : proc (option B)) (f : A -> proc (option A')) (g : B -> proc (option B')) :
  deadlocks p q -> deadlocks (obindp p f) (obindp q g).
Proof. intros H. unfold obindp. apply deadlocks_bind. exact H. Qed.

Lemma terminate_deadlock g e : IsSecret (snd g) = true -> IsSecret (snd e) = true ->
  deadlocks (GarbleTransferTerminate (Some g)) (EvaluateTransferTerminate (Some e)).
Proof.
  intros S1 S2. destruct g as [gl gv], e as [el ev]. cbn [snd] in *.
  destruct (secret_not _ S1) as [A1 A2], (secret_not _ S2) as [B1 B2].
  unfold GarbleTransferTerminate, EvaluateTransferTerminate. rewrite A1, A2, B1, B2.
  eapply deadlocks_after; [apply runs_msg with (n := 2%nat) (bs := le 2 (lsb_short (fst gl))); [rewrite le_length; auto|apply runs_ret]|].
  cbv beta. exists O. eexists. split; [constructor|]. unfold waiting, start_cfg. cbn [pA pB qAB qBA recv bind]. eauto 10.
Qed.
