(** Sine and cosine for the garbled processor: a23/cordic/cordic.c.

    A right shift of a negative [int] keeps the sign, as with the compilers in use. *)
From Coq Require Import Reals Ratan Machin AltSeries QArith Qreals ZArith List Bool Lia Lra.
From Verif Require Import Base Tcp A23Int.
Import ListNotations.
Open Scope Z_scope.

(** cordic.c:18-23 *)
Definition cordic_ctab : list Z :=
  [0x3243F6A8; 0x1DAC6705; 0x0FADBAFC; 0x07F56EA6;
   0x03FEAB76; 0x01FFD55B; 0x00FFFAAA; 0x007FFF55; 0x003FFFEA; 0x001FFFFD;
   0x000FFFFF; 0x0007FFFF; 0x0003FFFF; 0x0001FFFF; 0x0000FFFF; 0x00007FFF;
   0x00003FFF; 0x00001FFF; 0x00000FFF; 0x000007FF; 0x000003FF; 0x000001FF;
   0x000000FF; 0x0000007F; 0x0000003F; 0x0000001F; 0x0000000F; 0x00000008;
   0x00000004; 0x00000002; 0x00000001; 0x00000000].
(** cordic.c:14 *)
Definition cordic_1K : Z := 0x26DD3B6A.
(** [((v) ^ d) - d] *)
Definition with_sign (m : overflow) (v d : Z) : option Z := int_result m (Z.lxor v d - d).
(** cordic.c:30-36 *)
Definition cordic_step (m : overflow) (k : nat) (s : Z * Z * Z) : option (Z * Z * Z) :=
  let '(x, y, z) := s in
  let d := Z.shiftr z 31 in
  do a <- with_sign m (Z.shiftr y (Z.of_nat k)) d; do tx <- int_result m (x - a);
  do b <- with_sign m (Z.shiftr x (Z.of_nat k)) d; do ty <- int_result m (y + b);
  do t <- rd cordic_ctab (Z.of_nat k);
  do c <- with_sign m t d; do tz <- int_result m (z - c);
  Some (tx, ty, tz).
(** cordic.c:25-40; the result is what is stored in [s] and [c] *)
Definition cordic (m : overflow) (theta : Z) : option (Z * Z) :=
  do r <- for_ 32 (cordic_step m) (cordic_1K, 0, theta);
  let '(x, y, _) := r in Some (y, x).
(** cordic.c:42-48 *)
Definition cordic_main (m : overflow) (g e o : list Z) : option (list Z) :=
  do g0 <- rd g 0; do e0 <- rd e 0;
  do sc <- cordic m (Z.lxor g0 e0);
  do o <- wr o 0 (fst sc); wr o 1 (snd sc).

(** * Bounds for atan (1 / m) *)
Fixpoint atan_sum (m : BinNums.positive) (n : nat) : Q :=
  let term i : Q := (if Nat.even i then 1 else -1) # (m ^ Pos.of_nat (2 * i + 1) * Pos.of_nat (2 * i + 1)) in
  match n with O => term O | S n' => Qred (atan_sum m n' + term n)%Q end.
Open Scope R_scope.
Lemma term_ok m i : Q2R ((if Nat.even i then 1 else -1)%Z # (m ^ Pos.of_nat (2 * i + 1) * Pos.of_nat (2 * i + 1)))
  = tg_alt (Ratan_seq (/ IZR (Zpos m))) i.
Proof.
  unfold Q2R, tg_alt, Ratan_seq. cbn [Qnum Qden]. rewrite Pos2Z.inj_mul, mult_IZR, Pos2Z.inj_pow.
  assert (P : Z.pos (Pos.of_nat (2 * i + 1)) = Z.of_nat (2 * i + 1)) by (rewrite <- (Nat2Pos.id (2 * i + 1)) at 2 by lia; symmetry; apply positive_nat_Z).
  rewrite P. rewrite <- pow_IZR. rewrite INR_IZR_INZ. rewrite pow_inv.
  assert (NZ : IZR (Z.of_nat (2 * i + 1)) <> 0) by (apply not_0_IZR; lia).
  assert (NP : IZR (Z.pos m) ^ (2 * i + 1) <> 0) by (apply pow_nonzero, not_0_IZR; lia).
  assert (SG : IZR (if Nat.even i then 1 else -1)%Z = (-1) ^ i).
  { clear. induction i as [|i IH]; [reflexivity|]. rewrite Nat.even_succ, <- Nat.negb_even. cbn [pow]. rewrite <- IH. destruct (Nat.even i); cbn [negb]; lra. }
  rewrite SG. field. split; assumption.
Qed.
Lemma atan_sum_ok m n : Q2R (atan_sum m n) = sum_f_R0 (tg_alt (Ratan_seq (/ IZR (Zpos m)))) n.
Proof.
  induction n as [|n IH]; [exact (term_ok m 0)|]. cbn [atan_sum sum_f_R0]. rewrite <- IH, <- (term_ok m (S n)), <- Q2R_plus.
  apply Qeq_eqR. apply Qred_correct.
Qed.
Lemma atan_bounds m n : (2 <= m)%positive -> Q2R (atan_sum m (S (2 * n))) <= atan (/ IZR (Zpos m)) <= Q2R (atan_sum m (2 * n)).
Proof.
  intros M. assert (X : 0 < / IZR (Zpos m) < 1).
  { assert (2 <= IZR (Zpos m)) by (apply IZR_le; lia). split; [apply Rinv_0_lt_compat; lra|]. rewrite <- Rinv_1. apply Rinv_lt_contravar; lra. }
  rewrite atan_eq_ps_atan by exact X. rewrite !atan_sum_ok. apply alternated_series_ineq.
  - apply Ratan_seq_decreasing. lra.
  - apply Ratan_seq_converging. lra.
  - unfold ps_atan. destruct (Ratan.in_int (/ IZR (Z.pos m))) as [I|I]; [|exfalso; apply I; lra]. destruct (ps_atan_exists_1 _ I) as [l L]. exact L.
Qed.
(** How far the entries of the table may be off, in thousandths of a unit. *)
Definition table_error : list Z := [534; 395; 588; 669; 898; 730; 868; 341; 668; 334; 668; 960; 996; 1000; 1000; 1000; 1000; 1000; 1000; 1000; 1000; 1000; 1000; 1000; 1000; 1000; 1000; 1; 1; 1; 1; 501]%Z.
Definition unit_q : Q := inject_Z (2 ^ 30).
Definition close_q (a : Z) (q : Q) (t : Z) : bool :=
  Qle_bool (inject_Z a - (t # 1000))%Q (unit_q * q)%Q && Qle_bool (unit_q * q)%Q (inject_Z a + (t # 1000))%Q.
Definition entry_close (k : nat) : bool :=
  let m := (2 ^ Pos.of_nat k)%positive in
  let a := nth k cordic_ctab 0%Z in let t := nth k table_error 0%Z in
  close_q a (atan_sum m 15) t && close_q a (atan_sum m 14) t.
Lemma entries_close : forallb entry_close (seq 1 31) = true.
Proof. vm_compute. reflexivity. Qed.
(** The entry for 1 is PI / 4, by Machin's formula. *)
Lemma first_close : close_q (nth 0 cordic_ctab 0%Z) (inject_Z 4 * atan_sum 5 15 - atan_sum 239 14)%Q 534 &&
  close_q (nth 0 cordic_ctab 0%Z) (inject_Z 4 * atan_sum 5 14 - atan_sum 239 15)%Q 534 = true.
Proof. vm_compute. reflexivity. Qed.
Definition U : R := IZR (2 ^ 30).
Lemma unit_ok : Q2R unit_q = U.
Proof. unfold unit_q, U, Q2R. cbn [Qnum Qden inject_Z]. rewrite Rinv_1. apply Rmult_1_r. Qed.
Lemma inject_ok a : Q2R (inject_Z a) = IZR a.
Proof. unfold Q2R. cbn [Qnum Qden inject_Z]. rewrite Rinv_1. apply Rmult_1_r. Qed.
Lemma U_pos : 0 < U.
Proof. apply IZR_lt. reflexivity. Qed.
Lemma close_ok a lo hi t x : close_q a lo t && close_q a hi t = true -> Q2R lo <= x <= Q2R hi -> Rabs (IZR a - U * x) <= IZR t / 1000.
Proof.
  intros H [L R]. apply andb_true_iff in H as [H1 H2]. unfold close_q in H1, H2. apply andb_true_iff in H1 as [H1 _], H2 as [_ H2].
  apply Qle_bool_iff, Qle_Rle in H1. apply Qle_bool_iff, Qle_Rle in H2.
  rewrite Q2R_minus, Q2R_mult, inject_ok, unit_ok in H1. rewrite Q2R_plus, Q2R_mult, inject_ok, unit_ok in H2.
  assert (T : Q2R (t # 1000) = IZR t / 1000) by reflexivity. rewrite T in H1, H2. pose proof U_pos as UP.
  assert (U * Q2R lo <= U * x) by (apply Rmult_le_compat_l; lra). assert (U * x <= U * Q2R hi) by (apply Rmult_le_compat_l; lra).
  apply Rabs_le. lra.
Qed.
Definition half_power (k : nat) : R := / 2 ^ k.
Lemma table_ok k : (k < 32)%nat -> Rabs (IZR (nth k cordic_ctab 0%Z) - U * atan (half_power k)) <= IZR (nth k table_error 0%Z) / 1000.
Proof.
  intros K. destruct k as [|k].
  - unfold half_power. cbn [pow]. rewrite Rinv_1, atan_1, Machin_4_5_239. eapply close_ok; [exact first_close|].
    pose proof (atan_bounds 5 7 ltac:(lia)) as B5. pose proof (atan_bounds 239 7 ltac:(lia)) as B239. cbn [Nat.mul Nat.add] in B5, B239.
    rewrite !Q2R_minus, !Q2R_mult, inject_ok. lra.
  - pose proof entries_close as H. rewrite forallb_forall in H. specialize (H (S k)). unfold entry_close in H.
    eapply close_ok; [apply H, in_seq; lia|].
    assert (E : half_power (S k) = / IZR (Zpos (2 ^ Pos.of_nat (S k)))).
    { unfold half_power. f_equal. rewrite Pos2Z.inj_pow. assert (P : Z.pos (Pos.of_nat (S k)) = Z.of_nat (S k)) by (rewrite <- (Nat2Pos.id (S k)) at 2 by lia; symmetry; apply positive_nat_Z).
      rewrite P, <- pow_IZR. reflexivity. }
    rewrite E. apply (atan_bounds (2 ^ Pos.of_nat (S k)) 7).
    apply Pos2Nat.inj_le. rewrite Pos2Nat.inj_pow, Nat2Pos.id by lia. cbn [Nat.pow]. pose proof (Nat.pow_nonzero 2 k ltac:(lia)). change (Pos.to_nat 2) with 2%nat. lia.
Qed.

(** * One step *)
Fixpoint gain (k : nat) : R := match k with O => 1 | S k => gain k * sqrt (1 + (half_power k)²) end.
Lemma turn_cos A s k : (s = 1 \/ s = -1) -> gain (S k) * cos (A + s * atan (half_power k)) = gain k * cos A - s * half_power k * (gain k * sin A).
Proof.
  intros S1. cbn [gain]. set (t := half_power k). assert (P : 0 < 1 + t²) by (pose proof (Rle_0_sqr t); lra). pose proof (sqrt_lt_R0 _ P) as SQ.
  assert (C : cos (A + s * atan t) = cos A * (1 / sqrt (1 + t²)) - s * (sin A * (t / sqrt (1 + t²)))).
  { destruct S1 as [-> | ->].
    - rewrite Rmult_1_l, cos_plus, cos_atan, sin_atan. ring.
    - replace (A + -1 * atan t) with (A - atan t) by ring. rewrite cos_minus, cos_atan, sin_atan. ring. }
  rewrite C. field. lra.
Qed.
Lemma turn_sin A s k : (s = 1 \/ s = -1) -> gain (S k) * sin (A + s * atan (half_power k)) = gain k * sin A + s * half_power k * (gain k * cos A).
Proof.
  intros S1. cbn [gain]. set (t := half_power k). assert (P : 0 < 1 + t²) by (pose proof (Rle_0_sqr t); lra). pose proof (sqrt_lt_R0 _ P) as SQ.
  assert (C : sin (A + s * atan t) = sin A * (1 / sqrt (1 + t²)) + s * (cos A * (t / sqrt (1 + t²)))).
  { destruct S1 as [-> | ->].
    - rewrite Rmult_1_l, sin_plus, cos_atan, sin_atan. ring.
    - replace (A + -1 * atan t) with (A - atan t) by ring. rewrite sin_minus, cos_atan, sin_atan. ring. }
  rewrite C. field. lra.
Qed.
(** The shift rounds down. *)
Lemma shift_ok y k : half_power k * IZR y - 1 <= IZR (Z.shiftr y (Z.of_nat k)) <= half_power k * IZR y.
Proof.
  rewrite Z.shiftr_div_pow2 by lia. unfold half_power. assert (P : IZR (2 ^ Z.of_nat k) = 2 ^ k) by (rewrite <- pow_IZR; reflexivity).
  pose proof (pow_lt 2 k ltac:(lra)) as PP. assert (ZP : (0 < 2 ^ Z.of_nat k)%Z) by (apply Z.pow_pos_nonneg; lia).
  pose proof (Z.div_mod y (2 ^ Z.of_nat k) ltac:(lia)) as D. pose proof (Z.mod_pos_bound y (2 ^ Z.of_nat k) ZP) as M.
  set (q := (y / 2 ^ Z.of_nat k)%Z) in *. set (r := (y mod 2 ^ Z.of_nat k)%Z) in *. clearbody q r.
  rewrite D, plus_IZR, mult_IZR, P. assert (R0 : 0 <= IZR r) by (apply IZR_le; lia). assert (R1 : IZR r <= 2 ^ k) by (rewrite <- P; apply IZR_le; lia).
  replace (/ 2 ^ k * (2 ^ k * IZR q + IZR r)) with (IZR q + / 2 ^ k * IZR r) by (field; lra).
  assert (I0 : 0 < / 2 ^ k) by (apply Rinv_0_lt_compat; lra). assert (0 <= / 2 ^ k * IZR r) by (apply Rmult_le_pos; lra).
  assert (/ 2 ^ k * IZR r <= / 2 ^ k * 2 ^ k) by (apply Rmult_le_compat_l; lra). rewrite Rinv_l in H0 by lra. lra.
Qed.
Lemma shift_zero y : IZR (Z.shiftr y (Z.of_nat 0)) = half_power 0 * IZR y.
Proof. unfold half_power. cbn [pow Z.of_nat]. rewrite Z.shiftr_0_r, Rinv_1, Rmult_1_l. reflexivity. Qed.

(** * The whole run *)
(** Accumulated rounding errors of [x] and [y], bound for the rest [z], error of the angles *)
Fixpoint err (k : nat) : R := match k with O => 0 | S k => (1 + half_power k) * err k + (if (k =? 0)%nat then 0 else 1) end.
Fixpoint rest_bound (k : nat) : Z := match k with O => 0x6487ED51%Z | S k => Z.max (nth k cordic_ctab 0%Z) (rest_bound k - nth k cordic_ctab 0%Z) end.
Fixpoint angle_error (k : nat) : Z := match k with O => 0%Z | S k => (angle_error k + nth k table_error 0)%Z end.
Definition c1 : R := IZR cordic_1K.

Lemma half_power_pos k : 0 < half_power k.
Proof. apply Rinv_0_lt_compat, pow_lt. lra. Qed.
Lemma gain_pos k : 0 < gain k.
Proof. induction k as [|k IH]; [cbn; lra|]. cbn [gain]. apply Rmult_lt_0_compat; [exact IH|]. apply sqrt_lt_R0. pose proof (Rle_0_sqr (half_power k)). lra. Qed.
Lemma err_pos k : 0 <= err k.
Proof.
  induction k as [|k IH]; [cbn; lra|]. cbn [err]. pose proof (half_power_pos k). assert (0 <= (1 + half_power k) * err k) by (apply Rmult_le_pos; lra).
  destruct (k =? 0)%nat; lra.
Qed.
Lemma gain_le k n : (k <= n)%nat -> gain k <= gain n.
Proof.
  induction 1 as [|n H IH]; [lra|]. cbn [gain]. apply (Rle_trans _ _ _ IH). rewrite <- (Rmult_1_r (gain n)) at 1. apply Rmult_le_compat_l; [left; apply gain_pos|].
  rewrite <- sqrt_1 at 1. apply sqrt_le_1; pose proof (Rle_0_sqr (half_power n)); lra.
Qed.
Lemma err_le k n : (k <= n)%nat -> err k <= err n.
Proof.
  induction 1 as [|n H IH]; [lra|]. cbn [err]. apply (Rle_trans _ _ _ IH). pose proof (half_power_pos n). pose proof (err_pos n).
  assert (0 <= half_power n * err n) by (apply Rmult_le_pos; lra). destruct (n =? 0)%nat; lra.
Qed.
(** The numbers *)
Fixpoint err_q (k : nat) : Q := match k with O => 0%Q | S k => Qred ((1 + (1 # 2 ^ Pos.of_nat k)) * err_q k + (if (k =? 0)%nat then 0 else 1))%Q end.
Lemma half_power_q k : (0 < k)%nat -> Q2R (1 # 2 ^ Pos.of_nat k) = half_power k.
Proof.
  intros K. unfold Q2R, half_power. cbn [Qnum Qden]. rewrite Rmult_1_l. f_equal. rewrite Pos2Z.inj_pow.
  assert (P : Z.pos (Pos.of_nat k) = Z.of_nat k) by (rewrite <- (Nat2Pos.id k) at 2 by lia; symmetry; apply positive_nat_Z).
  rewrite P, <- pow_IZR. reflexivity.
Qed.
Lemma Q2R_1 : Q2R 1 = 1.
Proof. exact (inject_ok 1). Qed.
Lemma Q2R_0 : Q2R 0 = 0.
Proof. exact (inject_ok 0). Qed.
Lemma err_q_ok k : Q2R (err_q k) = err k.
Proof.
  induction k as [|k IH]; [exact Q2R_0|]. cbn [err_q err]. rewrite (Qeq_eqR _ _ (Qred_correct _)).
  rewrite Q2R_plus, Q2R_mult, Q2R_plus, IH, Q2R_1. destruct k as [|k].
  - cbn [Nat.eqb err]. rewrite Q2R_0. ring.
  - rewrite half_power_q by lia. cbn [Nat.eqb]. rewrite Q2R_1. reflexivity.
Qed.
Lemma err_32 : err 32 <= IZR 3212 / 100.
Proof.
  rewrite <- err_q_ok. change (IZR 3212 / 100) with (Q2R (3212 # 100)). apply Qle_Rle, Qle_bool_iff. vm_compute. reflexivity.
Qed.
Fixpoint gain2_q (k : nat) : Q := match k with O => 1%Q | S k => Qred (gain2_q k * (1 + (if (k =? 0)%nat then 1 else (1 # 2 ^ Pos.of_nat k) * (1 # 2 ^ Pos.of_nat k))))%Q end.
Lemma gain2_ok k : Q2R (gain2_q k) = (gain k)².
Proof.
  induction k as [|k IH]; [change (Q2R 1 = Rsqr 1); rewrite Rsqr_1; exact Q2R_1|]. cbn [gain2_q gain]. rewrite (Qeq_eqR _ _ (Qred_correct _)).
  rewrite Rsqr_mult, Rsqr_sqrt by (pose proof (Rle_0_sqr (half_power k)); lra). rewrite Q2R_mult, Q2R_plus, IH, Q2R_1. do 2 f_equal. destruct k as [|k].
  - cbn [Nat.eqb]. unfold half_power, Rsqr. cbn [pow]. rewrite Q2R_1. field.
  - cbn [Nat.eqb]. rewrite Q2R_mult, half_power_q by lia. reflexivity.
Qed.
Lemma gain_32 : U - 1 / 8 <= c1 * gain 32 <= U.
Proof.
  assert (G : Q2R (inject_Z cordic_1K * inject_Z cordic_1K * gain2_q 32) = (c1 * gain 32)²).
  { rewrite !Q2R_mult, gain2_ok, inject_ok. unfold c1, Rsqr. ring. }
  assert (C : 0 <= c1 * gain 32) by (apply Rmult_le_pos; [apply IZR_le; discriminate|left; apply gain_pos]).
  assert (U8 : 0 <= U - 1 / 8) by (unfold U; assert (1 <= IZR (2 ^ 30)) by (apply IZR_le; discriminate); lra).
  split.
  - apply Rsqr_incr_0; [|exact U8|exact C]. rewrite <- G. replace (U - 1 / 8)² with (Q2R ((unit_q - (1 # 8)) * (unit_q - (1 # 8)))).
    + apply Qle_Rle, Qle_bool_iff. vm_compute. reflexivity.
    + rewrite Q2R_mult, Q2R_minus, unit_ok. replace (Q2R (1 # 8)) with (1 / 8) by (unfold Q2R; cbn [Qnum Qden]; lra). reflexivity.
  - apply Rsqr_incr_0; [|exact C|left; exact U_pos]. rewrite <- G. replace U² with (Q2R (unit_q * unit_q)) by (rewrite Q2R_mult, unit_ok; reflexivity).
    apply Qle_Rle, Qle_bool_iff. vm_compute. reflexivity.
Qed.
Lemma rest_32 : rest_bound 32 = 16%Z.
Proof. vm_compute. reflexivity. Qed.
Lemma angle_32 : angle_error 32 = 23154%Z.
Proof. vm_compute. reflexivity. Qed.

(** What holds after [k] steps; [s] is the sign of the next turn *)
Definition inv (theta : Z) (k : nat) (st : Z * Z * Z) : Prop :=
  let '(x, y, z) := st in
  is_int z /\ ((Z.abs theta <= 0x6487ED51)%Z -> (Z.abs z <= rest_bound k)%Z) /\
  exists A, Rabs (IZR x - c1 * (gain k * cos A)) <= err k /\ Rabs (IZR y - c1 * (gain k * sin A)) <= err k /\
    Rabs (IZR theta - IZR z - U * A) <= IZR (angle_error k) / 1000.
Lemma inv_small theta k x y z : (k <= 32)%nat -> inv theta k (x, y, z) -> (Z.abs x <= 2 ^ 30 + 33)%Z /\ (Z.abs y <= 2 ^ 30 + 33)%Z.
Proof.
  intros K (_ & _ & A & HX & HY & _). pose proof (err_le k 32 K) as E. pose proof err_32. pose proof (gain_le k 32 K) as G. pose proof gain_32 as [_ G32]. pose proof (gain_pos k) as GP.
  assert (CG : 0 <= c1 * gain k <= U). { assert (0 <= c1) by (apply IZR_le; discriminate). split; [apply Rmult_le_pos; lra|]. apply (Rle_trans _ (c1 * gain 32)); [apply Rmult_le_compat_l; lra|exact G32]. }
  assert (B : forall v c, -1 <= c <= 1 -> Rabs (IZR v - c1 * (gain k * c)) <= err k -> (Z.abs v <= 2 ^ 30 + 33)%Z).
  { intros v c C1 H1. rewrite <- Rmult_assoc in H1. assert (M : - U <= c1 * gain k * c <= U).
    { destruct (Rle_dec 0 c).
      - assert (0 <= c1 * gain k * c) by (apply Rmult_le_pos; lra). assert (c1 * gain k * c <= c1 * gain k * 1) by (apply Rmult_le_compat_l; lra). pose proof U_pos. lra.
      - assert (0 <= c1 * gain k * - c) by (apply Rmult_le_pos; lra). assert (c1 * gain k * - c <= c1 * gain k * 1) by (apply Rmult_le_compat_l; lra). pose proof U_pos. lra. }
    assert (H1' : - err k <= IZR v - c1 * gain k * c <= err k) by (unfold Rabs in H1; destruct (Rcase_abs _) in H1; lra).
    assert (H2 : IZR (- (2 ^ 30 + 33)) <= IZR v <= IZR (2 ^ 30 + 33)). { rewrite opp_IZR, plus_IZR. fold U. lra. }
    destruct H2 as [H2 H3]. apply le_IZR in H2, H3. lia. }
  split; [apply (B x (cos A)); [apply COS_bound|exact HX]|apply (B y (sin A)); [apply SIN_bound|exact HY]].
Qed.

Definition turn (z : Z) : Z := if (z <? 0)%Z then (-1)%Z else 1%Z.
Lemma with_sign_ok m v z : is_int z -> is_int (turn z * v) -> with_sign m v (Z.shiftr z 31) = Some (turn z * v)%Z.
Proof.
  intros Hz Hv. unfold with_sign.
  assert (E : Z.shiftr z 31 = if (z <? 0)%Z then (-1)%Z else 0%Z).
  { unfold is_int in Hz. rewrite Z.shiftr_div_pow2 by lia. destruct (Z.ltb_spec z 0).
    - symmetry. apply (Z.div_unique z (2 ^ 31) (-1) (z + 2 ^ 31)); lia.
    - apply Z.div_small. lia. }
  rewrite E. replace (Z.lxor v (if (z <? 0)%Z then (-1)%Z else 0%Z) - (if (z <? 0)%Z then (-1)%Z else 0%Z))%Z with (turn z * v)%Z; [apply int_result_id, Hv|].
  unfold turn. destruct (z <? 0)%Z; [rewrite Z.lxor_m1_r; unfold Z.lnot; lia|rewrite Z.lxor_0_r; lia].
Qed.
Lemma shiftr_small y k : (Z.abs (Z.shiftr y (Z.of_nat k)) <= Z.abs y)%Z.
Proof.
  rewrite Z.shiftr_div_pow2 by lia. assert (P : (0 < 2 ^ Z.of_nat k)%Z) by (apply Z.pow_pos_nonneg; lia). set (p := (2 ^ Z.of_nat k)%Z) in *. clearbody p.
  destruct (Z.lt_ge_cases y 0).
  - assert (y <= y / p)%Z by (apply Z.div_le_lower_bound; nia). assert (y / p < 0)%Z by (apply Z.div_lt_upper_bound; lia). lia.
  - assert (0 <= y / p)%Z by (apply Z.div_pos; lia). assert (y / p <= y)%Z by (apply Z.div_le_upper_bound; nia). lia.
Qed.
Lemma table_range k : (k < 32)%nat -> (0 <= nth k cordic_ctab 0 < 2 ^ 30)%Z.
Proof.
  intros K. assert (B : forallb (fun a => (0 <=? a) && (a <? 2 ^ 30))%Z cordic_ctab = true) by reflexivity. rewrite forallb_forall in B.
  specialize (B (nth k cordic_ctab 0%Z) (nth_In cordic_ctab 0%Z (K : (k < length cordic_ctab)%nat))). apply andb_true_iff in B as [B1 B2]. apply Z.leb_le in B1. apply Z.ltb_lt in B2. lia.
Qed.
Lemma turn_cases z : turn z = 1%Z \/ turn z = (-1)%Z.
Proof. unfold turn. destruct (z <? 0)%Z; auto. Qed.
Lemma shift_error y k : Rabs (IZR (Z.shiftr y (Z.of_nat k)) - half_power k * IZR y) <= if (k =? 0)%nat then 0 else 1.
Proof.
  destruct k as [|k]; cbn [Nat.eqb].
  - rewrite shift_zero. unfold Rminus. rewrite Rplus_opp_r, Rabs_R0. lra.
  - pose proof (shift_ok y (S k)). apply Rabs_le. lra.
Qed.
(** Errors add up. *)
Lemma error_step t e r u v ev su : 0 < t -> (su = 1 \/ su = -1) -> Rabs e <= ev -> Rabs u <= ev -> Rabs v <= r -> Rabs (e + su * v + su * t * u) <= (1 + t) * ev + r.
Proof.
  intros T S1 E1 U1 V1. assert (SA : Rabs su = 1) by (destruct S1 as [-> | ->]; [apply Rabs_R1|rewrite Rabs_left by lra; lra]).
  eapply Rle_trans; [apply Rabs_triang|]. eapply Rle_trans; [apply Rplus_le_compat_r, Rabs_triang|]. rewrite !Rabs_mult, SA, (Rabs_right t) by lra.
  assert (t * Rabs u <= t * ev) by (apply Rmult_le_compat_l; lra). lra.
Qed.
Definition next (k : nat) (st : Z * Z * Z) : Z * Z * Z :=
  let '(x, y, z) := st in
  (x - turn z * Z.shiftr y (Z.of_nat k), y + turn z * Z.shiftr x (Z.of_nat k), z - turn z * nth k cordic_ctab 0)%Z.
Lemma next_inv theta k st : (k < 32)%nat -> inv theta k st -> inv theta (S k) (next k st).
Proof.
  destruct st as [[x y] z]. intros K (IZ & RB & A & HX & HY & HA). pose proof (table_range k K) as TR.
  assert (SG : IZR (turn z) = 1 \/ IZR (turn z) = -1) by (destruct (turn_cases z) as [-> | ->]; [left|right]; reflexivity).
  unfold is_int in IZ. cbn [next]. split; [unfold is_int, turn; destruct (Z.ltb_spec z 0); lia|]. split.
  - intros TH. specialize (RB TH). cbn [rest_bound]. unfold turn. destruct (Z.ltb_spec z 0); lia.
  - exists (A + IZR (turn z) * atan (half_power k)). rewrite turn_cos, turn_sin by exact SG. pose proof (half_power_pos k) as HP.
    pose proof (shift_error y k) as EY. pose proof (shift_error x k) as EX. cbn [err].
    split; [|split].
    + rewrite minus_IZR, mult_IZR.
      replace (IZR x - IZR (turn z) * IZR (Z.shiftr y (Z.of_nat k)) - c1 * (gain k * cos A - IZR (turn z) * half_power k * (gain k * sin A)))
        with ((IZR x - c1 * (gain k * cos A)) + (- IZR (turn z)) * (IZR (Z.shiftr y (Z.of_nat k)) - half_power k * IZR y) + (- IZR (turn z)) * half_power k * (IZR y - c1 * (gain k * sin A))) by ring.
      apply error_step; try assumption. destruct SG as [-> | ->]; [right|left]; lra.
    + rewrite plus_IZR, mult_IZR.
      replace (IZR y + IZR (turn z) * IZR (Z.shiftr x (Z.of_nat k)) - c1 * (gain k * sin A + IZR (turn z) * half_power k * (gain k * cos A)))
        with ((IZR y - c1 * (gain k * sin A)) + IZR (turn z) * (IZR (Z.shiftr x (Z.of_nat k)) - half_power k * IZR x) + IZR (turn z) * half_power k * (IZR x - c1 * (gain k * cos A))) by ring.
      apply error_step; assumption.
    + rewrite minus_IZR, mult_IZR. cbn [angle_error]. rewrite plus_IZR.
      replace (IZR theta - (IZR z - IZR (turn z) * IZR (nth k cordic_ctab 0%Z)) - U * (A + IZR (turn z) * atan (half_power k)))
        with ((IZR theta - IZR z - U * A) + IZR (turn z) * (IZR (nth k cordic_ctab 0%Z) - U * atan (half_power k))) by ring.
      eapply Rle_trans; [apply Rabs_triang|]. rewrite Rabs_mult. replace (Rabs (IZR (turn z))) with 1 by (destruct SG as [-> | ->]; [rewrite Rabs_R1|rewrite Rabs_left by lra]; lra).
      pose proof (table_ok k K). lra.
Qed.
Lemma step_ok m theta k st : (k < 32)%nat -> inv theta k st -> exists st', cordic_step m k st = Some st' /\ inv theta (S k) st'.
Proof.
  intros K H. exists (next k st). pose proof (next_inv theta k st K H) as H'. split; [|exact H']. destruct st as [[x y] z]. cbn [next] in H'.
  destruct (inv_small theta k x y z ltac:(lia) H) as [SX SY]. destruct (inv_small theta (S k) _ _ _ K H') as [SX' SY']. destruct H as (IZ & _). destruct H' as (IZ' & _).
  pose proof (shiftr_small y k) as Sy. pose proof (shiftr_small x k) as Sx. pose proof (table_range k K) as TR. unfold is_int in IZ.
  assert (TS : forall v, (Z.abs v <= 2 ^ 30 + 33)%Z -> is_int (turn z * v)) by (intros v V; unfold is_int; destruct (turn_cases z) as [-> | ->]; lia).
  unfold cordic_step. cbn [next].
  rewrite with_sign_ok by (first [exact IZ|apply TS; lia]). cbn [obind]. rewrite int_result_id by (unfold is_int; lia). cbn [obind].
  rewrite with_sign_ok by (first [exact IZ|apply TS; lia]). cbn [obind]. rewrite int_result_id by (unfold is_int; lia). cbn [obind].
  rewrite rd_nat, (nth_error_nth' _ 0%Z) by exact K. cbn [obind].
  rewrite with_sign_ok by (first [exact IZ|apply TS; lia]). cbn [obind]. rewrite int_result_id by exact IZ'. reflexivity.
Qed.
Lemma run_ok m theta : is_int theta -> exists st, for_ 32 (cordic_step m) (cordic_1K, 0%Z, theta) = Some st /\ inv theta 32 st.
Proof.
  intros TH. apply (for_inv (inv theta) 32 (cordic_step m)).
  - split; [exact TH|]. split; [intros H; exact H|]. exists 0. rewrite cos_0, sin_0. cbn [gain err angle_error].
    replace (IZR cordic_1K - c1 * (1 * 1)) with 0 by (unfold c1; ring). replace (0 - c1 * (1 * 0)) with 0 by ring. replace (IZR theta - IZR theta - U * 0) with 0 by ring.
    rewrite Rabs_R0. lra.
  - intros i st I H. apply step_ok; assumption.
Qed.
Lemma sin_le u : Rabs (sin u) <= Rabs u.
Proof.
  assert (P : forall u, 0 < u -> Rabs (sin u) <= u).
  { intros v V. apply Rabs_le. split; [|left; apply sin_lt_x, V]. destruct (Rle_dec 1 v); [pose proof (SIN_bound v); lra|].
    assert (0 < sin v) by (apply sin_gt_0; [exact V|]; pose proof PI2_1; lra). lra. }
  destruct (Rtotal_order u 0) as [L|[-> |G]].
  - rewrite <- (Ropp_involutive u) at 1. rewrite sin_neg, Rabs_Ropp, (Rabs_left u) by exact L. apply P. lra.
  - rewrite sin_0. lra.
  - rewrite (Rabs_right u) by lra. apply P, G.
Qed.
Lemma bounded_product a b : Rabs a <= 1 -> Rabs (a * b) <= Rabs b.
Proof. intros H. rewrite Rabs_mult. rewrite <- (Rmult_1_l (Rabs b)) at 2. apply Rmult_le_compat_r; [apply Rabs_pos|exact H]. Qed.
Lemma trig_1 u : Rabs (sin u) <= 1 /\ Rabs (cos u) <= 1.
Proof. pose proof (SIN_bound u). pose proof (COS_bound u). split; apply Rabs_le; lra. Qed.
Lemma half_abs u : 2 * Rabs (u / 2) = Rabs u.
Proof. unfold Rdiv. rewrite Rabs_mult, (Rabs_right (/ 2)) by lra. field. Qed.
Lemma cos_close a b : Rabs (cos a - cos b) <= Rabs (a - b).
Proof.
  rewrite form2. replace (-2 * sin ((a - b) / 2) * sin ((a + b) / 2)) with (- (sin ((a + b) / 2) * (2 * sin ((a - b) / 2)))) by ring.
  rewrite Rabs_Ropp. eapply Rle_trans; [apply bounded_product, trig_1|]. rewrite Rabs_mult, (Rabs_right 2), <- (half_abs (a - b)) by lra. apply Rmult_le_compat_l; [lra|apply sin_le].
Qed.
Lemma sin_close a b : Rabs (sin a - sin b) <= Rabs (a - b).
Proof.
  rewrite form4. replace (2 * cos ((a + b) / 2) * sin ((a - b) / 2)) with (cos ((a + b) / 2) * (2 * sin ((a - b) / 2))) by ring.
  eapply Rle_trans; [apply bounded_product, trig_1|]. rewrite Rabs_mult, (Rabs_right 2), <- (half_abs (a - b)) by lra. apply Rmult_le_compat_l; [lra|apply sin_le].
Qed.
Lemma final_error v f f' A theta : Rabs (IZR v - c1 * (gain 32 * f)) <= err 32 -> Rabs f <= 1 -> Rabs (f - f') <= Rabs (A - theta / U) -> Rabs (theta - U * A) <= 392 / 10 ->
  Rabs (IZR v - U * f') <= 72.
Proof.
  intros V F D T. pose proof err_32 as E32. pose proof gain_32 as G. pose proof U_pos as UP.
  assert (D2 : Rabs (U * (f - f')) <= 392 / 10).
  { rewrite Rabs_mult, (Rabs_right U) by lra. apply (Rle_trans _ (U * Rabs (A - theta / U))); [apply Rmult_le_compat_l; lra|].
    rewrite <- (Rabs_right U) at 1 by lra. rewrite <- Rabs_mult. replace (U * (A - theta / U)) with (- (theta - U * A)) by (field; lra). rewrite Rabs_Ropp. exact T. }
  assert (D3 : Rabs ((c1 * gain 32 - U) * f) <= 1 / 8).
  { rewrite Rmult_comm. eapply Rle_trans; [apply bounded_product, F|]. apply Rabs_le. lra. }
  replace (IZR v - U * f') with ((IZR v - c1 * (gain 32 * f)) + (c1 * gain 32 - U) * f + U * (f - f')) by ring.
  eapply Rle_trans; [apply Rabs_triang|]. eapply Rle_trans; [apply Rplus_le_compat_r, Rabs_triang|]. lra.
Qed.
(** No overflow for any angle, and the result to about 2^-23 for angles up to PI / 2. *)
Theorem cordic_ok : forall m theta, is_int theta -> exists s c, cordic m theta = Some (s, c) /\
  ((Z.abs theta <= 0x6487ED51)%Z -> Rabs (IZR s - U * sin (IZR theta / U)) <= 72 /\ Rabs (IZR c - U * cos (IZR theta / U)) <= 72).
Proof.
  intros m theta TH. destruct (run_ok m theta TH) as ([[x y] z] & R & _ & RB & A & HX & HY & HA). exists y, x. unfold cordic. rewrite R. cbn [obind].
  split; [reflexivity|]. intros H. specialize (RB H). rewrite rest_32 in RB. rewrite angle_32 in HA.
  assert (T : Rabs (IZR theta - U * A) <= 392 / 10).
  { replace (IZR theta - U * A) with ((IZR theta - IZR z - U * A) + IZR z) by ring. eapply Rle_trans; [apply Rabs_triang|].
    assert (Rabs (IZR z) <= 16) by (rewrite <- abs_IZR; apply IZR_le; exact RB). lra. }
  pose proof (trig_1 A) as [TS TC]. pose proof (sin_close A (IZR theta / U)) as SC. pose proof (cos_close A (IZR theta / U)) as CC.
  pose proof (final_error y _ _ A (IZR theta) HY TS SC T). pose proof (final_error x _ _ A (IZR theta) HX TC CC T). lra.
Qed.
Lemma int_shift z : is_int z <-> Z.shiftr z 31 = 0%Z \/ Z.shiftr z 31 = (-1)%Z.
Proof.
  unfold is_int. rewrite Z.shiftr_div_pow2 by lia. pose proof (Z.div_mod z (2 ^ 31) ltac:(lia)) as D. pose proof (Z.mod_pos_bound z (2 ^ 31) ltac:(lia)) as M.
  split; [|lia]. intros H. assert (-1 <= z / 2 ^ 31)%Z by (apply Z.div_le_lower_bound; lia). assert (z / 2 ^ 31 < 1)%Z by (apply Z.div_lt_upper_bound; lia). lia.
Qed.
Lemma int_lxor a b : is_int a -> is_int b -> is_int (Z.lxor a b).
Proof. rewrite !int_shift, Z.shiftr_lxor. intros [-> | ->] [-> | ->]; cbn; auto. Qed.
Theorem cordic_main_ok : forall m g e o g0 e0, rd g 0 = Some g0 -> rd e 0 = Some e0 -> length o = 2%nat -> is_int g0 -> is_int e0 ->
  exists s c, cordic_main m g e o = Some [s; c] /\
  let theta := Z.lxor g0 e0 in
  ((Z.abs theta <= 0x6487ED51)%Z -> Rabs (IZR s - U * sin (IZR theta / U)) <= 72 /\ Rabs (IZR c - U * cos (IZR theta / U)) <= 72).
Proof.
  intros m g e o g0 e0 G E O IG IE. assert (IT : is_int (Z.lxor g0 e0)) by (apply int_lxor; assumption).
  destruct (cordic_ok m _ IT) as (s & c & R & B). exists s, c. unfold cordic_main. rewrite G, E. cbn [obind]. rewrite R. cbn [obind fst snd].
  destruct o as [|o0 [|o1 [|? ?]]]; try discriminate. split; [reflexivity|exact B].
Qed.
(** The result for 2^31 - 1, an angle of 2, is that for 1.74, the sum of the table. *)
Lemma cordic_largest : cordic Undefined (2 ^ 31 - 1) = Some (1057807908, -184292969)%Z.
Proof. vm_compute. reflexivity. Qed.
Lemma cos_largest : U * cos (IZR (2 ^ 31 - 1) / U) <= - IZR (3 * 10 ^ 8).
Proof.
  assert (UV : U = 1073741824) by reflexivity. set (a := IZR (2 ^ 31 - 1) / U).
  assert (A : 2 - / U = a) by (unfold a; rewrite UV; change (2 ^ 31 - 1)%Z with 2147483647%Z; field).
  assert (B : 199 / 100 <= a <= 2) by (rewrite <- A, UV; lra).
  destruct (pre_cos_bound a 0 ltac:(lra) ltac:(lra)) as [_ H]. unfold cos_approx, cos_term in H. cbn [Nat.add Nat.mul sum_f_R0 pow fact INR] in H.
  assert (H2 : cos a <= 1 - a * a / 2 + a * a * (a * a) / 24) by (eapply Rle_trans; [exact H|]; right; field).
  set (b := a * a) in *. assert (BB : 396 / 100 <= b <= 4) by (subst b; split; nra). clearbody b.
  assert (cos a <= - (28 / 100)) by nra. change (3 * 10 ^ 8)%Z with 300000000%Z. rewrite UV. lra.
Qed.
Theorem cordic_range_refuted : ~ forall m theta, is_int theta -> exists s c, cordic m theta = Some (s, c) /\
  Rabs (IZR s - U * sin (IZR theta / U)) <= 72 /\ Rabs (IZR c - U * cos (IZR theta / U)) <= 72.
Proof.
  intros H. destruct (H Undefined (2 ^ 31 - 1)%Z ltac:(unfold is_int; lia)) as (s & c & R & _ & C). rewrite cordic_largest in R. injection R as <- <-.
  pose proof cos_largest as L. change (3 * 10 ^ 8)%Z with 300000000%Z in L. set (v := U * cos _) in *. clearbody v. unfold Rabs in C. destruct (Rcase_abs _) in C; lra.
Qed.
