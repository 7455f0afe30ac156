(** The units of the processor a23: the shifter, the arithmetic unit and the conditions. *)
From Coq Require Import ZArith List Bool Lia.
From Verif Require Import RtlA23.
Import ListNotations.
Open Scope Z_scope.

(** * Specification: the ARM architecture *)
(** The signed number that a word of 32 bits stands for *)
Definition s32 (x : Z) : Z := if x <? 2 ^ 31 then x else x - 2 ^ 32.
(** A shift of the type ty (0 LSL, 1 LSR, 2 ASR, 3 ROR) by n places: the word and the last bit
    shifted out; without a shift the carry stays *)
Definition arm_shift (ty x n : Z) (c : bool) : Z * bool :=
  if n =? 0 then (x, c)
  else if ty =? 0 then ((x * 2 ^ n) mod 2 ^ 32, Z.testbit (x * 2 ^ n) 32)
  else if ty =? 1 then (x / 2 ^ n, Z.testbit x (n - 1))
  else if ty =? 2 then ((s32 x / 2 ^ n) mod 2 ^ 32, Z.testbit (s32 x) (n - 1))
  else (x / 2 ^ (n mod 32) + (x * 2 ^ (32 - n mod 32)) mod 2 ^ 32, Z.testbit x ((n - 1) mod 32)).
(** The operations by their codes: 0 AND, 1 EOR, 2 SUB, 3 RSB, 4 ADD, 5 ADC, 6 SBC, 7 RSC, 8 TST,
    9 TEQ, 10 CMP, 11 CMN, 12 ORR, 13 MOV, 14 BIC, 15 MVN *)
Definition is_logic (op : Z) : bool := existsb (Z.eqb op) [0; 1; 8; 9; 12; 13; 14; 15].
Definition is_compare (op : Z) : bool := existsb (Z.eqb op) [8; 9; 10; 11].
Definition with_carry (op : Z) : bool := existsb (Z.eqb op) [5; 6; 7].
Definition logic (op a b : Z) : Z :=
  if (op =? 0) || (op =? 8) then Z.land a b else if (op =? 1) || (op =? 9) then Z.lxor a b
  else if op =? 12 then Z.lor a b else if op =? 13 then b else if op =? 14 then Z.ldiff a b else 2 ^ 32 - 1 - b.
(** The exact value of an arithmetic operation *)
Definition arith (op a b : Z) (c : bool) : Z :=
  if (op =? 2) || (op =? 10) then a - b else if op =? 3 then b - a else if (op =? 4) || (op =? 11) then a + b
  else if op =? 5 then a + b + Z.b2z c else if op =? 6 then a - b - (1 - Z.b2z c) else b - a - (1 - Z.b2z c).
Definition arm_result (op a b : Z) (c : bool) : Z :=
  if is_logic op then logic op a b else arith op a b c mod 2 ^ 32.
(** The carry: of a logical operation that of the shifter, of an addition whether the sum needs a bit
    more, of a subtraction whether it does not borrow *)
Definition arm_carry (op a b : Z) (shifter c : bool) : bool :=
  if is_logic op then shifter
  else if existsb (Z.eqb op) [4; 5; 11] then 2 ^ 32 <=? arith op a b c else 0 <=? arith op a b c.
(** Overflow: the value of the signed numbers is not a signed number of 32 bits *)
Definition arm_overflow (op a b : Z) (c v : bool) : bool :=
  if is_logic op then v
  else let r := arith op (s32 a) (s32 b) c in negb ((- 2 ^ 31 <=? r) && (r <? 2 ^ 31)).
Definition arm_flags (op a b : Z) (shifter : bool) (f : flags) : flags :=
  let r := arm_result op a b (fC f) in
  Flags (s32 r <? 0) (r =? 0) (arm_carry op a b shifter (fC f)) (arm_overflow op a b (fC f) (fV f)).

(** * Bits *)
Lemma pow_pos n : 0 <= n -> 0 < 2 ^ n.
Proof. intros. apply Z.pow_pos_nonneg; lia. Qed.
Lemma bits_range w h l : l <= h + 1 -> 0 <= bits w h l < 2 ^ (h - l + 1).
Proof. intros. apply Z.mod_pos_bound, pow_pos. lia. Qed.
Lemma tb_bits w h l j : 0 <= l -> 0 <= j -> l <= h + 1 -> tb (bits w h l) j = if j <=? h - l then tb w (l + j) else false.
Proof.
  intros. unfold tb, bits. destruct (Z.leb_spec j (h - l)).
  - rewrite Z.mod_pow2_bits_low by lia. rewrite Z.div_pow2_bits by lia. f_equal. lia.
  - apply Z.mod_pow2_bits_high. lia.
Qed.
Lemma tb_catz a n b j : 0 <= n -> 0 <= b < 2 ^ n -> 0 <= j -> tb (catz a n b) j = if j <? n then tb b j else tb a (j - n).
Proof.
  intros. unfold tb, catz. destruct (Z.ltb_spec j n).
  - rewrite <- (Z.mod_pow2_bits_low (a * 2 ^ n + b) n) by lia.
    rewrite Z.add_comm, Z.mod_add by (pose proof (pow_pos n); lia). now rewrite Z.mod_small.
  - replace j with ((j - n) + n) at 1 by lia. rewrite <- Z.div_pow2_bits by lia.
    rewrite Z.div_add_l by (pose proof (pow_pos n); lia). rewrite (Z.div_small b) by lia. f_equal; lia.
Qed.
Lemma catz_range a m n b : 0 <= n -> 0 <= m -> 0 <= b < 2 ^ n -> 0 <= a < 2 ^ m -> 0 <= catz a n b < 2 ^ (m + n).
Proof. intros. unfold catz. rewrite Z.pow_add_r by lia. pose proof (pow_pos n); nia. Qed.
Lemma tb_small w n j : 0 <= w < 2 ^ n -> n <= j -> 0 <= n -> tb w j = false.
Proof.
  intros. unfold tb. destruct (Z.eq_dec w 0) as [-> | ]; [apply Z.bits_0 | ].
  apply Z.bits_above_log2; [lia | ]. apply Z.log2_lt_pow2; [lia | ]. apply Z.lt_le_trans with (2 ^ n); [lia | ].
  apply Z.pow_le_mono_r; lia.
Qed.
Lemma tb_b2z b j : 0 <= j -> tb (Z.b2z b) j = if j =? 0 then b else false.
Proof.
  intros. destruct (Z.eqb_spec j 0) as [-> | ]; [now destruct b | ].
  apply tb_small with 1; [destruct b; simpl; lia | lia | lia].
Qed.
Lemma tb_repz b n j : 0 <= n -> 0 <= j -> tb (repz b n) j = if j <? n then b else false.
Proof.
  intros. unfold tb, repz. destruct b; [ | rewrite Z.bits_0; now destruct (j <? n)].
  replace (2 ^ n - 1) with (Z.ones n) by (rewrite Z.ones_equiv; lia).
  destruct (Z.ltb_spec j n); [now apply Z.ones_spec_low | now apply Z.ones_spec_high].
Qed.
Lemma repz_range b n : 0 <= n -> 0 <= repz b n < 2 ^ n.
Proof. intros. unfold repz. pose proof (pow_pos n). destruct b; lia. Qed.
Lemma b2z_range b : 0 <= Z.b2z b < 2 ^ 1.
Proof. destruct b; simpl; lia. Qed.
Lemma tb_ext n x y : 0 <= n -> 0 <= x < 2 ^ n -> 0 <= y < 2 ^ n -> (forall j, 0 <= j < n -> tb x j = tb y j) -> x = y.
Proof.
  intros Hn Hx Hy H. apply Z.bits_inj'. intros j Hj. destruct (Z.lt_ge_cases j n); [now apply H; lia | ].
  change (tb x j = tb y j). rewrite (tb_small x n), (tb_small y n); auto.
Qed.
Lemma tb_top x n : 0 <= n -> 0 <= x < 2 ^ (n + 1) -> tb x n = (2 ^ n <=? x).
Proof.
  intros Hn Hx. rewrite Z.pow_add_r in Hx by lia. unfold tb. rewrite Z.testbit_eqb by lia.
  pose proof (pow_pos n Hn). destruct (Z.leb_spec (2 ^ n) x).
  - replace (x / 2 ^ n) with 1; [reflexivity | ]. apply Z.div_unique with (x - 2 ^ n); lia.
  - rewrite Z.div_small by lia. reflexivity.
Qed.

(** * The shifter *)
(** What a stage does to the bits decides what the five do *)
Lemma stages_bits f (shape : Z -> Z -> Prop) :
  (forall k s t, In k [1; 2; 4; 8; 16] -> 0 <= s -> s + k < 32 -> shape s t -> shape (s + k) (f k t)) ->
  forall shift t, 0 <= shift < 32 -> shape 0 t -> shape shift (stages f 5 shift t).
Proof.
  intros Hf shift t Hs H0.
  assert (E : shift = 0 + (if tb shift 4 then 16 else 0) + (if tb shift 3 then 8 else 0) + (if tb shift 2 then 4 else 0)
    + (if tb shift 1 then 2 else 0) + (if tb shift 0 then 1 else 0)).
  { assert (L : In shift (map Z.of_nat (seq 0 32))).
    { apply in_map_iff. exists (Z.to_nat shift). split; [lia | apply in_seq; lia]. }
    cbn in L. repeat destruct L as [<- | L]; try reflexivity. destruct L. }
  remember (tb shift 4) as b4. remember (tb shift 3) as b3. remember (tb shift 2) as b2.
  remember (tb shift 1) as b1. remember (tb shift 0) as b0.
  rewrite E. cbn [stages].
  change (Z.of_nat 4) with 4. change (Z.of_nat 3) with 3. change (Z.of_nat 2) with 2. change (Z.of_nat 1) with 1. change (Z.of_nat 0) with 0.
  change (2 ^ 4) with 16. change (2 ^ 3) with 8. change (2 ^ 2) with 4. change (2 ^ 1) with 2. change (2 ^ 0) with 1.
  rewrite <- E, <- Heqb4, <- Heqb3, <- Heqb2, <- Heqb1, <- Heqb0. rewrite E. clear - Hf H0.
  assert (S : forall (b : bool) k s t, In k [1; 2; 4; 8; 16] -> 0 <= s -> s + k < 32 -> shape s t ->
    shape (s + (if b then k else 0)) (if b then f k t else t)).
  { intros [] k s u Hk H1 H2 Hu; [now apply Hf | now rewrite Z.add_0_r]. }
  apply S; [cbn; tauto | destruct b4, b3, b2, b1; lia | destruct b4, b3, b2, b1; lia | ].
  apply S; [cbn; tauto | destruct b4, b3, b2; lia | destruct b4, b3, b2; lia | ].
  apply S; [cbn; tauto | destruct b4, b3; lia | destruct b4, b3; lia | ].
  apply S; [cbn; tauto | destruct b4; lia | destruct b4; lia | ].
  apply S; [cbn; tauto | lia | lia | exact H0].
Qed.
(** The bits of the result: the low ones by pos, the carry by last *)
Definition shaped (low : Z -> Z -> bool) (last : Z -> bool) (s t : Z) : Prop :=
  0 <= t < 2 ^ 33 /\ (forall j, 0 <= j < 32 -> tb t j = low s j) /\ (0 < s -> tb t 32 = last s).
Ltac ranges := repeat first
  [ apply b2z_range | apply repz_range | apply bits_range | lia ].
Lemma right_stage low last x fill k s t :
  (forall j, 0 <= j < 32 - k -> low s (j + k) = low (s + k) j) ->
  (forall j, 32 - k <= j < 32 -> tb fill (j - (32 - k)) = low (s + k) j) ->
  low s (k - 1) = last (s + k) -> 0 < k < 32 -> 0 <= fill < 2 ^ k -> 0 <= s ->
  shaped low last s t -> x = catz (Z.b2z (tb t (k - 1))) 32 (catz fill (32 - k) (bits t 31 k)) -> shaped low last (s + k) x.
Proof.
  intros H1 H2 H3 Hk Hf Hs (R & L & _) ->.
  assert (Hb : 0 <= bits t 31 k < 2 ^ (32 - k)) by (replace (32 - k) with (31 - k + 1) by lia; apply bits_range; lia).
  assert (Hc : 0 <= catz fill (32 - k) (bits t 31 k) < 2 ^ 32)
    by (replace (2 ^ 32) with (2 ^ (k + (32 - k))) by (f_equal; lia); apply catz_range; lia).
  split; [apply (catz_range _ 1); [lia | lia | exact Hc | apply b2z_range] | ]. split.
  - intros j Hj. rewrite tb_catz by lia. replace (j <? 32) with true by (symmetry; apply Z.ltb_lt; lia).
    rewrite tb_catz by lia. destruct (Z.ltb_spec j (32 - k)); [ | now apply H2].
    rewrite tb_bits by lia. replace (j <=? 31 - k) with true by (symmetry; apply Z.leb_le; lia).
    rewrite L by lia. rewrite Z.add_comm. now apply H1.
  - intros _. rewrite tb_catz by lia. rewrite tb_b2z by lia. cbn - [tb]. rewrite L by lia. exact H3.
Qed.
Lemma first_shape low last b x : 0 <= x < 2 ^ 32 -> (forall j, 0 <= j < 32 -> tb x j = low 0 j) -> shaped low last 0 (catz (Z.b2z b) 32 x).
Proof.
  intros Hx H. split; [apply (catz_range _ 1); [lia | lia | exact Hx | apply b2z_range] | ]. split; [ | lia].
  intros j Hj. rewrite tb_catz by lia. replace (j <? 32) with true by (symmetry; apply Z.ltb_lt; lia). now apply H.
Qed.
Ltac places Hk := cbn in Hk; destruct Hk as [<- | [<- | [<- | [<- | [<- | []]]]]].
Lemma lsr_bits x shift : 0 <= x < 2 ^ 32 -> 0 <= shift < 32 ->
  shaped (fun s j => tb x (s + j)) (fun s => tb x (s - 1)) shift (lsr_struct x shift).
Proof.
  intros Hx Hs. apply (stages_bits _ (shaped _ _)); [ | assumption | apply first_shape; [lia | reflexivity]].
  intros k s t Hk H0 H1 Sh. eapply right_stage; [ | | | | | | exact Sh | reflexivity].
  - intros j _. f_equal. lia.
  - intros j Hj. rewrite tb_repz by (places Hk; lia). rewrite (tb_small x 32) by lia. now destruct (_ <? k).
  - f_equal. lia.
  - places Hk; lia.
  - apply repz_range. places Hk; lia.
  - lia.
Qed.
Lemma asr_bits x shift : 0 <= x < 2 ^ 32 -> 0 <= shift < 32 ->
  shaped (fun s j => tb x (Z.min 31 (s + j))) (fun s => tb x (s - 1)) shift (asr_struct x shift).
Proof.
  intros Hx Hs. apply (stages_bits _ (shaped _ _)); [ | assumption | apply first_shape; [lia | intros; f_equal; lia]].
  intros k s t Hk H0 H1 Sh. eapply right_stage; [ | | | | | | exact Sh | reflexivity].
  - intros j _. f_equal. lia.
  - intros j Hj. rewrite tb_repz by (places Hk; lia). replace (j - (32 - k) <? k) with true by (symmetry; apply Z.ltb_lt; lia). f_equal. lia.
  - f_equal. lia.
  - places Hk; lia.
  - apply repz_range. places Hk; lia.
  - lia.
Qed.
Lemma ror_bits x shift : 0 <= x < 2 ^ 32 -> 0 <= shift < 32 ->
  shaped (fun s j => tb x ((s + j) mod 32)) (fun s => tb x (s - 1)) shift (ror_struct x shift).
Proof.
  intros Hx Hs. apply (stages_bits _ (shaped _ _)); [ | assumption | apply first_shape; [lia | intros; f_equal; symmetry; apply Z.mod_small; lia]].
  intros k s t Hk H0 H1 Sh. assert (0 < k < 32) by (places Hk; lia). eapply right_stage; [ | | | | | | exact Sh | reflexivity].
  - intros j _. f_equal. f_equal. lia.
  - intros j Hj. rewrite tb_bits by lia. replace (j - (32 - k) <=? k - 1 - 0) with true by (symmetry; apply Z.leb_le; lia).
    destruct Sh as (_ & L & _). rewrite L by lia. f_equal. replace (s + k + j) with (s + (0 + (j - (32 - k))) + 1 * 32) by lia.
    now rewrite Z.mod_add by lia.
  - cbn. f_equal. rewrite Z.mod_small by lia. lia.
  - lia.
  - replace (2 ^ k) with (2 ^ (k - 1 - 0 + 1)) by (f_equal; lia). apply bits_range. lia.
  - lia.
Qed.
Lemma lsl_bits x shift : 0 <= x < 2 ^ 32 -> 0 <= shift < 32 ->
  shaped (fun s j => if j <? s then false else tb x (j - s)) (fun s => tb x (32 - s)) shift (lsl_struct x shift).
Proof.
  intros Hx Hs. apply (stages_bits _ (shaped _ _)); [ | assumption | apply first_shape; [lia | ]].
  2:{ intros j Hj. replace (j <? 0) with false by (symmetry; apply Z.ltb_ge; lia). f_equal. lia. }
  intros k s t Hk H0 H1 (R & L & _). assert (0 < k < 32) by (places Hk; lia).
  assert (Hc : 0 <= catz (bits t (32 - k - 1) 0) k 0 < 2 ^ 32).
  { replace (2 ^ 32) with (2 ^ ((32 - k - 1 - 0 + 1) + k)) by (f_equal; lia). apply catz_range; [lia | lia | split; [lia | apply pow_pos; lia] | apply bits_range; lia]. }
  split; [apply (catz_range _ 1); [lia | lia | exact Hc | apply b2z_range] | ]. split.
  - intros j Hj. rewrite tb_catz by lia. replace (j <? 32) with true by (symmetry; apply Z.ltb_lt; lia).
    rewrite tb_catz by (first [lia | split; [lia | apply pow_pos; lia]]). destruct (Z.ltb_spec j k).
    + unfold tb at 1. rewrite Z.bits_0. now replace (j <? s + k) with true by (symmetry; apply Z.ltb_lt; lia).
    + rewrite tb_bits by lia. replace (j - k <=? 32 - k - 1 - 0) with true by (symmetry; apply Z.leb_le; lia).
      rewrite L by lia. replace (j <? s + k) with (0 + (j - k) <? s) by (apply Bool.eq_true_iff_eq; rewrite !Z.ltb_lt; lia).
      destruct (_ <? s); [reflexivity | f_equal; lia].
  - intros _. rewrite tb_catz by lia. rewrite tb_b2z by lia. cbn - [tb Z.sub]. change (32 - 32 =? 0) with true. cbn - [tb Z.sub].
    rewrite L by lia. replace (32 - k <? s) with false by (symmetry; apply Z.ltb_ge; lia). f_equal. lia.
Qed.

Lemma tb_s32 x j : 0 <= x < 2 ^ 32 -> 0 <= j -> Z.testbit (s32 x) j = tb x (Z.min 31 j).
Proof.
  intros Hx Hj. unfold s32. destruct (Z.ltb_spec x (2 ^ 31)).
  - destruct (Z.lt_ge_cases j 31); [rewrite Z.min_r by lia; reflexivity | ].
    rewrite Z.min_l by lia. rewrite (tb_small x 31 31) by lia. apply (tb_small x 31 j); lia.
  - replace (x - 2 ^ 32) with (Z.lnot (2 ^ 32 - 1 - x)) by (unfold Z.lnot; lia).
    rewrite Z.lnot_spec by lia. destruct (Z.lt_ge_cases j 31).
    + rewrite Z.min_r by lia. replace (2 ^ 32 - 1 - x) with (Z.lnot x mod 2 ^ 32).
      * rewrite Z.mod_pow2_bits_low, Z.lnot_spec, Bool.negb_involutive by lia. reflexivity.
      * unfold Z.lnot. symmetry. apply Z.mod_unique with (-1); lia.
    + rewrite Z.min_l by lia. pose proof (tb_small (2 ^ 32 - 1 - x) 31 j) as E. unfold tb in E at 1. rewrite E by lia.
      rewrite (tb_top x 31) by lia. symmetry. cbn [negb]. apply Z.leb_le. lia.
Qed.
Theorem barrel_shift_ok fn x n c :
  0 <= fn < 4 -> 0 <= x < 2 ^ 32 -> 0 <= n < 256 -> n < 32 \/ fn = 3 -> barrel_shift fn x n c = arm_shift fn x n c.
Proof.
  intros Hfn Hx Hn Hs. unfold barrel_shift, arm_shift.
  assert (M : bits n 4 0 = n mod 32) by (unfold bits; rewrite Z.div_1_r; reflexivity). rewrite M. set (s := n mod 32).
  assert (Hs' : 0 <= s < 32) by (apply Z.mod_pos_bound; lia).
  assert (low : forall low last t r, shaped low last s t -> 0 <= r < 2 ^ 32 -> (forall j, 0 <= j < 32 -> low s j = tb r j) -> bits t 31 0 = r).
  { intros low last t r (R & L & _) Hr E. apply tb_ext with 32; [lia | apply (bits_range t 31 0); lia | exact Hr | ].
    intros j Hj. rewrite tb_bits by lia. replace (j <=? 31 - 0) with true by (symmetry; apply Z.leb_le; lia). rewrite L by lia. now apply E. }
  assert (carry : forall low last t b, shaped low last s t -> 0 < s -> last s = b -> tb t 32 = b).
  { intros ? ? ? ? (_ & _ & C) ? <-. now apply C. }
  assert (F : fn = 0 \/ fn = 1 \/ fn = 2 \/ fn = 3) by lia.
  destruct (Z.eqb_spec n 0) as [E0 | N0].
  - assert (Es : s = 0) by (unfold s; rewrite E0; reflexivity). clear carry. rewrite Es in *. f_equal.
    destruct F as [-> | [-> | [-> | ->]]]; cbn [Z.eqb Pos.eqb].
    + eapply low; [apply lsl_bits; lia | lia | ]. intros j Hj. cbn beta. replace (j <? 0) with false by (symmetry; apply Z.ltb_ge; lia). f_equal; lia.
    + eapply low; [apply lsr_bits; lia | lia | reflexivity].
    + eapply low; [apply asr_bits; lia | lia | ]. intros j Hj. cbn beta. f_equal. lia.
    + eapply low; [apply ror_bits; lia | lia | ]. intros j Hj. cbn beta. f_equal. rewrite Z.mod_small; lia.
  - assert (small : n < 32 -> s = n) by (intros; apply Z.mod_small; lia).
    destruct F as [-> | [-> | [-> | ->]]]; cbn [Z.eqb Pos.eqb].
    + assert (Es := small ltac:(lia)). pose proof (lsl_bits x s Hx Hs') as B. rewrite Es in *. f_equal.
      * eapply low; [exact B | apply Z.mod_pos_bound; lia | ]. intros j Hj. cbn beta. unfold tb. rewrite Z.mod_pow2_bits_low by lia.
        destruct (Z.ltb_spec j n); [symmetry; apply Z.mul_pow2_bits_low; lia | now rewrite Z.mul_pow2_bits by lia].
      * eapply carry; [exact B | lia | ]. cbn beta. unfold tb. now rewrite Z.mul_pow2_bits by lia.
    + assert (Es := small ltac:(lia)). pose proof (lsr_bits x s Hx Hs') as B. rewrite Es in *. f_equal.
      * eapply low; [exact B | | ].
        { split; [apply Z.div_pos; [lia | apply pow_pos; lia] | ]. apply Z.le_lt_trans with x; [ | lia].
          apply Z.div_le_upper_bound; [apply pow_pos; lia | ]. pose proof (pow_pos n); nia. }
        intros j Hj. cbn beta. unfold tb. rewrite Z.div_pow2_bits by lia. f_equal. lia.
      * eapply carry; [exact B | lia | reflexivity].
    + assert (Es := small ltac:(lia)). pose proof (asr_bits x s Hx Hs') as B. rewrite Es in *. f_equal.
      * eapply low; [exact B | apply Z.mod_pos_bound; lia | ]. intros j Hj. cbn beta. unfold tb at 2. rewrite Z.mod_pow2_bits_low by lia.
        rewrite Z.div_pow2_bits by lia. rewrite tb_s32 by lia. f_equal. lia.
      * eapply carry; [exact B | lia | ]. cbn beta. rewrite tb_s32 by lia. f_equal. lia.
    + pose proof (ror_bits x s Hx Hs') as B. f_equal.
      * eapply low; [exact B | | ].
        { assert (0 <= x / 2 ^ s < 2 ^ (32 - s)).
          { split; [apply Z.div_pos; [lia | apply pow_pos; lia] | ]. apply Z.div_lt_upper_bound; [apply pow_pos; lia | ].
            rewrite <- Z.pow_add_r by lia. replace (s + (32 - s)) with 32 by lia. lia. }
          assert (E : (x * 2 ^ (32 - s)) mod 2 ^ 32 = (x mod 2 ^ s) * 2 ^ (32 - s)).
          { replace (2 ^ 32) with (2 ^ s * 2 ^ (32 - s)) by (rewrite <- Z.pow_add_r by lia; f_equal; lia).
            apply Z.mul_mod_distr_r; pose proof (pow_pos s); pose proof (pow_pos (32 - s)); lia. }
          rewrite E. pose proof (Z.mod_pos_bound x (2 ^ s) ltac:(apply pow_pos; lia)).
          replace (2 ^ 32) with (2 ^ s * 2 ^ (32 - s)) by (rewrite <- Z.pow_add_r by lia; f_equal; lia).
          pose proof (pow_pos (32 - s) ltac:(lia)). nia. }
        intros j Hj. cbn beta.
        assert (0 <= x / 2 ^ s < 2 ^ (32 - s)).
        { split; [apply Z.div_pos; [lia | apply pow_pos; lia] | ]. apply Z.div_lt_upper_bound; [apply pow_pos; lia | ].
          rewrite <- Z.pow_add_r by lia. replace (s + (32 - s)) with 32 by lia. lia. }
        replace (x / 2 ^ s + (x * 2 ^ (32 - s)) mod 2 ^ 32) with (catz (x mod 2 ^ s) (32 - s) (x / 2 ^ s)).
        2:{ unfold catz. replace ((x * 2 ^ (32 - s)) mod 2 ^ 32) with ((x mod 2 ^ s) * 2 ^ (32 - s)); [lia | ].
            symmetry. replace (2 ^ 32) with (2 ^ s * 2 ^ (32 - s)) by (rewrite <- Z.pow_add_r by lia; f_equal; lia).
            apply Z.mul_mod_distr_r; pose proof (pow_pos s); pose proof (pow_pos (32 - s)); lia. }
        rewrite tb_catz by lia. destruct (Z.ltb_spec j (32 - s)).
        { rewrite Z.mod_small by lia. unfold tb. rewrite Z.div_pow2_bits by lia. f_equal. lia. }
        unfold tb. rewrite Z.mod_pow2_bits_low by lia. f_equal. symmetry. apply Z.mod_unique with 1; lia.
      * destruct (Z.eq_dec s 0) as [Es | Es].
        { rewrite Es in *. destruct B as (R & _ & _).
          replace ((n - 1) mod 32) with 31.
          2:{ apply Z.mod_unique with (n / 32 - 1); [lia | ]. pose proof (Z.div_mod n 32 ltac:(lia)) as D. fold s in D. lia. }
          unfold ror_struct. cbn [stages]. change (tb 0 (Z.of_nat 4)) with false. change (tb 0 (Z.of_nat 3)) with false.
          change (tb 0 (Z.of_nat 2)) with false. change (tb 0 (Z.of_nat 1)) with false. change (tb 0 (Z.of_nat 0)) with false. cbv iota.
          rewrite tb_catz by lia. rewrite tb_b2z by lia. reflexivity. }
        eapply carry; [exact B | lia | ]. cbn beta. unfold tb. f_equal. apply Z.mod_unique with (n / 32); [lia | ].
        pose proof (Z.div_mod n 32 ltac:(lia)) as D. fold s in D. lia.
Qed.
(** Beyond 31 places only ROR is right: the amount is taken modulo 32 *)
Lemma barrel_shift_wraps : exists fn x n c, 0 <= fn < 4 /\ 0 <= x < 2 ^ 32 /\ 0 <= n < 256 /\ fst (barrel_shift fn x n c) <> fst (arm_shift fn x n c).
Proof. exists 0, 1, 32, false. repeat split; try lia. vm_compute. discriminate. Qed.

(** * The arithmetic unit *)
(** The settings of the decoder, by the operation *)
Definition alu_code (op : Z) : alufn :=
  Alufn (one_of op [3; 7]) (one_of op [2; 10; 6; 3; 7; 14; 15]) (if one_of op [5; 6; 7] then 2 else if one_of op [2; 10; 3] then 1 else 0)
    (one_of op [0; 8; 1; 9; 12; 14; 13; 15])
    (if one_of op [12] then 7 else if one_of op [1; 9] then 6 else if one_of op [0; 8; 14] then 8
     else if one_of op [4; 11; 5; 2; 10; 6; 3; 7] then 1 else 0).
Lemma decoded_alu cs i : valid cs = true -> itype i = REGOP -> alu_function_nxt cs i = alu_code (opcode i).
Proof.
  intros V T. unfold alu_function_nxt, alu_code. rewrite V, T. cbn [is_regop is_trans is_mtrans is_branch andb orb].
  rewrite ?orb_false_r. replace (load_op i) with false by (unfold load_op; now rewrite T). rewrite !andb_false_r. reflexivity.
Qed.
Lemma opcodes op : 0 <= op < 16 -> In op (map Z.of_nat (seq 0 16)).
Proof. intros. apply in_map_iff. exists (Z.to_nat op). split; [lia | apply in_seq; lia]. Qed.
Lemma land_range a b : 0 <= a < 2 ^ 32 -> 0 <= b -> 0 <= Z.land a b < 2 ^ 32.
Proof.
  intros. split; [apply Z.land_nonneg; lia | ]. replace (Z.land a b) with (Z.land a b mod 2 ^ 32); [apply Z.mod_pos_bound; lia | ].
  rewrite <- Z.land_ones by lia. rewrite <- Z.land_assoc, (Z.land_comm b), Z.land_assoc, Z.land_ones, Z.mod_small by lia. reflexivity.
Qed.
Lemma bit_range f a b : (forall j, Z.testbit (f a b) j = true -> Z.testbit a j = true \/ Z.testbit b j = true) -> 0 <= f a b ->
  0 <= a < 2 ^ 32 -> 0 <= b < 2 ^ 32 -> 0 <= f a b < 2 ^ 32.
Proof.
  intros H H0 Ha Hb. split; [assumption | ]. replace (f a b) with (f a b mod 2 ^ 32); [apply Z.mod_pos_bound; lia | ].
  apply Z.bits_inj'. intros j Hj. destruct (Z.lt_ge_cases j 32); [apply Z.mod_pow2_bits_low; lia | ].
  rewrite Z.mod_pow2_bits_high by lia. destruct (Z.testbit (f a b) j) eqn:E; [ | reflexivity].
  destruct (H _ E) as [E' | E']; [pose proof (tb_small a 32 j ltac:(lia) ltac:(lia) ltac:(lia)) | pose proof (tb_small b 32 j ltac:(lia) ltac:(lia) ltac:(lia))];
    unfold tb in *; congruence.
Qed.
Lemma not_bits b : 0 <= b < 2 ^ 32 -> 2 ^ 32 - 1 - b = Z.lnot b mod 2 ^ 32.
Proof. intros. unfold Z.lnot. apply Z.mod_unique with (-1); lia. Qed.
Lemma bic a b : 0 <= a < 2 ^ 32 -> 0 <= b < 2 ^ 32 -> Z.land a (2 ^ 32 - 1 - b) = Z.ldiff a b.
Proof.
  intros. rewrite not_bits by lia. rewrite Z.ldiff_land, <- Z.land_ones by lia.
  rewrite (Z.land_comm (Z.lnot b)), Z.land_assoc, Z.land_ones, Z.mod_small by lia. reflexivity.
Qed.
Lemma logic_range op a b : 0 <= a < 2 ^ 32 -> 0 <= b < 2 ^ 32 -> 0 <= logic op a b < 2 ^ 32.
Proof.
  intros. unfold logic. repeat match goal with |- context [if ?c then _ else _] => destruct c end; try lia.
  - apply land_range; lia.
  - apply (bit_range Z.lxor); try lia; [ | apply Z.lxor_nonneg; lia]. intros j. rewrite Z.lxor_spec. destruct (Z.testbit a j), (Z.testbit b j); auto.
  - apply (bit_range Z.lor); try lia; [ | apply Z.lor_nonneg; lia]. intros j. rewrite Z.lor_spec. destruct (Z.testbit a j), (Z.testbit b j); auto.
  - apply (bit_range Z.ldiff); try lia; [ | apply Z.ldiff_nonneg; lia]. intros j. rewrite Z.ldiff_spec. destruct (Z.testbit a j), (Z.testbit b j); auto.
Qed.
Lemma arm_result_range op a b c : 0 <= a < 2 ^ 32 -> 0 <= b < 2 ^ 32 -> 0 <= arm_result op a b c < 2 ^ 32.
Proof. intros. unfold arm_result. destruct (is_logic op); [now apply logic_range | apply Z.mod_pos_bound; lia]. Qed.
Lemma bits_mod w : bits w 31 0 = w mod 2 ^ 32.
Proof. unfold bits. rewrite Z.div_1_r. reflexivity. Qed.
Lemma sum_bits f : 0 <= f < 2 ^ 33 -> tb f 32 = (2 ^ 32 <=? f) /\ tb f 31 = (2 ^ 31 <=? f mod 2 ^ 32) /\ (f mod 2 ^ 32 = if 2 ^ 32 <=? f then f - 2 ^ 32 else f).
Proof.
  intros Hf. split; [apply tb_top; lia | ]. split.
  - rewrite <- (tb_top (f mod 2 ^ 32) 31); [ | lia | apply Z.mod_pos_bound; lia]. unfold tb. now rewrite Z.mod_pow2_bits_low by lia.
  - destruct (Z.leb_spec (2 ^ 32) f); [symmetry; apply Z.mod_unique with 1; lia | apply Z.mod_small; lia].
Qed.
Ltac decide_bools := repeat match goal with
  | |- context [?a <=? ?b] => destruct (Z.leb_spec a b)
  | |- context [?a <? ?b] => destruct (Z.ltb_spec a b)
  end.
(** The adder, for the operands after the swap and the complement *)
Lemma adder a b b' c r : 0 <= a < 2 ^ 32 -> 0 <= b < 2 ^ 32 -> b' = b \/ b' = 2 ^ 32 - 1 - b ->
  r = a + b' + Z.b2z c ->
  (negb (tb a 31) && negb (tb b' 31) && tb r 31) || (tb a 31 && tb b' 31 && negb (tb r 31)) =
  negb ((- 2 ^ 31 <=? s32 a + s32 b' + Z.b2z c) && (s32 a + s32 b' + Z.b2z c <? 2 ^ 31)).
Proof.
  intros Ha Hb Hb' Hr. assert (Hc : 0 <= Z.b2z c <= 1) by (destruct c; simpl; lia).
  destruct (sum_bits r ltac:(lia)) as (_ & E31 & Em). rewrite E31, Em. rewrite (tb_top a 31), (tb_top b' 31) by lia.
  unfold s32. destruct (Z.leb_spec (2 ^ 32) r), (Z.ltb_spec a (2 ^ 31)), (Z.ltb_spec b' (2 ^ 31)); decide_bools; cbn [negb andb orb]; try reflexivity; lia.
Qed.
Lemma s32_not b : 0 <= b < 2 ^ 32 -> s32 (2 ^ 32 - 1 - b) = - 1 - s32 b.
Proof. intros. unfold s32. decide_bools; lia. Qed.
Lemma arith_mod x y : (exists k, x = y + k * 2 ^ 32) -> x mod 2 ^ 32 = y mod 2 ^ 32.
Proof. intros (k & ->). apply Z.mod_add. lia. Qed.
Theorem alu_ok op a b sc (f : flags) : 0 <= op < 16 -> 0 <= a < 2 ^ 32 -> 0 <= b < 2 ^ 32 ->
  fst (alu (alu_code op) a b sc (fC f)) = arm_result op a b (fC f) /\
  fC (snd (alu (alu_code op) a b sc (fC f))) = arm_carry op a b sc (fC f) /\
  (with_carry op = false ->
     let g := snd (alu (alu_code op) a b sc (fC f)) in
     Flags (fN g) (fZ g) (fC g) (if is_logic op then fV f else fV g) = arm_flags op a b sc f).
Proof.
  intros Hop Ha Hb. destruct f as [n z c v]. cbn [fC].
  assert (NR := arm_result_range op a b c Ha Hb).
  assert (T : forall r, 0 <= r < 2 ^ 32 -> tb r 31 = (s32 r <? 0)).
  { intros r Hr. rewrite (tb_top r 31) by lia. unfold s32. destruct (Z.ltb_spec r (2 ^ 31)); decide_bools; try reflexivity; lia. }
  assert (G : fst (alu (alu_code op) a b sc c) = arm_result op a b c /\
    fC (snd (alu (alu_code op) a b sc c)) = arm_carry op a b sc c /\
    (with_carry op = false -> is_logic op = false -> fV (snd (alu (alu_code op) a b sc c)) = arm_overflow op a b c v)).
  2:{ destruct G as (G1 & G2 & G3). split; [exact G1 | ]. split; [exact G2 | ]. intros W. cbv zeta.
      assert (NZ : fN (snd (alu (alu_code op) a b sc c)) = (s32 (arm_result op a b c) <? 0) /\ fZ (snd (alu (alu_code op) a b sc c)) = (arm_result op a b c =? 0)).
      { rewrite <- G1. rewrite <- T by (rewrite G1; exact NR).
        assert (E : (out_sel (alu_code op) =? 1) && (cin_sel (alu_code op) =? 2) = false).
        { apply opcodes in Hop. cbn in Hop. repeat destruct Hop as [<- | Hop]; try reflexivity; try discriminate W. destruct Hop. }
        unfold alu. cbn [fst snd]. rewrite E. split; reflexivity. }
      destruct NZ as [-> ->]. rewrite G2. unfold arm_flags. cbn [fC fV]. f_equal.
      destruct (is_logic op) eqn:L; [unfold arm_overflow; now rewrite L | now apply G3]. }
  clear T NR.
  assert (Hc : 0 <= Z.b2z c <= 1) by (destruct c; simpl; lia).
  apply opcodes in Hop. cbn in Hop.
  repeat destruct Hop as [<- | Hop]; try (destruct Hop; fail);
    unfold alu; cbn [alu_code one_of existsb Z.eqb Pos.eqb orb swap_sel not_sel cin_sel cout_sel out_sel fst snd andb];
    unfold arm_result, arm_carry, arm_overflow; cbn [is_logic existsb Z.eqb Pos.eqb orb with_carry]; unfold logic, arith; cbn [Z.eqb Pos.eqb orb andb fst snd];
    rewrite ?bits_mod;
    (split; [ | split; [ | try (intros; discriminate); intros _ _]]).
  all: cbn [fC fV]; try reflexivity.
  all: try (apply bic; assumption).
  all: try (apply arith_mod; cbn [Z.b2z]; first [exists 1; lia | exists 0; lia]).
  all: try (match goal with |- tb ?r 32 = _ => destruct (sum_bits r ltac:(simpl Z.b2z; lia)) as (-> & _); simpl Z.b2z; decide_bools; try reflexivity; lia end).
  - rewrite (adder a b _ true _ Ha Hb (or_intror eq_refl) eq_refl), s32_not by assumption. cbn [Z.b2z]. f_equal. f_equal; f_equal; lia.
  - rewrite (adder b a _ true _ Hb Ha (or_intror eq_refl) eq_refl), s32_not by assumption. cbn [Z.b2z]. f_equal. f_equal; f_equal; lia.
  - rewrite (adder a b _ false _ Ha Hb (or_introl eq_refl) eq_refl). cbn [Z.b2z]. f_equal. f_equal; f_equal; lia.
  - rewrite (adder a b _ true _ Ha Hb (or_intror eq_refl) eq_refl), s32_not by assumption. cbn [Z.b2z]. f_equal. f_equal; f_equal; lia.
  - rewrite (adder a b _ false _ Ha Hb (or_introl eq_refl) eq_refl). cbn [Z.b2z]. f_equal. f_equal; f_equal; lia.
Qed.
(** The flags of an operation with carry are not those of ARM: a sum of zero does not set the flag Z *)
Lemma adc_flags_wrong : exists a b sc f, 0 <= a < 2 ^ 32 /\ 0 <= b < 2 ^ 32 /\
  let g := snd (alu (alu_code 5) a b sc (fC f)) in
  Flags (fN g) (fZ g) (fC g) (fV g) <> arm_flags 5 a b sc f.
Proof. exists 0, 0, false, (Flags false false false false). repeat split; try lia. vm_compute. discriminate. Qed.

(** * The conditions *)
(** After a comparison, the conditions are the orders of the numbers *)
Definition after_compare (cond a b : Z) : bool :=
  if cond =? 0 then a =? b else if cond =? 1 then negb (a =? b)
  else if cond =? 2 then b <=? a else if cond =? 3 then a <? b
  else if cond =? 8 then b <? a else if cond =? 9 then a <=? b
  else if cond =? 10 then s32 b <=? s32 a else if cond =? 11 then s32 a <? s32 b
  else if cond =? 12 then s32 b <? s32 a else if cond =? 13 then s32 a <=? s32 b
  else if cond =? 14 then true else false.
Theorem condition_ok cond a b sc f : In cond [0; 1; 2; 3; 8; 9; 10; 11; 12; 13; 14; 15] -> 0 <= a < 2 ^ 32 -> 0 <= b < 2 ^ 32 ->
  conditional_execute cond (arm_flags 10 a b sc f) = after_compare cond a b.
Proof.
  intros Hc Ha Hb. unfold conditional_execute, arm_flags, arm_carry, arm_overflow, arm_result.
  cbn [is_logic existsb Z.eqb Pos.eqb orb fN fZ fC fV]. unfold arith. cbn [Z.eqb Pos.eqb orb].
  assert (E : (a - b) mod 2 ^ 32 = if b <=? a then a - b else a - b + 2 ^ 32).
  { destruct (Z.leb_spec b a); [apply Z.mod_small; lia | symmetry; apply Z.mod_unique with (-1); lia]. }
  rewrite E. cbn in Hc. unfold s32.
  repeat destruct Hc as [<- | Hc]; try (destruct Hc; fail); destruct (Z.ltb_spec a (2 ^ 31)), (Z.ltb_spec b (2 ^ 31)), (Z.leb_spec b a); cbn [Z.eqb Pos.eqb andb orb after_compare]; unfold after_compare; cbn [Z.eqb Pos.eqb]; unfold s32;
    repeat match goal with H : ?a < ?b |- context [?a <? ?b] => rewrite (proj2 (Z.ltb_lt a b) H) | H : ?b <= ?a |- context [?a <? ?b] => rewrite (proj2 (Z.ltb_ge a b) H) end;
    repeat (match goal with
    | |- context [?a <=? ?b] => destruct (Z.leb_spec a b)
    | |- context [?a <? ?b] => destruct (Z.ltb_spec a b)
    | |- context [?a =? ?b] => destruct (Z.eqb_spec a b)
    end; cbn [andb orb negb Bool.eqb]; try lia); try reflexivity;
    repeat match goal with H : context [?a <? ?b] |- _ => destruct (Z.ltb_spec a b) end; lia.
Qed.
