(** The label generator (util/util.cpp:54-91). *)
From Coq Require Import ZArith NArith List Bool Lia.
From Verif Require Import Base Gate.
Import ListNotations.
Open Scope N_scope.

(** A 128-bit register as four 32-bit lanes, lowest first. *)
Record m128 := lanes { l0 : N; l1 : N; l2 : N; l3 : N }.
Definition w32 (x : N) : N := x mod 2 ^ 32.
Definition is_m128 (s : m128) : Prop := l0 s < 2 ^ 32 /\ l1 s < 2 ^ 32 /\ l2 s < 2 ^ 32 /\ l3 s < 2 ^ 32.
Definition to_block (s : m128) : block := l0 s + 2 ^ 32 * l1 s + 2 ^ 64 * l2 s + 2 ^ 96 * l3 s.
Definition of_block (b : block) : m128 :=
  lanes (w32 b) (w32 (b / 2 ^ 32)) (w32 (b / 2 ^ 64)) (w32 (b / 2 ^ 96)).

(** _mm_set_epi32 takes the highest lane first *)
Definition mm_set_epi32 (e3 e2 e1 e0 : N) : m128 := lanes (w32 e0) (w32 e1) (w32 e2) (w32 e3).
(** _mm_shuffle_epi32 with _MM_SHUFFLE(2, 3, 0, 1) *)
Definition mm_shuffle_2301 (s : m128) : m128 := lanes (l1 s) (l0 s) (l3 s) (l2 s).
(** _mm_mul_epu32: 64-bit products of lanes 0 and lanes 2 *)
Definition mm_mul_epu32 (a b : m128) : m128 :=
  let p := l0 a * l0 b in let q := l2 a * l2 b in
  lanes (w32 p) (w32 (p / 2 ^ 32)) (w32 q) (w32 (q / 2 ^ 32)).
Definition mm_and (a b : m128) : m128 :=
  lanes (N.land (l0 a) (l0 b)) (N.land (l1 a) (l1 b)) (N.land (l2 a) (l2 b)) (N.land (l3 a) (l3 b)).
Definition mm_or (a b : m128) : m128 :=
  lanes (N.lor (l0 a) (l0 b)) (N.lor (l1 a) (l1 b)) (N.lor (l2 a) (l2 b)) (N.lor (l3 a) (l3 b)).
Definition mm_add_epi32 (a b : m128) : m128 :=
  lanes (w32 (l0 a + l0 b)) (w32 (l1 a + l1 b)) (w32 (l2 a + l2 b)) (w32 (l3 a + l3 b)).

(** util.cpp:56-58 *)
Definition SrandSSE (seed : N) : m128 := mm_set_epi32 seed (seed + 1) seed (seed + 1).

(** util.cpp:69-71 *)
Definition mult : m128 := lanes 214013 17405 214013 69069.
Definition gadd : m128 := lanes 2531011 10395331 13737667 1.
Definition mask : m128 := lanes 0xFFFFFFFF 0 0xFFFFFFFF 0.

(** util.cpp:60-91; the result is the new value of cur_seed *)
Definition RandomBlock (cur_seed : m128) : m128 :=
  let cur_seed_split := mm_shuffle_2301 cur_seed in
  let cur_seed := mm_mul_epu32 cur_seed mult in
  let multiplier := mm_shuffle_2301 mult in
  let cur_seed_split := mm_mul_epu32 cur_seed_split multiplier in
  let cur_seed := mm_and cur_seed mask in
  let cur_seed_split := mm_and cur_seed_split mask in
  let cur_seed_split := mm_shuffle_2301 cur_seed_split in
  let cur_seed := mm_or cur_seed cur_seed_split in
  mm_add_epi32 cur_seed gadd.

(** The state after [n] further calls; the [n]-th call from [s] returns [draws s n]. *)
Fixpoint draws (s : m128) (n : nat) : m128 :=
  match n with O => s | S n => draws (RandomBlock s) n end.
Definition draw (s : m128) (n : nat) : block := to_block (draws s (S n)).

(** garbled_circuit.cpp:76-77: RandomBlock(), then the low bit of its first
    two-byte word is set. *)
Definition make_R (b : block) : block := N.lor b 1.

(** * Lane by lane *)
Lemma w32_lt x : w32 x < 2 ^ 32. Proof. apply N.mod_lt. discriminate. Qed.
Lemma w32_small x : x < 2 ^ 32 -> w32 x = x. Proof. apply N.mod_small. Qed.
Lemma land_ones x : N.land (w32 x) 0xFFFFFFFF = w32 x.
Proof. change 0xFFFFFFFF with (N.ones 32). rewrite N.land_ones. apply N.mod_small, w32_lt. Qed.
Lemma RandomBlock_lanes s : RandomBlock s =
  lanes (w32 (l0 s * 214013 + 2531011)) (w32 (l1 s * 17405 + 10395331))
        (w32 (l2 s * 214013 + 13737667)) (w32 (l3 s * 69069 + 1)).
Proof.
  unfold RandomBlock, mm_add_epi32, mm_or, mm_and, mm_shuffle_2301, mm_mul_epu32, mult, gadd, mask.
  cbn [l0 l1 l2 l3]. rewrite !land_ones, !N.land_0_r, !N.lor_0_r, !N.lor_0_l.
  unfold w32. rewrite !N.add_mod_idemp_l by discriminate. reflexivity.
Qed.
Lemma RandomBlock_m128 s : is_m128 (RandomBlock s).
Proof. rewrite RandomBlock_lanes. repeat split; apply w32_lt. Qed.
Lemma draws_m128 n : forall s, is_m128 s -> is_m128 (draws s n).
Proof. induction n as [|n IH]; intros s H; cbn [draws]; [auto|]. apply IH, RandomBlock_m128. Qed.
Lemma draws_S n : forall s, draws s (S n) = RandomBlock (draws s n).
Proof. induction n as [|n IH]; intros s; [reflexivity|]. cbn [draws] in *. apply IH. Qed.
Lemma draws_add n m s : draws s (n + m) = draws (draws s n) m.
Proof.
  induction m as [|m IH]; [rewrite Nat.add_0_r; reflexivity|].
  rewrite Nat.add_succ_r, !draws_S, IH. reflexivity.
Qed.

Lemma lane_div a b n : a < 2 ^ n -> (a + 2 ^ n * b) / 2 ^ n = b /\ (a + 2 ^ n * b) mod 2 ^ n = a.
Proof.
  intros H. assert (2 ^ n <> 0) by (apply N.pow_nonzero; discriminate).
  rewrite (N.mul_comm (2 ^ n)). rewrite N.div_add, N.mod_add by auto.
  rewrite N.div_small, N.mod_small by auto. lia.
Qed.
Lemma of_to_block s : is_m128 s -> of_block (to_block s) = s.
Proof.
  destruct s as [a b c d]. unfold is_m128, of_block, to_block. cbn [l0 l1 l2 l3]. intros (A & B & C & D).
  set (hi := b + 2 ^ 32 * (c + 2 ^ 32 * d)). set (hi2 := c + 2 ^ 32 * d).
  assert (E : a + 2 ^ 32 * b + 2 ^ 64 * c + 2 ^ 96 * d = a + 2 ^ 32 * hi).
  { unfold hi. change (2 ^ 64) with (2 ^ 32 * 2 ^ 32). change (2 ^ 96) with (2 ^ 32 * 2 ^ 32 * 2 ^ 32). ring. }
  rewrite E. change (2 ^ 96) with (2 ^ 32 * 2 ^ 32 * 2 ^ 32). change (2 ^ 64) with (2 ^ 32 * 2 ^ 32).
  rewrite <- !N.div_div by discriminate. unfold w32.
  destruct (lane_div a hi 32 A) as [-> ->]. unfold hi at 1 2 3.
  destruct (lane_div b hi2 32 B) as [Q M]. unfold hi2 in Q, M. rewrite Q, M.
  destruct (lane_div c d 32 C) as [-> ->]. rewrite (N.mod_small d) by auto. reflexivity.
Qed.
Lemma to_block_lt s : is_m128 s -> to_block s < 2 ^ 128.
Proof. destruct s as [a b c d]. unfold is_m128, to_block. cbn [l0 l1 l2 l3]. intros (A & B & C & D). lia. Qed.
Lemma to_block_lsb s : N.odd (to_block s) = N.odd (l0 s).
Proof.
  unfold to_block. rewrite !N.odd_add, !N.odd_mul. change (N.odd (2 ^ 32)) with false.
  change (N.odd (2 ^ 64)) with false. change (N.odd (2 ^ 96)) with false. cbn [andb]. rewrite !xorb_false_r. reflexivity.
Qed.

(** * Undoing a step *)
Definition undo_lane (inv add x : N) : N := w32 (inv * (x + (2 ^ 32 - add))).
Definition undo (s : m128) : m128 :=
  lanes (undo_lane 3115528533 2531011 (l0 s)) (undo_lane 2891854165 10395331 (l1 s))
        (undo_lane 3115528533 13737667 (l2 s)) (undo_lane 2783094533 1 (l3 s)).
Lemma undo_lane_ok inv m add x : (inv * m) mod 2 ^ 32 = 1 -> add <= 2 ^ 32 -> x < 2 ^ 32 ->
  undo_lane inv add (w32 (x * m + add)) = x.
Proof.
  intros HI HA HX. unfold undo_lane, w32.
  rewrite N.mul_mod, N.add_mod_idemp_l, <- N.mul_mod by discriminate.
  replace (inv * (x * m + add + (2 ^ 32 - add))) with ((inv * m) * x + inv * 2 ^ 32) by nia.
  rewrite N.mod_add by discriminate. rewrite N.mul_mod, HI, N.mul_1_l, N.mod_mod by discriminate.
  apply N.mod_small. auto.
Qed.
Theorem undo_step s : is_m128 s -> undo (RandomBlock s) = s.
Proof.
  intros (A & B & C & D). rewrite RandomBlock_lanes. unfold undo. cbn [l0 l1 l2 l3].
  rewrite !undo_lane_ok; auto; try reflexivity; try discriminate. destruct s; reflexivity.
Qed.

(** What a party knowing one draw can compute: the one before, and all after. *)
Definition previous_draw (b : block) : block := to_block (undo (of_block b)).
Definition following_draw (b : block) (n : nat) : block := to_block (draws (of_block b) n).

Theorem draws_recoverable s n k : is_m128 s ->
  previous_draw (draw s (S n)) = draw s n /\ following_draw (draw s n) k = draw s (n + k).
Proof.
  intros H. unfold previous_draw, following_draw, draw.
  rewrite !of_to_block by (apply draws_m128; auto). split.
  - rewrite draws_S. rewrite undo_step; auto. apply draws_m128; auto.
  - rewrite <- draws_add. reflexivity.
Qed.

Lemma SrandSSE_m128 seed : is_m128 (SrandSSE seed).
Proof. repeat split; apply w32_lt. Qed.

(** The offset is the first draw with its low bit set, the key sent in the clear
    the second (garbled_circuit.cpp:76,95). *)
Theorem offset_recoverable s : is_m128 s ->
  let R := make_R (draw s 0) in let global_key := draw s 1 in
  make_R (previous_draw global_key) = R /\
  forall n, following_draw global_key n = draw s (1 + n).
Proof.
  intros H R gk. split.
  - unfold R, gk. destruct (draws_recoverable s 0 0 H) as [-> _]. reflexivity.
  - intros n. apply (draws_recoverable s 1 n H).
Qed.

(** * The low bit *)
Lemma odd_mod_32 x : N.odd (w32 x) = N.odd x.
Proof.
  unfold w32. rewrite <- (N.bit0_odd (x mod 2 ^ 32)), <- (N.bit0_odd x). apply N.mod_pow2_bits_low. reflexivity.
Qed.
Lemma step_lsb s : get_LSB (to_block (RandomBlock s)) = negb (get_LSB (to_block s)).
Proof.
  unfold get_LSB. rewrite !N.bit0_odd.
  rewrite !to_block_lsb, RandomBlock_lanes. cbn [l0]. rewrite odd_mod_32, N.odd_add, N.odd_mul.
  change (N.odd 214013) with true. change (N.odd 2531011) with true. rewrite andb_true_r. apply xorb_true_r.
Qed.
Theorem draw_lsb s n : get_LSB (draw s n) = xorb (get_LSB (draw s 0)) (Nat.odd n).
Proof.
  induction n as [|n IH]; [rewrite xorb_false_r; reflexivity|].
  unfold draw in *. rewrite (draws_S (S n)), step_lsb, IH. rewrite Nat.odd_succ, <- Nat.negb_odd.
  destruct (get_LSB (to_block (draws s 1))), (Nat.odd n); reflexivity.
Qed.
