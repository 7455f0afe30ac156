(** The arithmetic on blocks of crypto/block.h (none of it is used by the garbling code). *)
From Coq Require Import ZArith NArith List Bool Lia.
From Verif Require Import Base Gate Bounded Rand.
Import ListNotations.
Open Scope N_scope.

(** * The intrinsics, on 32-bit lanes *)
Definition _mm_srai_epi32_31 (s : m128) : m128 :=
  let f x := if x <? 2 ^ 31 then 0 else 2 ^ 32 - 1 in lanes (f (l0 s)) (f (l1 s)) (f (l2 s)) (f (l3 s)).
Definition _mm_slli_epi32_1 (s : m128) : m128 := lanes (w32 (2 * l0 s)) (w32 (2 * l1 s)) (w32 (2 * l2 s)) (w32 (2 * l3 s)).
(** _MM_SHUFFLE(2, 1, 0, 3) *)
Definition _mm_shuffle_2103 (s : m128) : m128 := lanes (l3 s) (l0 s) (l1 s) (l2 s).
Definition _mm_xor_lanes (a b : m128) : m128 :=
  lanes (N.lxor (l0 a) (l0 b)) (N.lxor (l1 a) (l1 b)) (N.lxor (l2 a) (l2 b)) (N.lxor (l3 a) (l3 b)).
(** Each half shifted by one, the bit that leaves it is lost. *)
Definition _mm_slli_epi64_1 (s : m128) : m128 :=
  let f lo hi := ((lo + 2 ^ 32 * hi) * 2) mod 2 ^ 64 in
  let p := f (l0 s) (l1 s) in let q := f (l2 s) (l3 s) in
  lanes (w32 p) (w32 (p / 2 ^ 32)) (w32 q) (w32 (q / 2 ^ 32)).

(** block.h:76-83 *)
Definition Double_Block (bl : m128) : m128 :=
  let mask := mm_set_epi32 135 1 1 1 in
  let tmp := _mm_srai_epi32_31 bl in
  let tmp := mm_and tmp mask in
  let tmp := _mm_shuffle_2103 tmp in
  let bl := _mm_slli_epi32_1 bl in
  _mm_xor_lanes bl tmp.
(** block.h:84-94: [n] is the number of iterations, 1 in the code *)
Fixpoint SlowDouble_loop (n : nat) (bl tmp : m128) : m128 * m128 :=
  match n with
  | O => (bl, tmp)
  | S n =>
    let mask := mm_set_epi32 135 1 1 1 in
    let tmp := mm_and tmp mask in
    let tmp := _mm_shuffle_2103 tmp in
    let bl := _mm_slli_epi32_1 bl in
    SlowDouble_loop n bl tmp
  end.
Definition SlowDouble_Block (bl : m128) : m128 :=
  let '(bl, tmp) := SlowDouble_loop 1 bl (_mm_srai_epi32_31 bl) in _mm_xor_lanes bl tmp.
(** block.h:96-101 *)
Definition LeftShift (bl : m128) : m128 :=
  let mask := mm_set_epi32 0 0 (2 ^ 31) 0 in
  let tmp := mm_and bl mask in
  let bl := _mm_slli_epi64_1 bl in
  _mm_xor_lanes bl tmp.
(** block.h:103-108 *)
Definition RightShift (bl : m128) : m128 :=
  let mask := mm_set_epi32 0 1 0 0 in
  let tmp := mm_and bl mask in
  let bl := _mm_slli_epi64_1 bl in
  _mm_xor_lanes bl tmp.

(** * Doubling in GF(2^128) *)
(** Blocks as polynomials over GF(2) modulo x^128 + x^7 + x^2 + x + 1, times x. *)
Definition times_x (b : block) : block :=
  let p := N.shiftl b 1 in if N.testbit p 128 then N.lxor p (N.shiftl 1 128 + 135) else p.

Lemma join_lxor n a b : a < 2 ^ n -> a + 2 ^ n * b = N.lxor a (N.shiftl b n).
Proof.
  intros H. rewrite N.shiftl_mul_pow2, (N.mul_comm b). apply N.add_nocarry_lxor. apply N.bits_inj. intros i. rewrite N.land_spec, N.bits_0.
  destruct (N.lt_ge_cases i n) as [L|L].
  - rewrite (N.mul_comm (2 ^ n)), N.mul_pow2_bits_low by exact L. apply andb_false_r.
  - destruct (N.eq_dec a 0) as [->|NZ]; [rewrite N.bits_0; reflexivity|]. rewrite N.bits_above_log2; [reflexivity|].
    apply N.lt_le_trans with n; [|exact L]. apply N.log2_lt_pow2; lia.
Qed.
Lemma lxor_low n a b c : a < 2 ^ n -> c < 2 ^ n -> N.lxor (a + 2 ^ n * b) c = N.lxor a c + 2 ^ n * b.
Proof.
  intros A C. rewrite (join_lxor n a b A). rewrite join_lxor.
  - rewrite N.lxor_assoc, (N.lxor_comm _ c), <- N.lxor_assoc. reflexivity.
  - destruct (N.eq_dec (N.lxor a c) 0) as [->|NZ]; [lia|]. apply N.log2_lt_pow2; [lia|]. pose proof (N.log2_lxor a c) as L.
    destruct (N.eq_dec a 0) as [->|NA]; [rewrite N.lxor_0_l in *; apply N.log2_lt_pow2; lia|].
    destruct (N.eq_dec c 0) as [->|NC]; [rewrite N.lxor_0_r in *; apply N.log2_lt_pow2; lia|].
    apply N.log2_lt_pow2 in A; [|lia]. apply N.log2_lt_pow2 in C; [|lia]. lia.
Qed.
Lemma even_lxor_1 x : N.lxor (2 * x) 1 = 2 * x + 1.
Proof. destruct x as [|[]]; reflexivity. Qed.
Lemma double_lane x : x < 2 ^ 32 ->
  w32 (2 * x) = 2 * (x mod 2 ^ 31) /\ 2 * x = w32 (2 * x) + 2 ^ 32 * (if x <? 2 ^ 31 then 0 else 1).
Proof.
  intros H. unfold w32. assert (E : 2 ^ 32 = 2 * 2 ^ 31) by reflexivity.
  assert (M : (2 * x) mod 2 ^ 32 = 2 * (x mod 2 ^ 31)) by (rewrite E; apply N.mul_mod_distr_l; discriminate).
  split; [exact M|]. rewrite M. destruct (N.ltb_spec x (2 ^ 31)) as [L|L].
  - rewrite N.mod_small by exact L. lia.
  - pose proof (N.div_mod x (2 ^ 31) ltac:(discriminate)) as D.
    assert (Q : x / 2 ^ 31 = 1) by (symmetry; apply N.div_unique with (x - 2 ^ 31); lia). rewrite Q in D. lia.
Qed.
Lemma and_ones_1 (t : bool) c : c = 1 \/ c = 135 -> N.land (if t then 0 else 2 ^ 32 - 1) c = if t then 0 else c.
Proof. intros [-> | ->]; destruct t; reflexivity. Qed.

Theorem Double_Block_ok s : is_m128 s -> is_m128 (Double_Block s) /\ to_block (Double_Block s) = times_x (to_block s) /\ SlowDouble_Block s = Double_Block s.
Proof.
  intros (H0 & H1 & H2 & H3). destruct s as [a b c d]. cbn [l0 l1 l2 l3] in *.
  destruct (double_lane a H0) as (A1 & A2). destruct (double_lane b H1) as (B1 & B2). destruct (double_lane c H2) as (C1 & C2). destruct (double_lane d H3) as (D1 & D2).
  assert (K : forall x, x mod 2 ^ 31 < 2 ^ 31) by (intros; apply N.mod_lt; discriminate).
  pose proof (K a). pose proof (K b). pose proof (K c). pose proof (K d). clear K.
  assert (P : forall x (t : bool), N.lxor (2 * x) (if t then 0 else 1) = 2 * x + (if t then 0 else 1)) by (intros x []; [rewrite N.lxor_0_r; lia|apply even_lxor_1]).
  assert (DB : Double_Block (lanes a b c d) = lanes (N.lxor (w32 (2 * a)) (if d <? 2 ^ 31 then 0 else 135))
     (w32 (2 * b) + (if a <? 2 ^ 31 then 0 else 1)) (w32 (2 * c) + (if b <? 2 ^ 31 then 0 else 1)) (w32 (2 * d) + (if c <? 2 ^ 31 then 0 else 1))).
  { unfold Double_Block, _mm_srai_epi32_31, mm_and, _mm_shuffle_2103, _mm_slli_epi32_1, _mm_xor_lanes, mm_set_epi32. cbn [l0 l1 l2 l3].
    change (w32 135) with 135. change (w32 1) with 1. rewrite !and_ones_1 by auto. rewrite B1, C1, D1, !P. reflexivity. }
  assert (LA : w32 (2 * a) < 2 ^ 32) by apply w32_lt.
  assert (LX : N.lxor (w32 (2 * a)) (if d <? 2 ^ 31 then 0 else 135) < 2 ^ 32).
  { set (m := if d <? 2 ^ 31 then 0 else 135). assert (M : m < 2 ^ 32) by (unfold m; destruct (d <? 2 ^ 31); reflexivity).
    destruct (N.eq_dec (N.lxor (w32 (2 * a)) m) 0) as [->|NZ]; [reflexivity|]. apply N.log2_lt_pow2; [lia|]. pose proof (N.log2_lxor (w32 (2 * a)) m).
    assert (L1 : forall y, y < 2 ^ 32 -> N.log2 y < 32) by (intros y Hy; destruct (N.eq_dec y 0) as [->|]; [reflexivity|apply N.log2_lt_pow2; lia]).
    pose proof (L1 _ LA). pose proof (L1 _ M). lia. }
  split; [|split; [|reflexivity]].
  - rewrite DB. unfold is_m128. cbn [l0 l1 l2 l3]. split; [exact LX|]. rewrite B1, C1, D1.
    assert (E : 2 ^ 32 = 2 * 2 ^ 31) by reflexivity. repeat split; match goal with |- context [if ?x then _ else _] => destruct x end; lia.
  - rewrite DB. unfold times_x, to_block. cbn [l0 l1 l2 l3]. cbv zeta. rewrite N.shiftl_mul_pow2. change (2 ^ 1) with 2.
    set (ca := if a <? 2 ^ 31 then 0 else 1) in *. set (cb := if b <? 2 ^ 31 then 0 else 1) in *. set (cc := if c <? 2 ^ 31 then 0 else 1) in *.
    assert (E : (a + 2 ^ 32 * b + 2 ^ 64 * c + 2 ^ 96 * d) * 2 =
      (w32 (2 * a) + 2 ^ 32 * ((w32 (2 * b) + ca) + 2 ^ 32 * (w32 (2 * c) + cb) + 2 ^ 64 * (w32 (2 * d) + cc))) + 2 ^ 128 * (if d <? 2 ^ 31 then 0 else 1)).
    { change (2 ^ 64) with (2 ^ 32 * 2 ^ 32). change (2 ^ 96) with (2 ^ 32 * (2 ^ 32 * 2 ^ 32)). change (2 ^ 128) with (2 ^ 32 * (2 ^ 32 * (2 ^ 32 * 2 ^ 32))).
      set (u := 2 ^ 32) in *. 
      transitivity (2 * a + u * (2 * b) + u * u * (2 * c) + u * (u * u) * (2 * d)); [ring|]. rewrite A2, B2, C2, D2 at 1. ring. }
    rewrite E. set (low := w32 (2 * a) + 2 ^ 32 * _).
    assert (LL : low < 2 ^ 128).
    { unfold low. rewrite B1, C1, D1. assert (ca <= 1 /\ cb <= 1 /\ cc <= 1) by (unfold ca, cb, cc; repeat split; match goal with |- context [if ?x then _ else _] => destruct x end; lia).
      change (2 ^ 128) with (2 ^ 32 * (2 ^ 32 * (2 ^ 32 * 2 ^ 32))). change (2 ^ 64) with (2 ^ 32 * 2 ^ 32). assert (U : 2 ^ 32 = 2 * 2 ^ 31) by reflexivity.
      set (u := 2 ^ 32) in *. assert (2 * (b mod 2 ^ 31) + ca <= u - 1) by lia. assert (2 * (c mod 2 ^ 31) + cb <= u - 1) by lia. assert (2 * (d mod 2 ^ 31) + cc <= u - 1) by lia.
      clearbody u ca cb cc. nia. }
    assert (T : N.testbit (low + 2 ^ 128 * (if d <? 2 ^ 31 then 0 else 1)) 128 = negb (d <? 2 ^ 31)).
    { rewrite N.testbit_eqb. destruct (d <? 2 ^ 31); rewrite (N.mul_comm (2 ^ 128)), N.div_add, N.div_small by (exact LL || discriminate); reflexivity. }
    rewrite T. destruct (d <? 2 ^ 31); cbn [negb]; cbv iota.
    + rewrite N.lxor_0_r. unfold low. match goal with |- @eq _ ?x ?y => change (@eq N x y) end. change (2 ^ 96) with (2 ^ 32 * (2 ^ 32 * 2 ^ 32)). change (2 ^ 64) with (2 ^ 32 * 2 ^ 32). set (u := 2 ^ 32). ring.
    + rewrite N.shiftl_1_l. replace (2 ^ 128 + 135) with (135 + 2 ^ 128 * 1) by reflexivity. rewrite (join_lxor 128 low 1 LL).
      rewrite (join_lxor 128 135 1) by reflexivity.
      replace (N.lxor (N.lxor low (N.shiftl 1 128)) (N.lxor 135 (N.shiftl 1 128))) with (N.lxor low 135).
      * unfold low. rewrite lxor_low by (exact LA || reflexivity). match goal with |- @eq _ ?x ?y => change (@eq N x y) end. change (2 ^ 96) with (2 ^ 32 * (2 ^ 32 * 2 ^ 32)). change (2 ^ 64) with (2 ^ 32 * 2 ^ 32). set (u := 2 ^ 32). ring.
      * rewrite (N.lxor_comm 135), N.lxor_assoc, <- (N.lxor_assoc (N.shiftl 1 128)), N.lxor_nilpotent, N.lxor_0_l. reflexivity.
Qed.
(** LeftShift leaves bit 63 where it was instead of moving it to place 64; RightShift
    shifts left. *)
Theorem shifts_refuted :
  (exists s, is_m128 s /\ to_block s < 2 ^ 127 /\ to_block (LeftShift s) <> N.shiftl (to_block s) 1) /\
  (forall s, is_m128 s -> to_block s <> 0 -> to_block s < 2 ^ 63 -> to_block (RightShift s) <> N.shiftr (to_block s) 1).
Proof.
  split.
  - exists (lanes 0 (2 ^ 31) 0 0). split; [repeat split; reflexivity|]. split; [reflexivity|]. vm_compute. discriminate.
  - intros [a b c d] (H0 & H1 & H2 & H3) NZ L. unfold to_block in NZ, L |- *. cbn [l0 l1 l2 l3] in *.
    assert (c = 0 /\ d = 0) as [-> ->].
    { change (2 ^ 63) with 9223372036854775808 in L. change (2 ^ 64) with 18446744073709551616 in L. change (2 ^ 96) with 79228162514264337593543950336 in L.
      change (2 ^ 32) with 4294967296 in *. lia. }
    unfold RightShift, _mm_slli_epi64_1, mm_and, mm_set_epi32, _mm_xor_lanes. cbn [l0 l1 l2 l3].
    change (w32 0) with 0. change (w32 1) with 1. rewrite !N.land_0_r, N.land_0_l, !N.lxor_0_r.
    rewrite (N.mod_small ((a + 2 ^ 32 * b) * 2)) by (change (2 ^ 64) with (2 * 2 ^ 63); lia).
    set (v := a + 2 ^ 32 * b) in *.
    assert (V : v < 2 ^ 63 /\ v <> 0) by lia.
    assert (E : w32 (v * 2) + 2 ^ 32 * w32 (v * 2 / 2 ^ 32) = v * 2).
    { unfold w32. rewrite (N.mod_small (v * 2 / 2 ^ 32)).
      - pose proof (N.div_mod (v * 2) (2 ^ 32) ltac:(discriminate)). lia.
      - apply N.div_lt_upper_bound; [discriminate|]. change (2 ^ 32 * 2 ^ 32) with (2 * 2 ^ 63). lia. }
    change (w32 ((0 + 2 ^ 32 * 0) * 2 mod 2 ^ 64)) with 0. change (w32 ((0 + 2 ^ 32 * 0) * 2 mod 2 ^ 64 / 2 ^ 32)) with 0.
    rewrite E, !N.mul_0_r, !N.add_0_r.
    rewrite N.shiftr_div_pow2. change (2 ^ 1) with 2. pose proof (N.div_le_upper_bound v 2 v ltac:(lia) ltac:(lia)). lia.
Qed.
