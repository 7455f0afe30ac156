(** SHA3-256 for the garbled processor: a23/sha3/sha3.c with byte_order.h for a little-endian
    machine.

    A [uint64_t] is a number below 2^64; the buffer [message] is kept as its 136 bytes, since
    the code writes it through [char*].  Sizes are natural numbers: they are far below 2^32. *)
From Coq Require Import Arith ZArith NArith List Bool Lia Ring.
From Verif Require Import Base Codec Tcp A23Int A23Aes Sha3Spec.
Import ListNotations.
Open Scope N_scope.

(** a23/sha3/byte_order.h:164; the shift of a [uint64_t] to the left drops bits *)
Definition ROTL64 (q n : N) : N := N.lxor (N.shiftl q n mod 2 ^ 64) (N.shiftr q (64 - n)).
(** [~q] *)
Definition not64 (q : N) : N := N.lxor q (2 ^ 64 - 1).
(** [A[i] ^= v] *)
Definition xor_at (A : list N) (i : nat) (v : N) : option (list N) := do a <- at_n A i; put_n A i (N.lxor a v).
(** sha3.c:89-108; C and D are static arrays, all of whose elements are written first *)
Definition keccak_theta (A : list N) : option (list N) :=
  do C <- for_ 5 (fun x C =>
    do a0 <- at_n A x; do a1 <- at_n A (x + 5); do a2 <- at_n A (x + 10); do a3 <- at_n A (x + 15); do a4 <- at_n A (x + 20);
    put_n C x (N.lxor (N.lxor (N.lxor (N.lxor a0 a1) a2) a3) a4)) [0; 0; 0; 0; 0];
  do c0 <- at_n C 0; do c1 <- at_n C 1; do c2 <- at_n C 2; do c3 <- at_n C 3; do c4 <- at_n C 4;
  let D := [N.lxor (ROTL64 c1 1) c4; N.lxor (ROTL64 c2 1) c0; N.lxor (ROTL64 c3 1) c1; N.lxor (ROTL64 c4 1) c2; N.lxor (ROTL64 c0 1) c3] in
  for_ 5 (fun x A =>
    do d <- at_n D x;
    do A <- xor_at A x d; do A <- xor_at A (x + 5) d; do A <- xor_at A (x + 10) d; do A <- xor_at A (x + 15) d;
    xor_at A (x + 20) d) A.
(** sha3.c:160-183: the lanes and how far they are rotated *)
Definition rho_steps : list (nat * N) := [
  (1%nat, 1); (2%nat, 62); (3%nat, 28); (4%nat, 27); (5%nat, 36); (6%nat, 44); (7%nat, 6); (8%nat, 55); (9%nat, 20); (10%nat, 3); (11%nat, 10); (12%nat, 43);
  (13%nat, 25); (14%nat, 39); (15%nat, 41); (16%nat, 45); (17%nat, 15); (18%nat, 21); (19%nat, 8); (20%nat, 18); (21%nat, 2); (22%nat, 61); (23%nat, 56); (24%nat, 14)].
Fixpoint rotate_lanes (steps : list (nat * N)) (A : list N) : option (list N) :=
  match steps with
  | [] => Some A
  | (i, n) :: steps => do a <- at_n A i; do A <- put_n A i (ROTL64 a n); rotate_lanes steps A
  end.
(** sha3.c:114-136: [A[i] = A[j]] *)
Definition pi_steps : list (nat * nat) := [
  (1, 6); (6, 9); (9, 22); (22, 14); (14, 20); (20, 2); (2, 12); (12, 13); (13, 19); (19, 23); (23, 15); (15, 4);
  (4, 24); (24, 21); (21, 8); (8, 16); (16, 5); (5, 3); (3, 18); (18, 17); (17, 11); (11, 7); (7, 10)]%nat.
Fixpoint move_lanes (steps : list (nat * nat)) (A : list N) : option (list N) :=
  match steps with
  | [] => Some A
  | (i, j) :: steps => do a <- at_n A j; do A <- put_n A i a; move_lanes steps A
  end.
(** sha3.c:111-139 *)
Definition keccak_pi (A : list N) : option (list N) :=
  do A1 <- at_n A 1; do A <- move_lanes pi_steps A; put_n A 10 A1.
(** sha3.c:142-152 *)
Definition keccak_chi (A : list N) : option (list N) :=
  for_ 5 (fun k A =>
    let i := (5 * k)%nat in
    do A0 <- at_n A (0 + i); do A1 <- at_n A (1 + i);
    do a <- at_n A (2 + i); do A <- xor_at A (0 + i) (N.land (not64 A1) a);
    do a <- at_n A (2 + i); do b <- at_n A (3 + i); do A <- xor_at A (1 + i) (N.land (not64 a) b);
    do a <- at_n A (3 + i); do b <- at_n A (4 + i); do A <- xor_at A (2 + i) (N.land (not64 a) b);
    do a <- at_n A (4 + i); do A <- xor_at A (3 + i) (N.land (not64 a) A0);
    xor_at A (4 + i) (N.land (not64 A0) A1)) A.
(** sha3.c:69-76 *)
Definition round_constants : list N := [
  0x0000000000000001; 0x0000000000008082; 0x800000000000808A; 0x8000000080008000;
  0x000000000000808B; 0x0000000080000001; 0x8000000080008081; 0x8000000000008009;
  0x000000000000008A; 0x0000000000000088; 0x0000000080008009; 0x000000008000000A;
  0x000000008000808B; 0x800000000000008B; 0x8000000000008089; 0x8000000000008003;
  0x8000000000008002; 0x8000000000000080; 0x000000000000800A; 0x800000008000000A;
  0x8000000080008081; 0x8000000000008080; 0x0000000080000001; 0x8000000080008008].
(** sha3.c:157-189 *)
Definition keccak_round (round : nat) (state : list N) : option (list N) :=
  do state <- keccak_theta state;
  do state <- rotate_lanes rho_steps state;
  do state <- keccak_pi state;
  do state <- keccak_chi state;
  do c <- at_n round_constants round;
  xor_at state 0 c.
(** sha3.c:154-191 *)
Definition sha3_permutation (state : list N) : option (list N) := for_ 24 keccak_round state.

(** sha3.c:52-61 *)
Record sha3_ctx := Ctx { hash : list N; message : list N; rest : nat }.
(** [message[i]] as a number of 64 bits *)
Definition qword (m : list N) (i : nat) : option N :=
  if (8 * i + 8 <=? length m)%nat then Some (of_le (firstn 8 (skipn (8 * i) m))) else None.
(** sha3.c:197-218 *)
Definition process_block (c : sha3_ctx) : option sha3_ctx :=
  do h <- for_ 17 (fun i h => do q <- qword (message c) i; xor_at h i q) (hash c);
  do h <- sha3_permutation h;
  Some (Ctx h (message c) (rest c)).
(** sha3.c:223-227; every turn takes off [b], so [a] turns are enough *)
Fixpoint mod_loop (fuel a b : nat) : nat :=
  match fuel with O => a | S fuel => if (b <? a)%nat then mod_loop fuel (a - b) b else a end.
Definition mod_ (a b : nat) : nat := mod_loop a a b.
(** sha3.c:33-39: copies [n] bytes of [src] to [dest + at] *)
Definition memcpy (dest : list N) (at_ : nat) (src : list N) (n : nat) : option (list N) :=
  for_ n (fun k dest => do b <- at_n src k; put_n dest (at_ + k) b) dest.
(** sha3.c:238-275 *)
Definition sha3_update (msg : list N) (c : sha3_ctx) : option sha3_ctx :=
  let size := length msg in
  let index := rest c in
  let rest' := mod_ (rest c + size) 136 in
  let save m := do m <- (if (size =? 0)%nat then Some m else memcpy m 0 msg size); Some (Ctx (hash c) m rest') in
  if (index =? 0)%nat then save (message c)
  else
    let left := (136 - index)%nat in
    do m <- memcpy (message c) index msg (if (size <? left)%nat then size else left);
    if (size <? left)%nat then Some (Ctx (hash c) m rest') else save m.
(** sha3.c:282-300; the result is the first 32 bytes of [hash] *)
Definition sha3_final (c : sha3_ctx) : option (list N) :=
  do m <- for_from (fun k m => put_n m k 0) (rest c) (136 - rest c) (message c);
  do b <- at_n m (rest c); do m <- put_n m (rest c) (N.lor b 0x06);
  do b <- at_n m 135; do m <- put_n m 135 (N.lor b 0x80);
  do c <- process_block (Ctx (hash c) m (rest c));
  Some (firstn 32 (flat_map (le 8) (hash c))).
Fixpoint sha3_updates (chunks : list (list N)) (c : sha3_ctx) : option sha3_ctx :=
  match chunks with
  | [] => Some c
  | m :: chunks => do c <- sha3_update m c; sha3_updates chunks c
  end.
(** A static variable is zero at the start (sha3.c:63; the initialisation is commented
    out); the contents of [message] do not matter. *)
Definition sha3_start (m : list N) : sha3_ctx := Ctx (repeat 0 25) m 0.
Definition sha3_chunks (chunks : list (list N)) (m : list N) : option (list N) :=
  do c <- sha3_updates chunks (sha3_start m); sha3_final c.
(** sha3.c:302-312 *)
Definition sha3_main (g e : list Z) : option (list Z) :=
  do out <- sha3_chunks [ints_to_bytes g; ints_to_bytes e] (repeat 0 136); Some (bytes_to_ints out).

(** * Words *)
Definition w64 (q : N) : Prop := forall z, 64 <= z -> N.testbit q z = false.
Lemma w64_lt q : w64 q <-> q < 2 ^ 64.
Proof.
  split.
  - intros H. destruct (N.eq_dec q 0) as [->|NZ]; [reflexivity|]. apply N.log2_lt_pow2; [lia|].
    destruct (N.lt_ge_cases (N.log2 q) 64) as [|G]; [assumption|]. specialize (H _ G). rewrite N.bit_log2 in H by exact NZ. discriminate.
  - intros H z Z1. apply N.bits_above_log2. destruct (N.eq_dec q 0) as [->|NZ]; [cbn; lia|]. apply N.log2_lt_pow2 in H; lia.
Qed.
Lemma w64_lxor a b : w64 a -> w64 b -> w64 (N.lxor a b).
Proof. intros A B z Z1. rewrite N.lxor_spec, A, B by exact Z1. reflexivity. Qed.
Lemma w64_land a b : w64 b -> w64 (N.land a b).
Proof. intros B z Z1. rewrite N.land_spec, B by exact Z1. apply andb_false_r. Qed.
Lemma w64_0 : w64 0.
Proof. intros z _. apply N.bits_0. Qed.
Lemma rot_bit q n z : w64 q -> 0 < n < 64 -> z < 64 -> N.testbit (ROTL64 q n) z = N.testbit q ((z + (64 - n)) mod 64).
Proof.
  intros Q Hn Hz. unfold ROTL64. rewrite N.lxor_spec, N.mod_pow2_bits_low by exact Hz. rewrite N.shiftr_spec' by lia.
  destruct (N.lt_ge_cases z n) as [L|L].
  - rewrite N.shiftl_spec_low by exact L. cbn [xorb]. rewrite N.mod_small by lia. destruct (N.testbit q (z + (64 - n))); reflexivity.
  - rewrite N.shiftl_spec_high' by exact L. rewrite (Q (z + (64 - n))) by lia. rewrite xorb_false_r. f_equal.
    replace (z + (64 - n)) with (z - n + 1 * 64) by lia. rewrite N.mod_add by lia. symmetry. apply N.mod_small. lia.
Qed.
Lemma w64_rot q n : w64 q -> w64 (ROTL64 q n).
Proof.
  intros Q. unfold ROTL64. apply w64_lxor.
  - apply (proj2 (w64_lt _)). apply N.mod_lt. discriminate.
  - intros z Z1. rewrite N.shiftr_spec' . apply Q. lia.
Qed.
Lemma not_bit q z : z < 64 -> N.testbit (not64 q) z = negb (N.testbit q z).
Proof. intros H. unfold not64. rewrite N.lxor_spec. change (2 ^ 64 - 1) with (N.ones 64). rewrite N.ones_spec_low by exact H. apply xorb_true_r. Qed.

Local Opaque ROTL64 not64.

(** * The lanes of a string *)
Definition word_bits (q : N) : list bool := map (fun z => N.testbit q (N.of_nat z)) (seq 0 64).
Definition bits (A : list N) : list bool := flat_map word_bits A.
Lemma nth_word_bits q z : (z < 64)%nat -> nth z (word_bits q) false = N.testbit q (N.of_nat z).
Proof.
  intros H. unfold word_bits. rewrite (nth_indep _ false (N.testbit q (N.of_nat 0))) by (rewrite map_length, seq_length; exact H).
  rewrite (map_nth (fun z => N.testbit q (N.of_nat z))), seq_nth by exact H. reflexivity.
Qed.
Lemma nth_bits : forall A l z, (z < 64)%nat -> nth (64 * l + z) (bits A) false = N.testbit (nth l A 0) (N.of_nat z).
Proof.
  induction A as [|q A IH]; intros l z H.
  - unfold bits. cbn [flat_map]. destruct l; rewrite !nth_overflow by (cbn; lia); reflexivity.
  - unfold bits. cbn [flat_map]. fold (bits A). assert (L : length (word_bits q) = 64%nat) by reflexivity. destruct l as [|l].
    + rewrite app_nth1 by lia. apply nth_word_bits. exact H.
    + rewrite app_nth2 by lia. rewrite L. replace (64 * S l + z - 64)%nat with (64 * l + z)%nat by lia. cbn [nth]. apply IH, H.
Qed.
Lemma bit_bits A x y z : (z < 64)%nat -> bit_at (bits A) x y z = N.testbit (nth (5 * y + x) A 0) (N.of_nat z).
Proof. intros H. unfold bit_at, w. apply nth_bits, H. Qed.
Lemma string_bits f A : length A = 25%nat ->
  (forall x y z, (x < 5)%nat -> (y < 5)%nat -> (z < 64)%nat -> f x y z = N.testbit (nth (5 * y + x) A 0) (N.of_nat z)) -> string_of f = bits A.
Proof.
  intros L H. unfold string_of, bits.
  assert (E : A = map (fun l => nth l A 0) (seq 0 25)).
  { rewrite <- L. clear. induction A as [|a A IH]; [reflexivity|]. cbn [length seq map]. rewrite <- seq_shift, map_map. cbn [nth]. f_equal. exact IH. }
  rewrite E at 1. rewrite flat_map_concat_map, (flat_map_concat_map word_bits), map_map. f_equal. apply map_ext_in. intros l I. apply in_seq in I.
  unfold word_bits. apply map_ext_in. intros z Z1. apply in_seq in Z1. unfold w in Z1.
  pose proof (Nat.div_mod l 5 ltac:(lia)) as D. pose proof (Nat.mod_upper_bound l 5 ltac:(lia)) as M.
  rewrite H by lia. rewrite <- D. reflexivity.
Qed.

(** * The steps *)
Definition lanes (A : list N) : Prop := length A = 25%nat /\ Forall w64 A.
Ltac lanes_of A H := destruct H as [?L H];
  do 25 (destruct A as [|? A]; [discriminate|]); destruct A; [|discriminate];
  repeat match goal with H : Forall w64 (_ :: _) |- _ => inversion H; clear H; subst end.
Ltac words := repeat first [apply Forall_cons|apply Forall_nil|apply w64_lxor|apply w64_rot|apply w64_land|apply w64_0|assumption].
Ltac computed := match goal with |- exists A', ?t = Some A' /\ _ =>
  let r := eval cbv -[N.lxor N.land ROTL64 not64] in t in
  match r with Some ?A' => exists A'; split; [reflexivity|] end end.
Ltac by_lane x y tac := do 5 (destruct x as [|x]; [do 5 (destruct y as [|y]; [tac|]); lia|]); lia.
Local Opaque w.

Lemma theta_ok A : lanes A -> exists A', keccak_theta A = Some A' /\ lanes A' /\ bits A' = theta (bits A).
Proof.
  intros H. lanes_of A H. computed.
  split; [split; [reflexivity|words]|].
  symmetry. unfold theta. apply string_bits; [reflexivity|]. intros x y z X Y Hz.
  assert (ROT : forall q, w64 q -> N.testbit (ROTL64 q 1) (N.of_nat z) = N.testbit q (N.of_nat ((z + (w - 1)) mod w))).
  { intros q Q. rewrite rot_bit by (try exact Q; lia). f_equal. change w with 64%nat. rewrite Nat2N.inj_mod, Nat2N.inj_add. reflexivity. }
  assert (ZM : ((z + (w - 1)) mod w < 64)%nat) by (apply Nat.mod_upper_bound; discriminate).
  rewrite !bit_bits by assumption.
  by_lane x y ltac:(cbn [nth Nat.add Nat.mul Nat.modulo Nat.divmod fst snd Nat.sub]; rewrite !N.lxor_spec, ROT by (words); rewrite !N.lxor_spec; ring).
Qed.
Lemma offset_rot z n : (z < 64)%nat -> (n < 64)%nat -> forall q, w64 q -> 0 < N.of_nat n ->
  N.testbit (ROTL64 q (N.of_nat n)) (N.of_nat z) = N.testbit q (N.of_nat ((z + (64 - n)) mod 64)).
Proof.
  intros Hz Hn q Q P. rewrite rot_bit by (try exact Q; lia). f_equal. rewrite Nat2N.inj_mod, Nat2N.inj_add, Nat2N.inj_sub. reflexivity.
Qed.
Definition offsets : list nat := [0; 1; 62; 28; 27; 36; 44; 6; 55; 20; 3; 10; 43; 25; 39; 41; 45; 15; 21; 8; 18; 2; 61; 56; 14]%nat.
Lemma offset_table x y : (x < 5)%nat -> (y < 5)%nat -> (offset x y mod w)%nat = nth (5 * y + x) offsets 0%nat.
Proof. intros X Y. by_lane x y ltac:(vm_compute; reflexivity). Qed.
Lemma rho_ok A : lanes A -> exists A', rotate_lanes rho_steps A = Some A' /\ lanes A' /\ bits A' = rho (bits A).
Proof.
  intros H. lanes_of A H. computed.
  split; [split; [reflexivity|words]|].
  symmetry. unfold rho. apply string_bits; [reflexivity|]. intros x y z X Y Hz.
  rewrite offset_table by assumption. rewrite bit_bits by (apply Nat.mod_upper_bound; discriminate). change w with 64%nat. unfold offsets.
  destruct x as [|x]; [destruct y as [|y]|].
  - cbn [nth Nat.add Nat.mul]. f_equal. f_equal. change (64 - 0)%nat with (1 * 64)%nat. rewrite (Nat.mod_add z 1 64) by discriminate. apply Nat.mod_small, Hz.
  - do 4 (destruct y as [|y]; [cbn [nth Nat.add Nat.mul]; symmetry; match goal with |- N.testbit (ROTL64 _ ?k) _ = _ => change k with (N.of_nat (N.to_nat k)) end; apply offset_rot; [exact Hz|apply Nat.ltb_lt; reflexivity|words|reflexivity]|]). lia.
  - do 4 (destruct x as [|x]; [do 5 (destruct y as [|y]; [cbn [nth Nat.add Nat.mul]; symmetry; match goal with |- N.testbit (ROTL64 _ ?k) _ = _ => change k with (N.of_nat (N.to_nat k)) end; apply offset_rot; [exact Hz|apply Nat.ltb_lt; reflexivity|words|reflexivity]|]); lia|]). lia.
Qed.
Lemma pi_ok A : lanes A -> exists A', keccak_pi A = Some A' /\ lanes A' /\ bits A' = pi (bits A).
Proof.
  intros H. lanes_of A H. computed.
  split; [split; [reflexivity|words]|].
  symmetry. unfold pi. apply string_bits; [reflexivity|]. intros x y z X Y Hz. rewrite bit_bits by exact Hz.
  by_lane x y ltac:(reflexivity).
Qed.
Lemma chi_ok A : lanes A -> exists A', keccak_chi A = Some A' /\ lanes A' /\ bits A' = chi (bits A).
Proof.
  intros H. lanes_of A H. computed.
  split; [split; [reflexivity|words]|].
  symmetry. unfold chi. apply string_bits; [reflexivity|]. intros x y z X Y Hz. rewrite !bit_bits by exact Hz.
  by_lane x y ltac:(cbn [nth Nat.add Nat.mul Nat.modulo Nat.divmod fst snd Nat.sub]; rewrite N.lxor_spec, N.land_spec, not_bit by lia; reflexivity).
Qed.
Lemma constants_ok : forallb (fun ir => forallb (fun z => Bool.eqb (N.testbit (nth ir round_constants 0) (N.of_nat z)) (RC ir z)) (seq 0 64)) (seq 0 24) = true.
Proof. vm_compute. reflexivity. Qed.
Lemma constant_ok ir z : (ir < 24)%nat -> (z < 64)%nat -> N.testbit (nth ir round_constants 0) (N.of_nat z) = RC ir z.
Proof.
  intros I Z1. pose proof constants_ok as H. rewrite forallb_forall in H. specialize (H ir). rewrite forallb_forall in H.
  apply eqb_prop, H; apply in_seq; lia.
Qed.
Lemma constants_w64 : Forall w64 round_constants.
Proof. unfold round_constants. repeat first [apply Forall_cons|apply Forall_nil|apply (proj2 (w64_lt _)); reflexivity]. Qed.
Lemma iota_ok A ir : lanes A -> (ir < 24)%nat ->
  exists A', (do c <- at_n round_constants ir; xor_at A 0 c) = Some A' /\ lanes A' /\ bits A' = iota ir (bits A).
Proof.
  intros H I. rewrite at_n_ok by exact I. cbn [obind].
  assert (C : w64 (nth ir round_constants 0)) by (apply Forall_nth; [exact constants_w64|exact I]).
  pose proof (fun z => constant_ok ir z I) as R. set (c := nth ir round_constants 0) in *. clearbody c.
  lanes_of A H. unfold xor_at. rewrite at_n_ok by (cbn [length]; lia). cbn [obind nth]. rewrite put_n_ok by (cbn [length]; lia). cbn [upd_nat]. eexists. split; [reflexivity|]. split; [split; [reflexivity|words]|].
  symmetry. unfold iota. apply string_bits; [reflexivity|]. intros x y z X Y Hz. rewrite !bit_bits by exact Hz. rewrite <- R by exact Hz.
  by_lane x y ltac:(cbn [nth Nat.add Nat.mul Nat.eqb andb]; rewrite ?N.lxor_spec; reflexivity).
Qed.
Local Opaque keccak_theta rho_steps keccak_pi keccak_chi theta rho pi chi iota.
Lemma round_ok A ir : lanes A -> (ir < 24)%nat -> exists A', keccak_round ir A = Some A' /\ lanes A' /\ bits A' = Rnd ir (bits A).
Proof.
  intros H I. unfold keccak_round.
  destruct (theta_ok A H) as (A1 & -> & H1 & E1). cbn [obind].
  destruct (rho_ok A1 H1) as (A2 & -> & H2 & E2). cbn [obind].
  destruct (pi_ok A2 H2) as (A3 & -> & H3 & E3). cbn [obind].
  destruct (chi_ok A3 H3) as (A4 & -> & H4 & E4). cbn [obind].
  destruct (iota_ok A4 ir H4 I) as (A5 & X & H5 & E5). exists A5. split; [exact X|]. split; [exact H5|].
  unfold Rnd. rewrite E5, E4, E3, E2, E1. reflexivity.
Qed.
Lemma permutation_ok A : lanes A -> exists A', sha3_permutation A = Some A' /\ lanes A' /\ bits A' = keccak_f (bits A).
Proof.
  intros H. unfold sha3_permutation.
  destruct (for_inv (fun k A' => lanes A' /\ bits A' = fold_left (fun S ir => Rnd ir S) (seq 0 k) (bits A)) 24 keccak_round A) as (A' & F & L & B).
  - split; [exact H|reflexivity].
  - intros i A' I [L B]. destruct (round_ok A' i L I) as (A2 & X & L2 & B2). exists A2. split; [exact X|]. split; [exact L2|].
    rewrite seq_S, fold_left_app. cbn [fold_left Nat.add]. rewrite B2, B. reflexivity.
  - exists A'. split; [exact F|]. split; [exact L|exact B].
Qed.
Local Opaque sha3_permutation keccak_f.

(** * Bytes and words *)
Lemma nth_byte_bits : forall l i k, (k < 8)%nat -> nth (8 * i + k) (byte_bits l) false = N.testbit (nth i l 0) (N.of_nat k).
Proof.
  induction l as [|b l IH]; intros i k H.
  - unfold byte_bits. cbn [flat_map]. destruct i; rewrite !nth_overflow by (cbn; lia); reflexivity.
  - unfold byte_bits. cbn [flat_map]. fold (byte_bits l). set (u := map _ _). assert (L : length u = 8%nat) by reflexivity. destruct i as [|i].
    + rewrite app_nth1 by lia. subst u. cbn [Nat.mul Nat.add nth]. do 8 (destruct k as [|k]; [reflexivity|]). lia.
    + rewrite app_nth2 by lia. rewrite L. replace (8 * S i + k - 8)%nat with (8 * i + k)%nat by lia. cbn [nth]. apply IH, H.
Qed.
Lemma byte_bits_length l : length (byte_bits l) = (8 * length l)%nat.
Proof. induction l as [|b l IH]; [reflexivity|]. unfold byte_bits. cbn [flat_map]. fold (byte_bits l). rewrite app_length, IH, map_length, seq_length. cbn [length]. lia. Qed.
Lemma byte_bits_app a b : byte_bits (a ++ b) = byte_bits a ++ byte_bits b.
Proof. apply flat_map_app. Qed.
Lemma bits_length A : length (bits A) = (64 * length A)%nat.
Proof. induction A as [|b l IH]; [reflexivity|]. unfold bits. cbn [flat_map]. fold (bits l). rewrite app_length, IH. change (length (word_bits b)) with 64%nat. cbn [length]. lia. Qed.
Lemma of_le_bit : forall l i k, Forall is_byte l -> (k < 8)%nat -> N.testbit (of_le l) (N.of_nat (8 * i + k)) = N.testbit (nth i l 0) (N.of_nat k).
Proof.
  induction l as [|b l IH]; intros i k B H; [destruct i; reflexivity|]. inversion B as [|? ? B1 B2]; subst. unfold is_byte in B1. cbn [of_le].
  destruct i as [|i].
  - cbn [Nat.mul Nat.add nth]. rewrite <- (N.mod_pow2_bits_low (b + 256 * of_le l) 8) by lia. change (2 ^ 8) with 256.
    rewrite (N.mul_comm 256), N.mod_add by discriminate. rewrite N.mod_small by exact B1. reflexivity.
  - cbn [nth]. rewrite <- (IH i k B2 H). replace (N.of_nat (8 * S i + k)) with (N.of_nat (8 * i + k) + 8) by lia.
    rewrite <- N.div_pow2_bits. f_equal. change (2 ^ 8) with 256. rewrite (N.mul_comm 256), N.div_add by discriminate. rewrite N.div_small by exact B1. apply N.add_0_l.
Qed.
Lemma nth_window {A} (d : A) : forall n l k i, (i < n)%nat -> nth i (firstn n (skipn k l)) d = nth (k + i) l d.
Proof.
  intros n l k. revert l. induction k as [|k IH]; intros l i H.
  - cbn [skipn Nat.add]. revert l i H. induction n as [|n IHn]; intros l i H; [lia|]. destruct l as [|x l]; [destruct i; reflexivity|]. cbn [firstn]. destruct i as [|i]; [reflexivity|]. cbn [nth]. apply IHn. lia.
  - destruct l as [|x l]; [cbn [skipn]; rewrite firstn_nil; destruct i; reflexivity|]. cbn [skipn Nat.add nth]. apply IH, H.
Qed.
Lemma seq_plus : forall j a, map (fun k => (k + 8)%nat) (seq a j) = seq (a + 8) j.
Proof. induction j as [|j IH]; intros a; [reflexivity|]. cbn [seq map]. f_equal. apply IH. Qed.
Lemma le_bits : forall n q, byte_bits (le n q) = map (fun z => N.testbit q (N.of_nat z)) (seq 0 (8 * n)).
Proof.
  induction n as [|n IH]; intros q; [reflexivity|]. cbn [le]. unfold byte_bits. cbn [flat_map]. fold (byte_bits (le n (q / 256))). rewrite IH.
  replace (8 * S n)%nat with (8 + 8 * n)%nat by lia. rewrite seq_app, map_app. f_equal.
  - apply map_ext_in. intros k K. apply in_seq in K. change 256 with (2 ^ 8). apply N.mod_pow2_bits_low. lia.
  - rewrite <- seq_plus, map_map. apply map_ext. intros k. change 256 with (2 ^ 8). rewrite N.div_pow2_bits. f_equal. lia.
Qed.
Lemma words_bytes A : byte_bits (flat_map (le 8) A) = bits A.
Proof. induction A as [|q A IH]; [reflexivity|]. cbn [flat_map]. rewrite byte_bits_app, IH, le_bits. reflexivity. Qed.
Lemma byte_bits_firstn : forall n l, byte_bits (firstn n l) = firstn (8 * n) (byte_bits l).
Proof.
  induction n as [|n IH]; intros l; [reflexivity|]. destruct l as [|b l]; [cbn [firstn]; rewrite firstn_nil; reflexivity|].
  cbn [firstn]. unfold byte_bits. cbn [flat_map]. fold (byte_bits (firstn n l)) (byte_bits l). rewrite IH. replace (8 * S n)%nat with (8 + 8 * n)%nat by lia.
  set (u := map _ _). change 8%nat with (length u) at 2. symmetry. apply firstn_app_2.
Qed.

(** * Absorbing the block *)
Lemma qword_ok m i : length m = 136%nat -> (i < 17)%nat -> qword m i = Some (of_le (firstn 8 (skipn (8 * i) m))).
Proof. intros L H. unfold qword. rewrite L. destruct (Nat.leb_spec (8 * i + 8) 136); [reflexivity|lia]. Qed.
Lemma window_byte (m : list N) k : Forall is_byte m -> Forall is_byte (firstn 8 (skipn k m)).
Proof.
  intros H. rewrite <- (firstn_skipn k m) in H. apply Forall_app in H as [_ H].
  rewrite <- (firstn_skipn 8 (skipn k m)) in H. apply Forall_app in H as [H _]. exact H.
Qed.
Lemma qword_w64 m k : Forall is_byte m -> w64 (of_le (firstn 8 (skipn k m))).
Proof.
  intros H. apply (proj2 (w64_lt _)). eapply N.lt_le_trans; [apply of_le_bound, window_byte, H|].
  change (2 ^ 64) with (256 ^ 8). apply N.pow_le_mono_r; [discriminate|]. pose proof (firstn_le_length 8 (skipn k m)). lia.
Qed.
Lemma nth_xor_strings a b i : length a = length b -> (i < length a)%nat -> nth i (xor_strings a b) false = xorb (nth i a false) (nth i b false).
Proof.
  intros L H. unfold xor_strings. rewrite (nth_indep _ false (xorb (fst (false, false)) (snd (false, false)))) by (rewrite map_length, combine_length; lia).
  rewrite (map_nth (fun p => xorb (fst p) (snd p))), combine_nth by exact L. reflexivity.
Qed.
Lemma absorb_ok h m : lanes h -> length m = 136%nat -> Forall is_byte m ->
  exists h', for_ 17 (fun i h => do q <- qword m i; xor_at h i q) h = Some h' /\ lanes h' /\
    bits h' = xor_strings (bits h) (byte_bits m ++ repeat false 512).
Proof.
  intros [HL HW] L B.
  destruct (for_inv (fun k h' => lanes h' /\ forall l, (l < 25)%nat -> nth l h' 0 = N.lxor (nth l h 0) (if (l <? k)%nat then of_le (firstn 8 (skipn (8 * l) m)) else 0))
    17 (fun i h => do q <- qword m i; xor_at h i q) h) as (h' & F & [L' W'] & V).
  - split; [split; assumption|]. intros l _. symmetry. apply N.lxor_0_r.
  - intros i h1 I [[L1 W1] V]. rewrite qword_ok by assumption. cbn [obind]. unfold xor_at. rewrite at_n_ok by lia. cbn [obind]. rewrite put_n_ok by lia.
    eexists. split; [reflexivity|].
    assert (N_ : forall l, (l < 25)%nat -> nth l (upd_nat h1 i (N.lxor (nth i h1 0) (of_le (firstn 8 (skipn (8 * i) m))))) 0
      = if (l =? i)%nat then N.lxor (nth i h1 0) (of_le (firstn 8 (skipn (8 * i) m))) else nth l h1 0).
    { intros l Hl. erewrite nth_error_nth; [|rewrite nth_upd_nat by lia; instantiate (1 := if (l =? i)%nat then _ else nth l h1 0)]; [reflexivity|].
      destruct (l =? i)%nat; [reflexivity|]. apply nth_error_nth'. lia. }
    split; [split; [rewrite upd_nat_length; exact L1|]|].
    + apply Forall_forall. intros x X. apply (In_nth _ _ 0) in X as (l & Hl & <-). rewrite upd_nat_length in Hl. rewrite N_ by lia.
      rewrite Forall_forall in W1. destruct (l =? i)%nat; [apply w64_lxor; [apply W1, nth_In; lia|apply qword_w64, B]|apply W1, nth_In; lia].
    + intros l Hl. rewrite N_ by exact Hl. destruct (Nat.eqb_spec l i) as [->|NE].
      * rewrite V by lia. rewrite Nat.ltb_irrefl, N.lxor_0_r. destruct (Nat.ltb_spec i (S i)); [reflexivity|lia].
      * rewrite V by exact Hl. destruct (Nat.ltb_spec l i), (Nat.ltb_spec l (S i)); try lia; reflexivity.
  - exists h'. split; [exact F|]. split; [split; assumption|].
    assert (LL : length (byte_bits m ++ repeat false 512) = 1600%nat) by (rewrite app_length, byte_bits_length, L, repeat_length; reflexivity).
    assert (LB : length (bits h) = 1600%nat) by (rewrite bits_length, HL; reflexivity).
    apply (nth_ext _ _ false false).
    { unfold xor_strings. rewrite map_length, combine_length, bits_length, L', LL, LB. reflexivity. }
    intros i I. rewrite bits_length, L' in I. rewrite nth_xor_strings by lia.
    pose proof (Nat.div_mod i 64 ltac:(discriminate)) as D. pose proof (Nat.mod_upper_bound i 64 ltac:(discriminate)) as M.
    set (l := (i / 64)%nat) in *. set (z := (i mod 64)%nat) in *. clearbody l z. subst i.
    rewrite !nth_bits by exact M. rewrite V by lia. rewrite N.lxor_spec. f_equal.
    destruct (Nat.ltb_spec l 17) as [LT|GE].
    + rewrite app_nth1 by (rewrite byte_bits_length, L; lia).
      pose proof (Nat.div_mod z 8 ltac:(discriminate)) as D. pose proof (Nat.mod_upper_bound z 8 ltac:(discriminate)) as M8.
      set (b := (z / 8)%nat) in *. set (k := (z mod 8)%nat) in *. clearbody b k. subst z.
      rewrite of_le_bit by (try exact M8; apply window_byte, B). replace (64 * l + (8 * b + k))%nat with (8 * (8 * l + b) + k)%nat by lia.
      rewrite nth_byte_bits by exact M8. rewrite nth_window by lia. reflexivity.
    + rewrite app_nth2 by (rewrite byte_bits_length, L; lia). rewrite nth_repeat. reflexivity.
Qed.
Lemma block_ok h m r : lanes h -> length m = 136%nat -> Forall is_byte m ->
  exists h', process_block (Ctx h m r) = Some (Ctx h' m r) /\ lanes h' /\ bits h' = keccak_f (xor_strings (bits h) (byte_bits m ++ repeat false 512)).
Proof.
  intros H L B. unfold process_block. cbn [message hash rest]. destruct (absorb_ok h m H L B) as (h1 & -> & H1 & E1). cbn [obind].
  destruct (permutation_ok h1 H1) as (h2 & -> & H2 & E2). cbn [obind]. exists h2. split; [reflexivity|]. split; [exact H2|]. rewrite E2, E1. reflexivity.
Qed.

(** * The buffer *)
Lemma upd_app {A} (a : list A) x b v : upd_nat (a ++ x :: b) (length a) v = a ++ v :: b.
Proof. induction a as [|y a IH]; [reflexivity|]. cbn [app length upd_nat]. rewrite IH. reflexivity. Qed.
Lemma upd_at {A} (a : list A) x b v n : n = length a -> upd_nat (a ++ x :: b) n v = a ++ v :: b.
Proof. intros ->. apply upd_app. Qed.
Lemma skipn_cons (l : list N) k : (k < length l)%nat -> skipn k l = nth k l 0 :: skipn (S k) l.
Proof. revert l. induction k as [|k IH]; intros [|x l] H; cbn [length] in H; try lia; [reflexivity|]. cbn [skipn nth]. apply IH. lia. Qed.
Lemma firstn_snoc (l : list N) k : (k < length l)%nat -> firstn (S k) l = firstn k l ++ [nth k l 0].
Proof. revert l. induction k as [|k IH]; intros [|x l] H; cbn [length] in H; try lia; [reflexivity|]. cbn [firstn nth app]. f_equal. apply IH. lia. Qed.
Lemma memcpy_ok dest a src n : (a + n <= length dest)%nat -> (n <= length src)%nat ->
  memcpy dest a src n = Some (firstn a dest ++ firstn n src ++ skipn (a + n) dest).
Proof.
  unfold memcpy. induction n as [|n IH]; intros D S_.
  - rewrite for_0. cbn [firstn app]. rewrite Nat.add_0_r, firstn_skipn. reflexivity.
  - rewrite for_S, IH by lia. cbn [obind]. rewrite at_n_ok by lia. cbn [obind].
    rewrite put_n_ok by (rewrite !app_length, !firstn_length, skipn_length; lia). f_equal.
    rewrite (skipn_cons dest (a + n)) by lia. rewrite app_assoc.
    rewrite upd_at by (rewrite app_length, !firstn_length; lia). rewrite firstn_snoc by lia. rewrite <- !app_assoc. cbn [app]. rewrite Nat.add_succ_r. reflexivity.
Qed.
Lemma memset_ok m r k : (r + k <= length m)%nat -> for_from (fun k m => put_n m k 0) r k m = Some (firstn r m ++ repeat 0 k ++ skipn (r + k) m).
Proof.
  induction k as [|k IH]; intros H.
  - cbn [for_from repeat app]. rewrite Nat.add_0_r, firstn_skipn. reflexivity.
  - rewrite for_from_S, IH by lia. cbn [obind]. rewrite put_n_ok by (rewrite !app_length, firstn_length, skipn_length, repeat_length; lia). f_equal.
    rewrite (skipn_cons m (r + k)) by lia. rewrite app_assoc.
    rewrite upd_at by (rewrite app_length, firstn_length, repeat_length; lia). rewrite <- !app_assoc. f_equal. rewrite Nat.add_succ_r. cbn [repeat]. rewrite (repeat_cons k 0), <- app_assoc. reflexivity.
Qed.
Lemma mod_small a b : (a <= b)%nat -> mod_ a b = a.
Proof. intros H. unfold mod_. destruct a as [|a]; [reflexivity|]. cbn [mod_loop]. destruct (Nat.ltb_spec b (S a)); [lia|reflexivity]. Qed.
Definition holds (msg : list N) (c : sha3_ctx) : Prop :=
  hash c = repeat 0 25 /\ length (message c) = 136%nat /\ rest c = length msg /\ firstn (length msg) (message c) = msg.
Lemma update_ok done msg c : holds done c -> (length (done ++ msg) < 136)%nat ->
  exists c', sha3_update msg c = Some c' /\ holds (done ++ msg) c'.
Proof.
  intros (H & L & R & F) B. rewrite app_length in B. unfold sha3_update. rewrite R.
  rewrite mod_small by lia.
  assert (LD : forall m', m' = firstn (length done) (message c) ++ firstn (length msg) msg ++ skipn (length done + length msg) (message c) ->
    holds (done ++ msg) (Ctx (hash c) m' (length done + length msg))).
  { intros m' ->. rewrite F, firstn_all. split; [exact H|]. cbn [message rest]. split; [rewrite !app_length, skipn_length; lia|]. rewrite app_length. split; [reflexivity|].
    rewrite app_assoc, <- app_length. rewrite firstn_app, firstn_all, Nat.sub_diag. cbn [firstn]. apply app_nil_r. }
  destruct (Nat.eqb_spec (length done) 0) as [Z1|NZ].
  - destruct (Nat.eqb_spec (length msg) 0) as [Z2|NZ2].
    + cbn [obind]. eexists. split; [reflexivity|]. apply LD. rewrite Z1, Z2. reflexivity.
    + rewrite memcpy_ok by lia. cbn [obind]. eexists. split; [reflexivity|]. apply LD. rewrite Z1. reflexivity.
  - destruct (Nat.ltb_spec (length msg) (136 - length done)); [|lia]. rewrite memcpy_ok by lia. cbn [obind]. eexists. split; [reflexivity|]. apply LD. reflexivity.
Qed.
Lemma updates_ok : forall chunks done c, holds done c -> (length (done ++ concat chunks) < 136)%nat ->
  exists c', sha3_updates chunks c = Some c' /\ holds (done ++ concat chunks) c'.
Proof.
  induction chunks as [|msg chunks IH]; intros done c H B.
  - exists c. cbn [concat]. rewrite app_nil_r. split; [reflexivity|exact H].
  - cbn [concat] in *. destruct (update_ok done msg c H) as (c1 & U & H1); [rewrite !app_length in *; lia|].
    cbn [sha3_updates]. rewrite U. cbn [obind]. rewrite app_assoc in B |- *. apply IH; assumption.
Qed.
(** The block that is processed. *)
Definition last_block (msg : list N) : list N :=
  if (length msg =? 135)%nat then msg ++ [0x86] else msg ++ [0x06] ++ repeat 0 (134 - length msg) ++ [0x80].
Lemma last_block_length msg : (length msg < 136)%nat -> length (last_block msg) = 136%nat.
Proof. intros H. unfold last_block. destruct (Nat.eqb_spec (length msg) 135) as [E|E]; rewrite !app_length, ?repeat_length; cbn [length]; lia. Qed.
Lemma last_block_byte msg : Forall is_byte msg -> Forall is_byte (last_block msg).
Proof.
  intros H. unfold last_block. destruct (Nat.eqb_spec (length msg) 135) as [E|E]; repeat (apply Forall_app; split); try assumption;
  repeat first [apply Forall_cons; [reflexivity|]|apply Forall_nil]. apply Forall_forall. intros x X. apply repeat_spec in X. subst. reflexivity.
Qed.
Lemma repeat_false_app a b : repeat false a ++ repeat false b = repeat false (a + b).
Proof. symmetry. apply repeat_app. Qed.
Lemma zero_bytes k : byte_bits (repeat 0 k) = repeat false (8 * k).
Proof. induction k as [|k IH]; [reflexivity|]. cbn [repeat]. unfold byte_bits. cbn [flat_map]. fold (byte_bits (repeat 0 k)). rewrite IH. change (map _ _) with (repeat false 8). rewrite repeat_false_app. f_equal. lia. Qed.
Lemma last_block_bits msg : (length msg < 136)%nat ->
  byte_bits (last_block msg) = (byte_bits msg ++ [false; true]) ++ pad101 1088 (length (byte_bits msg ++ [false; true])).
Proof.
  intros H. rewrite app_length, byte_bits_length. cbn [length]. unfold pad101.
  rewrite (Nat.mod_small (8 * length msg + 2 + 2) 1088) by lia. rewrite (Nat.mod_small (1088 - _) 1088) by lia.
  rewrite <- app_assoc. cbn [app]. unfold last_block. destruct (Nat.eqb_spec (length msg) 135) as [E|E].
  - rewrite byte_bits_app. f_equal. rewrite E. reflexivity.
  - rewrite byte_bits_app. f_equal. rewrite byte_bits_app, byte_bits_app, zero_bytes.
    change (byte_bits [6]) with ([false; true; true] ++ repeat false 5). change (byte_bits [128]) with (repeat false 7 ++ [true]).
    rewrite <- app_assoc. cbn [app]. do 3 f_equal. rewrite !app_assoc, !repeat_false_app. do 2 f_equal. lia.
Qed.
Lemma final_block msg c : holds msg c -> (length msg < 136)%nat ->
  exists m, for_from (fun k m => put_n m k 0) (rest c) (136 - rest c) (message c) = Some m /\
    (do b <- at_n m (rest c); do m <- put_n m (rest c) (N.lor b 0x06); do b <- at_n m 135; put_n m 135 (N.lor b 0x80)) = Some (last_block msg).
Proof.
  intros (H & L & R & F) B. rewrite R. rewrite memset_ok by lia. rewrite F. rewrite skipn_all2 by lia. rewrite app_nil_r.
  eexists. split; [reflexivity|]. remember (136 - length msg)%nat as k eqn:K. destruct k as [|k]; [lia|].
  rewrite at_n_ok by (rewrite app_length, repeat_length; lia). cbn [obind]. rewrite app_nth2, Nat.sub_diag by lia. cbn [repeat nth N.lor].
  rewrite put_n_ok by (rewrite app_length; cbn [length]; rewrite repeat_length; lia). cbn [obind]. rewrite upd_app.
  rewrite at_n_ok by (rewrite app_length; cbn [length]; rewrite repeat_length; lia). cbn [obind].
  rewrite put_n_ok by (rewrite app_length; cbn [length]; rewrite repeat_length; lia). f_equal. unfold last_block.
  destruct (Nat.eqb_spec (length msg) 135) as [E|E].
  - assert (k = 0%nat) by lia. subst k. cbn [repeat]. rewrite (app_nth2 msg [6]) by lia. rewrite E. cbn [Nat.sub nth]. apply (upd_at msg 6 []). symmetry. exact E.
  - destruct k as [|k]; [lia|]. replace (134 - length msg)%nat with k by lia. rewrite (repeat_cons k 0) at 1 2.
    replace (msg ++ 6 :: repeat 0 k ++ [0]) with ((msg ++ 6 :: repeat 0 k) ++ [0]) by (rewrite <- app_assoc; reflexivity).
    assert (LL : length (msg ++ 6 :: repeat 0 k) = 135%nat) by (rewrite app_length; cbn [length]; rewrite repeat_length; lia).
    rewrite (app_nth2 (msg ++ 6 :: repeat 0 k) [0]) by lia. rewrite LL. cbn [Nat.sub nth N.lor]. rewrite (upd_at _ 0 []) by (symmetry; exact LL). rewrite <- app_assoc. reflexivity.
Qed.
Lemma bits_zero : bits (repeat 0 25) = repeat false 1600.
Proof. vm_compute. reflexivity. Qed.
Lemma final_ok msg c : holds msg c -> (length msg < 136)%nat -> Forall is_byte msg ->
  exists d, sha3_final c = Some d /\ length d = 32%nat /\ Forall is_byte d /\ byte_bits d = SHA3_256 (byte_bits msg).
Proof.
  intros HO B BY. destruct (final_block msg c HO B) as (m & M & LB). unfold sha3_final. rewrite M. cbn [obind].
  destruct (at_n m (rest c)) as [b|]; [|discriminate]. cbn [obind] in LB |- *.
  destruct (put_n m (rest c) (N.lor b 6)) as [m1|]; [|discriminate]. cbn [obind] in LB |- *.
  destruct (at_n m1 135) as [b1|]; [|discriminate]. cbn [obind] in LB |- *. rewrite LB. cbn [obind].
  destruct HO as (H & _). rewrite H.
  assert (Z0 : lanes (repeat 0 25)) by (split; [reflexivity|]; apply Forall_forall; intros x X; apply repeat_spec in X; subst; apply w64_0).
  destruct (block_ok (repeat 0 25) (last_block msg) (rest c) Z0 (last_block_length msg B) (last_block_byte msg BY)) as (h & -> & [HL HW] & HB). cbn [obind hash].
  assert (LE : length (flat_map (le 8) h) = 200%nat).
  { clear - HL. replace 200%nat with (8 * length h)%nat by (rewrite HL; reflexivity). clear. induction h as [|q h IH]; [reflexivity|]. cbn [flat_map]. rewrite app_length, IH, le_length. cbn [length]. lia. }
  eexists. split; [reflexivity|]. split; [rewrite firstn_length, LE; reflexivity|]. split.
  - assert (G : Forall is_byte (flat_map (le 8) h)) by (clear; induction h as [|q h IH]; [constructor|]; cbn [flat_map]; apply Forall_app; split; [apply le_bytes|exact IH]).
    rewrite <- (firstn_skipn 32 (flat_map (le 8) h)) in G. apply Forall_app in G as [G _]. exact G.
  - rewrite byte_bits_firstn, words_bytes, HB, bits_zero, last_block_bits by exact B. unfold SHA3_256, sponge.
    change (1600 - 512)%nat with 1088%nat. rewrite <- last_block_bits by exact B. rewrite byte_bits_length, last_block_length by exact B.
    change (8 * 136 / 1088)%nat with 1%nat. cbn [absorb]. rewrite (firstn_all2 (n := 1088)) by (rewrite byte_bits_length, last_block_length by exact B; lia). reflexivity.
Qed.
(** For all messages shorter than a block, in any number of pieces. *)
Theorem sha3_chunks_ok : forall chunks m, length m = 136%nat -> (length (concat chunks) < 136)%nat -> Forall is_byte (concat chunks) ->
  exists d, sha3_chunks chunks m = Some d /\ length d = 32%nat /\ Forall is_byte d /\ byte_bits d = SHA3_256 (byte_bits (concat chunks)).
Proof.
  intros chunks m L B BY. unfold sha3_chunks.
  destruct (updates_ok chunks [] (sha3_start m)) as (c & -> & H).
  - repeat split. exact L.
  - exact B.
  - cbn [obind]. apply final_ok; assumption.
Qed.
Theorem sha3_main_ok : forall g e, (4 * (length g + length e) < 136)%nat ->
  exists o, sha3_main g e = Some o /\ length o = 8%nat /\ byte_bits (ints_to_bytes o) = SHA3_256 (byte_bits (ints_to_bytes (g ++ e))).
Proof.
  intros g e H. destruct (ints_bytes_ok g) as [LG BG]. destruct (ints_bytes_ok e) as [LE BE].
  destruct (sha3_chunks_ok [ints_to_bytes g; ints_to_bytes e] (repeat 0 136)) as (d & D & L & B & E).
  - reflexivity.
  - cbn [concat]. rewrite app_nil_r, app_length, LG, LE. lia.
  - cbn [concat]. rewrite app_nil_r. apply Forall_app. split; assumption.
  - unfold sha3_main. rewrite D. cbn [obind]. destruct (bytes_ints_back 8 d L B) as [I1 I2]. eexists. split; [reflexivity|]. split; [exact I2|].
    rewrite I1, E. cbn [concat]. rewrite app_nil_r. unfold ints_to_bytes. rewrite flat_map_app. reflexivity.
Qed.
(** A whole block: [mod] leaves 136, and the padding is written after the end. *)
Lemma final_outside c : length (message c) = 136%nat -> rest c = 136%nat -> sha3_final c = None.
Proof.
  intros L R. unfold sha3_final. rewrite R. cbn [Nat.sub for_from obind]. unfold at_n at 1. rewrite rd_nat, (proj2 (nth_error_None _ _)) by lia. reflexivity.
Qed.
Theorem sha3_block_outside : forall a b m, length m = 136%nat -> (length a + length b = 136)%nat -> sha3_chunks [a; b] m = None.
Proof.
  intros a b m L AB. unfold sha3_chunks. cbn [sha3_updates]. unfold sha3_update at 1, sha3_start. cbn [hash message rest Nat.eqb Nat.add].
  rewrite mod_small by lia.
  assert (G : exists m1, (do m0 <- (if (length a =? 0)%nat then Some m else memcpy m 0 a (length a)); Some (Ctx (repeat 0 25) m0 (length a))) = Some (Ctx (repeat 0 25) m1 (length a)) /\ length m1 = 136%nat).
  { destruct (Nat.eqb_spec (length a) 0) as [Z1|NZ]; [exists m; split; [reflexivity|exact L]|]. rewrite memcpy_ok by lia. cbn [obind]. eexists. split; [reflexivity|].
    rewrite !app_length, !firstn_length, skipn_length. lia. }
  destruct G as (m1 & -> & L1). cbn [obind]. unfold sha3_update. cbn [hash message rest]. rewrite mod_small by lia.
  assert (G2 : forall m2, length m2 = 136%nat -> (do c <- (do c <- (do m0 <- (if (length b =? 0)%nat then Some m2 else memcpy m2 0 b (length b)); Some (Ctx (repeat 0 25) m0 (length a + length b))); Some c); sha3_final c) = None).
  { intros m2 L2. destruct (Nat.eqb_spec (length b) 0) as [Z1|NZ].
    - cbn [obind]. apply final_outside; [exact L2|exact AB].
    - rewrite memcpy_ok by lia. cbn [obind]. apply final_outside; [|exact AB]. cbn [message]. rewrite !app_length, !firstn_length, skipn_length. lia. }
  destruct (Nat.eqb_spec (length a) 0) as [Z1|NZ]; [apply G2, L1|].
  destruct (Nat.ltb_spec (length b) (136 - length a)); [lia|]. rewrite memcpy_ok by lia. cbn [obind]. apply G2.
  rewrite !app_length, !firstn_length, skipn_length. lia.
Qed.
(** More than a block: only the last bytes count. *)
Theorem sha3_long_collides : forall x b b' m m', length m = 136%nat -> length m' = 136%nat -> length b = 136%nat -> length b' = 136%nat ->
  hd 0 b = hd 0 b' -> sha3_chunks [[x]; b] m = sha3_chunks [[x]; b'] m'.
Proof.
  assert (ONE : forall x b m, length m = 136%nat -> length b = 136%nat ->
    sha3_updates [[x]; b] (sha3_start m) = Some (Ctx (repeat 0 25) b 1)).
  { intros x b m L LB. cbn [sha3_updates]. unfold sha3_update at 1, sha3_start. cbn [hash message rest Nat.eqb length]. change (mod_ (0 + 1) 136) with 1%nat.
    rewrite memcpy_ok by (cbn [length]; lia). cbn [obind firstn app]. unfold sha3_update. cbn [hash message rest Nat.eqb]. rewrite LB.
    change (mod_ (1 + 136) 136) with 1%nat. change (136 <? 136 - 1)%nat with false. cbn [Nat.eqb].
    rewrite memcpy_ok by (cbn [length Nat.add]; rewrite ?skipn_length; lia). cbn [obind].
    match goal with |- context [memcpy ?u 0 b 136] => assert (LU : length u = 136%nat) by (rewrite !app_length, !firstn_length, skipn_length; cbn [length]; rewrite skipn_length; lia); generalize dependent u end.
    intros u LU. rewrite memcpy_ok by lia. cbn [obind]. rewrite (firstn_all2 (n := 136) b) by lia. rewrite (skipn_all2 (n := 0 + 136) u) by lia. rewrite app_nil_r. reflexivity. }
  intros x b b' m m' L L' B B' HD. unfold sha3_chunks. rewrite !ONE by assumption. cbn [obind]. unfold sha3_final. cbn [rest message hash].
  rewrite !memset_ok by lia. rewrite !(skipn_all2 (n := 1 + (136 - 1))) by lia.
  destruct b as [|y b]; [discriminate|]. destruct b' as [|y' b']; [discriminate|]. cbn [hd] in HD. subst y'. reflexivity.
Qed.
