(** crypto/BN.cpp: bignum helpers, and the OpenSSL operations they use. *)
From Coq Require Import ZArith NArith List Bool Lia.
From Verif Require Import Base Gate Proc Codec Tcp.
Import ListNotations.
Open Scope Z_scope.

(** A BIGNUM: sign and magnitude.  OpenSSL's bit and byte functions act on the
    magnitude. *)
Notation BIGNUM := Z (only parsing).
Definition mag (a : BIGNUM) : N := Z.abs_N a.
Definition BN_num_bits (a : BIGNUM) : N := N.size (mag a).
Definition BN_num_bytes (a : BIGNUM) : nat := N.to_nat ((BN_num_bits a + 7) / 8).
Definition BN_is_bit_set (a : BIGNUM) (n : N) : bool := N.testbit (mag a) n.
(** Number of 64-bit words in use ([top]). *)
Definition bn_top (a : BIGNUM) : N := (BN_num_bits a + 63) / 64.
Definition with_mag (a : BIGNUM) (m : N) : BIGNUM := Z.sgn (if a =? 0 then 1 else a) * Z.of_N m.
Definition BN_set_bit (a : BIGNUM) (n : N) : BIGNUM := with_mag a (N.setbit (mag a) n).
(** OpenSSL: [if (a->top <= n / BN_BITS2) return 0;] *)
Definition BN_clear_bit (a : BIGNUM) (n : N) : BIGNUM * bool :=
  if (bn_top a <=? n / 64)%N then (a, false) else (with_mag a (N.clearbit (mag a) n), true).
(** OpenSSL: [if (w >= a->top) return 0;] then the higher bits are dropped. *)
Definition BN_mask_bits (a : BIGNUM) (n : N) : BIGNUM * bool :=
  if (bn_top a <=? n / 64)%N then (a, false) else (with_mag a (mag a mod 2 ^ n)%N, true).
(** BN_bn2bin / BN_bin2bn: big-endian magnitude without leading zeros. *)
Definition BN_bn2bin (a : BIGNUM) : bytes := rev (le (BN_num_bytes a) (mag a)).
Definition BN_bin2bn (bs : bytes) : BIGNUM := Z.of_N (of_le (rev bs)).

(** BN.cpp:30-40 *)
Definition BN_invert (v : BIGNUM) (bits : nat) : BIGNUM :=
  let v_len := BN_num_bits v in
  fold_left (fun v i =>
      if ((v_len <=? N.of_nat i)%N || negb (BN_is_bit_set v (N.of_nat i)))%bool
      then BN_set_bit v (N.of_nat i)
      else fst (BN_clear_bit v (N.of_nat i)))
    (seq 0 bits) v.

(** BN.cpp:43-50: [bits / 8 + 1] bytes 0xff, masked. *)
Definition BN_full_one (bits : nat) : BIGNUM * bool :=
  BN_mask_bits (BN_bin2bn (repeat 255%N (bits / 8 + 1))) (N.of_nat bits).

(** BN.cpp:52-66; the results of the bit operations are dropped. *)
Definition BN_xor (r : BIGNUM) (bits : nat) (v w : BIGNUM) : BIGNUM :=
  let v_len := BN_num_bits v in
  let w_len := BN_num_bits w in
  fold_left (fun r i =>
      let v_bit := if (N.of_nat i <? v_len)%N then BN_is_bit_set v (N.of_nat i) else false in
      let w_bit := if (N.of_nat i <? w_len)%N then BN_is_bit_set w (N.of_nat i) else false in
      if negb (Bool.eqb v_bit w_bit) then BN_set_bit r (N.of_nat i)
      else fst (BN_clear_bit r (N.of_nat i)))
    (seq 0 bits) r.

(** crypto/block.h:116: byte reversal of a block; BN.cpp:68-73. *)
Definition BlockToBN (w : block) : BIGNUM := BN_bin2bn (rev (le 16 w)).

(** BN.cpp:75-95 *)
Definition BNToBlock (a : BIGNUM) : block :=
  let a_words := BN_num_bytes a in
  let a_byte := BN_bn2bin a in
  of_le (map (fun i => if (i <? a_words)%nat then nth (a_words - i - 1) a_byte 0%N else 0%N) (seq 0 16)).

(** BN.cpp:99-116; [size] is an [int].  The sign is not sent. *)
Definition SendBN (a : BIGNUM) : proc unit :=
  Send (le 4 (N.of_nat (BN_num_bytes a))) (Send (BN_bn2bin a) (Ret tt)).
(** BN.cpp:117-135; a negative size makes [new unsigned char[size]] throw. *)
Definition RecvBN : proc BIGNUM :=
  Recv 4 (fun b =>
    let size := to_int (Z.of_N (of_le b)) in
    if size <? 0 then Crash else Recv (Z.to_nat size) (fun bs => Ret (BN_bin2bn bs))).

(** * Facts *)
Lemma size_testbit n m : (N.size m <= n)%N -> N.testbit m n = false.
Proof.
  intros H. destruct (N.eq_dec m 0) as [->|Hm]; [apply N.bits_0|].
  apply N.bits_above_log2. rewrite N.size_log2 in H by auto. lia.
Qed.
Lemma size_lt m : (m < 2 ^ N.size m)%N.
Proof. apply N.size_gt. Qed.
Lemma size_le m n : (m < 2 ^ n)%N -> (N.size m <= n)%N.
Proof.
  intros H. destruct (N.eq_dec m 0) as [->|Hm]; [cbn; lia|].
  rewrite N.size_log2 by auto. apply N.log2_lt_pow2 in H; lia.
Qed.
Lemma size_pos m n : N.testbit m n = true -> (n < N.size m)%N.
Proof. intros H. destruct (N.lt_ge_cases n (N.size m)) as [|L]; auto. rewrite size_testbit in H; [discriminate|auto]. Qed.

Lemma mag_of_N m : mag (Z.of_N m) = m.
Proof. unfold mag. destruct m; reflexivity. Qed.
Lemma mag_with a m : mag (with_mag a m) = m.
Proof.
  unfold mag, with_mag.
  destruct (Z.eqb_spec a 0) as [->|H]; [cbn; destruct m; auto|].
  destruct a; [congruence| |]; cbn; destruct m; auto.
Qed.
Lemma with_mag_nonneg a m : 0 <= a -> with_mag a m = Z.of_N m.
Proof.
  intros H. unfold with_mag. destruct (Z.eqb_spec a 0) as [->|Ha]; [cbn; destruct m; auto|].
  rewrite Z.sgn_pos by lia. apply Z.mul_1_l.
Qed.

Lemma num_bytes_bound a : (mag a < 256 ^ N.of_nat (BN_num_bytes a))%N.
Proof.
  unfold BN_num_bytes. rewrite N2Nat.id. change 256%N with (2 ^ 8)%N. rewrite <- N.pow_mul_r.
  eapply N.lt_le_trans; [apply size_lt|]. apply N.pow_le_mono_r; [lia|].
  unfold BN_num_bits. pose proof (N.div_mod (N.size (mag a) + 7) 8). pose proof (N.mod_lt (N.size (mag a) + 7) 8). lia.
Qed.
Lemma bn2bin_length a : length (BN_bn2bin a) = BN_num_bytes a.
Proof. unfold BN_bn2bin. rewrite rev_length. apply le_length. Qed.
Lemma bin2bn_bn2bin a : BN_bin2bn (BN_bn2bin a) = Z.abs a.
Proof.
  unfold BN_bin2bn, BN_bn2bin. rewrite rev_involutive, of_le_small by apply num_bytes_bound.
  unfold mag. apply N2Z.inj_abs_N.
Qed.

(** * C21: what the receiver of a bignum gets *)
Definition enc_bn (a : BIGNUM) : bytes := le 4 (N.of_nat (BN_num_bytes a)) ++ BN_bn2bin a.
Definition bn_fits (a : BIGNUM) : Prop := Z.of_nat (BN_num_bytes a) < 2 ^ 31.

Lemma to_int_small n : 0 <= n < 2 ^ 31 -> to_int n = n.
Proof. intros H. unfold to_int. rewrite Z.mod_small by lia. destruct (Z.ltb_spec n (2 ^ 31)); lia. Qed.

Lemma send_bn a : does (SendBN a) [] (enc_bn a) tt.
Proof. unfold SendBN, enc_bn. constructor. exact (does_send1 _). Qed.
Lemma recv_bn a : bn_fits a -> does RecvBN (enc_bn a) [] (Z.abs a).
Proof.
  intros H. unfold RecvBN, enc_bn. constructor; [rewrite le_length; auto|].
  unfold bn_fits in H. rewrite of_le_small by lia. rewrite nat_N_Z, to_int_small by lia.
  destruct (Z.ltb_spec (Z.of_nat (BN_num_bytes a)) 0); [lia|]. rewrite Nat2Z.id.
  pose proof (does_recv (BN_bn2bin a) (BN_num_bytes a) (fun bs => Ret (BN_bin2bn bs)) [] []
    (Z.abs a) (eq_sym (bn2bin_length a))) as D. rewrite app_nil_r in D. apply D.
  rewrite bin2bn_bn2bin. constructor.
Qed.

(** * C22 *)
Lemma block_to_bn w : (w < 2 ^ 128)%N -> BlockToBN w = Z.of_N w.
Proof. intros H. unfold BlockToBN, BN_bin2bn. rewrite rev_involutive, of_le_small by exact H. auto. Qed.

Lemma le_nth n : forall i x, (i < n)%nat -> nth i (le n x) 0%N = (x / 256 ^ N.of_nat i mod 256)%N.
Proof.
  induction n as [|n IH]; intros i x H; [lia|]. cbn [le nth]. destruct i as [|i].
  - change (256 ^ N.of_nat 0)%N with 1%N. rewrite N.div_1_r. auto.
  - rewrite IH by lia. rewrite N.div_div, Nat2N.inj_succ, N.pow_succ_r' by (try apply N.pow_nonzero; lia). auto.
Qed.
Lemma le_map n x : le n x = map (fun i => x / 256 ^ N.of_nat i mod 256)%N (seq 0 n).
Proof.
  apply nth_ext with (d := 0%N) (d' := 0%N).
  - rewrite le_length, map_length, seq_length. auto.
  - intros i Hi. rewrite le_length in Hi. rewrite le_nth by auto.
    rewrite (nth_indep _ 0%N ((fun i => x / 256 ^ N.of_nat i mod 256)%N O)) by (rewrite map_length, seq_length; auto).
    rewrite (map_nth (fun i => x / 256 ^ N.of_nat i mod 256)%N), seq_nth by auto. auto.
Qed.
Lemma bn_to_block a : BNToBlock a = (mag a mod 2 ^ 128)%N.
Proof.
  unfold BNToBlock. change (2 ^ 128)%N with (256 ^ N.of_nat 16)%N. rewrite <- of_le_le, le_map. f_equal.
  apply map_ext_in. intros i Hi. apply in_seq in Hi. destruct (Nat.ltb_spec i (BN_num_bytes a)).
  - unfold BN_bn2bin. rewrite rev_nth by (rewrite le_length; lia). rewrite le_length.
    rewrite le_nth by lia. do 4 f_equal. lia.
  - rewrite N.div_small; [auto|]. eapply N.lt_le_trans; [apply num_bytes_bound|]. apply N.pow_le_mono_r; lia.
Qed.

(** * Bit operations *)
Lemma div64 s n : ((s + 63) / 64 <= n / 64 -> s <= n)%N.
Proof. intros H. zify. Z.to_euclidean_division_equations. lia. Qed.
Lemma clear_bit_mag a n : mag (fst (BN_clear_bit a n)) = N.clearbit (mag a) n.
Proof.
  unfold BN_clear_bit. destruct (N.leb_spec (bn_top a) (n / 64)) as [H|H]; cbn [fst]; [|apply mag_with].
  apply N.bits_inj. intros i. rewrite N.clearbit_eqb. destruct (N.eqb_spec n i) as [<-|]; [|rewrite andb_true_r; auto].
  rewrite andb_false_r. apply size_testbit. unfold bn_top, BN_num_bits in *.
  apply div64; auto.
Qed.
Lemma set_bit_mag a n : mag (BN_set_bit a n) = N.setbit (mag a) n.
Proof. apply mag_with. Qed.
Lemma set_bit_nonneg a n : 0 <= a -> 0 <= BN_set_bit a n.
Proof. intros H. unfold BN_set_bit. rewrite with_mag_nonneg by auto. lia. Qed.
Lemma clear_bit_nonneg a n : 0 <= a -> 0 <= fst (BN_clear_bit a n).
Proof. intros H. unfold BN_clear_bit. destruct (_ <=? _)%N; cbn [fst]; [auto|]. rewrite with_mag_nonneg by auto. lia. Qed.
Lemma is_bit_set_short a n : (if (n <? BN_num_bits a)%N then BN_is_bit_set a n else false) = BN_is_bit_set a n.
Proof. destruct (N.ltb_spec n (BN_num_bits a)); [auto|]. symmetry. apply size_testbit. auto. Qed.

Lemma bn_xor_bits bits v w : forall k r, (k <= bits)%nat ->
  let r' := fold_left (fun r i =>
      let v_bit := if (N.of_nat i <? BN_num_bits v)%N then BN_is_bit_set v (N.of_nat i) else false in
      let w_bit := if (N.of_nat i <? BN_num_bits w)%N then BN_is_bit_set w (N.of_nat i) else false in
      if negb (Bool.eqb v_bit w_bit) then BN_set_bit r (N.of_nat i)
      else fst (BN_clear_bit r (N.of_nat i))) (seq (bits - k) k) r in
  (forall i, N.testbit (mag r') i =
    if ((N.of_nat (bits - k) <=? i) && (i <? N.of_nat bits))%N%bool
    then xorb (N.testbit (mag v) i) (N.testbit (mag w) i) else N.testbit (mag r) i) /\ (0 <= r -> 0 <= r').
Proof.
  induction k as [|k IH]; intros r Hk.
  - cbn [seq fold_left]. split; [|auto]. intros i. destruct (N.leb_spec (N.of_nat (bits - 0)) i); [|auto].
    destruct (N.ltb_spec i (N.of_nat bits)); [lia|auto].
  - cbn [seq fold_left]. replace (S (bits - S k)) with (bits - k)%nat by lia.
    set (i0 := N.of_nat (bits - S k)).
    set (r1 := if negb _ then _ else _).
    specialize (IH r1 ltac:(lia)). cbv zeta in IH. destruct IH as [IH1 IH2]. split.
    + intros i. rewrite IH1. clear IH1 IH2.
      assert (B : N.testbit (mag r1) i = if (i0 =? i)%N then xorb (N.testbit (mag v) i) (N.testbit (mag w) i) else N.testbit (mag r) i).
      { unfold r1. rewrite !is_bit_set_short. unfold BN_is_bit_set.
        destruct (N.eqb_spec i0 i) as [<-|Hi].
        - destruct (N.testbit (mag v) i0), (N.testbit (mag w) i0); cbn [Bool.eqb negb xorb];
            rewrite ?set_bit_mag, ?clear_bit_mag, ?N.setbit_eq, ?N.clearbit_eq; auto.
        - match goal with |- context [if ?b then _ else _] => destruct b end; [rewrite set_bit_mag; apply N.setbit_neq; auto|rewrite clear_bit_mag; apply N.clearbit_neq; auto]. }
      rewrite B. clear B r1. unfold i0.
      destruct (N.leb_spec (N.of_nat (bits - k)) i), (N.leb_spec (N.of_nat (bits - S k)) i), (N.ltb_spec i (N.of_nat bits)),
        (N.eqb_spec (N.of_nat (bits - S k)) i); cbn [andb]; auto; lia.
    + intros Hr. apply IH2. unfold r1. destruct (negb _); [apply set_bit_nonneg|apply clear_bit_nonneg]; auto.
Qed.
Lemma BN_xor_testbit r bits v w i : N.testbit (mag (BN_xor r bits v w)) i =
  if (i <? N.of_nat bits)%N then xorb (N.testbit (mag v) i) (N.testbit (mag w) i) else N.testbit (mag r) i.
Proof.
  pose proof (bn_xor_bits bits v w bits r (le_n _)) as [H _]. rewrite Nat.sub_diag in H. unfold BN_xor. rewrite H.
  destruct (N.leb_spec (N.of_nat 0) i); [auto|lia].
Qed.
Lemma BN_xor_nonneg r bits v w : 0 <= r -> 0 <= BN_xor r bits v w.
Proof. pose proof (bn_xor_bits bits v w bits r (le_n _)) as [_ H]. rewrite Nat.sub_diag in H. exact H. Qed.

Lemma mod_pow2_testbit a n i : N.testbit (a mod 2 ^ n) i = ((i <? n)%N && N.testbit a i)%bool.
Proof.
  destruct (N.ltb_spec i n); cbn [andb]; [apply N.mod_pow2_bits_low; auto|apply N.mod_pow2_bits_high; auto].
Qed.
Lemma BN_xor_small r bits v w : 0 <= r -> (mag r < 2 ^ N.of_nat bits)%N ->
  (mag v < 2 ^ N.of_nat bits)%N -> (mag w < 2 ^ N.of_nat bits)%N ->
  BN_xor r bits v w = Z.of_N (N.lxor (mag v) (mag w)).
Proof.
  intros H0 Hr Hv Hw. rewrite <- (Z.abs_eq (BN_xor r bits v w)) by (apply BN_xor_nonneg; auto).
  rewrite <- N2Z.inj_abs_N. change (Z.abs_N ?x) with (mag x). f_equal. apply N.bits_inj. intros i.
  rewrite BN_xor_testbit, N.lxor_spec. destruct (N.ltb_spec i (N.of_nat bits)); [auto|].
  rewrite !size_testbit; auto; (etransitivity; [apply size_le; eassumption|auto]).
Qed.

Lemma bn_invert_bits bits v0 : 0 <= v0 -> forall k v, (k <= bits)%nat -> 0 <= v ->
  (forall i, (N.of_nat (bits - k) <= i)%N -> N.testbit (mag v) i = N.testbit (mag v0) i) ->
  let v' := fold_left (fun v i =>
      if ((BN_num_bits v0 <=? N.of_nat i)%N || negb (BN_is_bit_set v (N.of_nat i)))%bool
      then BN_set_bit v (N.of_nat i)
      else fst (BN_clear_bit v (N.of_nat i))) (seq (bits - k) k) v in
  (forall i, N.testbit (mag v') i =
    if ((N.of_nat (bits - k) <=? i) && (i <? N.of_nat bits))%N%bool
    then negb (N.testbit (mag v0) i) else N.testbit (mag v) i) /\ 0 <= v'.
Proof.
  intros H0. induction k as [|k IH]; intros v Hk Hv HA.
  - cbn [seq fold_left]. split; [|auto]. intros i. destruct (N.leb_spec (N.of_nat (bits - 0)) i); [|auto].
    destruct (N.ltb_spec i (N.of_nat bits)); [lia|auto].
  - cbn [seq fold_left]. replace (S (bits - S k)) with (bits - k)%nat by lia.
    set (i0 := N.of_nat (bits - S k)) in *.
    set (r1 := if (_ || _)%bool then _ else _).
    assert (B : forall i, N.testbit (mag r1) i = if (i0 =? i)%N then negb (N.testbit (mag v0) i) else N.testbit (mag v) i).
    { intros i. unfold r1. unfold BN_is_bit_set.
      assert (C : ((BN_num_bits v0 <=? i0)%N || negb (N.testbit (mag v) i0))%bool = negb (N.testbit (mag v0) i0)).
      { rewrite HA by lia. destruct (N.leb_spec (BN_num_bits v0) i0); [|auto]. cbn [orb]. symmetry.
        rewrite size_testbit; auto. }
      rewrite C. destruct (N.eqb_spec i0 i) as [<-|Hi].
      - destruct (N.testbit (mag v0) i0); cbn [negb]; rewrite ?set_bit_mag, ?clear_bit_mag, ?N.setbit_eq, ?N.clearbit_eq; auto.
      - match goal with |- context [if ?b then _ else _] => destruct b end; [rewrite set_bit_mag; apply N.setbit_neq; auto|rewrite clear_bit_mag; apply N.clearbit_neq; auto]. }
    assert (P : 0 <= r1).
    { unfold r1. destruct (_ || _)%bool; [apply set_bit_nonneg|apply clear_bit_nonneg]; auto. }
    destruct (IH r1 ltac:(lia) P) as [IH1 IH2].
    { intros i Hi. rewrite B. unfold i0. destruct (N.eqb_spec (N.of_nat (bits - S k)) i); [lia|]. apply HA. unfold i0. lia. }
    split; [|exact IH2]. intros i. rewrite IH1, B. clear -Hk. unfold i0.
    destruct (N.leb_spec (N.of_nat (bits - k)) i), (N.leb_spec (N.of_nat (bits - S k)) i), (N.ltb_spec i (N.of_nat bits)),
        (N.eqb_spec (N.of_nat (bits - S k)) i); cbn [andb]; auto; lia.
Qed.
Lemma BN_invert_testbit v bits i : 0 <= v -> N.testbit (mag (BN_invert v bits)) i =
  xorb (i <? N.of_nat bits)%N (N.testbit (mag v) i).
Proof.
  intros H. pose proof (bn_invert_bits bits v H bits v (le_n _) H (fun _ _ => eq_refl)) as [B _].
  rewrite Nat.sub_diag in B. unfold BN_invert. rewrite B. destruct (N.leb_spec (N.of_nat 0) i); [|lia].
  destruct (i <? N.of_nat bits)%N; cbn [andb xorb]; auto. destruct (N.testbit (mag v) i); auto.
Qed.
Lemma BN_invert_nonneg v bits : 0 <= v -> 0 <= BN_invert v bits.
Proof.
  intros H. pose proof (bn_invert_bits bits v H bits v (le_n _) H (fun _ _ => eq_refl)) as [_ B].
  rewrite Nat.sub_diag in B. exact B.
Qed.

Lemma of_le_repeat255 n : of_le (repeat 255%N n) = N.ones (8 * N.of_nat n).
Proof.
  induction n as [|n IH]; [reflexivity|]. cbn [repeat of_le]. rewrite IH.
  replace (8 * N.of_nat (S n))%N with (8 + 8 * N.of_nat n)%N by lia. rewrite !N.ones_equiv, N.pow_add_r.
  change (2 ^ 8)%N with 256%N. pose proof (N.pow_nonzero 2 (8 * N.of_nat n)). lia.
Qed.
Lemma rev_repeat {A} (x : A) n : rev (repeat x n) = repeat x n.
Proof.
  induction n; [auto|]. cbn [repeat rev]. rewrite IHn. clear. induction n; [auto|]. cbn [repeat app]. f_equal. auto.
Qed.
Lemma BN_full_one_ok bits : BN_full_one bits = (Z.of_N (N.ones (N.of_nat bits)), true).
Proof.
  unfold BN_full_one, BN_mask_bits, BN_bin2bn. rewrite rev_repeat, of_le_repeat255.
  set (k := (8 * N.of_nat (bits / 8 + 1))%N).
  assert (K : (N.of_nat bits < k)%N).
  { unfold k. pose proof (Nat.div_mod bits 8). pose proof (Nat.mod_upper_bound bits 8). lia. }
  assert (SZ : N.size (N.ones k) = k).
  { destruct (N.eq_dec k 0); [lia|]. rewrite N.size_log2.
    - rewrite N.ones_equiv, N.log2_pred_pow2 by lia. lia.
    - rewrite N.ones_equiv. pose proof (N.pow_gt_1 2 k ltac:(lia) ltac:(auto)). lia. }
  unfold bn_top, BN_num_bits. rewrite mag_of_N, SZ.
  destruct (N.leb_spec ((k + 63) / 64) (N.of_nat bits / 64)) as [L|L].
  - exfalso. apply div64 in L. lia.
  - rewrite with_mag_nonneg by lia. do 2 f_equal. rewrite N.ones_mod_pow2 by lia. auto.
Qed.

Theorem send_recv_bn a : bn_fits a -> runs (SendBN a) RecvBN tt (Z.abs a).
Proof. intros H. eapply runs_AB; [apply send_bn|apply recv_bn; auto]. Qed.
Theorem block_bn_block w : (w < 2 ^ 128)%N -> BlockToBN w = Z.of_N w /\ BNToBlock (BlockToBN w) = w.
Proof.
  intros H. rewrite block_to_bn, bn_to_block by auto. split; [auto|]. unfold mag. rewrite Zabs2N.id.
  apply N.mod_small. auto.
Qed.
Theorem bn_to_block' a : BNToBlock a = (Z.to_N (Z.abs a) mod 2 ^ 128)%N.
Proof. rewrite bn_to_block. f_equal. unfold mag. destruct a; reflexivity. Qed.
