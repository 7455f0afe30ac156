(** Decryption in crypto/aes.h is the inverse cipher of FIPS-197. *)
From Coq Require Import Arith ZArith NArith List Bool Lia.
From Verif Require Import Base Codec AesSpec Aes AesOk AesKey AesCipher.
Import ListNotations.
Open Scope N_scope.
Local Opaque sub inv_sub SBox InvSBox gf_mul xtime.

(** * Decryption *)
(** The key array of AESSetDecryptKeyFast. *)
Lemma upd_nat_same {A} (l : list A) n v : (n < length l)%nat -> nth_error (upd_nat l n v) n = Some v.
Proof. revert n. induction l as [|x l IH]; intros [|n] H; cbn in *; try lia; [reflexivity|]. apply IH. lia. Qed.
Lemma upd_nat_other {A} (l : list A) n m v : n <> m -> nth_error (upd_nat l n v) m = nth_error l m.
Proof. revert n m. induction l as [|x l IH]; intros [|n] [|m] H; cbn; try reflexivity; try lia. apply IH. lia. Qed.
Lemma upd_nat_len {A} (l : list A) n v : length (upd_nat l n v) = length l.
Proof. revert n. induction l as [|x l IH]; intros [|n]; cbn; auto. Qed.
Lemma imc_loop_ok ek : forall i j dk, (forall n, (j <= n <= j + i)%nat -> nth_error ek n <> None) -> (i < length dk)%nat ->
  exists ks, imc_loop i j ek dk = Some ks /\ length ks = length dk /\ nth_error ks 0 = nth_error ek (j + i) /\
    (forall n k, (1 <= n <= i)%nat -> nth_error ek (j + i - n) = Some k -> nth_error ks n = Some (_mm_aesimc_si128 k)) /\
    (forall n, (i < n)%nat -> nth_error ks n = nth_error dk n).
Proof.
  induction i as [|i IH]; intros j dk K L; cbn [imc_loop];
    (destruct (nth_error ek j) as [k|] eqn:E; [|exfalso; apply (K j); [lia|exact E]]); cbn [obind].
  - exists (upd_nat dk 0 k). split; [reflexivity|]. split; [apply upd_nat_len|]. split; [rewrite Nat.add_0_r, E; apply upd_nat_same, L|].
    split; [intros; lia|]. intros n Hn. apply upd_nat_other. lia.
  - destruct (IH (S j) (upd_nat dk (S i) (_mm_aesimc_si128 k)) ltac:(intros; apply K; lia) ltac:(rewrite upd_nat_len; lia)) as (ks & R & LK & K0 & K1 & K2).
    exists ks. split; [exact R|]. split; [rewrite LK; apply upd_nat_len|]. split; [rewrite K0; f_equal; lia|]. split.
    + intros n k' Hn E'. destruct (Nat.eq_dec n (S i)) as [->|].
      * replace (j + S i - S i)%nat with j in E' by lia. rewrite E in E'. injection E' as <-. rewrite K2 by lia. apply upd_nat_same. lia.
      * apply K1; [lia|]. replace (S j + i - n)%nat with (j + S i - n)%nat by lia. exact E'.
    + intros n Hn. rewrite K2 by lia. apply upd_nat_other. lia.
Qed.
Lemma inv_mix_columns_xor a k : vbyte a -> vbyte k -> inv_mix_columns (_mm_xor_si128 a k) = _mm_xor_si128 (inv_mix_columns a) (inv_mix_columns k).
Proof. intros (?&?&?&?) (?&?&?&?). unfold inv_mix_columns, _mm_xor_si128. cbn [d0 d1 d2 d3]. rewrite !inv_mix_xor by assumption. reflexivity. Qed.
Lemma inv_sub_shift f a : vmap f (inv_shift_rows a) = inv_shift_rows (vmap f a).
Proof. reflexivity. Qed.
(** With the transformed key the instruction does a round of the straightforward
    inverse cipher. *)
Lemma aesdec_ok w r k a : vbyte a -> is_key w r k ->
  m128_bytes (_mm_aesdec_si128 a (_mm_aesimc_si128 k)) = InvMixColumns (AddRoundKey w r (InvSubBytes (InvShiftRows (m128_bytes a)))).
Proof.
  intros A K. unfold _mm_aesdec_si128, _mm_aesimc_si128.
  assert (B : vbyte (vmap inv_sub (inv_shift_rows a))) by (apply vmap_byte; [exact inv_sub_byte|apply inv_shift_byte, A]).
  rewrite <- inv_mix_columns_xor by (exact B || apply K). rewrite inv_mix_columns_ok by (apply vxor_byte; [exact B|apply K]).
  rewrite (xor_key_ok w r k _ K), inv_sub_bytes_ok, inv_shift_rows_ok by (apply inv_shift_byte, A). reflexivity.
Qed.
Lemma aesdeclast_ok w r k a : vbyte a -> is_key w r k ->
  m128_bytes (_mm_aesdeclast_si128 a k) = AddRoundKey w r (InvSubBytes (InvShiftRows (m128_bytes a))).
Proof.
  intros A K. unfold _mm_aesdeclast_si128. rewrite (xor_key_ok w r k _ K), inv_sub_bytes_ok, inv_shift_rows_ok by (apply inv_shift_byte, A). reflexivity.
Qed.
Definition inverse_schedule_for (w : nat -> list N) (Nr : nat) (key : AES_KEY) : Prop :=
  rounds key = Z.of_nat Nr /\
  (exists k, nth_error (rd_key key) 0 = Some k /\ is_key w Nr k) /\ (exists k, nth_error (rd_key key) Nr = Some k /\ is_key w 0 k) /\
  forall i, (1 <= i < Nr)%nat -> exists k, nth_error (rd_key key) i = Some (_mm_aesimc_si128 k) /\ is_key w (Nr - i) k.
Lemma inv_rounds_S w n s : inv_rounds w (S n) s = inv_rounds w n (InvMixColumns (AddRoundKey w (S n) (InvSubBytes (InvShiftRows s)))).
Proof. reflexivity. Qed.
Lemma inv_round_loop_ok w sched Nr n : forall j a, vbyte a -> (j + n = Nr)%nat -> (1 <= j)%nat ->
  (forall i, (j <= i < Nr)%nat -> exists k, nth_error sched i = Some (_mm_aesimc_si128 k) /\ is_key w (Nr - i) k) ->
  exists o, round_loop _mm_aesdec_si128 sched j n a = Some o /\ vbyte o /\ m128_bytes o = inv_rounds w n (m128_bytes a).
Proof.
  induction n as [|n IH]; intros j a A J J1 K; [exists a; auto|].
  destruct (K j ltac:(lia)) as (k & E & Q). rewrite (round_loop_S _ _ _ _ _ _ E), inv_rounds_S.
  replace (Nr - j)%nat with (S n) in Q by lia. rewrite <- (aesdec_ok w (S n) k a A Q).
  apply IH; [apply aesdec_byte; [exact A|apply inv_mix_columns_byte, Q]|lia|lia|]. intros i Hi. apply K. lia.
Qed.
Theorem decrypt_ok w Nr key a : (1 <= Nr)%nat -> inverse_schedule_for w Nr key -> vbyte a ->
  exists o, AESDecrypt a key = Some o /\ vbyte o /\ m128_bytes o = InvCipher w Nr (m128_bytes a).
Proof.
  intros N1 (R & (k0 & E0 & Q0) & (kl & El & Ql) & K) A.
  destruct (inv_round_loop_ok w (rd_key key) Nr (Nr - 1) 1 (_mm_xor_si128 a k0)) as (o & E & B & M); [apply vxor_byte; [exact A|apply Q0]|lia|lia|exact K|].
  exists (_mm_aesdeclast_si128 o kl). split; [|split; [apply aesdeclast_byte; [exact B|apply Ql]|]].
  - apply (crypt_eq _ _ a key k0 kl o E0); rewrite R, Nat2Z.id; [exact E|]. replace (1 + (Nr - 1))%nat with Nr by lia. exact El.
  - rewrite (aesdeclast_ok w 0 kl o B Ql), M, (xor_key_ok w Nr k0 a Q0). reflexivity.
Qed.
Theorem set_decrypt_key_ok w Nr ekey dkey0 : (1 <= Nr)%nat -> schedule_for w Nr ekey -> (Nr < length (rd_key dkey0))%nat ->
  exists dkey, AESSetDecryptKeyFast dkey0 ekey = Some dkey /\ inverse_schedule_for w Nr dkey.
Proof.
  intros N1 (R & K) L. unfold AESSetDecryptKeyFast. rewrite R, Nat2Z.id.
  destruct (K 0%nat ltac:(lia)) as (k0 & E0 & Q0). rewrite E0. cbn [obind].
  assert (LU : length (upd_nat (rd_key dkey0) Nr k0) = length (rd_key dkey0)) by apply upd_nat_len.
  destruct (imc_loop_ok (rd_key ekey) (Nr - 1) 1 (upd_nat (rd_key dkey0) Nr k0)) as (ks & E & LK & I0 & I1 & I2).
  { intros n Hn. destruct (K n ltac:(lia)) as (k & Q & _). congruence. }
  { lia. }
  rewrite E. cbn [obind]. eexists. split; [reflexivity|]. split; [reflexivity|]. cbn [rd_key]. split; [|split].
  - destruct (K Nr ltac:(lia)) as (k & Q & IK). exists k. split; [|exact IK]. rewrite I0. replace (1 + (Nr - 1))%nat with Nr by lia. exact Q.
  - exists k0. split; [|exact Q0]. rewrite I2 by lia. apply upd_nat_same. exact L.
  - intros i Hi. destruct (K (Nr - i)%nat ltac:(lia)) as (k & Q & IK). exists k. split; [|exact IK]. apply I1; [lia|]. replace (1 + (Nr - 1) - i)%nat with (Nr - i)%nat by lia. exact Q.
Qed.

(** * Decryption undoes encryption *)
Lemma vxor_cancel a k : _mm_xor_si128 (_mm_xor_si128 a k) k = a.
Proof. destruct a as [a b c d]. unfold _mm_xor_si128. cbn [d0 d1 d2 d3]. f_equal; rewrite wxor_assoc, wxor_nil; apply wxor_0. Qed.
Lemma shift_inv_shift a : inv_shift_rows (shift_rows a) = a.
Proof. destruct a as [[] [] [] []]. reflexivity. Qed.
Lemma inv_shift_shift a : shift_rows (inv_shift_rows a) = a.
Proof. destruct a as [[] [] [] []]. reflexivity. Qed.
Lemma vmap_inv_sub a : vbyte a -> vmap inv_sub (vmap sub a) = a.
Proof. intros H. bytes_of H. destruct a as [[m0 m1 m2 m3] [m4 m5 m6 m7] [m8 m9 ma mb] [mc md me mf]]. unfold vmap, wmap. cbn [y0 y1 y2 y3 d0 d1 d2 d3] in *. rewrite !inv_sub_sub by assumption. reflexivity. Qed.
Lemma vmap_sub_inv a : vbyte a -> vmap sub (vmap inv_sub a) = a.
Proof. intros H. bytes_of H. destruct a as [[m0 m1 m2 m3] [m4 m5 m6 m7] [m8 m9 ma mb] [mc md me mf]]. unfold vmap, wmap. cbn [y0 y1 y2 y3 d0 d1 d2 d3] in *. rewrite !sub_inv_sub by assumption. reflexivity. Qed.
Lemma columns_inv_mix a : vbyte a -> inv_mix_columns (mix_columns a) = a.
Proof. intros (?&?&?&?). destruct a as [p q r s]. unfold inv_mix_columns, mix_columns. cbn [d0 d1 d2 d3] in *. rewrite !inv_mix_mix by assumption. reflexivity. Qed.
Lemma columns_mix_inv a : vbyte a -> mix_columns (inv_mix_columns a) = a.
Proof. intros (?&?&?&?). destruct a as [p q r s]. unfold inv_mix_columns, mix_columns. cbn [d0 d1 d2 d3] in *. rewrite !mix_inv_mix by assumption. reflexivity. Qed.
(** A register for any 16 bytes. *)
Lemma of_bytes_ok l : length l = 16%nat -> bytes_ok l -> vbyte (of_bytes l) /\ m128_bytes (of_bytes l) = l.
Proof.
  intros L B. split; [repeat (split; [apply word_at_byte, B|]); apply word_at_byte, B|].
  do 16 (destruct l as [|? l]; [discriminate L|]). destruct l; [reflexivity|discriminate L].
Qed.
Lemma m128_of_bytes a : of_bytes (m128_bytes a) = a.
Proof. destruct a as [[] [] [] []]. reflexivity. Qed.
Lemma m128_bytes_ok a : vbyte a -> bytes_ok (m128_bytes a).
Proof. intros H. bytes_of H. unfold m128_bytes, word_bytes. repeat (constructor; [assumption|]). constructor. Qed.

Definition P_state (a : m128) : m128 := vmap sub (shift_rows a).
Lemma P_byte a : vbyte a -> vbyte (P_state a).
Proof. intros A. apply vmap_byte; [exact sub_byte|apply shift_byte, A]. Qed.
Lemma unP a : vbyte a -> vmap inv_sub (inv_shift_rows (P_state a)) = a.
Proof. intros A. unfold P_state. rewrite sub_shift, shift_inv_shift. apply vmap_inv_sub, A. Qed.
(** A decryption round takes back an encryption round. *)
Lemma dec_enc s k : vbyte s -> vbyte k -> _mm_aesdec_si128 (P_state (_mm_aesenc_si128 s k)) (_mm_aesimc_si128 k) = P_state s.
Proof.
  intros S K. unfold _mm_aesdec_si128, _mm_aesimc_si128. rewrite unP by (apply aesenc_byte; assumption).
  unfold _mm_aesenc_si128. fold (P_state s). assert (B : vbyte (mix_columns (P_state s))) by (apply mix_columns_byte, P_byte, S).
  rewrite <- inv_mix_columns_xor by (try apply vxor_byte; assumption). rewrite vxor_cancel. apply columns_inv_mix, P_byte, S.
Qed.
Lemma round_loop_snoc step sched n : forall j a b k, round_loop step sched j n a = Some b -> nth_error sched (j + n) = Some k ->
  round_loop step sched j (S n) a = Some (step b k).
Proof.
  induction n as [|n IH]; intros j a b k R E.
  - injection R as <-. rewrite Nat.add_0_r in E. rewrite (round_loop_S _ _ _ _ _ _ E). reflexivity.
  - destruct (nth_error sched j) as [k'|] eqn:E'; [|cbn [round_loop] in R; rewrite E' in R; discriminate].
    rewrite (round_loop_S _ _ _ n _ _ E') in R. rewrite (round_loop_S _ _ _ (S n) _ _ E'). apply (IH (S j) _ b k R). rewrite <- E. f_equal. lia.
Qed.
Lemma loop_inverse w es ds Nr n : forall j s o, (1 <= j)%nat -> (j + n <= Nr)%nat -> vbyte s ->
  (forall i, (i <= Nr)%nat -> exists k, nth_error es i = Some k /\ is_key w i k) ->
  (forall i k, (1 <= i < Nr)%nat -> nth_error es (Nr - i) = Some k -> nth_error ds i = Some (_mm_aesimc_si128 k)) ->
  round_loop _mm_aesenc_si128 es j n s = Some o ->
  round_loop _mm_aesdec_si128 ds (Nr + 1 - (j + n)) n (P_state o) = Some (P_state s).
Proof.
  induction n as [|n IH]; intros j s o J1 J2 S K D R.
  - injection R as <-. reflexivity.
  - destruct (K j ltac:(lia)) as (k & E & Q). rewrite (round_loop_S _ _ _ _ _ _ E) in R.
    pose proof (IH (Datatypes.S j) (_mm_aesenc_si128 s k) o ltac:(lia) ltac:(lia) (aesenc_byte s k S (proj1 Q)) K D R) as H.
    replace (Nr + 1 - (Datatypes.S j + n))%nat with (Nr + 1 - (j + Datatypes.S n))%nat in H by lia.
    rewrite (round_loop_snoc _ _ _ _ _ _ (_mm_aesimc_si128 k) H); [f_equal; apply dec_enc; [exact S|apply Q]|].
    apply D; [lia|]. rewrite <- E. f_equal. lia.
Qed.
Theorem decrypt_encrypt w Nr ekey dkey0 : (1 <= Nr)%nat -> schedule_for w Nr ekey -> (Nr < length (rd_key dkey0))%nat ->
  exists dkey, AESSetDecryptKeyFast dkey0 ekey = Some dkey /\ forall a, vbyte a -> exists o, AESEncrypt a ekey = Some o /\ AESDecrypt o dkey = Some a.
Proof.
  intros N1 (R & K) L. unfold AESSetDecryptKeyFast. rewrite R, Nat2Z.id.
  destruct (K 0%nat ltac:(lia)) as (k0 & E0 & Q0). rewrite E0. cbn [obind].
  assert (LU : length (upd_nat (rd_key dkey0) Nr k0) = length (rd_key dkey0)) by apply upd_nat_len.
  destruct (imc_loop_ok (rd_key ekey) (Nr - 1) 1 (upd_nat (rd_key dkey0) Nr k0)) as (ks & E & LK & I0 & I1 & I2).
  { intros n Hn. destruct (K n ltac:(lia)) as (k & Q & _). congruence. }
  { lia. }
  rewrite E. cbn [obind]. eexists. split; [reflexivity|]. intros a A.
  destruct (K Nr ltac:(lia)) as (kl & El & Ql).
  destruct (round_loop_ok w (rd_key ekey) (Nr - 1) 1 (_mm_xor_si128 a k0)) as (o & Eo & B & M); [apply vxor_byte; [exact A|apply Q0]|intros i Hi; apply K; lia|].
  exists (_mm_aesenclast_si128 o kl). split.
  - apply (crypt_eq _ _ a ekey k0 kl o E0); rewrite R, Nat2Z.id; [exact Eo|]. replace (1 + (Nr - 1))%nat with Nr by lia. exact El.
  - pose proof (loop_inverse w (rd_key ekey) ks Nr (Nr - 1) 1 _ o ltac:(lia) ltac:(lia) (vxor_byte a k0 A (proj1 Q0)) K) as H.
    specialize (H ltac:(intros i k Hi Ek; apply I1; [lia|]; rewrite <- Ek; f_equal; lia) Eo).
    replace (Nr + 1 - (1 + (Nr - 1)))%nat with 1%nat in H by lia.
    unfold AESDecrypt. rewrite (crypt_eq _ _ _ (mkKey ks (Z.of_nat Nr)) kl k0 (P_state (_mm_xor_si128 a k0))).
    + f_equal. unfold _mm_aesdeclast_si128. rewrite unP by (apply vxor_byte; [exact A|apply Q0]). apply vxor_cancel.
    + cbn [rd_key]. rewrite I0, <- El. f_equal. lia.
    + cbn [rd_key rounds]. rewrite Nat2Z.id. unfold _mm_aesenclast_si128. fold (P_state o). rewrite vxor_cancel. exact H.
    + cbn [rd_key rounds]. rewrite Nat2Z.id. replace (1 + (Nr - 1))%nat with Nr by lia. rewrite I2 by lia. apply upd_nat_same. exact L.
Qed.
