(** Encryption and decryption in crypto/aes.h are those of FIPS-197. *)
From Coq Require Import Arith ZArith NArith List Bool Lia Ring.
From Verif Require Import Base Codec AesSpec Aes AesOk AesKey.
Import ListNotations.
Open Scope N_scope.
Local Opaque sub inv_sub SBox InvSBox gf_mul xtime.

(** * The instructions, on bytes *)
Ltac bytes_of H := let a := fresh in destruct H as ((?&?&?&?)&(?&?&?&?)&(?&?&?&?)&(?&?&?&?)).
Lemma sub_bytes_ok a : vbyte a -> m128_bytes (vmap sub a) = SubBytes (m128_bytes a).
Proof. intros H. bytes_of H. unfold m128_bytes, word_bytes, vmap, wmap. cbn. repeat (apply f_equal2; [apply sub_ok; assumption|]). reflexivity. Qed.
Lemma inv_sub_bytes_ok a : vbyte a -> m128_bytes (vmap inv_sub a) = InvSubBytes (m128_bytes a).
Proof. intros H. bytes_of H. unfold m128_bytes, word_bytes, vmap, wmap. cbn. repeat (apply f_equal2; [apply inv_sub_ok; assumption|]). reflexivity. Qed.
Lemma shift_rows_ok a : m128_bytes (shift_rows a) = ShiftRows (m128_bytes a).
Proof. reflexivity. Qed.
Lemma inv_shift_rows_ok a : m128_bytes (inv_shift_rows a) = InvShiftRows (m128_bytes a).
Proof. reflexivity. Qed.
Lemma sub_shift f a : vmap f (shift_rows a) = shift_rows (vmap f a).
Proof. reflexivity. Qed.
Ltac xors := apply N.bits_inj; intro; rewrite ?N.lxor_spec; ring.
Lemma mix_byte a b c d : a < 256 -> b < 256 -> c < 256 -> d < 256 ->
  N.lxor a (N.lxor (N.lxor (N.lxor a b) (N.lxor c d)) (xtime (N.lxor a b))) = N.lxor (N.lxor (N.lxor (gf_mul 2 a) (gf_mul 3 b)) c) d.
Proof. intros A B C D. rewrite <- xtime_mul, mul3, xtime_xor by assumption. xors. Qed.
Lemma mix_word_ok w : wbyte w -> mix_word w =
  let m a b c d := N.lxor (N.lxor (N.lxor (gf_mul 2 a) (gf_mul 3 b)) c) d in
  W (m (y0 w) (y1 w) (y2 w) (y3 w)) (m (y1 w) (y2 w) (y3 w) (y0 w)) (m (y2 w) (y3 w) (y0 w) (y1 w)) (m (y3 w) (y0 w) (y1 w) (y2 w)).
Proof.
  intros (?&?&?&?). cbv beta zeta. rewrite <- !mix_byte by assumption. unfold mix_word. f_equal; do 2 f_equal; xors.
Qed.
Lemma mix_columns_ok a : vbyte a -> m128_bytes (mix_columns a) = MixColumns (m128_bytes a).
Proof. intros (A&B&C&D). unfold mix_columns, m128_bytes. cbn [d0 d1 d2 d3]. rewrite !mix_word_ok by assumption. reflexivity. Qed.
Lemma mix_word_byte w : wbyte w -> wbyte (mix_word w).
Proof. intros (?&?&?&?). unfold mix_word. repeat split; cbn [y0 y1 y2 y3]; repeat first [apply xor_byte|apply xtime_byte|assumption]. Qed.
Lemma mul9 b : b < 256 -> gf_mul 9 b = N.lxor (xtime (xtime (xtime b))) b.
Proof. intros H. apply N.eqb_eq. revert b H. apply (check_bytes (fun b => gf_mul 9 b =? N.lxor (xtime (xtime (xtime b))) b)). vm_compute. reflexivity. Qed.
Lemma mul11 b : b < 256 -> gf_mul 11 b = N.lxor (xtime (xtime (xtime b))) (N.lxor (xtime b) b).
Proof. intros H. apply N.eqb_eq. revert b H. apply (check_bytes (fun b => gf_mul 11 b =? N.lxor (xtime (xtime (xtime b))) (N.lxor (xtime b) b))). vm_compute. reflexivity. Qed.
Lemma mul13 b : b < 256 -> gf_mul 13 b = N.lxor (xtime (xtime (xtime b))) (N.lxor (xtime (xtime b)) b).
Proof. intros H. apply N.eqb_eq. revert b H. apply (check_bytes (fun b => gf_mul 13 b =? N.lxor (xtime (xtime (xtime b))) (N.lxor (xtime (xtime b)) b))). vm_compute. reflexivity. Qed.
Lemma mul14 b : b < 256 -> gf_mul 14 b = N.lxor (xtime (xtime (xtime b))) (N.lxor (xtime (xtime b)) (xtime b)).
Proof. intros H. apply N.eqb_eq. revert b H. apply (check_bytes (fun b => gf_mul 14 b =? N.lxor (xtime (xtime (xtime b))) (N.lxor (xtime (xtime b)) (xtime b)))). vm_compute. reflexivity. Qed.
Ltac byte := repeat first [apply xor_byte|apply xtime_byte|assumption].
Ltac linear := repeat (rewrite xtime_xor by byte).
Definition inv_mix (w : word) : word :=
  let m a b c d := N.lxor (N.lxor (N.lxor (gf_mul 14 a) (gf_mul 11 b)) (gf_mul 13 c)) (gf_mul 9 d) in
  W (m (y0 w) (y1 w) (y2 w) (y3 w)) (m (y1 w) (y2 w) (y3 w) (y0 w)) (m (y2 w) (y3 w) (y0 w) (y1 w)) (m (y3 w) (y0 w) (y1 w) (y2 w)).
Lemma inv_mix_word_ok w : wbyte w -> inv_mix_word w = inv_mix w.
Proof.
  intros (?&?&?&?). unfold inv_mix, inv_mix_word, mix_word. cbn [y0 y1 y2 y3]. cbv zeta.
  rewrite !mul9, !mul11, !mul13, !mul14 by assumption. linear. f_equal; xors.
Qed.
Lemma inv_mix_word_byte w : wbyte w -> wbyte (inv_mix_word w).
Proof. intros (?&?&?&?). unfold inv_mix_word. apply mix_word_byte. repeat split; cbn [y0 y1 y2 y3]; byte. Qed.
Lemma inv_mix_columns_ok a : vbyte a -> m128_bytes (inv_mix_columns a) = InvMixColumns (m128_bytes a).
Proof. intros (A&B&C&D). unfold inv_mix_columns, m128_bytes. cbn [d0 d1 d2 d3]. rewrite !inv_mix_word_ok by assumption. reflexivity. Qed.
Lemma inv_mix_mix w : wbyte w -> inv_mix_word (mix_word w) = w.
Proof.
  intros (?&?&?&?). destruct w as [a b c d]. unfold inv_mix_word, mix_word. cbn [y0 y1 y2 y3] in *. cbv beta zeta. linear. f_equal; xors.
Qed.
Lemma mix_inv_mix w : wbyte w -> mix_word (inv_mix_word w) = w.
Proof.
  intros (?&?&?&?). destruct w as [a b c d]. unfold inv_mix_word, mix_word. cbn [y0 y1 y2 y3] in *. cbv beta zeta. linear. f_equal; xors.
Qed.
Lemma inv_mix_xor a b : wbyte a -> wbyte b -> inv_mix_word (wxor a b) = wxor (inv_mix_word a) (inv_mix_word b).
Proof.
  intros (?&?&?&?) (?&?&?&?). unfold inv_mix_word, mix_word, wxor. cbn [y0 y1 y2 y3] in *. cbv beta zeta. linear. f_equal; xors.
Qed.

(** * Registers hold bytes *)
Lemma vxor_byte a b : vbyte a -> vbyte b -> vbyte (_mm_xor_si128 a b).
Proof. intros (?&?&?&?) (?&?&?&?). repeat (split; [apply wxor_byte; assumption|]). apply wxor_byte; assumption. Qed.
Lemma vmap_byte f a : (forall b, b < 256 -> f b < 256) -> vbyte a -> vbyte (vmap f a).
Proof. intros F H. bytes_of H. repeat split; apply F; assumption. Qed.
Lemma shift_byte a : vbyte a -> vbyte (shift_rows a).
Proof. intros H. bytes_of H. repeat split; assumption. Qed.
Lemma inv_shift_byte a : vbyte a -> vbyte (inv_shift_rows a).
Proof. intros H. bytes_of H. repeat split; assumption. Qed.
Lemma mix_columns_byte a : vbyte a -> vbyte (mix_columns a).
Proof. intros (?&?&?&?). repeat (split; [apply mix_word_byte; assumption|]). apply mix_word_byte; assumption. Qed.
Lemma inv_mix_columns_byte a : vbyte a -> vbyte (inv_mix_columns a).
Proof. intros (?&?&?&?). repeat (split; [apply inv_mix_word_byte; assumption|]). apply inv_mix_word_byte; assumption. Qed.
Lemma aesenc_byte a k : vbyte a -> vbyte k -> vbyte (_mm_aesenc_si128 a k).
Proof. intros A K. apply vxor_byte; [|exact K]. apply mix_columns_byte, vmap_byte; [exact sub_byte|]. apply shift_byte, A. Qed.
Lemma aesenclast_byte a k : vbyte a -> vbyte k -> vbyte (_mm_aesenclast_si128 a k).
Proof. intros A K. apply vxor_byte; [|exact K]. apply vmap_byte; [exact sub_byte|]. apply shift_byte, A. Qed.
Lemma aesdec_byte a k : vbyte a -> vbyte k -> vbyte (_mm_aesdec_si128 a k).
Proof. intros A K. apply vxor_byte; [|exact K]. apply inv_mix_columns_byte, vmap_byte; [exact inv_sub_byte|]. apply inv_shift_byte, A. Qed.
Lemma aesdeclast_byte a k : vbyte a -> vbyte k -> vbyte (_mm_aesdeclast_si128 a k).
Proof. intros A K. apply vxor_byte; [|exact K]. apply vmap_byte; [exact inv_sub_byte|]. apply inv_shift_byte, A. Qed.

(** * One round *)
(** Round key [r] of the schedule [w]. *)
Definition is_key (w : nat -> list N) (r : nat) (k : m128) : Prop :=
  vbyte k /\ w (4 * r)%nat = word_bytes (d0 k) /\ w (4 * r + 1)%nat = word_bytes (d1 k) /\ w (4 * r + 2)%nat = word_bytes (d2 k) /\ w (4 * r + 3)%nat = word_bytes (d3 k).
Lemma xor_key_ok w r k a : is_key w r k -> m128_bytes (_mm_xor_si128 a k) = AddRoundKey w r (m128_bytes a).
Proof.
  intros (_&K0&K1&K2&K3). unfold AddRoundKey, tabulate. cbn [map seq Nat.modulo Nat.div Nat.divmod fst snd Nat.sub].
  change (4 * r + 0)%nat with (4 * r + 0)%nat. rewrite Nat.add_0_r, K0, K1, K2, K3. reflexivity.
Qed.
Lemma aesenc_ok w r k a : vbyte a -> is_key w r k ->
  m128_bytes (_mm_aesenc_si128 a k) = AddRoundKey w r (MixColumns (ShiftRows (SubBytes (m128_bytes a)))).
Proof.
  intros A K. unfold _mm_aesenc_si128. rewrite (xor_key_ok w r k _ K).
  rewrite mix_columns_ok by (apply vmap_byte; [exact sub_byte|apply shift_byte, A]). rewrite sub_shift, shift_rows_ok, sub_bytes_ok by exact A. reflexivity.
Qed.
Lemma aesenclast_ok w r k a : vbyte a -> is_key w r k ->
  m128_bytes (_mm_aesenclast_si128 a k) = AddRoundKey w r (ShiftRows (SubBytes (m128_bytes a))).
Proof.
  intros A K. unfold _mm_aesenclast_si128. rewrite (xor_key_ok w r k _ K). rewrite sub_shift, shift_rows_ok, sub_bytes_ok by exact A. reflexivity.
Qed.

(** * The whole cipher *)
Lemma round_loop_S step sched j n a k : nth_error sched j = Some k -> round_loop step sched j (S n) a = round_loop step sched (S j) n (step a k).
Proof. intros E. cbn. rewrite E. reflexivity. Qed.
Lemma rounds_from_S w j n s : rounds_from w j (S n) s = rounds_from w (S j) n (AddRoundKey w j (MixColumns (ShiftRows (SubBytes s)))).
Proof. reflexivity. Qed.
Lemma crypt_eq step last a key k0 kl t : nth_error (rd_key key) 0 = Some k0 ->
  round_loop step (rd_key key) 1 (Z.to_nat (rounds key) - 1) (_mm_xor_si128 a k0) = Some t ->
  nth_error (rd_key key) (1 + (Z.to_nat (rounds key) - 1)) = Some kl -> crypt step last a key = Some (last t kl).
Proof. intros A B C. unfold crypt. rewrite A. cbn [obind]. rewrite B. cbn [obind]. rewrite C. reflexivity. Qed.
Lemma round_loop_ok w sched n : forall j a, vbyte a -> (forall i, (j <= i < j + n)%nat -> exists k, nth_error sched i = Some k /\ is_key w i k) ->
  exists o, round_loop _mm_aesenc_si128 sched j n a = Some o /\ vbyte o /\ m128_bytes o = rounds_from w j n (m128_bytes a).
Proof.
  induction n as [|n IH]; intros j a A K; [exists a; auto|].
  destruct (K j ltac:(lia)) as (k & E & Q). rewrite (round_loop_S _ _ _ _ _ _ E), rounds_from_S.
  rewrite <- (aesenc_ok w j k a A Q). apply IH; [apply aesenc_byte; [exact A|apply Q]|]. intros i Hi. apply K. lia.
Qed.
(** An array of round keys for [w]. *)
Definition schedule_for (w : nat -> list N) (Nr : nat) (key : AES_KEY) : Prop :=
  rounds key = Z.of_nat Nr /\ forall i, (i <= Nr)%nat -> exists k, nth_error (rd_key key) i = Some k /\ is_key w i k.
Theorem encrypt_ok w Nr key a : (1 <= Nr)%nat -> schedule_for w Nr key -> vbyte a ->
  exists o, AESEncrypt a key = Some o /\ vbyte o /\ m128_bytes o = Cipher w Nr (m128_bytes a).
Proof.
  intros N1 (R & K) A.
  destruct (K 0%nat ltac:(lia)) as (k0 & E0 & Q0).
  destruct (round_loop_ok w (rd_key key) (Nr - 1) 1 (_mm_xor_si128 a k0)) as (o & E & B & M); [apply vxor_byte; [exact A|apply Q0]|intros i Hi; apply K; lia|].
  destruct (K Nr ltac:(lia)) as (kl & El & Ql). exists (_mm_aesenclast_si128 o kl).
  split; [|split; [apply aesenclast_byte; [exact B|apply Ql]|]].
  - apply (crypt_eq _ _ a key k0 kl o E0); rewrite R, Nat2Z.id; [exact E|]. replace (1 + (Nr - 1))%nat with Nr by lia. exact El.
  - rewrite (aesenclast_ok w Nr kl o B Ql), M, (xor_key_ok w 0 k0 a Q0). reflexivity.
Qed.
(** Round by round over all blocks is the same as block by block. *)
Lemma blks_loop_ok step sched n : forall j bs, (forall i, (j <= i < j + n)%nat -> nth_error sched i <> None) ->
  exists os, blks_loop step sched j n bs = Some os /\ Forall2 (fun b o => round_loop step sched j n b = Some o) bs os.
Proof.
  induction n as [|n IH]; intros j bs K.
  - exists bs. split; [reflexivity|]. induction bs; constructor; auto.
  - cbn [blks_loop round_loop]. destruct (nth_error sched j) as [k|] eqn:E; [|exfalso; apply (K j); [lia|exact E]].
    cbn [obind]. destruct (IH (S j) (map (fun b => step b k) bs) ltac:(intros; apply K; lia)) as (os & R & F).
    exists os. split; [exact R|]. clear R. revert os F. induction bs as [|b bs IHb]; intros os F; inversion F; subst; constructor; auto.
Qed.
Theorem ecb_blocks step last bs key : (forall i, (i <= Z.to_nat (rounds key))%nat -> nth_error (rd_key key) i <> None) -> (1 <= Z.to_nat (rounds key))%nat ->
  exists os, crypt_blks step last bs key = Some os /\ Forall2 (fun b o => crypt step last b key = Some o) bs os.
Proof.
  intros K N1. unfold crypt_blks, crypt. destruct (nth_error (rd_key key) 0) as [k0|] eqn:E0; [|exfalso; apply (K 0%nat); [lia|exact E0]].
  cbn [obind]. set (n := Z.to_nat (rounds key)) in *.
  destruct (blks_loop_ok step (rd_key key) (n - 1) 1 (map (fun b => _mm_xor_si128 b k0) bs) ltac:(intros; apply K; lia)) as (os & R & F).
  rewrite R. cbn [obind]. destruct (nth_error (rd_key key) (1 + (n - 1))) as [kl|] eqn:El; [|exfalso; apply (K (1 + (n - 1))%nat); [lia|exact El]].
  cbn [obind]. eexists. split; [reflexivity|]. clear R. revert os F.
  induction bs as [|b bs IH]; intros os F; inversion F as [|? o ? os' H1 H2]; subst; cbn; constructor; [rewrite H1; reflexivity|apply IH, H2].
Qed.

(** * The key that AESSetEncryptKey stores *)
Lemma flat_nth ks : forall r k, nth_error ks r = Some k ->
  nth (4 * r) (flat ks) zero_word = d0 k /\ nth (4 * r + 1) (flat ks) zero_word = d1 k /\ nth (4 * r + 2) (flat ks) zero_word = d2 k /\ nth (4 * r + 3) (flat ks) zero_word = d3 k.
Proof.
  induction ks as [|v ks IH]; intros [|r] k E; try discriminate.
  - injection E as ->. repeat split; reflexivity.
  - cbn [nth_error] in E. destruct (IH r k E) as (A & B & C & D). rewrite flat_cons. replace (4 * S r)%nat with (S (S (S (S (4 * r))))) by lia. cbn [nth Nat.add].
    repeat split; assumption.
Qed.
Lemma nth_error_overwrite new old i k : nth_error new i = Some k -> nth_error (overwrite new old) i = Some k.
Proof. intros E. unfold overwrite. rewrite nth_error_app1; [exact E|]. apply nth_error_Some. congruence. Qed.
Definition aes_words (Nk : nat) (key : list N) : nat -> list N := fun i => nth i (KeyExpansion Nk key) [].
Theorem set_encrypt_key_ok mem Nk key0 : (Nk = 4 \/ Nk = 6 \/ Nk = 8)%nat -> bytes_ok mem ->
  (length mem >= match Nk with 4 => 16 | _ => 32 end)%nat ->
  exists key, AESSetEncryptKey mem (32 * Z.of_nat Nk) key0 = Some key /\ schedule_for (aes_words Nk (firstn (4 * Nk) mem)) (Nk + 6) key.
Proof.
  intros HN B L. destruct (key_schedule mem Nk HN B L) as (ks & E & LK & M & F).
  exists (mkKey (overwrite ks (rd_key key0)) (6 + Z.quot (32 * Z.of_nat Nk) 32)). split.
  - unfold AESSetEncryptKey. replace (if (32 * Z.of_nat Nk =? 128)%Z then AES128KeyExpansion mem else
      if (32 * Z.of_nat Nk =? 192)%Z then AES192KeyExpansion mem else
      if (32 * Z.of_nat Nk =? 256)%Z then AES256KeyExpansion mem else Some []) with (round_keys mem (32 * Z.of_nat Nk));
      [|destruct HN as [->|[->| ->]]; reflexivity].
    rewrite E. reflexivity.
  - split; [cbn [rounds]; destruct HN as [->|[->| ->]]; reflexivity|]. intros i Hi. cbn [rd_key].
    destruct (nth_error ks i) as [k|] eqn:EK; [|apply nth_error_None in EK; lia].
    exists k. split; [apply nth_error_overwrite, EK|].
    destruct (flat_nth ks i k EK) as (A0 & A1 & A2 & A3).
    assert (LF : length (flat ks) = (4 * (Nk + 7))%nat).
    { rewrite <- (map_length word_bytes), M. apply key_words_length. }
    assert (W : forall n, (n < 4 * (Nk + 7))%nat -> aes_words Nk (firstn (4 * Nk) mem) n = word_bytes (nth n (flat ks) zero_word) /\ wbyte (nth n (flat ks) zero_word)).
    { intros n Hn. split.
      - unfold aes_words, KeyExpansion. rewrite <- M. rewrite (nth_indep _ [] (word_bytes zero_word)) by (rewrite map_length; lia). apply map_nth.
      - rewrite Forall_forall in F. apply F, nth_In. lia. }
    destruct (W (4 * i)%nat ltac:(lia)) as [W0 B0]. destruct (W (4 * i + 1)%nat ltac:(lia)) as [W1 B1].
    destruct (W (4 * i + 2)%nat ltac:(lia)) as [W2 B2]. destruct (W (4 * i + 3)%nat ltac:(lia)) as [W3 B3].
    rewrite A0 in *. rewrite A1 in *. rewrite A2 in *. rewrite A3 in *. repeat split; assumption || apply B0 || apply B1 || apply B2 || apply B3.
Qed.
Theorem aes_ok mem Nk key0 : (Nk = 4 \/ Nk = 6 \/ Nk = 8)%nat -> bytes_ok mem ->
  (length mem >= match Nk with 4 => 16 | _ => 32 end)%nat ->
  exists key, AESSetEncryptKey mem (32 * Z.of_nat Nk) key0 = Some key /\
    (forall a, vbyte a -> exists o, AESEncrypt a key = Some o /\ vbyte o /\ m128_bytes o = AES Nk (firstn (4 * Nk) mem) (m128_bytes a)) /\
    (forall bs, Forall vbyte bs -> exists os, AESEcbEncryptBlks bs key = Some os /\ map m128_bytes os = map (fun a => AES Nk (firstn (4 * Nk) mem) (m128_bytes a)) bs).
Proof.
  intros HN B L. destruct (set_encrypt_key_ok mem Nk key0 HN B L) as (key & E & S). exists key. split; [exact E|].
  assert (EN : forall a, vbyte a -> exists o, AESEncrypt a key = Some o /\ vbyte o /\ m128_bytes o = AES Nk (firstn (4 * Nk) mem) (m128_bytes a)).
  { intros a A. exact (encrypt_ok _ (Nk + 6) key a ltac:(lia) S A). }
  split; [exact EN|]. intros bs F. destruct S as [R K].
  destruct (ecb_blocks _mm_aesenc_si128 _mm_aesenclast_si128 bs key) as (os & EO & F2).
  - rewrite R, Nat2Z.id. intros i Hi. destruct (K i Hi) as (k & Q & _). congruence.
  - rewrite R, Nat2Z.id. lia.
  - exists os. split; [exact EO|]. clear EO. induction F2 as [|b o bs os H F2 IH]; [reflexivity|].
    inversion F as [|? ? F1 F3]; subst. cbn [map]. rewrite IH by exact F3. f_equal.
    destruct (EN b F1) as (o' & E' & _ & M). unfold AESEncrypt in E'. rewrite H in E'. injection E' as <-. exact M.
Qed.

