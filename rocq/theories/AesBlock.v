(** crypto/aes.h on the blocks of the garbled-circuit code, and what the functions of
    crypto/aes.h do outside that use. *)
From Coq Require Import Arith ZArith NArith List Bool Lia.
From Verif Require Import Base Gate Codec Bounded AesSpec Aes AesOk AesKey AesCipher AesInv.
Import ListNotations.
Open Scope N_scope.
Local Opaque sub inv_sub SBox InvSBox gf_mul xtime.

(** A block in memory is its 16 bytes, lowest first; a register loaded from there. *)
Definition reg (b : block) : m128 := of_bytes (le 16 b).
Definition unreg (v : m128) : block := of_le (m128_bytes v).
(** garbled_circuit_low_mem.cpp:107-108 and 256-257, garbled_circuit_high_mem.cpp:187-188
    and 486-487: the key schedule of [global_key]; the memory from there on is the
    global key and whatever follows ([rest]).  [junk] is the uninitialised AES_Key. *)
Definition set_key (global_key : block) (rest : list N) (junk : AES_KEY) : option AES_KEY :=
  AESSetEncryptKey (le 16 global_key ++ rest) 128 junk.
(** garbled_circuit_util.cpp:247 and 427: the blocks [keys] encrypted in place *)
Definition encrypt_blocks (keys : list block) (AES_Key : AES_KEY) : option (list block) :=
  do os <- AESEcbEncryptBlks (map reg keys) AES_Key; Some (map unreg os).

(** The function on blocks that FIPS-197 defines for key length 128. *)
Definition aes128 (global_key b : block) : block := of_le (AES 4 (le 16 global_key) (le 16 b)).

Lemma block_bytes b : bytes_ok (le 16 b).
Proof. apply le_bytes. Qed.
Lemma reg_ok b : vbyte (reg b) /\ m128_bytes (reg b) = le 16 b.
Proof. apply of_bytes_ok; [apply le_length|apply block_bytes]. Qed.
Lemma pow_16 : 256 ^ N.of_nat 16 = 2 ^ 128. Proof. reflexivity. Qed.
Lemma unreg_reg b : w128 b -> unreg (reg b) = b.
Proof. intros H. unfold unreg. rewrite (proj2 (reg_ok b)). apply of_le_small. rewrite pow_16. exact H. Qed.
Lemma m128_bytes_length v : length (m128_bytes v) = 16%nat. Proof. reflexivity. Qed.
Lemma reg_unreg v : vbyte v -> reg (unreg v) = v.
Proof.
  intros B. unfold reg, unreg. rewrite <- (m128_bytes_length v). rewrite le_of_le by apply m128_bytes_ok, B. apply m128_of_bytes.
Qed.
Lemma unreg_128 v : vbyte v -> w128 (unreg v).
Proof. intros B. unfold w128, unreg. rewrite <- pow_16, <- (m128_bytes_length v). apply of_le_bound. apply m128_bytes_ok, B. Qed.

Lemma key_block g rest : firstn (4 * 4) (le 16 g ++ rest) = le 16 g.
Proof. rewrite firstn_app, le_length. replace (4 * 4 - 16)%nat with 0%nat by reflexivity. rewrite firstn_O, app_nil_r. apply firstn_all2. rewrite le_length. lia. Qed.

(** What the code computes on every array of blocks, and that it fits a block. *)
Theorem blocks_ok g rest junk : bytes_ok rest -> exists AES_Key, set_key g rest junk = Some AES_Key /\
  (forall keys, encrypt_blocks keys AES_Key = Some (map (aes128 g) keys)) /\ (forall b, w128 (aes128 g b)).
Proof.
  intros HR.
  assert (B : bytes_ok (le 16 g ++ rest)) by (apply Forall_app; split; [apply block_bytes|exact HR]).
  destruct (aes_ok (le 16 g ++ rest) 4 junk (or_introl eq_refl) B ltac:(rewrite app_length, le_length; lia)) as (key & E & S1 & SN).
  rewrite key_block in S1, SN. exists key. split; [exact E|]. split.
  - intros keys. unfold encrypt_blocks.
    destruct (SN (map reg keys) ltac:(apply Forall_forall; intros v Hv; apply in_map_iff in Hv as (b & <- & _); apply reg_ok)) as (os & EO & M).
    rewrite EO. cbn [obind]. f_equal. unfold unreg. rewrite <- (map_map m128_bytes of_le), M, !map_map. apply map_ext. intros b.
    rewrite (proj2 (reg_ok b)). reflexivity.
  - intros b. destruct (S1 (reg b) (proj1 (reg_ok b))) as (o & _ & BO & MO).
    replace (aes128 g b) with (unreg o) by (unfold unreg, aes128; rewrite MO, (proj2 (reg_ok b)); reflexivity). apply unreg_128, BO.
Qed.
Lemma aes128_w128 g b : w128 (aes128 g b).
Proof. destruct (blocks_ok g [] (mkKey [] 0)) as (k & _ & _ & H); [constructor|]. apply H. Qed.

(** The round keys that are made. *)
Theorem round_keys_ok mem Nk junk : (Nk = 4 \/ Nk = 6 \/ Nk = 8)%nat -> bytes_ok mem ->
  (length mem >= match Nk with 4 => 16 | _ => 32 end)%nat -> length (rd_key junk) = 15%nat ->
  exists key, AESSetEncryptKey mem (32 * Z.of_nat Nk) junk = Some key /\ rounds key = Z.of_nat (Nk + 6) /\ length (rd_key key) = 15%nat /\
    map m128_bytes (firstn (Nk + 7) (rd_key key)) = map (fun r => concat (firstn 4 (skipn (4 * r) (KeyExpansion Nk (firstn (4 * Nk) mem))))) (seq 0 (Nk + 7)) /\
    skipn (Nk + 7) (rd_key key) = skipn (Nk + 7) (rd_key junk).
Proof.
  intros HN B L J. destruct (key_schedule mem Nk HN B L) as (ks & E & LK & M & F).
  exists (mkKey (overwrite ks (rd_key junk)) (6 + Z.quot (32 * Z.of_nat Nk) 32)). split; [|split; [|split; [|split]]]; cbn [rd_key rounds].
  - unfold AESSetEncryptKey. replace (if (32 * Z.of_nat Nk =? 128)%Z then AES128KeyExpansion mem else
      if (32 * Z.of_nat Nk =? 192)%Z then AES192KeyExpansion mem else
      if (32 * Z.of_nat Nk =? 256)%Z then AES256KeyExpansion mem else Some []) with (round_keys mem (32 * Z.of_nat Nk));
      [|destruct HN as [->|[->| ->]]; reflexivity].
    rewrite E. reflexivity.
  - destruct HN as [->|[->| ->]]; reflexivity.
  - unfold overwrite. rewrite app_length, skipn_length, J, LK. destruct HN as [->|[->| ->]]; reflexivity.
  - unfold overwrite. rewrite firstn_app, LK, Nat.sub_diag, firstn_O, app_nil_r, firstn_all2 by lia. unfold KeyExpansion. rewrite <- M, <- LK. clear.
    induction ks as [|k ks IH]; [reflexivity|]. cbn [length seq map]. f_equal. rewrite IH, <- seq_shift, map_map. apply map_ext. intros r.
    rewrite flat_cons. replace (4 * S r)%nat with (4 + 4 * r)%nat by lia. reflexivity.
  - unfold overwrite. rewrite skipn_app, LK, Nat.sub_diag, skipn_O, skipn_all2 by lia. reflexivity.
Qed.
(** The whole decryption key: decrypting takes back encryption, in both orders. *)
Theorem decrypt_key_ok mem Nk ejunk djunk tjunk : (Nk = 4 \/ Nk = 6 \/ Nk = 8)%nat -> bytes_ok mem ->
  (length mem >= match Nk with 4 => 16 | _ => 32 end)%nat -> length (rd_key djunk) = 15%nat ->
  exists ekey dkey, AESSetEncryptKey mem (32 * Z.of_nat Nk) ejunk = Some ekey /\ AESSetDecryptKey mem (32 * Z.of_nat Nk) djunk tjunk = Some dkey /\
    (forall a, vbyte a -> exists o, AESDecrypt a dkey = Some o /\ vbyte o /\ m128_bytes o = InvAES Nk (firstn (4 * Nk) mem) (m128_bytes a)) /\
    (forall bs, Forall vbyte bs -> exists os, AESEcbDecryptBlks bs dkey = Some os /\ map m128_bytes os = map (fun a => InvAES Nk (firstn (4 * Nk) mem) (m128_bytes a)) bs) /\
    (forall a, vbyte a -> exists o, AESEncrypt a ekey = Some o /\ AESDecrypt o dkey = Some a).
Proof.
  intros HN B L D15.
  destruct (set_encrypt_key_ok mem Nk ejunk HN B L) as (ekey & E & S). destruct (set_encrypt_key_ok mem Nk tjunk HN B L) as (tkey & ET & ST).
  assert (N1 : (1 <= Nk + 6)%nat) by lia. assert (N2 : (Nk + 6 < length (rd_key djunk))%nat) by lia.
  destruct (set_decrypt_key_ok _ _ tkey djunk N1 ST N2) as (dkey & ED & SD).
  destruct (decrypt_encrypt _ _ tkey djunk N1 ST N2) as (dkey' & ED' & INV). rewrite ED in ED'. injection ED' as <-.
  exists ekey, dkey. split; [exact E|]. split; [unfold AESSetDecryptKey; rewrite ET; cbn [obind]; exact ED|]. split; [|split].
  - intros a A. exact (decrypt_ok _ _ dkey a N1 SD A).
  - intros bs F. destruct SD as (R & K0 & KL & KI).
    destruct (ecb_blocks _mm_aesdec_si128 _mm_aesdeclast_si128 bs dkey) as (os & EO & FO).
    { rewrite R, Nat2Z.id. intros i Hi. destruct (Nat.eq_dec i 0) as [->|]; [destruct K0 as (? & ? & _); congruence|].
      destruct (Nat.eq_dec i (Nk + 6)) as [->|]; [destruct KL as (? & ? & _); congruence|]. destruct (KI i ltac:(lia)) as (? & ? & _). congruence. }
    { rewrite R, Nat2Z.id. exact N1. }
    exists os. split; [exact EO|]. clear EO. revert F. induction FO as [|b o bs os H FO IH]; intros F; [reflexivity|].
    cbn [map]. rewrite IH by exact (Forall_inv_tail F). f_equal.
    destruct (decrypt_ok _ _ dkey b N1 (conj R (conj K0 (conj KL KI))) (Forall_inv F)) as (o' & EO' & _ & MO). unfold AESDecrypt in EO'. rewrite H in EO'. injection EO' as <-. exact MO.
  - intros a A. destruct (INV a A) as (o & EO & DO). exists o. split; [|exact DO].
    destruct (encrypt_ok _ _ ekey a N1 S A) as (o1 & E1 & B1 & M1). destruct (encrypt_ok _ _ tkey a N1 ST A) as (o2 & E2 & B2 & M2).
    rewrite EO in E2. injection E2 as <-. rewrite E1. f_equal. rewrite <- (m128_of_bytes o1), M1, <- M2. apply m128_of_bytes.
Qed.
(** Hence the cipher permutes the blocks. *)
Theorem aes128_inj g a b : w128 a -> w128 b -> aes128 g a = aes128 g b -> a = b.
Proof.
  intros A B E.
  destruct (decrypt_key_ok (le 16 g) 4 (mkKey [] 0) (mkKey (repeat _mm_setzero_si128 15) 0) (mkKey [] 0)) as (ek & dk & EE & _ & _ & _ & INV);
    [auto|apply block_bytes|rewrite le_length; lia|reflexivity|].
  destruct (aes_ok (le 16 g) 4 (mkKey [] 0) (or_introl eq_refl) (block_bytes g) ltac:(rewrite le_length; lia)) as (ek' & EE' & S1 & _).
  rewrite EE in EE'. injection EE' as <-.
  destruct (S1 (reg a) (proj1 (reg_ok a))) as (oa & EA & BA & MA). destruct (S1 (reg b) (proj1 (reg_ok b))) as (ob & EB & BB & MB).
  assert (F : firstn (4 * 4) (le 16 g) = le 16 g) by (apply firstn_all2; rewrite le_length; lia).
  rewrite F, (proj2 (reg_ok a)) in MA. rewrite F, (proj2 (reg_ok b)) in MB.
  assert (O : oa = ob).
  { rewrite <- (reg_unreg oa BA), <- (reg_unreg ob BB). f_equal. unfold unreg. rewrite MA, MB. exact E. }
  subst ob. destruct (INV (reg a) (proj1 (reg_ok a))) as (o & EO & DO). destruct (INV (reg b) (proj1 (reg_ok b))) as (o' & EO' & DO').
  rewrite EA in EO. injection EO as <-. rewrite EB in EO'. injection EO' as <-.
  rewrite <- (unreg_reg a A), <- (unreg_reg b B). f_equal. congruence.
Qed.

(** * Outside that use *)
(** A 192-bit key: the second load takes 16 bytes though only 8 of the key are left. *)
Lemma load_short mem at_ : (length mem < at_ + 16)%nat -> _mm_loadu_si128 mem at_ = None.
Proof. apply load_none. Qed.
Theorem aes192_overreads key junk : length key = 24%nat -> AESSetEncryptKey key 192 junk = None.
Proof.
  intros L. unfold AESSetEncryptKey. change (192 =? 128)%Z with false. change (192 =? 192)%Z with true. cbv iota.
  unfold AES192KeyExpansion. destruct (_mm_loadu_si128 key 0) as [x|]; [|reflexivity]. cbn [obind]. rewrite (load_short key 16) by lia. reflexivity.
Qed.
(** What follows the key does not matter though. *)
Theorem aes192_rest key rest rest' j : length key = 24%nat -> length rest = 8%nat -> length rest' = 8%nat -> bytes_ok (key ++ rest) -> bytes_ok (key ++ rest') ->
  exists k k', AESSetEncryptKey (key ++ rest) 192 j = Some k /\ AESSetEncryptKey (key ++ rest') 192 j = Some k' /\
    forall a, vbyte a -> exists o, AESEncrypt a k = Some o /\ AESEncrypt a k' = Some o /\ m128_bytes o = AES 6 key (m128_bytes a).
Proof.
  intros L R R' B B'.
  destruct (aes_ok (key ++ rest) 6 j ltac:(auto) B ltac:(rewrite app_length; lia)) as (k & E & S & _).
  destruct (aes_ok (key ++ rest') 6 j ltac:(auto) B' ltac:(rewrite app_length; lia)) as (k' & E' & S' & _).
  exists k, k'. split; [exact E|]. split; [exact E'|]. intros a A.
  assert (F : forall r, firstn (4 * 6) (key ++ r) = key) by (intros r; rewrite firstn_app, L; change (4 * 6 - 24)%nat with 0%nat; rewrite firstn_O, app_nil_r; apply firstn_all2; lia).
  destruct (S a A) as (o & EO & BO & MO). destruct (S' a A) as (o' & EO' & BO' & MO'). rewrite F in MO, MO'.
  exists o. split; [exact EO|]. split; [|exact MO]. rewrite EO'. f_equal. rewrite <- (m128_of_bytes o), <- (m128_of_bytes o'). congruence.
Qed.
(** Any other length is accepted in silence and the round keys stay what they were. *)
Theorem other_length mem bits junk : bits <> 128%Z -> bits <> 192%Z -> bits <> 256%Z ->
  AESSetEncryptKey mem bits junk = Some (mkKey (rd_key junk) (6 + Z.quot bits 32)).
Proof.
  intros A B C. unfold AESSetEncryptKey. rewrite (proj2 (Z.eqb_neq _ _) A), (proj2 (Z.eqb_neq _ _) B), (proj2 (Z.eqb_neq _ _) C). reflexivity.
Qed.
