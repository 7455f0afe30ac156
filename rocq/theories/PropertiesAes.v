(** Properties C74 to C79: the block cipher of crypto/aes.h against FIPS-197, and the
    arithmetic of crypto/block.h. *)
From Coq Require Import ZArith NArith List Bool Lia.
From Verif Require Import Base Gate Bounded Codec Spec Results Protocol ProtocolOk ProtocolResults ProgramsDemo AesSpec Aes AesOk AesKey AesBlock AesDemo.
From Verif Require Rand BlockOps.
Import ListNotations.
Open Scope N_scope.

Definition blank : AES_KEY := mkKey (repeat _mm_setzero_si128 15) 0.
Lemma counting_bytes n : (n <= 256)%nat -> bytes_ok (counting n).
Proof. intros H. apply Forall_forall. intros x Hx. apply in_map_iff in Hx as (i & <- & Hi). apply in_seq in Hi. unfold is_byte. lia. Qed.

(** * C74 The key schedule *)
Theorem C74_key_schedule : forall mem Nk junk, (Nk = 4 \/ Nk = 6 \/ Nk = 8)%nat -> bytes_ok mem ->
  (length mem >= match Nk with 4 => 16 | _ => 32 end)%nat -> length (rd_key junk) = 15%nat ->
  exists key, AESSetEncryptKey mem (32 * Z.of_nat Nk) junk = Some key /\ rounds key = Z.of_nat (Nk + 6) /\ length (rd_key key) = 15%nat /\
    map m128_bytes (firstn (Nk + 7) (rd_key key)) = map (fun r => concat (firstn 4 (skipn (4 * r) (KeyExpansion Nk (firstn (4 * Nk) mem))))) (seq 0 (Nk + 7)) /\
    skipn (Nk + 7) (rd_key key) = skipn (Nk + 7) (rd_key junk).
Proof. exact round_keys_ok. Qed.
Print Assumptions C74_key_schedule.
(** The last words of appendix A.1 to A.3. *)
Example C74_example :
  bytes_ok (counting 32) /\
  nth 43 (KeyExpansion 4 [0x2b;0x7e;0x15;0x16;0x28;0xae;0xd2;0xa6;0xab;0xf7;0x15;0x88;0x09;0xcf;0x4f;0x3c]) [] = [0xb6;0x63;0x0c;0xa6] /\
  option_map (fun k => m128_bytes (nth 10 (rd_key k) _mm_setzero_si128))
    (AESSetEncryptKey [0x2b;0x7e;0x15;0x16;0x28;0xae;0xd2;0xa6;0xab;0xf7;0x15;0x88;0x09;0xcf;0x4f;0x3c] 128 blank)
  = Some [0xd0;0x14;0xf9;0xa8;0xc9;0xee;0x25;0x89;0xe1;0x3f;0x0c;0xc8;0xb6;0x63;0x0c;0xa6].
Proof. split; [apply counting_bytes; lia|]. split; vm_compute; reflexivity. Qed.

(** * C75 Encryption *)
Theorem C75_encryption : forall mem Nk junk, (Nk = 4 \/ Nk = 6 \/ Nk = 8)%nat -> bytes_ok mem ->
  (length mem >= match Nk with 4 => 16 | _ => 32 end)%nat ->
  exists key, AESSetEncryptKey mem (32 * Z.of_nat Nk) junk = Some key /\
    (forall a, vbyte a -> exists o, AESEncrypt a key = Some o /\ vbyte o /\ m128_bytes o = AES Nk (firstn (4 * Nk) mem) (m128_bytes a)) /\
    (forall bs, Forall vbyte bs -> exists os, AESEcbEncryptBlks bs key = Some os /\
       map m128_bytes os = map (fun a => AES Nk (firstn (4 * Nk) mem) (m128_bytes a)) bs).
Proof. exact AesCipher.aes_ok. Qed.
Print Assumptions C75_encryption.
(** The vectors of appendix C, through the code; in the standard they are
    [appendix_C1], [appendix_C2] and [appendix_C3]. *)
Example C75_example : vbyte (of_bytes sample) /\
  (forall n bits ct, (n, bits, ct) = (16, 128, [0x69;0xc4;0xe0;0xd8;0x6a;0x7b;0x04;0x30;0xd8;0xcd;0xb7;0x80;0x70;0xb4;0xc5;0x5a])%Z \/
     (n, bits, ct) = (32, 192, [0xdd;0xa9;0x7c;0xa4;0x86;0x4c;0xdf;0xe0;0x6e;0xaf;0x70;0xa0;0xec;0x0d;0x71;0x91])%Z \/
     (n, bits, ct) = (32, 256, [0x8e;0xa2;0xb7;0xca;0x51;0x67;0x45;0xbf;0xea;0xfc;0x49;0x90;0x4b;0x49;0x60;0x89])%Z ->
   exists key, AESSetEncryptKey (counting (Z.to_nat n)) bits blank = Some key /\
     option_map (fun o => map Z.of_N (m128_bytes o)) (AESEncrypt (of_bytes sample) key) = Some ct /\
     option_map (map (fun o => map Z.of_N (m128_bytes o))) (AESEcbEncryptBlks [of_bytes sample; of_bytes sample] key) = Some [ct; ct]).
Proof.
  split; [repeat split; reflexivity|]. 
  intros n bits ct [E|[E|E]]; injection E as -> -> ->; (eexists; split; [vm_compute; reflexivity|]; split; vm_compute; reflexivity).
Qed.

(** * C76 Decryption *)
Theorem C76_decryption : forall mem Nk ejunk djunk tjunk, (Nk = 4 \/ Nk = 6 \/ Nk = 8)%nat -> bytes_ok mem ->
  (length mem >= match Nk with 4 => 16 | _ => 32 end)%nat -> length (rd_key djunk) = 15%nat ->
  exists ekey dkey, AESSetEncryptKey mem (32 * Z.of_nat Nk) ejunk = Some ekey /\ AESSetDecryptKey mem (32 * Z.of_nat Nk) djunk tjunk = Some dkey /\
    (forall a, vbyte a -> exists o, AESDecrypt a dkey = Some o /\ vbyte o /\ m128_bytes o = InvAES Nk (firstn (4 * Nk) mem) (m128_bytes a)) /\
    (forall bs, Forall vbyte bs -> exists os, AESEcbDecryptBlks bs dkey = Some os /\
       map m128_bytes os = map (fun a => InvAES Nk (firstn (4 * Nk) mem) (m128_bytes a)) bs) /\
    (forall a, vbyte a -> exists o, AESEncrypt a ekey = Some o /\ AESDecrypt o dkey = Some a).
Proof. exact decrypt_key_ok. Qed.
Print Assumptions C76_decryption.
Example C76_example : length (rd_key blank) = 15%nat /\ exists key, AESSetDecryptKey (counting 32) 256 blank blank = Some key /\
  option_map m128_bytes (AESDecrypt (of_bytes [0x8e;0xa2;0xb7;0xca;0x51;0x67;0x45;0xbf;0xea;0xfc;0x49;0x90;0x4b;0x49;0x60;0x89]) key) = Some sample.
Proof. split; [reflexivity|]. eexists. split; [vm_compute; reflexivity|]. vm_compute. reflexivity. Qed.

(** * C77 The cipher of the garbling code *)
Theorem C77_blocks : forall global_key rest junk, bytes_ok rest -> exists AES_Key, set_key global_key rest junk = Some AES_Key /\
  (forall keys, encrypt_blocks keys AES_Key = Some (map (aes128 global_key) keys)) /\ (forall b, w128 (aes128 global_key b)).
Proof. exact blocks_ok. Qed.
Print Assumptions C77_blocks.
Theorem C77_permutation : forall global_key a b, w128 a -> w128 b -> aes128 global_key a = aes128 global_key b -> a = b.
Proof. exact aes128_inj. Qed.
Print Assumptions C77_permutation.
(** The run of both programs with this cipher in place of a parameter, and with the
    labels from the program's own generator, meets what the theorems on whole runs ask. *)
Example C77_example : (forall g b, code_aes g b = aes128 g b) /\ (forall mask mode, u_AES (real_u mask mode) = code_aes) /\
  (forall mask mode foot, good_run foot (real_u mask mode) acc_plain 3).
Proof. split; [exact code_aes_ok|]. split; [reflexivity|exact real_good]. Qed.

(** * C78 Key lengths *)
(** A key of 24 bytes is read beyond its end. *)
Theorem C78_key_192_in_bounds_refuted : forall key junk, length key = 24%nat -> AESSetEncryptKey key 192 junk = None.
Proof. exact aes192_overreads. Qed.
Print Assumptions C78_key_192_in_bounds_refuted.
(** What is read there has no influence. *)
Theorem C78_key_192_rest : forall key rest rest' j, length key = 24%nat -> length rest = 8%nat -> length rest' = 8%nat ->
  bytes_ok (key ++ rest) -> bytes_ok (key ++ rest') ->
  exists k k', AESSetEncryptKey (key ++ rest) 192 j = Some k /\ AESSetEncryptKey (key ++ rest') 192 j = Some k' /\
    forall a, vbyte a -> exists o, AESEncrypt a k = Some o /\ AESEncrypt a k' = Some o /\ m128_bytes o = AES 6 key (m128_bytes a).
Proof. exact aes192_rest. Qed.
Print Assumptions C78_key_192_rest.
(** Other lengths leave the round keys uninitialised. *)
Theorem C78_other_length : forall mem bits junk, bits <> 128%Z -> bits <> 192%Z -> bits <> 256%Z ->
  AESSetEncryptKey mem bits junk = Some (mkKey (rd_key junk) (6 + Z.quot bits 32)).
Proof. exact other_length. Qed.
Print Assumptions C78_other_length.
Example C78_example : AESSetEncryptKey (counting 24) 192 blank = None /\
  (exists k, AESSetEncryptKey (counting 24 ++ repeat 7 8) 192 blank = Some k /\
     option_map m128_bytes (AESEncrypt (of_bytes sample) k) = Some (AES 6 (counting 24) sample)) /\
  AESSetEncryptKey (counting 16) 64 blank = Some (mkKey (rd_key blank) 8).
Proof. split; [reflexivity|]. split; [eexists; split; [vm_compute; reflexivity|]; vm_compute; reflexivity|reflexivity]. Qed.

(** * C79 The arithmetic of crypto/block.h *)
Theorem C79_double : forall s, Rand.is_m128 s -> Rand.is_m128 (BlockOps.Double_Block s) /\
  Rand.to_block (BlockOps.Double_Block s) = BlockOps.times_x (Rand.to_block s) /\ BlockOps.SlowDouble_Block s = BlockOps.Double_Block s.
Proof. exact BlockOps.Double_Block_ok. Qed.
Print Assumptions C79_double.
Theorem C79_shifts_refuted :
  (exists s, Rand.is_m128 s /\ Rand.to_block s < 2 ^ 127 /\ Rand.to_block (BlockOps.LeftShift s) <> N.shiftl (Rand.to_block s) 1) /\
  (forall s, Rand.is_m128 s -> Rand.to_block s <> 0 -> Rand.to_block s < 2 ^ 63 ->
     Rand.to_block (BlockOps.RightShift s) <> N.shiftr (Rand.to_block s) 1).
Proof. exact BlockOps.shifts_refuted. Qed.
Print Assumptions C79_shifts_refuted.
Example C79_example : BlockOps.times_x (2 ^ 127) = 135 /\
  Rand.to_block (BlockOps.Double_Block (Rand.lanes 0x80000001 7 0 0x80000000)) = 2 ^ 32 * 15 + 133 /\
  Rand.to_block (BlockOps.LeftShift (Rand.lanes 0 (2 ^ 31) 0 0)) = 2 ^ 63 /\ Rand.to_block (BlockOps.RightShift (Rand.lanes 4 0 0 0)) = 8.
Proof. repeat split; vm_compute; reflexivity. Qed.
