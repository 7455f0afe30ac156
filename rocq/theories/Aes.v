(** crypto/aes.h: AES with the AES-NI instructions, and crypto/block.h.  The meaning
    of the instructions is that of the Intel manual. *)
From Coq Require Import Arith ZArith NArith List Bool Lia.
From Verif Require Import Base Codec.
Import ListNotations.
Open Scope N_scope.

(** * Registers *)
(** __m128i: four double words of four bytes, in the order of memory. *)
Record word := W { y0 : N; y1 : N; y2 : N; y3 : N }.
Record m128 := V { d0 : word; d1 : word; d2 : word; d3 : word }.
Definition word_bytes (w : word) : list N := [y0 w; y1 w; y2 w; y3 w].
Definition m128_bytes (v : m128) : list N := word_bytes (d0 v) ++ word_bytes (d1 v) ++ word_bytes (d2 v) ++ word_bytes (d3 v).
Definition word_at (l : list N) (i : nat) : word := W (nth i l 0) (nth (i + 1) l 0) (nth (i + 2) l 0) (nth (i + 3) l 0).
Definition of_bytes (l : list N) : m128 := V (word_at l 0) (word_at l 4) (word_at l 8) (word_at l 12).
Definition wmap (f : N -> N) (w : word) : word := W (f (y0 w)) (f (y1 w)) (f (y2 w)) (f (y3 w)).
Definition vmap (f : N -> N) (v : m128) : m128 := V (wmap f (d0 v)) (wmap f (d1 v)) (wmap f (d2 v)) (wmap f (d3 v)).
Definition wxor (a b : word) : word := W (N.lxor (y0 a) (y0 b)) (N.lxor (y1 a) (y1 b)) (N.lxor (y2 a) (y2 b)) (N.lxor (y3 a) (y3 b)).
Definition zero_word : word := W 0 0 0 0.

(** * Instructions *)
Definition _mm_xor_si128 (a b : m128) : m128 := V (wxor (d0 a) (d0 b)) (wxor (d1 a) (d1 b)) (wxor (d2 a) (d2 b)) (wxor (d3 a) (d3 b)).
Definition _mm_setzero_si128 : m128 := V zero_word zero_word zero_word zero_word.
(** Unaligned load of 16 bytes; [None]: beyond the memory that can be read. *)
Definition _mm_loadu_si128 (mem : list N) (at_ : nat) : option m128 :=
  if (at_ + 16 <=? length mem)%nat then Some (of_bytes (skipn at_ mem)) else None.
Definition dword (v : m128) (i : N) : word := match i with 0 => d0 v | 1 => d1 v | 2 => d2 v | _ => d3 v end.
(** Field [k] of two bits of an immediate operand. *)
Definition field (imm k : N) : N := N.land (N.shiftr imm (2 * k)) 3.
Definition _mm_shuffle_epi32 (a : m128) (imm : N) : m128 :=
  V (dword a (field imm 0)) (dword a (field imm 1)) (dword a (field imm 2)) (dword a (field imm 3)).
Definition _mm_shuffle_ps (a b : m128) (imm : N) : m128 :=
  V (dword a (field imm 0)) (dword a (field imm 1)) (dword b (field imm 2)) (dword b (field imm 3)).
(** Only a shift by 4 bytes is used. *)
Definition _mm_slli_si128_4 (a : m128) : m128 := V zero_word (d0 a) (d1 a) (d2 a).
(** The S-box as a table. *)
Definition sbox_table : list N := [
  0x63;0x7c;0x77;0x7b;0xf2;0x6b;0x6f;0xc5;0x30;0x01;0x67;0x2b;0xfe;0xd7;0xab;0x76;
  0xca;0x82;0xc9;0x7d;0xfa;0x59;0x47;0xf0;0xad;0xd4;0xa2;0xaf;0x9c;0xa4;0x72;0xc0;
  0xb7;0xfd;0x93;0x26;0x36;0x3f;0xf7;0xcc;0x34;0xa5;0xe5;0xf1;0x71;0xd8;0x31;0x15;
  0x04;0xc7;0x23;0xc3;0x18;0x96;0x05;0x9a;0x07;0x12;0x80;0xe2;0xeb;0x27;0xb2;0x75;
  0x09;0x83;0x2c;0x1a;0x1b;0x6e;0x5a;0xa0;0x52;0x3b;0xd6;0xb3;0x29;0xe3;0x2f;0x84;
  0x53;0xd1;0x00;0xed;0x20;0xfc;0xb1;0x5b;0x6a;0xcb;0xbe;0x39;0x4a;0x4c;0x58;0xcf;
  0xd0;0xef;0xaa;0xfb;0x43;0x4d;0x33;0x85;0x45;0xf9;0x02;0x7f;0x50;0x3c;0x9f;0xa8;
  0x51;0xa3;0x40;0x8f;0x92;0x9d;0x38;0xf5;0xbc;0xb6;0xda;0x21;0x10;0xff;0xf3;0xd2;
  0xcd;0x0c;0x13;0xec;0x5f;0x97;0x44;0x17;0xc4;0xa7;0x7e;0x3d;0x64;0x5d;0x19;0x73;
  0x60;0x81;0x4f;0xdc;0x22;0x2a;0x90;0x88;0x46;0xee;0xb8;0x14;0xde;0x5e;0x0b;0xdb;
  0xe0;0x32;0x3a;0x0a;0x49;0x06;0x24;0x5c;0xc2;0xd3;0xac;0x62;0x91;0x95;0xe4;0x79;
  0xe7;0xc8;0x37;0x6d;0x8d;0xd5;0x4e;0xa9;0x6c;0x56;0xf4;0xea;0x65;0x7a;0xae;0x08;
  0xba;0x78;0x25;0x2e;0x1c;0xa6;0xb4;0xc6;0xe8;0xdd;0x74;0x1f;0x4b;0xbd;0x8b;0x8a;
  0x70;0x3e;0xb5;0x66;0x48;0x03;0xf6;0x0e;0x61;0x35;0x57;0xb9;0x86;0xc1;0x1d;0x9e;
  0xe1;0xf8;0x98;0x11;0x69;0xd9;0x8e;0x94;0x9b;0x1e;0x87;0xe9;0xce;0x55;0x28;0xdf;
  0x8c;0xa1;0x89;0x0d;0xbf;0xe6;0x42;0x68;0x41;0x99;0x2d;0x0f;0xb0;0x54;0xbb;0x16].

Definition inv_sbox_table : list N := [
  0x52;0x09;0x6a;0xd5;0x30;0x36;0xa5;0x38;0xbf;0x40;0xa3;0x9e;0x81;0xf3;0xd7;0xfb;
  0x7c;0xe3;0x39;0x82;0x9b;0x2f;0xff;0x87;0x34;0x8e;0x43;0x44;0xc4;0xde;0xe9;0xcb;
  0x54;0x7b;0x94;0x32;0xa6;0xc2;0x23;0x3d;0xee;0x4c;0x95;0x0b;0x42;0xfa;0xc3;0x4e;
  0x08;0x2e;0xa1;0x66;0x28;0xd9;0x24;0xb2;0x76;0x5b;0xa2;0x49;0x6d;0x8b;0xd1;0x25;
  0x72;0xf8;0xf6;0x64;0x86;0x68;0x98;0x16;0xd4;0xa4;0x5c;0xcc;0x5d;0x65;0xb6;0x92;
  0x6c;0x70;0x48;0x50;0xfd;0xed;0xb9;0xda;0x5e;0x15;0x46;0x57;0xa7;0x8d;0x9d;0x84;
  0x90;0xd8;0xab;0x00;0x8c;0xbc;0xd3;0x0a;0xf7;0xe4;0x58;0x05;0xb8;0xb3;0x45;0x06;
  0xd0;0x2c;0x1e;0x8f;0xca;0x3f;0x0f;0x02;0xc1;0xaf;0xbd;0x03;0x01;0x13;0x8a;0x6b;
  0x3a;0x91;0x11;0x41;0x4f;0x67;0xdc;0xea;0x97;0xf2;0xcf;0xce;0xf0;0xb4;0xe6;0x73;
  0x96;0xac;0x74;0x22;0xe7;0xad;0x35;0x85;0xe2;0xf9;0x37;0xe8;0x1c;0x75;0xdf;0x6e;
  0x47;0xf1;0x1a;0x71;0x1d;0x29;0xc5;0x89;0x6f;0xb7;0x62;0x0e;0xaa;0x18;0xbe;0x1b;
  0xfc;0x56;0x3e;0x4b;0xc6;0xd2;0x79;0x20;0x9a;0xdb;0xc0;0xfe;0x78;0xcd;0x5a;0xf4;
  0x1f;0xdd;0xa8;0x33;0x88;0x07;0xc7;0x31;0xb1;0x12;0x10;0x59;0x27;0x80;0xec;0x5f;
  0x60;0x51;0x7f;0xa9;0x19;0xb5;0x4a;0x0d;0x2d;0xe5;0x7a;0x9f;0x93;0xc9;0x9c;0xef;
  0xa0;0xe0;0x3b;0x4d;0xae;0x2a;0xf5;0xb0;0xc8;0xeb;0xbb;0x3c;0x83;0x53;0x99;0x61;
  0x17;0x2b;0x04;0x7e;0xba;0x77;0xd6;0x26;0xe1;0x69;0x14;0x63;0x55;0x21;0x0c;0x7d].

Definition sub (b : N) : N := nth (N.to_nat b) sbox_table 0.
Definition inv_sub (b : N) : N := nth (N.to_nat b) inv_sbox_table 0.
Definition rot_word (w : word) : word := W (y1 w) (y2 w) (y3 w) (y0 w).
Definition _mm_aeskeygenassist_si128 (a : m128) (c : N) : m128 :=
  let rcon := W c 0 0 0 in
  V (wmap sub (d1 a)) (wxor (rot_word (wmap sub (d1 a))) rcon) (wmap sub (d3 a)) (wxor (rot_word (wmap sub (d3 a))) rcon).
(** Row [r] of the state is byte [r] of each double word; it is rotated by [r]. *)
Definition shift_rows (v : m128) : m128 :=
  V (W (y0 (d0 v)) (y1 (d1 v)) (y2 (d2 v)) (y3 (d3 v))) (W (y0 (d1 v)) (y1 (d2 v)) (y2 (d3 v)) (y3 (d0 v)))
    (W (y0 (d2 v)) (y1 (d3 v)) (y2 (d0 v)) (y3 (d1 v))) (W (y0 (d3 v)) (y1 (d0 v)) (y2 (d1 v)) (y3 (d2 v))).
Definition inv_shift_rows (v : m128) : m128 :=
  V (W (y0 (d0 v)) (y1 (d3 v)) (y2 (d2 v)) (y3 (d1 v))) (W (y0 (d1 v)) (y1 (d0 v)) (y2 (d3 v)) (y3 (d2 v)))
    (W (y0 (d2 v)) (y1 (d1 v)) (y2 (d0 v)) (y3 (d3 v))) (W (y0 (d3 v)) (y1 (d2 v)) (y2 (d1 v)) (y3 (d0 v))).
(** Multiplication by x of one byte, and the columns in terms of it. *)
Definition xtime (b : N) : N := if b <? 128 then 2 * b else N.lxor (2 * b - 256) 0x1b.
Definition mix_word (w : word) : word :=
  let s := N.lxor (N.lxor (y0 w) (y1 w)) (N.lxor (y2 w) (y3 w)) in
  let f a b := N.lxor a (N.lxor s (xtime (N.lxor a b))) in
  W (f (y0 w) (y1 w)) (f (y1 w) (y2 w)) (f (y2 w) (y3 w)) (f (y3 w) (y0 w)).
Definition inv_mix_word (w : word) : word :=
  let u := xtime (xtime (N.lxor (y0 w) (y2 w))) in
  let v := xtime (xtime (N.lxor (y1 w) (y3 w))) in
  mix_word (W (N.lxor (y0 w) u) (N.lxor (y1 w) v) (N.lxor (y2 w) u) (N.lxor (y3 w) v)).
Definition mix_columns (v : m128) : m128 := V (mix_word (d0 v)) (mix_word (d1 v)) (mix_word (d2 v)) (mix_word (d3 v)).
Definition inv_mix_columns (v : m128) : m128 := V (inv_mix_word (d0 v)) (inv_mix_word (d1 v)) (inv_mix_word (d2 v)) (inv_mix_word (d3 v)).
Definition _mm_aesenc_si128 (a k : m128) : m128 := _mm_xor_si128 (mix_columns (vmap sub (shift_rows a))) k.
Definition _mm_aesenclast_si128 (a k : m128) : m128 := _mm_xor_si128 (vmap sub (shift_rows a)) k.
Definition _mm_aesdec_si128 (a k : m128) : m128 := _mm_xor_si128 (inv_mix_columns (vmap inv_sub (inv_shift_rows a))) k.
Definition _mm_aesdeclast_si128 (a k : m128) : m128 := _mm_xor_si128 (vmap inv_sub (inv_shift_rows a)) k.
Definition _mm_aesimc_si128 (a : m128) : m128 := inv_mix_columns a.

(** * Key expansion *)
(** EXPAND_ASSIST, aes.h:81-90: the new v1 and v3 (v2 is overwritten before it is used) *)
Definition expand_assist (v1 v3 v4 : m128) (shuff_const aes_const : N) : m128 * m128 :=
  let v2 := _mm_aeskeygenassist_si128 v4 aes_const in
  let v3 := _mm_shuffle_ps v3 v1 16 in
  let v1 := _mm_xor_si128 v1 v3 in
  let v3 := _mm_shuffle_ps v3 v1 140 in
  let v1 := _mm_xor_si128 v1 v3 in
  let v2 := _mm_shuffle_epi32 v2 shuff_const in
  (_mm_xor_si128 v1 v2, v3).
(** AES128KeyExpansion, aes.h:105-130; [mem] is the memory from userkey on.  The
    result is what is written to kp[0], kp[1], ... *)
Fixpoint expand128 (x0 x2 : m128) (consts : list N) : list m128 :=
  match consts with
  | [] => []
  | c :: cs => let '(x0, x2) := expand_assist x0 x2 x0 255 c in x0 :: expand128 x0 x2 cs
  end.
Definition AES128KeyExpansion (mem : list N) : option (list m128) :=
  do x0 <- _mm_loadu_si128 mem 0;
  Some (x0 :: expand128 x0 _mm_setzero_si128 [1; 2; 4; 8; 16; 32; 64; 128; 27; 54]).
(** EXPAND192_STEP, aes.h:92-103, and AES192KeyExpansion, aes.h:132-141 *)
Fixpoint expand192 (x0 x2 x3 tmp : m128) (consts : list N) : list m128 :=
  match consts with
  | [] => []
  | c :: cs =>
    let '(x0, x2) := expand_assist x0 x2 x3 85 c in
    let x3 := _mm_xor_si128 x3 (_mm_slli_si128_4 x3) in
    let x3 := _mm_xor_si128 x3 (_mm_shuffle_epi32 x0 255) in
    let k0 := _mm_shuffle_ps tmp x0 68 in
    let k1 := _mm_shuffle_ps x0 x3 78 in
    let '(x0, x2) := expand_assist x0 x2 x3 85 (c * 2) in
    let x3 := _mm_xor_si128 x3 (_mm_slli_si128_4 x3) in
    let x3 := _mm_xor_si128 x3 (_mm_shuffle_epi32 x0 255) in
    k0 :: k1 :: x0 :: expand192 x0 x2 x3 x3 cs
  end.
Definition AES192KeyExpansion (mem : list N) : option (list m128) :=
  do x0 <- _mm_loadu_si128 mem 0;
  do x3 <- _mm_loadu_si128 mem 16;
  Some (x0 :: expand192 x0 _mm_setzero_si128 x3 x3 [1; 4; 16; 64]).
(** AES256KeyExpansion, aes.h:143-174 *)
Fixpoint expand256 (x0 x2 x3 : m128) (consts : list N) : list m128 :=
  match consts with
  | [] => let '(x0, x2) := expand_assist x0 x2 x3 255 64 in [x0]
  | c :: cs =>
    let '(x0, x2) := expand_assist x0 x2 x3 255 c in
    let '(x3, x2) := expand_assist x3 x2 x0 170 c in
    x0 :: x3 :: expand256 x0 x2 x3 cs
  end.
Definition AES256KeyExpansion (mem : list N) : option (list m128) :=
  do x0 <- _mm_loadu_si128 mem 0;
  do x3 <- _mm_loadu_si128 mem 16;
  Some (x0 :: x3 :: expand256 x0 _mm_setzero_si128 x3 [1; 2; 4; 8; 16; 32]).

(** aes.h:75-79; the array has 15 entries. *)
Record AES_KEY := mkKey { rd_key : list m128; rounds : Z }.
(** Writing [new] to the beginning of an array. *)
Definition overwrite (new old : list m128) : list m128 := new ++ skipn (length new) old.
(** AESSetEncryptKey, aes.h:176-189; OCB_KEY_LEN is not defined, so it counts as 0. *)
Definition AESSetEncryptKey (mem : list N) (bits : Z) (key : AES_KEY) : option AES_KEY :=
  do ks <- (if (bits =? 128)%Z then AES128KeyExpansion mem
            else if (bits =? 192)%Z then AES192KeyExpansion mem
            else if (bits =? 256)%Z then AES256KeyExpansion mem
            else Some []);
  Some (mkKey (overwrite ks (rd_key key)) (6 + Z.quot bits 32)).
(** AESSetDecryptKeyFast, aes.h:191-201, for 1 <= rounds < 15.  The loop: entry [i] of
    the new array, for i = rounds - 1, ..., 1. *)
Fixpoint imc_loop (i j : nat) (ek dk : list m128) : option (list m128) :=
  match i with
  | O => do k <- nth_error ek j; Some (upd_nat dk 0 k)
  | S i' => do k <- nth_error ek j; imc_loop i' (S j) ek (upd_nat dk i (_mm_aesimc_si128 k))
  end.
Definition AESSetDecryptKeyFast (dkey ekey : AES_KEY) : option AES_KEY :=
  let n := Z.to_nat (rounds ekey) in
  do k <- nth_error (rd_key ekey) 0;
  do ks <- imc_loop (n - 1) 1 (rd_key ekey) (upd_nat (rd_key dkey) n k);
  Some (mkKey ks (rounds ekey)).
(** AESSetDecryptKey, aes.h:203-209; [temp] is what is on the stack. *)
Definition AESSetDecryptKey (mem : list N) (bits : Z) (key temp : AES_KEY) : option AES_KEY :=
  do t <- AESSetEncryptKey mem bits temp;
  AESSetDecryptKeyFast key t.

(** * Encryption *)
(** The loops j = 1, ..., rnds - 1 (rnds at least 1). *)
Fixpoint round_loop (step : m128 -> m128 -> m128) (sched : list m128) (j n : nat) (tmp : m128) : option m128 :=
  match n with
  | O => Some tmp
  | S n => do k <- nth_error sched j; round_loop step sched (S j) n (step tmp k)
  end.
(** AESEncrypt, aes.h:211-221, AESDecrypt, 223-233 *)
Definition crypt (step last : m128 -> m128 -> m128) (inp : m128) (key : AES_KEY) : option m128 :=
  let rnds := Z.to_nat (rounds key) in
  do k0 <- nth_error (rd_key key) 0;
  do tmp <- round_loop step (rd_key key) 1 (rnds - 1) (_mm_xor_si128 inp k0);
  do kl <- nth_error (rd_key key) (1 + (rnds - 1));
  Some (last tmp kl).
Definition AESEncrypt := crypt _mm_aesenc_si128 _mm_aesenclast_si128.
Definition AESDecrypt := crypt _mm_aesdec_si128 _mm_aesdeclast_si128.
(** AESEcbEncryptBlks, aes.h:235-245, AESEcbDecryptBlks, 247-257: round by round over
    all blocks. *)
Fixpoint blks_loop (step : m128 -> m128 -> m128) (sched : list m128) (j n : nat) (blks : list m128) : option (list m128) :=
  match n with
  | O => Some blks
  | S n => do k <- nth_error sched j; blks_loop step sched (S j) n (map (fun b => step b k) blks)
  end.
Definition crypt_blks (step last : m128 -> m128 -> m128) (blks : list m128) (key : AES_KEY) : option (list m128) :=
  let rnds := Z.to_nat (rounds key) in
  do k0 <- nth_error (rd_key key) 0;
  do blks <- blks_loop step (rd_key key) 1 (rnds - 1) (map (fun b => _mm_xor_si128 b k0) blks);
  do kl <- nth_error (rd_key key) (1 + (rnds - 1));
  Some (map (fun b => last b kl) blks).
Definition AESEcbEncryptBlks := crypt_blks _mm_aesenc_si128 _mm_aesenclast_si128.
Definition AESEcbDecryptBlks := crypt_blks _mm_aesdec_si128 _mm_aesdeclast_si128.
