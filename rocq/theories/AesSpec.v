(** The Advanced Encryption Standard as in FIPS-197, independent of the code. *)
From Coq Require Import Arith NArith List Bool.
Import ListNotations.
Open Scope N_scope.

(** * The field GF(2^8), section 4: bytes are polynomials over GF(2) *)
Definition poly_mul (a b : N) : N :=
  fold_left (fun s i => if N.testbit b i then N.lxor s (N.shiftl a i) else s) [0; 1; 2; 3; 4; 5; 6; 7] 0.
(** Remainder of a product modulo x^8 + x^4 + x^3 + x + 1. *)
Definition poly_rem (m : N) : N :=
  fold_left (fun m i => if N.testbit m (i + 8) then N.lxor m (N.shiftl 0x11b i) else m) [6; 5; 4; 3; 2; 1; 0] m.
Definition gf_mul (a b : N) : N := poly_rem (poly_mul a b).
Definition all_bytes : list N := map N.of_nat (seq 0 256).
(** The multiplicative inverse, 0 for 0. *)
Definition gf_inv (a : N) : N := match find (fun b => gf_mul a b =? 1) all_bytes with Some b => b | None => 0 end.

(** * The cipher, section 5 *)
(** 5.1.1: the affine transformation and the S-box *)
Definition affine (b : N) : N :=
  fold_left (fun s i => let t k := N.testbit b ((i + k) mod 8) in
    if xorb (xorb (xorb (xorb (xorb (t 0) (t 4)) (t 5)) (t 6)) (t 7)) (N.testbit 0x63 i) then N.setbit s i else s)
    [0; 1; 2; 3; 4; 5; 6; 7] 0.
Definition SBox (b : N) : N := affine (gf_inv b).
(** 5.3.2: the inverse S-box *)
Definition InvSBox (b : N) : N := match find (fun a => SBox a =? b) all_bytes with Some a => a | None => 0 end.

(** 3.4: the state is an array of bytes of 4 rows and 4 columns; input byte r + 4c is
    at row r, column c.  It is kept as that list of bytes. *)
Definition state := list N.
Definition at_ (s : state) (r c : nat) : N := nth (r + 4 * c) s 0.
Definition tabulate (f : nat -> nat -> N) : state := map (fun i : nat => f (i mod 4)%nat (i / 4)%nat) (seq 0 16).
Definition SubBytes (s : state) : state := tabulate (fun r c => SBox (at_ s r c)).
Definition ShiftRows (s : state) : state := tabulate (fun r c => at_ s r ((c + r) mod 4)).
Definition MixColumns (s : state) : state := tabulate (fun r c =>
  let m k := at_ s ((r + k) mod 4) c in
  N.lxor (N.lxor (N.lxor (gf_mul 2 (m 0%nat)) (gf_mul 3 (m 1%nat))) (m 2%nat)) (m 3%nat)).
(** A key schedule gives words of four bytes. *)
Definition AddRoundKey (w : nat -> list N) (round : nat) (s : state) : state :=
  tabulate (fun r c => N.lxor (at_ s r c) (nth r (w (4 * round + c)%nat) 0)).
Fixpoint rounds_from (w : nat -> list N) (first n : nat) (s : state) : state :=
  match n with
  | O => s
  | S n => rounds_from w (S first) n (AddRoundKey w first (MixColumns (ShiftRows (SubBytes s))))
  end.
Definition Cipher (w : nat -> list N) (Nr : nat) (input : list N) : list N :=
  AddRoundKey w Nr (ShiftRows (SubBytes (rounds_from w 1 (Nr - 1) (AddRoundKey w 0 input)))).

(** 5.2: key expansion, [Nk] = 4, 6 or 8 *)
Definition xor_word (a b : list N) : list N := map (fun p => N.lxor (fst p) (snd p)) (combine a b).
Definition RotWord (a : list N) : list N := match a with [] => [] | x :: t => t ++ [x] end.
Definition SubWord (a : list N) : list N := map SBox a.
(** x^(i-1) in GF(2^8) *)
Fixpoint power_of_x (i : nat) : N := match i with O => 1 | S i => gf_mul 2 (power_of_x i) end.
Definition Rcon (i : nat) : list N := [power_of_x (i - 1); 0; 0; 0].
Definition next_word (Nk : nat) (key : list N) (i : nat) (before : list (list N)) : list N :=
  if (i <? Nk)%nat then firstn 4 (skipn (4 * i) key)
  else let temp := nth (i - 1) before [] in
       let temp := if (i mod Nk =? 0)%nat then xor_word (SubWord (RotWord temp)) (Rcon (i / Nk))
                   else if (6 <? Nk)%nat && (i mod Nk =? 4)%nat then SubWord temp
                   else temp in
       xor_word (nth (i - Nk) before []) temp.
Fixpoint key_words (Nk : nat) (key : list N) (n : nat) : list (list N) :=
  match n with
  | O => []
  | S i => let before := key_words Nk key i in before ++ [next_word Nk key i before]
  end.
(** The expanded key; the number of rounds is Nk + 6. *)
Definition KeyExpansion (Nk : nat) (key : list N) : list (list N) := key_words Nk key (4 * (Nk + 7)).

(** The cipher with a key of 4 [Nk] bytes. *)
Definition AES (Nk : nat) (key input : list N) : list N :=
  let ws := KeyExpansion Nk key in Cipher (fun i => nth i ws []) (Nk + 6) input.

(** * The inverse cipher, section 5.3 *)
Definition InvSubBytes (s : state) : state := tabulate (fun r c => InvSBox (at_ s r c)).
Definition InvShiftRows (s : state) : state := tabulate (fun r c => at_ s r ((c + (4 - r)) mod 4)).
Definition InvMixColumns (s : state) : state := tabulate (fun r c =>
  let m k := at_ s ((r + k) mod 4) c in
  N.lxor (N.lxor (N.lxor (gf_mul 14 (m 0%nat)) (gf_mul 11 (m 1%nat))) (gf_mul 13 (m 2%nat))) (gf_mul 9 (m 3%nat))).
Fixpoint inv_rounds (w : nat -> list N) (n : nat) (s : state) : state :=
  match n with
  | O => s
  | S m => inv_rounds w m (InvMixColumns (AddRoundKey w n (InvSubBytes (InvShiftRows s))))
  end.
Definition InvCipher (w : nat -> list N) (Nr : nat) (input : list N) : list N :=
  AddRoundKey w 0 (InvSubBytes (InvShiftRows (inv_rounds w (Nr - 1) (AddRoundKey w Nr input)))).

Definition InvAES (Nk : nat) (key input : list N) : list N :=
  let ws := KeyExpansion Nk key in InvCipher (fun i => nth i ws []) (Nk + 6) input.

(** * The examples of FIPS-197, appendices B and C *)
Definition counting (n : nat) : list N := map N.of_nat (seq 0 n).
Definition sample : list N := [0x00;0x11;0x22;0x33;0x44;0x55;0x66;0x77;0x88;0x99;0xaa;0xbb;0xcc;0xdd;0xee;0xff].
Example appendix_B : AES 4 [0x2b;0x7e;0x15;0x16;0x28;0xae;0xd2;0xa6;0xab;0xf7;0x15;0x88;0x09;0xcf;0x4f;0x3c]
    [0x32;0x43;0xf6;0xa8;0x88;0x5a;0x30;0x8d;0x31;0x31;0x98;0xa2;0xe0;0x37;0x07;0x34]
  = [0x39;0x25;0x84;0x1d;0x02;0xdc;0x09;0xfb;0xdc;0x11;0x85;0x97;0x19;0x6a;0x0b;0x32].
Proof. vm_compute. reflexivity. Qed.
Example appendix_C1 : AES 4 (counting 16) sample
  = [0x69;0xc4;0xe0;0xd8;0x6a;0x7b;0x04;0x30;0xd8;0xcd;0xb7;0x80;0x70;0xb4;0xc5;0x5a].
Proof. vm_compute. reflexivity. Qed.
Example appendix_C2 : AES 6 (counting 24) sample
  = [0xdd;0xa9;0x7c;0xa4;0x86;0x4c;0xdf;0xe0;0x6e;0xaf;0x70;0xa0;0xec;0x0d;0x71;0x91].
Proof. vm_compute. reflexivity. Qed.
Example appendix_C3 : AES 8 (counting 32) sample
  = [0x8e;0xa2;0xb7;0xca;0x51;0x67;0x45;0xbf;0xea;0xfc;0x49;0x90;0x4b;0x49;0x60;0x89].
Proof. vm_compute. reflexivity. Qed.
