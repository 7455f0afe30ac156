(** SHA3-256 as in FIPS 202, independent of the code.  Bit strings are lists of
    booleans; sections and algorithms are those of the standard. *)
From Coq Require Import Arith NArith List Bool.
Import ListNotations.

(** * The permutation, section 3, for b = 1600: w = 64 *)
Definition w : nat := 64.
(** 3.1.2: the bit A[x, y, z] of a state string *)
Definition bit_at (S : list bool) (x y z : nat) : bool := nth (w * (5 * y + x) + z) S false.
(** 3.1.3: the string of a state array *)
Definition string_of (A : nat -> nat -> nat -> bool) : list bool :=
  flat_map (fun l => map (fun z => A (l mod 5) (l / 5) z) (seq 0 w)) (seq 0 25).

(** Algorithm 1; [x + 4] and [z + (w - 1)] stand for x - 1 and z - 1 *)
Definition theta (S : list bool) : list bool :=
  let C x z := xorb (xorb (xorb (xorb (bit_at S x 0 z) (bit_at S x 1 z)) (bit_at S x 2 z)) (bit_at S x 3 z)) (bit_at S x 4 z) in
  let D x z := xorb (C ((x + 4) mod 5) z) (C ((x + 1) mod 5) ((z + (w - 1)) mod w)) in
  string_of (fun x y z => xorb (bit_at S x y z) (D x z)).
(** Algorithm 2: the walk over the lanes and the offset that each gets; lane (0, 0) is
    not on the walk *)
Fixpoint walk (t n x y : nat) : list (nat * nat * nat) :=
  match n with
  | O => []
  | S n => (x, y, (t + 1) * (t + 2) / 2) :: walk (t + 1) n y ((2 * x + 3 * y) mod 5)
  end.
Definition offset (x y : nat) : nat :=
  match find (fun e => Nat.eqb (fst (fst e)) x && Nat.eqb (snd (fst e)) y) (walk 0 24 1 0) with
  | Some (_, o) => o
  | None => 0
  end.
Definition rho (S : list bool) : list bool :=
  string_of (fun x y z => bit_at S x y ((z + (w - offset x y mod w)) mod w)).
(** Algorithm 3 *)
Definition pi (S : list bool) : list bool := string_of (fun x y z => bit_at S ((x + 3 * y) mod 5) x z).
(** Algorithm 4 *)
Definition chi (S : list bool) : list bool :=
  string_of (fun x y z => xorb (bit_at S x y z) (negb (bit_at S ((x + 1) mod 5) y z) && bit_at S ((x + 2) mod 5) y z)).
(** Algorithm 5 *)
Definition lfsr_step (R : list bool) : list bool :=
  match R with
  | [r0; r1; r2; r3; r4; r5; r6; r7] => [r7; r0; r1; r2; xorb r3 r7; xorb r4 r7; xorb r5 r7; r6]
  | _ => R
  end.
Definition rc (t : nat) : bool :=
  nth 0 (Nat.iter (t mod 255) lfsr_step [true; false; false; false; false; false; false; false]) false.
(** Algorithm 6: bit 2^j - 1 of the round constant is rc(j + 7 ir), j = 0 .. 6 *)
Definition RC (ir z : nat) : bool :=
  existsb (fun j => Nat.eqb z (2 ^ j - 1) && rc (j + 7 * ir)) (seq 0 7).
Definition iota (ir : nat) (S : list bool) : list bool :=
  string_of (fun x y z => if Nat.eqb x 0 && Nat.eqb y 0 then xorb (bit_at S x y z) (RC ir z) else bit_at S x y z).
Definition Rnd (ir : nat) (S : list bool) : list bool := iota ir (chi (pi (rho (theta S)))).
(** Algorithm 7, 24 rounds *)
Definition keccak_f (S : list bool) : list bool := fold_left (fun S ir => Rnd ir S) (seq 0 24) S.

(** * Sponge, section 4, and SHA3-256, sections 5 and 6 *)
Definition xor_strings (a b : list bool) : list bool := map (fun p => xorb (fst p) (snd p)) (combine a b).
(** Algorithm 9: pad10*1(x, m) *)
Definition pad101 (x m : nat) : list bool := true :: repeat false ((x - (m + 2) mod x) mod x) ++ [true].
(** Algorithm 8: absorbing [n] blocks of r bits *)
Fixpoint absorb (r n : nat) (P S : list bool) : list bool :=
  match n with
  | O => S
  | S n => absorb r n (skipn r P) (keccak_f (xor_strings S (firstn r P ++ repeat false (1600 - r))))
  end.
(** [d] is at most r here, so that squeezing is one step *)
Definition sponge (r d : nat) (N : list bool) : list bool :=
  let P := N ++ pad101 r (length N) in
  firstn d (absorb r (length P / r) P (repeat false 1600)).
Definition SHA3_256 (M : list bool) : list bool := sponge (1600 - 512) 256 (M ++ [false; true]).
(** B.1: the bits of a string of bytes *)
Definition byte_bits (l : list N) : list bool := flat_map (fun b => map (fun k => N.testbit b (N.of_nat k)) (seq 0 8)) l.
