(** C141-C143: more programs of the processor a23.
    Statements only; the proofs are in RtlA23*.v. *)
From Coq Require Import Reals ZArith List Bool.
From Verif Require Import Base A23Int A23Cordic RtlA23 RtlA23Units RtlA23Step RtlA23Jump RtlA23Mem RtlA23Mul RtlA23Multi RtlA23Run RtlA23Sum RtlA23Fill RtlA23Matrix RtlA23Hamming RtlA23Cordic RtlA23Temp.
Import ListNotations.
Open Scope Z_scope.

(** * C141: the program that counts differing bits *)
Theorem C141_distance : forall z a b m (p := run z (1278 + 3 * m) (reset (mem_init ham_code [a] [b]))), 57 <= code_size z -> 1 <= out_size z -> 64 <= stack_size z ->
  terminate p = true /\ outputs (mem p) 1 = [distance a b].
Proof. exact hamming_program. Qed.
Print Assumptions C141_distance.
Example C141_distance_case : forall (p := run (Sizes 64 64 64 64 64) 1278 (reset (mem_init ham_code [0x10101010] [0xdeadbeef]))), terminate p = true /\ outputs (mem p) 1 = [24].
Proof. exact hamming_case. Qed.
(** * C142: the program for sine and cosine *)
Theorem C142_as_in_c : forall z a b m (p := run z (627 + 3 * m) (reset (mem_init cordic_code [a] [b]))), is_word a -> is_word b -> 2 <= out_size z -> 64 <= stack_size z ->
  terminate p = true /\ exists s c, cordic Wraps (s32 (Z.lxor a b)) = Some (s, c) /\ outputs (mem p) 2 = [to_uint s; to_uint c].
Proof. exact cordic_program. Qed.
Print Assumptions C142_as_in_c.
Theorem C142_angles : forall z a b m (p := run z (627 + 3 * m) (reset (mem_init cordic_code [a] [b]))) (t := s32 (Z.lxor a b)), is_word a -> is_word b -> 2 <= out_size z -> 64 <= stack_size z -> Z.abs t <= 0x6487ED51 ->
  terminate p = true /\ exists s c, map s32 (outputs (mem p) 2) = [s; c] /\
  (Rabs (IZR s - 2 ^ 30 * sin (IZR t / 2 ^ 30)) <= 72 /\ Rabs (IZR c - 2 ^ 30 * cos (IZR t / 2 ^ 30)) <= 72)%R.
Proof. exact cordic_angles. Qed.
Print Assumptions C142_angles.
Example C142_angles_case : forall (p := run (Sizes 128 64 64 64 64) 627 (reset (mem_init cordic_code [0x10101010] [Z.lxor 0x10101010 0x3243F6A8]))), terminate p = true /\ map s32 (outputs (mem p) 2) = [759250128; 759250121].
Proof. exact cordic_case. Qed.
(** * C143: the program that adds without the carry flag *)
Theorem C143_sum : forall z g e m (p := run z (1024 + 3 * m) (reset (mem_init temp_code g e))), length g = 32%nat -> length e = 32%nat -> Forall is_word g -> Forall is_word e -> 32 <= out_size z -> 64 <= stack_size z ->
  terminate p = true /\ number (outputs (mem p) 32) = (number g + number e) mod 2 ^ 1024.
Proof. exact temp_program. Qed.
Print Assumptions C143_sum.
Example C143_sum_case : forall m (p := run (Sizes 64 64 64 64 64) (1024 + 3 * m) (reset (mem_init temp_code (repeat (2 ^ 32 - 1) 31 ++ [2 ^ 31]) (1 :: repeat 0 30 ++ [1])))), terminate p = true /\ number (outputs (mem p) 32) = (2 ^ 31 + 2) * 2 ^ 992.
Proof. exact temp_case. Qed.
