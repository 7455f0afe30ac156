(** Theorems about the programs for the garbled processor. *)
From Coq Require Import Arith ZArith NArith List Bool Lia Permutation.
From Verif Require Import Base Codec Tcp A23Int A23Sort A23Dijkstra A23Arith A23Hamming A23Sbox AesSpec A23Aes Sha3Spec A23Sha3 A23Demo.
Import ListNotations.
Open Scope Z_scope.

(** * C87 Bubble sort *)
Theorem C87_bubble_sort : forall n g e o, length g = n -> length e = n -> length o = n ->
  exists o', bubble_main n g e o = Some o' /\ Permutation (shared g e) o' /\ ascending o'.
Proof. exact bubble_main_ok. Qed.
Print Assumptions C87_bubble_sort.
Example C87_example : bubble_main 32 (repeat 0 32) merge_test (repeat 0 32) = Some sorted_test.
Proof. exact bubble_test. Qed.

(** * C88 Merge sort *)
Theorem C88_merge_sort_refuted : ~ forall stack n g e o, length g = n -> length e = n -> length o = n -> (n <= stack)%nat -> (1 <= stack)%nat ->
  exists o', merge_main stack n g e o = Some o' /\ ascending o'.
Proof. exact merge_unsorted. Qed.
Print Assumptions C88_merge_sort_refuted.
Theorem C88_merge_rearranges : forall stack n g e o, length g = n -> length e = n -> length o = n -> (n <= stack)%nat -> (1 <= stack)%nat ->
  exists o', merge_main stack n g e o = Some o' /\ Permutation (shared g e) o'.
Proof. exact merge_main_rearranges. Qed.
Print Assumptions C88_merge_rearranges.
(** The test vector that ships with it. *)
Example C88_example : merge_main 32 32 (repeat 0 32) merge_test (repeat 0 32) =
  Some [22; 25; 29; 27; 30; 26; 19; 28; 21; 20; 24; 23; 18; 17; 16; 15; 14; 12; 11; 10; 13; 4; 8; 2; 7; 0; 1; 5; 9; 6; 3; 31].
Proof. exact merge_test_out. Qed.

(** * C89 Shortest paths *)
Theorem C89_distances : forall m n g e o spt0, (0 < n)%nat -> length g = (n * n)%nat -> length e = (n * n)%nat -> length o = n -> length spt0 = n ->
  (forall w, In w (shared g e) -> 0 <= w /\ w + 32767 < 2 ^ 31) ->
  exists o', dijkstra_main m n g e o spt0 = Some o' /\ length o' = n /\ forall v, (v < n)%nat -> distance_to n (shared g e) 0 v (nth v o' 0).
Proof. exact dijkstra_main_ok. Qed.
Print Assumptions C89_distances.
Example C89_example : (forall w, In w (shared graph_test (repeat 0 64)) -> 0 <= w /\ w + 32767 < 2 ^ 31) /\
  dijkstra_main Undefined 8 graph_test (repeat 0 64) (repeat 0 8) (repeat 5 8) = Some [0; 4; 12; 19; 21; 11; 9; 8].
Proof. split; [exact graph_test_ok|exact dijkstra_test]. Qed.
(** Weights near 2^31 overflow. *)
Theorem C89_large_weights_refuted : dijkstra_main Undefined 3 graph_big (repeat 0 9) (repeat 0 3) (repeat 0 3) = None /\
  dijkstra_main Wraps 3 graph_big (repeat 0 9) (repeat 0 3) (repeat 0 3) = Some [0; 1; - 2 ^ 31].
Proof. exact dijkstra_overflow. Qed.
Print Assumptions C89_large_weights_refuted.

(** * C90 Sum and comparison of long numbers *)
Theorem C90_sum_arm : forall n g e o, length g = n -> length e = n -> length o = n -> (0 < n)%nat ->
  exists o', sum_array_arm n g e o = Some o' /\ length o' = n /\ number o' = (number g + number e) mod 2 ^ (32 * Z.of_nat n).
Proof. exact sum_arm_ok. Qed.
Print Assumptions C90_sum_arm.
Theorem C90_sum_c : forall n g e o, length g = n -> length e = n -> length o = n -> forall m,
  (forall i, (i < n)%nat -> int_result m (nth i g 0 + nth i e 0) <> None) ->
  exists o', sum_array_c m n g e o = Some o' /\ length o' = n /\ number o' = (number g + number e) mod 2 ^ (32 * Z.of_nat n).
Proof. exact sum_c_ok. Qed.
Print Assumptions C90_sum_c.
Theorem C90_sum_c_undefined : forall n g e o, length g = n -> length e = n -> length o = n ->
  (exists i, (i < n)%nat /\ ~ is_int (nth i g 0 + nth i e 0)) -> sum_array_c Undefined n g e o = None.
Proof. exact sum_c_undefined. Qed.
Print Assumptions C90_sum_c_undefined.
Theorem C90_compare_arm : forall n g e, length g = n -> length e = n ->
  compare_arm n g e = Some (if number g <? number e then 1 else 0).
Proof. exact compare_arm_all. Qed.
Print Assumptions C90_compare_arm.
Theorem C90_compare_c : forall n g e, length g = n -> length e = n ->
  (forall i, (i < n)%nat -> is_int (nth i g 0) /\ is_int (nth i e 0) /\ (nth i g 0 < 0 <-> nth i e 0 < 0)) ->
  compare_c n g e = Some (if number g <? number e then 1 else 0).
Proof. exact compare_c_all. Qed.
Print Assumptions C90_compare_c.
Theorem C90_versions_agree_refuted : ~ forall n g e, length g = n -> length e = n -> (forall x, In x (g ++ e) -> is_int x) -> compare_arm n g e = compare_c n g e.
Proof. exact compare_disagree. Qed.
Print Assumptions C90_versions_agree_refuted.
Example C90_example : (sum_array_arm 32 sum_g sum_e (repeat 0 32) = Some sum_o /\ sum_array_c Wraps 32 sum_g sum_e (repeat 0 32) = Some sum_o) /\
  (compare_arm 32 (0x105 :: repeat 0 31) (0x10002 :: repeat 0 31) = Some 1 /\ compare_c 32 (0x105 :: repeat 0 31) (0x10002 :: repeat 0 31) = Some 1) /\
  (sum_array_c Undefined 1 [2 ^ 31 - 1] [1] [0] = None /\ sum_array_arm 1 [2 ^ 31 - 1] [1] [0] = Some [- 2 ^ 31]).
Proof. split; [exact sum_test|]. split; [exact compare_test|exact sum_c_overflow]. Qed.

(** * C91 Hamming distance *)
Theorem C91_hamming : forall n g e dist, length g = n -> length e = n -> length dist = (32 * n)%nat -> 0 < Z.of_nat n < 2 ^ 27 ->
  hamming_main n g e dist = Some (differing (number g) (number e) (2 ^ Z.to_nat (Z.log2 (32 * Z.of_nat n))) mod 256).
Proof. exact hamming_ok. Qed.
Print Assumptions C91_hamming.
Theorem C91_hamming_small : forall n g e dist, length g = n -> length e = n -> length dist = (32 * n)%nat -> n = 1%nat \/ n = 2%nat \/ n = 4%nat ->
  hamming_main n g e dist = Some (differing (number g) (number e) (32 * n)).
Proof. exact hamming_small. Qed.
Print Assumptions C91_hamming_small.
Theorem C91_any_size_refuted : ~ forall n g e dist, length g = n -> length e = n -> length dist = (32 * n)%nat -> (0 < n)%nat ->
  hamming_main n g e dist = Some (differing (number g) (number e) (32 * n)).
Proof. exact hamming_wrong. Qed.
Print Assumptions C91_any_size_refuted.
Example C91_example : hamming_main 1 [0xdeadbeef - 2 ^ 32] [0x10101010] (repeat 0 32) = Some 0x18 /\
  hamming_main 8 (repeat (-1) 8) (repeat 0 8) (repeat 0 256) = Some 0.
Proof. split; [exact hamming_test|]. apply hamming_other. Qed.

(** * C92 The S-box circuit *)
Theorem C92_sbox : forall nt nz num, (9 <= nt)%nat -> (3 <= nz)%nat -> (num < 256)%N -> getSBoxValue nt nz num = Some (SBox num).
Proof. exact sbox_value_more. Qed.
Print Assumptions C92_sbox.
Theorem C92_sbox_main : forall nt nz g e, (9 <= nt)%nat -> (3 <= nz)%nat -> sbox_main nt nz g e = Some (Z.of_N (SBox (Z.to_N (Z.lxor g e mod 256)))).
Proof. exact sbox_main_ok. Qed.
Print Assumptions C92_sbox_main.
(** The arrays are declared with 8 and 2 elements (a23/sbox/sbox.c:29, a23/aes/aes.c:102). *)
Theorem C92_arrays_too_small : forall nt nz num, (nt < 9)%nat \/ (nz < 3)%nat -> getSBoxValue nt nz num = None.
Proof. exact sbox_outside. Qed.
Print Assumptions C92_arrays_too_small.
Theorem C92_as_declared_refuted : ~ forall num, (num < 256)%N -> getSBoxValue 8 2 num = Some (SBox num).
Proof. exact sbox_declared. Qed.
Print Assumptions C92_as_declared_refuted.
Example C92_example : sbox_main 9 3 0x00 0x25 = Some 0x3f /\ sbox_main 9 3 0x00 0x52 = Some 0.
Proof. exact sbox_test. Qed.

(** * C93 AES *)
Theorem C93_aes : forall nt nz g e o rk, (9 <= nt)%nat -> (3 <= nz)%nat -> length g = 4%nat -> length e = 4%nat -> length o = 4%nat -> length rk = 176%nat ->
  exists o', aes_main nt nz g e o rk = Some o' /\ length o' = 4%nat /\ ints_to_bytes o' = AES 4 (ints_to_bytes g) (ints_to_bytes e).
Proof. exact aes_main_ok. Qed.
Print Assumptions C93_aes.
Theorem C93_aes_arrays_too_small : forall nt nz g e o rk, (nt < 9)%nat \/ (nz < 3)%nat ->
  length g = 4%nat -> length e = 4%nat -> length o = 4%nat -> length rk = 176%nat -> aes_main nt nz g e o rk = None.
Proof. exact aes_main_outside. Qed.
Print Assumptions C93_aes_arrays_too_small.
Example C93_example : aes_main 9 3 (map signed [0xc971150f; 0x59e8d947; 0xd6adb70c; 0x98677faf]) (map signed [0x04030201; 0x08070605; 0x30201009; 0x70605040]) (repeat 0 4) (repeat 0%N 176)
  = Some (map signed [0xe894b249; 0x254ffb8f; 0xc55552a3; 0xe8d8b174]).
Proof. exact aes_test. Qed.

(** * C94 SHA3-256 *)
Theorem C94_sha3 : forall chunks m, length m = 136%nat -> (length (concat chunks) < 136)%nat -> Forall is_byte (concat chunks) ->
  exists d, sha3_chunks chunks m = Some d /\ length d = 32%nat /\ Forall is_byte d /\ byte_bits d = SHA3_256 (byte_bits (concat chunks)).
Proof. exact sha3_chunks_ok. Qed.
Print Assumptions C94_sha3.
Theorem C94_sha3_main : forall g e, (4 * (length g + length e) < 136)%nat ->
  exists o, sha3_main g e = Some o /\ length o = 8%nat /\ byte_bits (ints_to_bytes o) = SHA3_256 (byte_bits (ints_to_bytes (g ++ e))).
Proof. exact sha3_main_ok. Qed.
Print Assumptions C94_sha3_main.
(** From a whole block on: a write outside the buffer, or a message of which only the end counts. *)
Theorem C94_whole_block : forall a b m, length m = 136%nat -> (length a + length b = 136)%nat -> sha3_chunks [a; b] m = None.
Proof. exact sha3_block_outside. Qed.
Print Assumptions C94_whole_block.
Theorem C94_long_collides : forall x b b' m m', length m = 136%nat -> length m' = 136%nat -> length b = 136%nat -> length b' = 136%nat ->
  hd 0%N b = hd 0%N b' -> sha3_chunks [[x]; b] m = sha3_chunks [[x]; b'] m'.
Proof. exact sha3_long_collides. Qed.
Print Assumptions C94_long_collides.
Example C94_example : sha3_main [0x64636261; 0x68676665] [0x7778797A; 0x73747576]
  = Some (map signed [0x0aec88a7; 0x7691b9ec; 0x37f0b1a9; 0xd27779e2; 0x52279f09; 0x3ca14746; 0x625f8395; 0x8f2dd525]) /\
  sha3_main (repeat 0 17) (repeat 0 17) = None.
Proof. split; [exact sha3_test|exact sha3_whole_block]. Qed.

(** * C96 Products *)
Theorem C96_mul : forall m x y g e, m = Wraps \/ is_int (x * y) ->
  exists r, mul_main m (x :: g) (y :: e) = Some r /\ is_int r /\ r mod 2 ^ 32 = (x * y) mod 2 ^ 32 /\ (m = Undefined -> r = x * y).
Proof. exact mul_total. Qed.
Print Assumptions C96_mul.
Theorem C96_matrix : forall m n g e o, length g = (n * n)%nat -> length e = (n * n)%nat -> length o = (n * n)%nat ->
  m = Wraps \/ (forall i j k, (i < n)%nat -> (j < n)%nat -> (k < n)%nat ->
    is_int (nth (i * n + k) g 0 * nth (k * n + j) e 0) /\ is_int (product_entry n g e i j (S k))) ->
  exists o', matrix_main m n g e o = Some o' /\ length o' = (n * n)%nat /\ forall i j, (i < n)%nat -> (j < n)%nat ->
    nth (i * n + j) o' 0 mod 2 ^ 32 = product_entry n g e i j n mod 2 ^ 32 /\ (m = Undefined -> nth (i * n + j) o' 0 = product_entry n g e i j n).
Proof. exact matrix_total. Qed.
Print Assumptions C96_matrix.
Example C96_example : (mul_main Wraps [0xbabe] [0xbeef] = Some (0x8B475B62 - 2 ^ 32) /\ mul_main Undefined [0xbabe] [0xbeef] = None) /\
  (forall i j k, (i < 2)%nat -> (j < 2)%nat -> (k < 2)%nat ->
    is_int (nth (i * 2 + k) [1; 2; 3; 4] 0 * nth (k * 2 + j) [5; 6; 7; 8] 0) /\ is_int (product_entry 2 [1; 2; 3; 4] [5; 6; 7; 8] i j (S k))) /\
  matrix_main Undefined 2 [1; 2; 3; 4] [5; 6; 7; 8] (repeat 0 4) = Some [19; 22; 43; 50].
Proof. split; [exact mul_test|]. split; [exact matrix_test_ints|]. apply matrix_test. Qed.
