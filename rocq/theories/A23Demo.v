(** Runs of the programs for the garbled processor: the test vectors that ship with them,
    and the inputs on which they fail. *)
From Coq Require Import Arith ZArith NArith List Bool Lia Permutation.
From Verif Require Import Base Codec Tcp A23Int A23Sort A23Dijkstra A23Arith A23Hamming A23Sbox AesSpec A23Aes Sha3Spec A23Sha3.
Import ListNotations.
Open Scope Z_scope.

(** a23/merge-sort/test/e.txt; g.txt is zero *)
Definition merge_test : list Z :=
  [0x16; 0x1D; 0x19; 0x1F; 0x1B; 0x1E; 0x1A; 0x13; 0x1C; 0x15; 0x14; 0x18; 0x17; 0x12; 0x11; 0x10; 0x0F; 0x0E; 0x0C; 0x0B; 0x0A; 0x0D; 0x04; 0x08; 0x02; 0x07; 0x00; 0x01; 0x05; 0x09; 0x06; 0x03].
Definition sorted_test : list Z := map Z.of_nat (seq 0 32).
Lemma bubble_test : bubble_main 32 (repeat 0 32) merge_test (repeat 0 32) = Some sorted_test.
Proof. vm_compute. reflexivity. Qed.
(** The test of merge sort itself: the result is not sorted. *)
Lemma merge_test_out : merge_main 32 32 (repeat 0 32) merge_test (repeat 0 32) =
  Some [22; 25; 29; 27; 30; 26; 19; 28; 21; 20; 24; 23; 18; 17; 16; 15; 14; 12; 11; 10; 13; 4; 8; 2; 7; 0; 1; 5; 9; 6; 3; 31].
Proof. vm_compute. reflexivity. Qed.
Lemma merge_three : merge_main 3 3 [0; 0; 0] [1; 2; 0] [0; 0; 0] = Some [1; 0; 2].
Proof. vm_compute. reflexivity. Qed.
Lemma merge_unsorted : ~ forall stack n g e o, length g = n -> length e = n -> length o = n -> (n <= stack)%nat -> (1 <= stack)%nat ->
  exists o', merge_main stack n g e o = Some o' /\ ascending o'.
Proof.
  intros H. destruct (H 3%nat 3%nat [0; 0; 0] [1; 2; 0] [0; 0; 0] eq_refl eq_refl eq_refl ltac:(lia) ltac:(lia)) as (o' & M & A).
  rewrite merge_three in M. injection M as <-. cbn in A. lia.
Qed.

(** a23/dijkstra/test/g.txt; e.txt is zero *)
Definition graph_test : list Z :=
  [0; 4; 0; 0; 0; 0; 0; 8;  4; 0; 8; 0; 0; 0; 0; 11;  0; 8; 0; 7; 0; 4; 0; 0;  0; 0; 7; 0; 9; 14; 0; 0;
   0; 0; 0; 9; 0; 10; 0; 0;  0; 0; 4; 14; 10; 0; 2; 0;  0; 0; 0; 0; 0; 2; 0; 1;  8; 11; 0; 0; 0; 0; 1; 0].
Lemma dijkstra_test : dijkstra_main Undefined 8 graph_test (repeat 0 64) (repeat 0 8) (repeat 5 8) = Some [0; 4; 12; 19; 21; 11; 9; 8].
Proof. vm_compute. reflexivity. Qed.
Lemma graph_test_ok : forall w, In w (shared graph_test (repeat 0 64)) -> 0 <= w /\ w + 32767 < 2 ^ 31.
Proof.
  assert (B : forallb (fun w => (0 <=? w) && (w + 32767 <? 2 ^ 31)) (shared graph_test (repeat 0 64)) = true) by (vm_compute; reflexivity).
  intros w W. rewrite forallb_forall in B. specialize (B w W). apply andb_true_iff in B as [B1 B2]. split; [apply Z.leb_le, B1|apply Z.ltb_lt, B2].
Qed.
(** A weight of 2^31 - 1 after a step of weight 1. *)
Definition graph_big : list Z := [0; 1; 0;  1; 0; 2 ^ 31 - 1;  0; 2 ^ 31 - 1; 0].
Lemma dijkstra_overflow : dijkstra_main Undefined 3 graph_big (repeat 0 9) (repeat 0 3) (repeat 0 3) = None /\
  dijkstra_main Wraps 3 graph_big (repeat 0 9) (repeat 0 3) (repeat 0 3) = Some [0; 1; - 2 ^ 31].
Proof. split; vm_compute; reflexivity. Qed.

(** a23/sum/test *)
Definition sum_g : list Z := [0xdeadbeef - 2 ^ 32; -1] ++ repeat 0 30.
Definition sum_e : list Z := [0x10101010; 0xdeadbeef - 2 ^ 32] ++ repeat 0 30.
Definition sum_o : list Z := [0xeebdceff - 2 ^ 32; 0xdeadbeee - 2 ^ 32; 1] ++ repeat 0 29.
Lemma sum_test : sum_array_arm 32 sum_g sum_e (repeat 0 32) = Some sum_o /\ sum_array_c Wraps 32 sum_g sum_e (repeat 0 32) = Some sum_o.
Proof. split; vm_compute; reflexivity. Qed.
(** a23/compare/test *)
Lemma compare_test : compare_arm 32 (0x105 :: repeat 0 31) (0x10002 :: repeat 0 31) = Some 1 /\ compare_c 32 (0x105 :: repeat 0 31) (0x10002 :: repeat 0 31) = Some 1.
Proof. split; vm_compute; reflexivity. Qed.
Lemma compare_disagree : ~ forall n g e, length g = n -> length e = n -> (forall x, In x (g ++ e) -> is_int x) -> compare_arm n g e = compare_c n g e.
Proof.
  intros H. specialize (H 1%nat [-1] [0] eq_refl eq_refl). enough (X : compare_arm 1 [-1] [0] = compare_c 1 [-1] [0]) by (vm_compute in X; discriminate).
  apply H. cbn [app In]. unfold is_int. lia.
Qed.
(** Two words of 2^31 - 1: the sum is not an [int]. *)
Lemma sum_c_overflow : sum_array_c Undefined 1 [2 ^ 31 - 1] [1] [0] = None /\ sum_array_arm 1 [2 ^ 31 - 1] [1] [0] = Some [- 2 ^ 31].
Proof. split; vm_compute; reflexivity. Qed.

(** a23/hamming/test *)
Lemma hamming_test : hamming_main 1 [0xdeadbeef - 2 ^ 32] [0x10101010] (repeat 0 32) = Some 0x18.
Proof. vm_compute. reflexivity. Qed.
(** Three words, the third different; eight words, all bits different. *)
Lemma hamming_other : hamming_main 3 [0; 0; 1] [0; 0; 0] (repeat 0 96) = Some 0 /\ differing (number [0; 0; 1]) (number [0; 0; 0]) 96 = 1 /\
  hamming_main 8 (repeat (-1) 8) (repeat 0 8) (repeat 0 256) = Some 0 /\ differing (number (repeat (-1) 8)) (number (repeat 0 8)) 256 = 256.
Proof. repeat split; vm_compute; reflexivity. Qed.
Lemma hamming_wrong : ~ forall n g e dist, length g = n -> length e = n -> length dist = (32 * n)%nat -> (0 < n)%nat ->
  hamming_main n g e dist = Some (differing (number g) (number e) (32 * n)).
Proof. intros H. specialize (H 3%nat [0; 0; 1] [0; 0; 0] (repeat 0 96) eq_refl eq_refl eq_refl ltac:(lia)). vm_compute in H. discriminate. Qed.

(** a23/sbox/test: 0x00 and 0x25; the expected output there is 0, the S-box has 0x3f *)
Lemma sbox_test : sbox_main 9 3 0x00 0x25 = Some 0x3f /\ sbox_main 9 3 0x00 0x52 = Some 0.
Proof. split; vm_compute; reflexivity. Qed.
Lemma sbox_declared : ~ forall num, (num < 256)%N -> getSBoxValue 8 2 num = Some (SBox num).
Proof. intros H. specialize (H 0%N ltac:(reflexivity)). vm_compute in H. discriminate. Qed.
(** a23/aes/test *)
Definition signed (x : Z) : Z := if x <? 2 ^ 31 then x else x - 2 ^ 32.
Lemma aes_test : aes_main 9 3 (map signed [0xc971150f; 0x59e8d947; 0xd6adb70c; 0x98677faf]) (map signed [0x04030201; 0x08070605; 0x30201009; 0x70605040]) (repeat 0 4) (repeat 0%N 176)
  = Some (map signed [0xe894b249; 0x254ffb8f; 0xc55552a3; 0xe8d8b174]).
Proof. vm_compute. reflexivity. Qed.
(** a23/sha3/test *)
Lemma sha3_test : sha3_main [0x64636261; 0x68676665] [0x7778797A; 0x73747576]
  = Some (map signed [0x0aec88a7; 0x7691b9ec; 0x37f0b1a9; 0xd27779e2; 0x52279f09; 0x3ca14746; 0x625f8395; 0x8f2dd525]).
Proof. vm_compute. reflexivity. Qed.
Lemma sha3_whole_block : sha3_main (repeat 0 17) (repeat 0 17) = None.
Proof. vm_compute. reflexivity. Qed.
(** a23/mul/test and a23/matrix-mul/test *)
Lemma mul_test : mul_main Wraps [0xbabe] [0xbeef] = Some (0x8B475B62 - 2 ^ 32) /\ mul_main Undefined [0xbabe] [0xbeef] = None.
Proof. split; vm_compute; reflexivity. Qed.
Lemma matrix_test : matrix_main Undefined 3 [1; 0; 0; 0; 1; 0; 0; 0; 1] [1; 2; 3; 4; 5; 6; 7; 8; 9] (repeat 0 9) = Some [1; 2; 3; 4; 5; 6; 7; 8; 9] /\
  matrix_main Undefined 2 [1; 2; 3; 4] [5; 6; 7; 8] (repeat 0 4) = Some [19; 22; 43; 50].
Proof. split; vm_compute; reflexivity. Qed.
Lemma matrix_total m n g e o : length g = (n * n)%nat -> length e = (n * n)%nat -> length o = (n * n)%nat ->
  m = Wraps \/ (forall i j k, (i < n)%nat -> (j < n)%nat -> (k < n)%nat ->
    is_int (nth (i * n + k) g 0 * nth (k * n + j) e 0) /\ is_int (product_entry n g e i j (S k))) ->
  exists o', matrix_main m n g e o = Some o' /\ length o' = (n * n)%nat /\ forall i j, (i < n)%nat -> (j < n)%nat ->
    nth (i * n + j) o' 0 mod 2 ^ 32 = product_entry n g e i j n mod 2 ^ 32 /\ (m = Undefined -> nth (i * n + j) o' 0 = product_entry n g e i j n).
Proof.
  intros G E O H. destruct (matrix_some m n g e o G E O H) as (o' & M). exists o'. split; [exact M|]. exact (matrix_ok m n g e o o' G E O M).
Qed.
Lemma mul_total m x y g e : m = Wraps \/ is_int (x * y) ->
  exists r, mul_main m (x :: g) (y :: e) = Some r /\ is_int r /\ r mod 2 ^ 32 = (x * y) mod 2 ^ 32 /\ (m = Undefined -> r = x * y).
Proof.
  intros H. assert (X : exists r, mul_main m (x :: g) (y :: e) = Some r /\ is_int r).
  { change (mul_main m (x :: g) (y :: e)) with (int_result m (x * y)).
    destruct H as [->|H]; [eexists; split; [reflexivity|apply to_int_range]|]. exists (x * y). split; [apply int_result_id, H|exact H]. }
  destruct X as (r & R & I). exists r. split; [exact R|]. split; [exact I|]. exact (mul_ok m x y g e r R).
Qed.
Lemma matrix_test_ints : forall i j k, (i < 2)%nat -> (j < 2)%nat -> (k < 2)%nat ->
  is_int (nth (i * 2 + k) [1; 2; 3; 4] 0 * nth (k * 2 + j) [5; 6; 7; 8] 0) /\ is_int (product_entry 2 [1; 2; 3; 4] [5; 6; 7; 8] i j (S k)).
Proof. intros i j k I J K. unfold is_int. destruct i as [|[|i]], j as [|[|j]], k as [|[|k]]; try lia; vm_compute; repeat split; discriminate. Qed.
Lemma compare_arm_all n g e : length g = n -> length e = n -> compare_arm n g e = Some (if number g <? number e then 1 else 0).
Proof. intros G E. exact (compare_arm_ok n g e g G E G). Qed.
Lemma compare_c_all n g e : length g = n -> length e = n ->
  (forall i, (i < n)%nat -> is_int (nth i g 0) /\ is_int (nth i e 0) /\ (nth i g 0 < 0 <-> nth i e 0 < 0)) ->
  compare_c n g e = Some (if number g <? number e then 1 else 0).
Proof. intros G E. exact (compare_c_ok n g e g G E G). Qed.
