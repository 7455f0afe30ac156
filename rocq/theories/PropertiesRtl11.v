(** C135 to C138: more programs of the processor a23.
    Statements only; the proofs are in RtlA23*.v. *)
From Coq Require Import ZArith List Bool Permutation.
From Verif Require Import RtlA23 RtlA23Units RtlA23Step RtlA23Jump RtlA23Mem RtlA23Mul RtlA23Refuted RtlA23Multi RtlA23LoadPc RtlA23Run RtlA23Sum RtlA23Fill RtlA23Matrix RtlA23Bubble.
Import ListNotations.
Open Scope Z_scope.

(** * C135: the program that fills the output *)
Theorem C135_fill : forall z g e m (p := run z (532 + 3 * m) (reset (mem_init fill_code g e))), 64 <= out_size z ->
  terminate p = true /\ outputs (mem p) 64 = map Z.of_nat (seq 0 64).
Proof. exact fill_program. Qed.
Print Assumptions C135_fill.
Example C135_fill_case : forall (p := run (Sizes 64 64 64 64 64) 532 (reset (mem_init fill_code [] []))), terminate p = true /\ nth 63 (outputs (mem p) 64) 0 = 63.
Proof. exact fill_case. Qed.
(** * C136: the program that multiplies matrices *)
Theorem C136_last_products : forall z g e m (p := run z (571 + 3 * m) (reset (mem_init matrix_code g e))), length g = 9%nat -> length e = 9%nat -> Forall is_word g -> Forall is_word e -> 9 <= out_size z -> 64 <= stack_size z ->
  terminate p = true /\ outputs (mem p) 9 = last_products g e.
Proof. exact matrix_program. Qed.
Print Assumptions C136_last_products.
Theorem C136_product_refuted : forall m (p := run (Sizes 64 64 64 64 64) (571 + 3 * m) (reset (mem_init matrix_code [1; 0; 0; 0; 1; 0; 0; 0; 1] [1; 2; 3; 4; 5; 6; 7; 8; 9]))), terminate p = true /\ outputs (mem p) 9 = [0; 0; 0; 0; 0; 0; 7; 8; 9] /\ outputs (mem p) 9 <> matrix_product [1; 0; 0; 0; 1; 0; 0; 0; 1] [1; 2; 3; 4; 5; 6; 7; 8; 9].
Proof. exact matrix_refuted. Qed.
Print Assumptions C136_product_refuted.
(** * C137: the load of the program counter *)
Theorem C137_load_pc : forall z p s i, ready p s -> i = mem_read (a_mem s) (a_pc s) -> load_pc_form i -> holds s i = true -> pc_ok (word_pc (loaded s i)) ->
  ready (run z 5 p) (load_pc s i) /\ idle (run z 5 p).
Proof. exact load_pc_steps. Qed.
Print Assumptions C137_load_pc.
Example C137_load_pc_case : exists s, ready (run small 5 (run small 3 (reset (two_movs [0xe5b1f002])))) s /\ a_regs s 1 = 4 /\ a_pc s = 0x3a02000.
Proof. exact load_pc_case. Qed.
(** * C138: the program that sorts *)
Theorem C138_sort : forall z g e m (p := run z (Z.to_nat 10736 + 3 * m) (reset (mem_init bubble_code g e))), length g = 32%nat -> length e = 32%nat -> Forall is_word g -> Forall is_word e -> 32 <= out_size z -> 64 <= stack_size z ->
  terminate p = true /\ Permutation (shares g e) (outputs (mem p) 32) /\ in_order (outputs (mem p) 32).
Proof. exact bubble_program. Qed.
Print Assumptions C138_sort.
Example C138_sort_case : forall (p := run (Sizes 64 64 64 64 64) (Z.to_nat 10736) (reset (mem_init bubble_code (repeat 0 32) bubble_test))), terminate p = true /\ outputs (mem p) 32 = map Z.of_nat (seq 0 32).
Proof. exact bubble_case. Qed.
