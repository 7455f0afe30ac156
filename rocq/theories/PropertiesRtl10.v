(** C131 to C134: the programs of the processor a23.
    Statements only; the proofs are in RtlA23*.v. *)
From Coq Require Import ZArith List Bool.
From Verif Require Import RtlA23 RtlA23Units RtlA23Step RtlA23Jump RtlA23Mem RtlA23Mul RtlA23Refuted RtlA23Multi RtlA23Run RtlA23Sum RtlA23Product RtlA23Compare RtlA23Cases.
Import ListNotations.
Open Scope Z_scope.

(** * C131: loads and stores of several registers *)
Theorem C131_multiple : forall z p s i, ready p s -> i = mem_read (a_mem s) (a_pc s) -> multi_form s i -> pc_ok (a_pc (multi z s i)) ->
  mem_read (a_mem (multi z s i)) (a_pc s + 4) = mem_read (a_mem s) (a_pc s + 4) ->
  ready (run z (multi_cycles i) p) (multi z s i) /\ idle (run z (multi_cycles i) p).
Proof. exact multi_steps. Qed.
Print Assumptions C131_multiple.
Example C131_store_case : exists s, ready (run small 4 (run small 3 (reset (two_movs [0xe9820006])))) s /\ a_mem s 4 = 2 /\ a_mem s 8 = 3.
Proof. exact stm_case. Qed.
Example C131_load_case : exists s, ready (run small 6 (run small 3 (reset (two_movs [0xe9b18008])))) s /\ a_regs s 3 = 0xe3a02003 /\ a_pc s = 0x1b18008 /\ a_regs s 1 = 10.
Proof. exact ldm_case. Qed.
(** * C132: the program that adds *)
Theorem C132_sum : forall z g e m (p := run z (600 + 3 * m) (reset (mem_init sum_code g e))), length g = 32%nat -> length e = 32%nat -> Forall is_word g -> Forall is_word e -> 32 <= out_size z -> 64 <= stack_size z ->
  terminate p = true /\ number (outputs (mem p) 32) = (number g + number e) mod 2 ^ 1024.
Proof. exact sum_program. Qed.
Print Assumptions C132_sum.
Example C132_sum_case : terminate (run shipped 600 (reset (mem_init sum_code (to_32 [0xdeadbeef; 0xffffffff]) (to_32 [0x10101010; 0xdeadbeef])))) = true /\
  number (outputs (mem (run shipped 600 (reset (mem_init sum_code (to_32 [0xdeadbeef; 0xffffffff]) (to_32 [0x10101010; 0xdeadbeef]))))) 32) = 0x1DEADBEEEEEBDCEFF.
Proof. exact sum_case. Qed.
(** * C133: the program that multiplies *)
Theorem C133_product : forall z x y m (p := run z (32 + 3 * m) (reset (mem_init mul_code [x] [y]))), is_word x -> is_word y -> 1 <= out_size z ->
  terminate p = true /\ outputs (mem p) 1 = [(x * y) mod 2 ^ 32].
Proof. exact mul_program. Qed.
Print Assumptions C133_product.
Example C133_product_case : outputs (mem (run shipped 32 (reset (mem_init mul_code [0xbabe] [0xbeef])))) 1 = [0x8B475B62].
Proof. exact mul_program_case. Qed.
(** * C134: the program that compares *)
Theorem C134_compare : forall z g e m (p := run z (515 + 3 * m) (reset (mem_init compare_code g e))), length g = 32%nat -> length e = 32%nat -> Forall is_word g -> Forall is_word e -> 1 <= out_size z -> 64 <= stack_size z ->
  terminate p = true /\ outputs (mem p) 1 = [if number g <? number e then 1 else 0].
Proof. exact compare_program. Qed.
Print Assumptions C134_compare.
Example C134_compare_case : outputs (mem (run shipped 515 (reset (mem_init compare_code (to_32 [0x105]) (to_32 [0x10002]))))) 1 = [1].
Proof. exact compare_case. Qed.
