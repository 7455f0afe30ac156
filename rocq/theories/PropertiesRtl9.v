(** C123 to C130: the processor a23 in Verilog.
    Statements only; the proofs are in RtlA23*.v. *)
From Coq Require Import ZArith List Bool.
From Verif Require Import RtlA23 RtlA23Units RtlA23Step RtlA23Jump RtlA23Mem RtlA23Mul RtlA23Refuted.
Import ListNotations.
Open Scope Z_scope.

(** * C123: the barrel shifter *)
Theorem C123_shift : forall fn x n c, 0 <= fn < 4 -> 0 <= x < 2 ^ 32 -> 0 <= n < 256 -> n < 32 \/ fn = 3 -> barrel_shift fn x n c = arm_shift fn x n c.
Proof. exact barrel_shift_ok. Qed.
Print Assumptions C123_shift.
(** By 32 places and more, from a register or as the constant #32, it does not *)
Theorem C123_shift_32_refuted : exists fn x n c, 0 <= fn < 4 /\ 0 <= x < 2 ^ 32 /\ 0 <= n < 256 /\ fst (barrel_shift fn x n c) <> fst (arm_shift fn x n c).
Proof. exact barrel_shift_wraps. Qed.
Print Assumptions C123_shift_32_refuted.
Theorem C123_lsr_32_refuted : exists z p s i, ready p s /\ i = mem_read (a_mem s) (a_pc s) /\ dp_form i /\ a_pc s + 12 < 2 ^ 26 /\
  forall f, ~ ready (step z p) (Arm (dp_regs s i) f (a_pc s + 4) (a_mem s)).
Proof. exact lsr_32_refuted. Qed.
Print Assumptions C123_lsr_32_refuted.
(** * C124: the arithmetic unit *)
Theorem C124_alu : forall op a b sc (f : flags), 0 <= op < 16 -> 0 <= a < 2 ^ 32 -> 0 <= b < 2 ^ 32 ->
  fst (alu (alu_code op) a b sc (fC f)) = arm_result op a b (fC f) /\
  fC (snd (alu (alu_code op) a b sc (fC f))) = arm_carry op a b sc (fC f) /\
  (with_carry op = false ->
     let g := snd (alu (alu_code op) a b sc (fC f)) in
     Flags (fN g) (fZ g) (fC g) (if is_logic op then fV f else fV g) = arm_flags op a b sc f).
Proof. exact alu_ok. Qed.
Print Assumptions C124_alu.
Theorem C124_adc_flags_refuted : exists a b sc f, 0 <= a < 2 ^ 32 /\ 0 <= b < 2 ^ 32 /\
  let g := snd (alu (alu_code 5) a b sc (fC f)) in
  Flags (fN g) (fZ g) (fC g) (fV g) <> arm_flags 5 a b sc f.
Proof. exact adc_flags_wrong. Qed.
Print Assumptions C124_adc_flags_refuted.
Theorem C124_and_carry_refuted : exists z p s i, ready p s /\ i = mem_read (a_mem s) (a_pc s) /\ dp_form i /\ shift_supported s i /\ a_pc s + 12 < 2 ^ 26 /\
  forall r f a m, fC f = fC (dp_flags s i) -> ~ ready (step z p) (Arm r f a m).
Proof. exact and_carry_refuted. Qed.
Print Assumptions C124_and_carry_refuted.
(** * C125: the conditions *)
Theorem C125_conditions : forall s i, conditional_execute (bits i 31 28) (a_flags s) = holds s i.
Proof. exact holds_eq. Qed.
Print Assumptions C125_conditions.
Theorem C125_after_compare : forall cond a b sc f, In cond [0; 1; 2; 3; 8; 9; 10; 11; 12; 13; 14; 15] -> 0 <= a < 2 ^ 32 -> 0 <= b < 2 ^ 32 ->
  conditional_execute cond (arm_flags 10 a b sc f) = after_compare cond a b.
Proof. exact condition_ok. Qed.
Print Assumptions C125_after_compare.
(** * C126: the memory *)
Theorem C126_load_word : forall m a, 0 <= a < 2 ^ 32 -> mem_read m a = load_word m a.
Proof. exact load_word_eq. Qed.
Print Assumptions C126_load_word.
Theorem C126_store_word : forall z m a v x, 0 <= a < 2 ^ 32 ->
  mem_write z m (4 * bits a 31 2) v true 15 x = store_word z m a v x.
Proof. exact store_word_eq. Qed.
Print Assumptions C126_store_word.
Theorem C126_store_byte : forall z m a v x, 0 <= a < 2 ^ 32 ->
  mem_write z m (4 * bits a 31 2) (let b := bits v 7 0 in catz b 24 (catz b 16 (catz b 8 b))) true (2 ^ bits a 1 0) x = store_byte z m a v x.
Proof. exact store_byte_eq. Qed.
Print Assumptions C126_store_byte.
(** * C127: data processing in the pipeline *)
Theorem C127_reset : forall z m, (forall a, 0 <= m a < 256) ->
  ready (step z (reset m)) (Arm (fun _ => 0) (Flags false false false false) 0 m) /\ idle (step z (reset m)).
Proof. exact reset_ready. Qed.
Print Assumptions C127_reset.
Theorem C127_data_processing : forall z p s i, ready p s -> i = mem_read (a_mem s) (a_pc s) -> dp_form i -> shift_supported s i -> a_pc s + 12 < 2 ^ 26 ->
  exists f, ready (step z p) (Arm (dp_regs s i) f (a_pc s + 4) (a_mem s)) /\ idle (step z p) /\
    ((In (bits i 24 21) [0; 8] -> tb i 20 = true -> ~ unshifted s i) ->
     fC f = fC (dp_flags s i) /\ ((with_carry (bits i 24 21) = true -> tb i 20 = false) -> f = dp_flags s i)).
Proof. exact dp_step. Qed.
Print Assumptions C127_data_processing.
Example C127_movs_case : exists s, ready (run small 3 (reset (two_movs []))) s /\ a_regs s 1 = 2 /\ a_regs s 2 = 3 /\ a_pc s = 8.
Proof. exact movs_case. Qed.
(** * C128: branches and other jumps *)
Theorem C128_branch : forall z p s i, ready p s -> i = mem_read (a_mem s) (a_pc s) -> bits i 27 25 = 5 ->
  0 <= a_pc (branch s i) -> a_pc (branch s i) + 8 < 2 ^ 26 ->
  ready (run z 3 p) (branch s i) /\ idle (run z 3 p).
Proof. exact branch_steps. Qed.
Print Assumptions C128_branch.
Example C128_branch_case : exists s, ready (run small 3 (run small 3 (reset (two_movs [3942645761])))) s /\ a_pc s = 20 /\ a_regs s 14 = 201326604.
Proof. exact branch_case. Qed.
Theorem C128_to_pc : forall z p s i, ready p s -> i = mem_read (a_mem s) (a_pc s) -> to_pc_form i -> shift_supported s i ->
  word_pc (pc_result s i) + 8 < 2 ^ 26 -> holds s i = true -> ready (run z 3 p) (to_pc s i) /\ idle (run z 3 p).
Proof. exact to_pc_steps. Qed.
Print Assumptions C128_to_pc.
Example C128_to_pc_case : exists s, ready (run small 3 (run small 3 (reset (two_movs [3785420801])))) s /\ a_pc s = 0.
Proof. exact to_pc_case. Qed.
Theorem C128_condition_refuted : exists z p s i s', ready p s /\ i = mem_read (a_mem s) (a_pc s) /\ to_pc_form i /\ shift_supported s i /\
  holds s i = false /\ ready (run z 3 p) s' /\ a_pc s' <> a_pc (to_pc s i).
Proof. exact to_pc_condition_refuted. Qed.
Print Assumptions C128_condition_refuted.
(** * C129: loads and stores *)
Theorem C129_transfer : forall z p s i, ready p s -> i = mem_read (a_mem s) (a_pc s) -> transfer_form i -> a_pc s + 12 < 2 ^ 26 ->
  mem_read (a_mem (transfer z s i)) (a_pc s + 4) = mem_read (a_mem s) (a_pc s + 4) ->
  ready (run z 3 p) (transfer z s i) /\ idle (run z 3 p).
Proof. exact transfer_steps. Qed.
Print Assumptions C129_transfer.
Example C129_load_case : exists s, ready (run small 3 (run small 3 (reset (two_movs [3851497474])))) s /\ a_regs s 3 = 3818921987.
Proof. exact load_case. Qed.
Example C129_store_case : exists s, ready (run small 3 (run small 3 (reset (two_movs [3854639109])))) s /\ a_mem s 7 = 3.
Proof. exact store_case. Qed.
Theorem C129_next_instruction_refuted : exists z p s i, ready p s /\ i = mem_read (a_mem s) (a_pc s) /\ transfer_form i /\ a_pc s + 12 < 2 ^ 26 /\
  ~ ready (run z 3 p) (transfer z s i).
Proof. exact store_next_refuted. Qed.
Print Assumptions C129_next_instruction_refuted.
(** * C130: multiplications *)
Theorem C130_multiply : forall z p s i, ready p s -> idle p -> i = mem_read (a_mem s) (a_pc s) -> mul_form i -> tb i 21 = false -> a_pc s + 12 < 2 ^ 26 ->
  ready (run z 4 p) (mul s i).
Proof. exact mul_steps. Qed.
Print Assumptions C130_multiply.
Example C130_multiply_case : exists s, ready (run small 4 (run small 3 (reset (two_movs [3758293649])))) s /\ a_regs s 3 = 6.
Proof. exact mul_case. Qed.
Theorem C130_product : forall z p s i, ready p s -> idle p -> i = mem_read (a_mem s) (a_pc s) -> mul_form i -> a_pc s + 12 < 2 ^ 26 ->
  let v := (first_reg s (bits i 11 8) * second_reg s (bits i 3 0)) mod 2 ^ 32 in
  ready (run z 4 p) (Arm (if holds s i then put (a_regs s) (bits i 19 16) v else a_regs s)
    (if holds s i && tb i 20 then Flags (s32 v <? 0) (v =? 0) (fC (a_flags s)) (fV (a_flags s)) else a_flags s) (a_pc s + 4) (a_mem s)).
Proof. exact mul_product. Qed.
Print Assumptions C130_product.
Example C130_product_case : exists s, ready (run small 4 (run small 3 (reset (two_movs [3760398993])))) s /\ a_regs s 3 = 6.
Proof. exact mla_case. Qed.
Theorem C130_accumulate_refuted : exists z p s i, ready p s /\ idle p /\ i = mem_read (a_mem s) (a_pc s) /\ mul_form i /\ tb i 21 = true /\ a_pc s + 12 < 2 ^ 26 /\
  ~ ready (run z 4 p) (mul s i).
Proof. exact mla_refuted. Qed.
Print Assumptions C130_accumulate_refuted.
Theorem C130_again_refuted : exists z p s i, ready p s /\ i = mem_read (a_mem s) (a_pc s) /\ mul_form i /\ tb i 21 = false /\ a_pc s + 12 < 2 ^ 26 /\
  ~ ready (run z 4 p) (mul s i).
Proof. exact mul_after_mul_refuted. Qed.
Print Assumptions C130_again_refuted.
