(** The processor a23: branches, and the instructions that write r15. *)
From Coq Require Import ZArith List Bool Lia.
From Verif Require Import RtlA23 RtlA23Units RtlA23Step.
Import ListNotations.
Open Scope Z_scope.

(** * Specification *)
(** The offset of a branch: 24 bits, signed, words *)
Definition offset (i : Z) : Z := let w := i mod 2 ^ 24 in 4 * (if w <? 2 ^ 23 then w else w - 2 ^ 24).
Definition branch_target (s : arm) (i : Z) : Z := a_pc s + 8 + offset i.
(** A branch with link leaves the address of the next instruction, and the flags, in r14 *)
Definition branch (s : arm) (i : Z) : arm :=
  if holds s i then
    Arm (if tb i 24 then put (a_regs s) 14 (arm_r15_word (a_flags s) (a_pc s + 4)) else a_regs s) (a_flags s) (branch_target s i) (a_mem s)
  else Arm (a_regs s) (a_flags s) (a_pc s + 4) (a_mem s).

(** * Proofs *)
(** ** The cycles after a jump *)
Definition still (k : control) : Prop :=
  pc_wen k = true /\ pc_sel k = 0 /\ address_sel k = 0 /\ write_data_wen k = false /\ flags_wen k = false /\ reg_bank_wen k = 0 /\ mult_enable k = false.
Lemma stall_still d k a : In (control_state d) [PC_STALL1; PC_STALL2; RST_WAIT2] -> still (control_nxt d k a).
Proof.
  intros H. unfold still, control_nxt. cbn [pc_wen pc_sel address_sel write_data_wen flags_wen reg_bank_wen mult_enable].
  unfold pc_wen_nxt, pc_sel_nxt, address_sel_nxt, write_data_wen_nxt, flags_wen_nxt, reg_bank_wsel_nxt, mult_enable_nxt.
  cbn [In] in H. destruct H as [<- | [<- | [<- | []]]]; cbn; auto 10.
Qed.
Lemma still_exe k x rd al : still k -> 0 <= pc_of (r15 x) -> pc_of (r15 x) + 4 < 2 ^ 26 ->
  let y := executer_nxt k x rd al in
  (forall r, 0 <= r < 15 -> regs y r = regs x r) /\ status y = status x /\ pc_of (r15 y) = pc_of (r15 x) + 4 /\ address y = pc_of (r15 x) + 4 /\ write_enable y = false.
Proof.
  intros (H1 & H2 & H3 & H4 & H5 & H6 & H7) P1 P2. cbv zeta. repeat split.
  - intros r Hr. rewrite nxt_regs, H6. unfold tb. rewrite Z.bits_0, andb_false_r. reflexivity.
  - rewrite nxt_status, H5, andb_false_r. reflexivity.
  - rewrite nxt_r15, H1. unfold pc_nxt. rewrite H2. cbn [Z.eqb]. rewrite w32_small by lia. apply bits_pc; [lia | ].
    unfold pc_of. replace (4 * r15 x + 4) with ((r15 x + 1) * 4) by lia. apply Z.mod_mul. lia.
  - rewrite nxt_address. unfold address_nxt. rewrite H3. cbn [Z.eqb]. now rewrite w32_small by lia.
  - rewrite nxt_write, H4. apply andb_false_r.
Qed.
Lemma stall_state cs i d2 : In cs [PC_STALL1; PC_STALL2; RST_WAIT2] -> control_state_nxt cs i d2 = if cs =? PC_STALL1 then PC_STALL2 else EXECUTE.
Proof. intros H. cbn [In] in H. destruct H as [<- | [<- | [<- | []]]]; reflexivity. Qed.
(** The address of the target is on the bus, and the word there is read: it is executed next *)
Lemma arrive z q R F T M : well (Arm R F T M) -> In (control_state (dec q)) [PC_STALL2; RST_WAIT2] -> still (ctl q) ->
  write_enable (exe q) = false -> (forall a, mem q a = M a) ->
  (forall r, 0 <= r < 15 -> regs (exe q) r = R r) -> status (exe q) = F -> pc_of (r15 (exe q)) = T -> address (exe q) = T ->
  ready (step z q) (Arm R F T M) /\ idle (step z q).
Proof.
  intros W C K We Hm HR HF P Ad. pose proof W as (_ & W2 & (P1 & P2 & P3)). cbn [a_pc a_mem] in *.
  assert (C' : In (control_state (dec q)) [PC_STALL1; PC_STALL2; RST_WAIT2]) by (right; exact C).
  assert (N : control_state (dec (step z q)) = EXECUTE).
  { cbn [step dec decoder_nxt control_state]. rewrite stall_state by exact C'. cbn [In] in C. destruct C as [<- | [<- | []]]; reflexivity. }
  assert (K' : still (ctl (step z q))) by now apply stall_still.
  destruct (still_exe (ctl q) (exe q) (read_data (dec q)) (alignment (dec q)) K) as (R1 & F1 & Q1 & A1 & E1); [lia | lia | ].
  change (executer_nxt (ctl q) (exe q) (read_data (dec q)) (alignment (dec q))) with (exe (step z q)) in *. set (q' := step z q) in *.
  destruct (still_exe (ctl q') (exe q') (read_data (dec q')) (alignment (dec q')) K') as (R2 & F2 & Q2 & A2 & E2); [lia | lia | ].
  split; [ | apply K']. split; [exact W | ]. split; [now rewrite N | ]. split.
  { unfold instruction. rewrite N. cbn [use_saved one_of existsb Z.eqb EXECUTE PRE_FETCH_EXEC Pos.eqb]. cbn [a_mem a_pc].
    transitivity (mem_read (mem q) (4 * bits (address (exe q)) 31 2)); [reflexivity | ]. rewrite mem_read_align, Ad. now apply mem_read_ext. }
  split; [cbn [a_pc]; lia | ]. split; [exact E1 | ]. split; [intros a; unfold q', step; cbn [mem]; rewrite We; apply Hm | ].
  unfold exe_nxt. split; [ | split; [ | split; [ | split]]]; cbn [a_regs a_flags a_pc]; [ | congruence | lia | lia | exact E2].
  intros r Hr. now rewrite R2, R1, HR.
Qed.
Lemma jump z q R F T M : well (Arm R F T M) -> control_state (dec q) = PC_STALL1 -> write_enable (exe q) = false -> (forall a, mem q a = M a) ->
  (forall r, 0 <= r < 15 -> regs (exe_nxt q) r = R r) -> status (exe_nxt q) = F -> pc_of (r15 (exe_nxt q)) = T -> address (exe_nxt q) = T ->
  write_enable (exe_nxt q) = false -> ready (run z 2 q) (Arm R F T M) /\ idle (run z 2 q).
Proof.
  intros W C We Hm HR HF P Ad We'. change (run z 2 q) with (step z (step z q)). apply arrive; try assumption.
  - cbn [step dec decoder_nxt control_state]. rewrite C. left. reflexivity.
  - apply stall_still. rewrite C. left. reflexivity.
  - intros a. unfold step. cbn [mem]. rewrite We. apply Hm.
Qed.
(** After the reset the processor begins at the address 0 *)
Theorem reset_ready z m : (forall a, 0 <= m a < 256) ->
  ready (step z (reset m)) (Arm (fun _ => 0) (Flags false false false false) 0 m) /\ idle (step z (reset m)).
Proof.
  intros Hm. apply arrive; try reflexivity.
  - split; [intros; cbn; lia | split; [exact Hm | ]]. cbn [a_pc]. split; [lia | split; [reflexivity | lia]].
  - right. left. reflexivity.
  - repeat split.
Qed.
(** ** Branches *)
Lemma high_type i : tb i 27 = true ->
  (bits i 27 23 =? 2) = false /\ (bits i 27 22 =? 0) = false /\ (bits i 27 26 =? 0) = false /\ (bits i 27 26 =? 1) = false.
Proof.
  intros H. repeat split; apply Z.eqb_neq; intros E; [rewrite (bits_tb i 27 23), E in H by lia | rewrite (bits_tb i 27 22), E in H by lia
    | rewrite (bits_tb i 27 26), E in H by lia | rewrite (bits_tb i 27 26), E in H by lia]; discriminate.
Qed.
Lemma branch_type i : bits i 27 25 = 5 -> itype i = BRANCH.
Proof.
  intros E. destruct (high_type i) as (H1 & H2 & H3 & H4); [rewrite (bits_tb i 27 25), E by lia; reflexivity | ].
  unfold itype. now rewrite H1, H2, H3, H4, E.
Qed.
Lemma branch_control d k a (i := instruction d) : valid (control_state d) = true -> itype i = BRANCH ->
  exists uci rds, control_nxt d k a =
  Control (catz (repz (tb i 23) 6) 26 (catz (bits i 23 0) 2 0)) (bits i 11 7) (bits i 31 28) (bits i 3 0) rds 15
    0 0 0 (alu_code 4) uci false false 8 3 0 0 (if tb i 24 then 1 else 0) false true (one_hot (if tb i 24 then 14 else 15)) false.
Proof.
  intros V T. exists (use_carry_in_nxt (control_state d) i), (rds_nxt (control_state d) i).
  unfold control_nxt. fold i. unfold imm32_nxt, rn_nxt, shift_amount_sel_nxt, shift_data_sel_nxt, shift_function_nxt, alu_function_nxt,
    mult_enable_nxt, mult_accumulate_nxt, address_sel_nxt, pc_sel_nxt, byte_enable_sel_nxt, status_bits_sel_nxt, reg_write_sel_nxt,
    write_data_wen_nxt, pc_wen_nxt, reg_bank_wsel_nxt, flags_wen_nxt, load_op, shift_imm.
  rewrite T, V. cbn [is_regop is_mult is_trans is_mtrans is_branch andb orb].
  destruct (valid_cases _ V) as [-> | ->]; reflexivity.
Qed.
Lemma branch_state cs i d2 : valid cs = true -> itype i = BRANCH -> control_state_nxt cs i d2 = PC_STALL1.
Proof.
  intros V T. unfold control_state_nxt, write_pc, pc_sel_nxt, pc_wen_nxt, load_op. rewrite T, V.
  destruct (valid_cases _ V) as [-> | ->]; cbn; reflexivity.
Qed.
Lemma offset_word i : exists n, catz (repz (tb i 23) 6) 26 (catz (bits i 23 0) 2 0) = offset i + n * 2 ^ 32.
Proof.
  assert (E : bits i 23 0 = i mod 2 ^ 24) by (unfold bits; now rewrite Z.div_1_r).
  rewrite (bits_tb i 23 0 23), E by lia. change (23 - 0) with 23. unfold offset. cbv zeta.
  pose proof (Z.mod_pos_bound i (2 ^ 24) ltac:(lia)). rewrite tb_top by lia. unfold catz, repz.
  destruct (Z.leb_spec (2 ^ 23) (i mod 2 ^ 24)), (Z.ltb_spec (i mod 2 ^ 24) (2 ^ 23)); try lia; [exists 1 | exists 0]; lia.
Qed.
Lemma offset_range i : 0 <= catz (repz (tb i 23) 6) 26 (catz (bits i 23 0) 2 0) < 2 ^ 32.
Proof.
  apply (catz_range _ 6 26); [lia | lia | apply (catz_range _ 24 2); [lia | lia | lia | apply (bits_range i 23 0); lia] | apply repz_range; lia].
Qed.
Lemma mod4_add a b : a mod 4 = 0 -> b mod 4 = 0 -> (a + b) mod 4 = 0.
Proof. intros E1 E2. rewrite Z.add_mod, E1, E2 by lia. reflexivity. Qed.
Theorem branch_steps z p s i : ready p s -> i = mem_read (a_mem s) (a_pc s) -> bits i 27 25 = 5 ->
  0 <= a_pc (branch s i) -> a_pc (branch s i) + 8 < 2 ^ 26 ->
  ready (run z 3 p) (branch s i) /\ idle (run z 3 p).
Proof.
  intros Rd Ei Ty B1 B2. destruct (decode_cycle z p s Rd) as (Ex & S & Hm & Rdata & K & D).
  change (run z 3 p) with (run z 2 (step z p)). set (q := step z p) in *. pose proof Rd as (W & V & I & _). rewrite <- Ei in I.
  apply branch_type in Ty. destruct (branch_control (dec p) (ctl p) (address (exe p)) V) as (uci & rds & K'); [now rewrite I | ]. rewrite I in K'. rewrite K' in K. clear K'.
  pose proof W as (W1 & W2 & (P1 & P2 & P3)). pose proof S as (S1 & S2 & S3 & S4 & S5).
  assert (He : executes (ctl q) (exe q) = holds s i) by (rewrite <- holds_eq; unfold executes; rewrite S2, K; reflexivity).
  assert (OR := offset_range i). destruct (offset_word i) as (n & On).
  assert (Al : fst (alu_both (ctl q) (exe q) (read_data (dec q)) (alignment (dec q))) = branch_target s i mod 2 ^ 32).
  { rewrite alu_both_eq, S2. rewrite (proj1 (settled_first _ _ (rn_sel (ctl q)) S ltac:(rewrite K; cbn; lia))).
    replace (fst (shifter (ctl q) (exe q) (read_data (dec q)) (alignment (dec q)))) with (catz (repz (tb i 23) 6) 26 (catz (bits i 23 0) 2 0)).
    2:{ unfold shifter. rewrite barrel_shift_ok; rewrite ?K; try (cbn; lia); try exact OR. }
    replace (alu_function (ctl q)) with (alu_code 4) by now rewrite K. replace (rn_sel (ctl q)) with 15 by now rewrite K.
    rewrite (proj1 (alu_ok 4 _ _ _ _ ltac:(lia) (first_range s 15 W ltac:(lia)) OR)). unfold arm_result. cbn [is_logic existsb Z.eqb Pos.eqb orb].
    unfold arith. cbn [Z.eqb Pos.eqb orb]. unfold first_reg. rewrite Z.eqb_refl. apply arith_mod. exists n. rewrite On. unfold branch_target. lia. }
  assert (O4 : offset i mod 4 = 0) by (unfold offset; cbv zeta; rewrite Z.mul_comm; apply Z.mod_mul; lia).
  assert (T4 : a_pc (branch s i) mod 4 = 0).
  { unfold branch. destruct (holds s i); cbn [a_pc]; unfold branch_target; repeat (apply mod4_add); assumption || reflexivity. }
  assert (Wb : well (branch s i)).
  { unfold branch in *. destruct (holds s i); cbn [a_pc] in *.
    - destruct (tb i 24); [ | split; [exact W1 | split; [exact W2 | ]]; split; [exact B1 | split; assumption]].
      apply well_put; [exact W | | split; [exact B1 | split; assumption] | exact W2].
      unfold arm_r15_word. destruct (a_flags s) as [[] [] [] []]; cbn [fN fZ fC fV Z.b2z]; lia.
    - split; [exact W1 | split; [exact W2 | ]]. split; [exact B1 | split; assumption]. }
  assert (E : branch s i = Arm (a_regs (branch s i)) (a_flags (branch s i)) (a_pc (branch s i)) (a_mem (branch s i))) by now destruct (branch s i).
  rewrite E in Wb |- *. apply jump; [exact Wb | | exact S5 | | | | | | ].
  - rewrite D. cbn [decoder_nxt control_state]. rewrite I. now apply branch_state.
  - unfold branch. now destruct (holds s i).
  - intros r Hr. unfold exe_nxt. rewrite nxt_regs, He, S1 by exact Hr. unfold reg_write_nxt. rewrite S2, S3.
    replace (reg_bank_wen (ctl q)) with (one_hot (if tb i 24 then 14 else 15)) by now rewrite K.
    rewrite one_hot_tb by (destruct (tb i 24); lia). replace (reg_write_sel (ctl q)) with (if tb i 24 then 1 else 0) by now rewrite K.
    unfold branch. destruct (holds s i); cbn [andb a_regs]; [ | reflexivity]. destruct (tb i 24); cbn [Z.eqb Pos.eqb].
    + unfold put. destruct (r =? 14); [ | reflexivity]. replace (a_pc s + 8 - 4) with (a_pc s + 4) by lia. rewrite w32_small by lia.
      unfold pc_word, arm_r15_word, catz, word_of_flags. rewrite bits_pc; [lia | lia | now apply mod4_add].
    + replace (r =? 15) with false by (symmetry; apply Z.eqb_neq; lia). reflexivity.
  - unfold exe_nxt. rewrite nxt_status. replace (flags_wen (ctl q)) with false by now rewrite K. rewrite andb_false_r, S2.
    unfold branch. now destruct (holds s i).
  - unfold exe_nxt. rewrite nxt_r15. replace (pc_wen (ctl q)) with true by now rewrite K. unfold pc_nxt.
    replace (pc_sel (ctl q)) with 3 by now rewrite K. cbn [Z.eqb Pos.eqb]. rewrite He, S3, Al. unfold pc_of.
    revert B1 B2 T4. unfold branch. destruct (holds s i); cbn [a_pc]; intros.
    + rewrite Z.mod_small by lia. apply bits_pc; [lia | assumption].
    + replace (a_pc s + 8 - 4) with (a_pc s + 4) by lia. rewrite w32_small by lia. apply bits_pc; [lia | assumption].
  - unfold exe_nxt. rewrite nxt_address. unfold address_nxt. replace (address_sel (ctl q)) with 8 by now rewrite K.
    replace (pc_sel (ctl q)) with 3 by now rewrite K. cbn [Z.eqb Pos.eqb]. rewrite He, S3, Al, andb_false_r.
    revert B1 B2 T4. unfold branch. destruct (holds s i); cbn [a_pc]; intros.
    + now rewrite Z.mod_small by lia.
    + rewrite w32_small; lia.
  - unfold exe_nxt. rewrite nxt_write. replace (write_data_wen (ctl q)) with false by now rewrite K. apply andb_false_r.
Qed.
(** ** Data processing with the destination r15 *)
(** the address in the bits 25 to 2 of the result; an instruction that sets the flags takes them from
    the bits 31 to 28 *)
Definition pc_result (s : arm) (i : Z) : Z :=
  arm_result (bits i 24 21) (first_reg s (bits i 19 16)) (fst (operand s i)) (fC (a_flags s)).
Definition word_pc (w : Z) : Z := 4 * ((w / 4) mod 2 ^ 24).
Definition word_flags (w : Z) : flags := Flags (Z.testbit w 31) (Z.testbit w 30) (Z.testbit w 29) (Z.testbit w 28).
Definition to_pc (s : arm) (i : Z) : arm :=
  if holds s i then
    Arm (a_regs s) (if tb i 20 then word_flags (pc_result s i) else a_flags s) (word_pc (pc_result s i)) (a_mem s)
  else Arm (a_regs s) (a_flags s) (a_pc s + 4) (a_mem s).
Lemma to_pc_control d k a (i := instruction d) : valid (control_state d) = true -> itype i = REGOP -> bits i 15 12 = 15 ->
  is_compare (bits i 24 21) = false -> exists uci, control_nxt d k a =
  Control (rotated_imm (bits i 11 8) (bits i 7 0)) (bits i 11 7) (bits i 31 28) (bits i 3 0)
    (if negb (tb i 25) && tb i 4 then bits i 11 8 else bits i 15 12) (bits i 19 16)
    (if tb i 25 then 0 else if tb i 4 then 1 else 2) (if tb i 25 then 0 else 2) (if tb i 25 then 0 else bits i 6 5) (alu_code (bits i 24 21))
    uci false false 1 1 0 (if tb i 20 then 1 else if is_logic (bits i 24 21) then 5 else 0) 0 false true (one_hot 15) (tb i 20).
Proof.
  intros V T N Cp. exists (use_carry_in_nxt (control_state d) i).
  unfold control_nxt. fold i. unfold imm32_nxt, rds_nxt, rn_nxt, shift_amount_sel_nxt, shift_data_sel_nxt, shift_function_nxt,
    mult_enable_nxt, mult_accumulate_nxt, address_sel_nxt, pc_sel_nxt, byte_enable_sel_nxt, status_bits_sel_nxt, reg_write_sel_nxt,
    write_data_wen_nxt, pc_wen_nxt, reg_bank_wsel_nxt, flags_wen_nxt, load_op, shift_imm. rewrite decoded_alu by assumption.
  assert (Oc : opcode_compare i = false).
  { revert Cp. unfold opcode_compare, opcode, is_compare, one_of. cbn [existsb].
    destruct (bits i 24 21 =? 8), (bits i 24 21 =? 9), (bits i 24 21 =? 10), (bits i 24 21 =? 11); try reflexivity; discriminate. }
  rewrite T, V, N, Oc. cbn [is_regop is_mult is_trans is_mtrans is_branch andb orb].
  destruct (valid_cases _ V) as [-> | ->];
    cbn [one_of existsb Z.eqb Pos.eqb EXECUTE PRE_FETCH_EXEC MEM_WAIT1 MEM_WAIT2 MTRANS_EXEC1 MTRANS_EXEC2 MTRANS_EXEC3 MTRANS_EXEC3B MTRANS_EXEC4 MULT_PROC1 MULT_PROC2 MULT_STORE andb orb negb];
    rewrite ?andb_false_r, ?andb_true_r, ?orb_false_r; cbn [andb orb negb]; unfold is_logic, one_of, opcode; fold i;
    (f_equal; [now destruct (tb i 25), (tb i 4) | now destruct (tb i 25) | now destruct (tb i 25) | ..]).
  all: try reflexivity.
  all: cbn [existsb]; rewrite ?orb_false_r; reflexivity.
Qed.
Lemma to_pc_state cs i d2 : valid cs = true -> itype i = REGOP -> bits i 15 12 = 15 -> is_compare (bits i 24 21) = false ->
  control_state_nxt cs i d2 = PC_STALL1.
Proof.
  intros V T N Cp. assert (Oc : opcode_compare i = false).
  { revert Cp. unfold opcode_compare, opcode, is_compare, one_of. cbn [existsb].
    destruct (bits i 24 21 =? 8), (bits i 24 21 =? 9), (bits i 24 21 =? 10), (bits i 24 21 =? 11); try reflexivity; discriminate. }
  unfold control_state_nxt, write_pc, pc_sel_nxt, pc_wen_nxt, load_op. rewrite T, V, N, Oc.
  destruct (valid_cases _ V) as [-> | ->]; cbn; reflexivity.
Qed.
Definition to_pc_form (i : Z) : Prop :=
  bits i 27 26 = 0 /\ (tb i 25 = true \/ tb i 4 = false \/ tb i 7 = false) /\ is_compare (bits i 24 21) = false /\ bits i 15 12 = 15.
(** The processor jumps whatever the condition *)
Theorem to_pc_jumps z p s i : ready p s -> i = mem_read (a_mem s) (a_pc s) -> to_pc_form i -> shift_supported s i ->
  word_pc (pc_result s i) + 8 < 2 ^ 26 ->
  ready (run z 3 p) (Arm (a_regs s) (if holds s i && tb i 20 then word_flags (pc_result s i) else a_flags s) (word_pc (pc_result s i)) (a_mem s)) /\ idle (run z 3 p).
Proof.
  intros Rd Ei (T1 & T2 & T3 & T4) Sup B. destruct (decode_cycle z p s Rd) as (Ex & S & Hm & Rdata & K & D).
  change (run z 3 p) with (run z 2 (step z p)). set (q := step z p) in *. pose proof Rd as (W & V & I & _). rewrite <- Ei in I.
  assert (Ty := regop_type i T1 T2). destruct (to_pc_control (dec p) (ctl p) (address (exe p)) V) as (uci & K'); try (rewrite I; assumption).
  rewrite I in K'. rewrite K' in K. clear K'. pose proof W as (W1 & W2 & (P1 & P2 & P3)). pose proof S as (S1 & S2 & S3 & S4 & S5).
  assert (Rop := nibble i 24 21 eq_refl). assert (Rrn := nibble i 19 16 eq_refl).
  destruct (dp_operand (ctl q) (exe q) s i (read_data (dec q)) (alignment (dec q)) S W Sup) as (Rb & Eb & _); try (rewrite K; reflexivity).
  assert (Al : fst (alu_both (ctl q) (exe q) (read_data (dec q)) (alignment (dec q))) = pc_result s i).
  { rewrite alu_both_eq, Eb, S2. replace (alu_function (ctl q)) with (alu_code (bits i 24 21)) by now rewrite K.
    replace (rn_sel (ctl q)) with (bits i 19 16) by now rewrite K. rewrite (proj1 (settled_first _ _ _ S Rrn)).
    apply alu_ok; [exact Rop | now apply first_range | exact Rb]. }
  assert (He : executes (ctl q) (exe q) = holds s i) by (rewrite <- holds_eq; unfold executes; rewrite S2, K; reflexivity).
  assert (Pw : pcf (pc_result s i) = word_pc (pc_result s i)) by reflexivity.
  assert (M := Z.mod_pos_bound (pc_result s i / 4) (2 ^ 24) ltac:(lia)).
  apply jump; [ | | exact S5 | exact Hm | | | | | ].
  - split; [exact W1 | split; [exact W2 | ]]. cbn [a_pc]. split; [unfold word_pc; lia | split; [ | exact B]].
    unfold word_pc. rewrite Z.mul_comm. apply Z.mod_mul. lia.
  - rewrite D. cbn [decoder_nxt control_state]. rewrite I. now apply to_pc_state.
  - intros r Hr. unfold exe_nxt. rewrite nxt_regs. replace (reg_bank_wen (ctl q)) with 0 by now rewrite K.
    unfold tb at 1. rewrite Z.bits_0, andb_false_r. now apply S1.
  - unfold exe_nxt. rewrite nxt_status, He, Al, S2. replace (flags_wen (ctl q)) with (tb i 20) by now rewrite K. unfold status_nxt.
    replace (status_bits_sel (ctl q)) with (if tb i 20 then 1 else if is_logic (bits i 24 21) then 5 else 0) by now rewrite K.
    destruct (holds s i); cbn [andb]; [ | reflexivity]. destruct (tb i 20); [ | reflexivity]. cbn [Z.eqb Pos.eqb].
    unfold flags_of_word, word_flags. now rewrite !tb_bits by lia.
  - unfold exe_nxt. rewrite nxt_r15. replace (pc_wen (ctl q)) with true by now rewrite K. unfold pc_nxt.
    replace (pc_sel (ctl q)) with 1 by now rewrite K. cbn [Z.eqb Pos.eqb]. rewrite Al. reflexivity.
  - unfold exe_nxt. rewrite nxt_address. unfold address_nxt. replace (address_sel (ctl q)) with 1 by now rewrite K.
    replace (pc_sel (ctl q)) with 1 by now rewrite K. replace (pc_wen (ctl q)) with true by now rewrite K. cbn [Z.eqb Pos.eqb andb]. now rewrite Al.
  - unfold exe_nxt. rewrite nxt_write. replace (write_data_wen (ctl q)) with false by now rewrite K. apply andb_false_r.
Qed.
Theorem to_pc_steps z p s i : ready p s -> i = mem_read (a_mem s) (a_pc s) -> to_pc_form i -> shift_supported s i ->
  word_pc (pc_result s i) + 8 < 2 ^ 26 -> holds s i = true -> ready (run z 3 p) (to_pc s i) /\ idle (run z 3 p).
Proof. intros Rd Ei F Sup B H. unfold to_pc. pose proof (to_pc_jumps z p s i Rd Ei F Sup B) as J. rewrite H in *. exact J. Qed.
(** movle pc, lr, as in the shipped program of merge-sort: the processor returns although the
    condition does not hold *)
Definition movle_program : memory := load [3516985358].
Lemma load_range words a : 0 <= load words a < 256.
Proof.
  unfold load. set (k := 8 * (a mod 4)). unfold bits. replace (k + 7 - k + 1) with 8 by lia. apply Z.mod_pos_bound. lia.
Qed.
Theorem to_pc_condition_refuted : exists z p s i s', ready p s /\ i = mem_read (a_mem s) (a_pc s) /\ to_pc_form i /\ shift_supported s i /\
  holds s i = false /\ ready (run z 3 p) s' /\ a_pc s' <> a_pc (to_pc s i).
Proof.
  set (z := Sizes 64 64 64 64 64). set (s := Arm (fun _ => 0) (Flags false false false false) 0 movle_program).
  assert (Rd := proj1 (reset_ready z movle_program (load_range _))). fold s in Rd.
  assert (Ei : 3516985358 = mem_read (a_mem s) (a_pc s)) by (vm_compute; reflexivity).
  assert (Fo : to_pc_form 3516985358) by (repeat split; try (vm_compute; reflexivity); right; left; reflexivity).
  assert (Sup : shift_supported s 3516985358) by (right; reflexivity).
  exists z, (step z (reset movle_program)), s, 3516985358.
  eexists. split; [exact Rd | ]. split; [exact Ei | ]. split; [exact Fo | ]. split; [exact Sup | ]. split; [reflexivity | ]. split.
  - apply (to_pc_jumps z _ s 3516985358 Rd Ei Fo Sup). vm_compute. reflexivity.
  - cbn [a_pc]. vm_compute. discriminate.
Qed.
