(** The processor a23: loads of the program counter. *)
From Coq Require Import ZArith List Bool Lia.
From Verif Require Import RtlA23 RtlA23Units RtlA23Step RtlA23Jump RtlA23Mem RtlA23Multi.
Import ListNotations.
Open Scope Z_scope.

(** * Specification *)
(** LDR with destination r15: as any other load, and a jump to the address loaded; the flags stay *)
Definition load_pc (s : arm) (i : Z) : arm :=
  Arm (if write_back i then put (a_regs s) (bits i 19 16) (moved_base s i) else a_regs s) (a_flags s) (word_pc (loaded s i)) (a_mem s).
(** Any base, offset and way of indexing; the base is not r15 when it is written *)
Definition load_pc_form (i : Z) : Prop :=
  bits i 27 26 = 1 /\ bits i 15 12 = 15 /\ tb i 20 = true /\ tb i 22 = false /\ (write_back i = true -> bits i 19 16 <> 15) /\
  (tb i 25 = true -> bits i 11 7 <> 0 \/ bits i 6 5 = 0).

(** * Proofs *)
Lemma wait2_pc_control d k a (i := instruction d) : control_state d = MEM_WAIT2 -> itype i = TRANS -> bits i 15 12 = 15 -> tb i 20 = true -> tb i 22 = false ->
  let k' := control_nxt d k a in
  condition k' = condition k /\ mult_enable k' = false /\ address_sel k' = 1 /\ pc_sel k' = 1 /\ write_data_wen k' = false /\ pc_wen k' = true /\
  reg_bank_wen k' = 0 /\ flags_wen k' = false /\
  shift_amount_sel k' = 3 /\ shift_data_sel k' = 1 /\ shift_function k' = (if bits a 1 0 =? 0 then 0 else 3) /\
  alu_function k' = Alufn false false 0 false 0.
Proof.
  intros C T N L B. assert (E15 : bits i 15 12 =? 15 = true) by now apply Z.eqb_eq.
  unfold control_nxt, mult_enable_nxt, address_sel_nxt, pc_sel_nxt, write_data_wen_nxt, pc_wen_nxt, reg_bank_wsel_nxt, flags_wen_nxt,
    shift_amount_sel_nxt, shift_data_sel_nxt, shift_function_nxt, alu_function_nxt, load_op. fold i. rewrite C, T, E15, L, B. cbv zeta.
  cbn [control_state condition mult_enable address_sel pc_sel write_data_wen pc_wen reg_bank_wen flags_wen shift_amount_sel shift_data_sel shift_function alu_function
    is_trans is_mtrans valid andb orb negb Z.eqb Pos.eqb MEM_WAIT2 one_of existsb EXECUTE PRE_FETCH_EXEC MEM_WAIT1 MTRANS_EXEC1 MTRANS_EXEC2 MTRANS_EXEC3 MTRANS_EXEC3B MTRANS_EXEC4 MULT_PROC1 MULT_PROC2 MULT_STORE].
  repeat split. now destruct (bits a 1 0 =? 0).
Qed.
Lemma wait2_pc_state i d2 : itype i = TRANS -> bits i 15 12 = 15 -> tb i 20 = true -> control_state_nxt MEM_WAIT2 i d2 = PC_STALL1.
Proof.
  intros T N L. assert (E15 : bits i 15 12 =? 15 = true) by now apply Z.eqb_eq.
  unfold control_state_nxt, write_pc, pc_sel_nxt, pc_wen_nxt, load_op. rewrite T, E15, L. reflexivity.
Qed.
Theorem load_pc_steps z p s i : ready p s -> i = mem_read (a_mem s) (a_pc s) -> load_pc_form i -> holds s i = true -> pc_ok (word_pc (loaded s i)) ->
  ready (run z 5 p) (load_pc s i) /\ idle (run z 5 p).
Proof.
  intros Rd Ei (T1 & T2 & TL & TB & T3 & T4) Hh Po. destruct (decode_cycle z p s Rd) as (Ex & S & Hm & Rdata & K & D).
  change (run z 5 p) with (run z 2 (step z (step z (step z p)))). set (q := step z p) in *. pose proof Rd as (W & V & I & _). rewrite <- Ei in I.
  apply transfer_type in T1. destruct (mem_op_control (dec p) (ctl p) (address (exe p)) V) as (uci & K'); [now rewrite I | now rewrite I | ].
  rewrite I in K'. rewrite K' in K. clear K'. pose proof W as (W1 & W2 & P). pose proof S as (S1 & S2 & S3 & S4 & S5).
  assert (He : executes (ctl q) (exe q) = true) by (rewrite <- Hh, <- holds_eq; unfold executes; rewrite S2, K; reflexivity).
  assert (Al : fst (alu_both (ctl q) (exe q) (read_data (dec q)) (alignment (dec q))) = moved_base s i)
    by (apply mem_alu; try assumption; now rewrite K).
  assert (Rrn := nibble i 19 16 eq_refl). assert (RA := address_range s i W).
  (* the second cycle *)
  assert (C1 : control_state (dec q) = MEM_WAIT1) by (rewrite D; cbn [decoder_nxt control_state]; rewrite I; now apply mem_op_state).
  assert (I1 : instruction (dec q) = i).
  { unfold instruction. rewrite C1. cbn [use_saved one_of existsb Z.eqb Pos.eqb MEM_WAIT1 MEM_WAIT2 orb]. rewrite D. unfold decoder_nxt. cbn [saved_instruction].
    rewrite I. unfold saved_wen. rewrite T1, V. reflexivity. }
  assert (X1 : forall r, 0 <= r < 15 -> regs (exe_nxt q) r = a_regs (load_pc s i) r).
  { intros r Hr. unfold exe_nxt. rewrite nxt_regs, He, Al, S1 by exact Hr. unfold reg_write_nxt. rewrite K. cbn [reg_bank_wen reg_write_sel Z.eqb].
    rewrite one_hot_tb by (destruct (write_back i); lia). unfold load_pc. cbn [a_regs]. destruct (write_back i); cbn [andb]; [reflexivity | ].
    now replace (r =? 15) with false by (symmetry; apply Z.eqb_neq; lia). }
  assert (X2 : status (exe_nxt q) = a_flags s) by (unfold exe_nxt; rewrite nxt_status; replace (flags_wen (ctl q)) with false by (now rewrite K); rewrite andb_false_r; exact S2).
  assert (X3 : pc_of (r15 (exe_nxt q)) = a_pc s + 8) by (unfold exe_nxt; rewrite nxt_r15; replace (pc_wen (ctl q)) with false by (now rewrite K); exact S3).
  assert (X4 : address (exe_nxt q) = mem_address s i).
  { unfold exe_nxt. rewrite nxt_address, Al. unfold address_nxt. rewrite K. cbn [address_sel pc_wen pc_sel rn_sel andb]. unfold mem_address.
    destruct (tb i 24); cbn [Z.eqb Pos.eqb]; [reflexivity | ]. exact (proj1 (settled_first _ _ _ S Rrn)). }
  assert (X5 : write_enable (exe_nxt q) = false) by (unfold exe_nxt; rewrite nxt_write, K; cbn [write_data_wen]; rewrite TL; apply andb_false_r).
  destruct (wait1_control (dec q) (ctl q) (address (exe q)) C1) as (Y1 & Y2 & Y3 & Y4 & Y5 & Y6 & Y7 & Y8).
  assert (Hm1 : forall a, mem (step z q) a = a_mem s a) by (intros a; unfold step; cbn [mem]; rewrite S5; apply Hm).
  assert (C2 : control_state (dec (step z q)) = MEM_WAIT2) by (unfold step; cbn [dec decoder_nxt control_state]; rewrite C1; reflexivity).
  assert (I2 : instruction (dec (step z q)) = i).
  { unfold instruction. rewrite C2. cbn [use_saved one_of existsb Z.eqb Pos.eqb MEM_WAIT1 MEM_WAIT2 orb]. unfold step, decoder_nxt. cbn [dec saved_instruction].
    rewrite I1, T1, C1. unfold instruction in I1. rewrite C1 in I1. exact I1. }
  change (control_nxt (dec q) (ctl q) (address (exe q))) with (ctl (step z q)) in *. change (exe_nxt q) with (exe (step z q)) in *.
  clear D. set (u := step z q) in *.
  (* the third cycle *)
  assert (Z1 : forall r, 0 <= r < 15 -> regs (exe_nxt u) r = regs (exe u) r).
  { intros r Hr. unfold exe_nxt. rewrite nxt_regs, Y7. unfold tb at 1. rewrite Z.bits_0, andb_false_r. reflexivity. }
  assert (Z2 : status (exe_nxt u) = a_flags s) by (unfold exe_nxt; rewrite nxt_status, Y8, andb_false_r; exact X2).
  assert (Z5 : write_enable (exe_nxt u) = false) by (unfold exe_nxt; rewrite nxt_write, Y5; apply andb_false_r).
  destruct (wait2_pc_control (dec u) (ctl u) (address (exe u)) C2) as (V1 & V2 & V3 & V4 & V5 & V6 & V7 & V8 & L1 & L2 & L3 & L4); try (rewrite I2; assumption).
  assert (C3 : control_state (dec (step z u)) = PC_STALL1) by (unfold step; cbn [dec decoder_nxt control_state]; rewrite C2, I2; now apply wait2_pc_state).
  assert (D3 : read_data (dec (step z u)) = load_word (a_mem s) (mem_address s i)).
  { transitivity (mem_read (mem u) (4 * bits (address (exe u)) 31 2)); [reflexivity | ]. rewrite mem_read_align, X4, (mem_read_ext _ _ _ Hm1). now apply load_word_eq. }
  assert (A3 : alignment (dec (step z u)) = 8 * (mem_address s i mod 4)).
  { transitivity (8 * bits (address (exe u)) 1 0); [reflexivity | ]. now rewrite X4, bits_1_0. }
  assert (M3 : forall a, mem (step z u) a = a_mem s a) by (intros a; unfold step; cbn [mem]; rewrite X5; apply Hm1).
  change (control_nxt (dec u) (ctl u) (address (exe u))) with (ctl (step z u)) in *. change (exe_nxt u) with (exe (step z u)) in *.
  set (v := step z u) in *.
  assert (Lv : fst (alu_both (ctl v) (exe v) (read_data (dec v)) (alignment (dec v))) = loaded s i).
  { rewrite alu_both_eq, L4. assert (Hk := Z.mod_pos_bound (mem_address s i) 4 ltac:(lia)).
    assert (E : fst (shifter (ctl v) (exe v) (read_data (dec v)) (alignment (dec v))) = rotate_right (load_word (a_mem s) (mem_address s i)) (8 * (mem_address s i mod 4))).
    { unfold shifter, shift_in, shift_amount. rewrite L1, L2, L3, D3, A3, X4, bits_1_0. cbn [Z.eqb Pos.eqb].
      assert (RW := load_word_range (a_mem s) (mem_address s i) W2).
      rewrite barrel_shift_ok; [ | destruct (mem_address s i mod 4 =? 0); lia | exact RW | lia | lia]. rewrite <- rotate_byte by assumption. apply arm_shift_fst. }
    rewrite E. unfold loaded. rewrite TB. reflexivity. }
  apply jump.
  - split; [ | split].
    + cbn [a_regs load_pc]. intros r Hr. assert (MR : 0 <= moved_base s i < 2 ^ 32) by apply moved_range. specialize (W1 r Hr).
      destruct (write_back i); [unfold put; destruct (r =? bits i 19 16); assumption | exact W1].
    + exact W2.
    + exact Po.
  - exact C3.
  - exact Z5.
  - exact M3.
  - intros r Hr. unfold exe_nxt. rewrite nxt_regs, V7, Z1 by exact Hr. unfold tb at 1. rewrite Z.bits_0, andb_false_r. now apply X1.
  - unfold exe_nxt. rewrite nxt_status, V8, andb_false_r. exact Z2.
  - unfold exe_nxt. rewrite nxt_r15, V6. unfold pc_nxt. rewrite V4. cbn [Z.eqb Pos.eqb]. rewrite Lv. reflexivity.
  - unfold exe_nxt. rewrite nxt_address. unfold address_nxt. rewrite V3, V4, V6. cbn [Z.eqb Pos.eqb andb]. rewrite Lv. reflexivity.
  - unfold exe_nxt. rewrite nxt_write, V5. apply andb_false_r.
Qed.
