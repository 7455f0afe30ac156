(** The ARM processor a23, written in Verilog (circuit_synthesis/a23). *)
From Coq Require Import ZArith List Bool Lia.
Import ListNotations.
Open Scope Z_scope.

(** * Model

    A word is the number that its bits stand for.  Every register of the processor is written at
    the same edge of the clock, so one cycle is a function from the values of the registers to
    their values after the edge.  The names are those of the Verilog text, shortened. *)

(** w[h:l] *)
Definition bits (w h l : Z) : Z := (w / 2 ^ l) mod 2 ^ (h - l + 1).
(** w[k] *)
Definition tb (w k : Z) : bool := Z.testbit w k.
(** {a, b} with b of n bits *)
Definition catz (a n b : Z) : Z := a * 2 ^ n + b.
(** {n{b}} *)
Definition repz (b : bool) (n : Z) : Z := if b then 2 ^ n - 1 else 0.
Definition w32 (z : Z) : Z := z mod 2 ^ 32.
(** The flags: negative, zero, carry, overflow, a23/a23_alu.v:52 *)
Record flags : Type := Flags { fN : bool; fZ : bool; fC : bool; fV : bool }.
(** {n, z, c, v} and back *)
Definition word_of_flags (f : flags) : Z := 8 * Z.b2z (fN f) + 4 * Z.b2z (fZ f) + 2 * Z.b2z (fC f) + Z.b2z (fV f).
Definition flags_of_word (w : Z) : flags := Flags (tb w 3) (tb w 2) (tb w 1) (tb w 0).

(** ** The barrel shifter *)
(** The generate loop of the four modules below: tmp[i] from tmp[i+1], for i = n-1 down to 0 *)
Fixpoint stages (f : Z -> Z -> Z) (n : nat) (shift t : Z) : Z :=
  match n with
  | O => t
  | S i => stages f i shift (if tb shift (Z.of_nat i) then f (2 ^ Z.of_nat i) t else t)
  end.
(** ror_struct, a23/a23_barrel_shift.v:260-280 *)
Definition ror_struct (x shift : Z) : Z :=
  stages (fun k t => catz (Z.b2z (tb t (k - 1))) 32 (catz (bits t (k - 1) 0) (32 - k) (bits t 31 k))) 5 shift
    (catz (Z.b2z (tb x 31)) 32 x).
(** asr_struct, a23/a23_barrel_shift.v:283-305 *)
Definition asr_struct (x shift : Z) : Z :=
  stages (fun k t => catz (Z.b2z (tb t (k - 1))) 32 (catz (repz (tb x 31) k) (32 - k) (bits t 31 k))) 5 shift
    (catz (Z.b2z (tb x 0)) 32 x).
(** lsr_struct, a23/a23_barrel_shift.v:308-330 *)
Definition lsr_struct (x shift : Z) : Z :=
  stages (fun k t => catz (Z.b2z (tb t (k - 1))) 32 (catz (repz false k) (32 - k) (bits t 31 k))) 5 shift
    (catz (Z.b2z (tb x 0)) 32 x).
(** lsl_struct, a23/a23_barrel_shift.v:332-352 *)
Definition lsl_struct (x shift : Z) : Z :=
  stages (fun k t => catz (Z.b2z (tb t (32 - k))) 32 (catz (bits t (32 - k - 1) 0) k 0)) 5 shift
    (catz (Z.b2z (tb x 31)) 32 x).
(** a23_barrel_shift, a23/a23_barrel_shift.v:42-257: the shifted word and the carry *)
Definition barrel_shift (fn x amount : Z) (carry_in : bool) : Z * bool :=
  let shift := bits amount 4 0 in
  let t := if fn =? 0 then lsl_struct x shift else if fn =? 1 then lsr_struct x shift
           else if fn =? 2 then asr_struct x shift else ror_struct x shift in
  (bits t 31 0, if amount =? 0 then carry_in else tb t 32).

(** ** The arithmetic unit *)
(** The fields of i_function, a23/a23_alu.v:70 *)
Record alufn : Type := Alufn { swap_sel : bool; not_sel : bool; cin_sel : Z; cout_sel : bool; out_sel : Z }.
(** a23_alu, a23/a23_alu.v:43-158 *)
Definition alu (f : alufn) (a_in b_in : Z) (shift_carry status_carry : bool) : Z * flags :=
  let a := if swap_sel f then b_in else a_in in
  let b := if swap_sel f then a_in else b_in in
  let b_not := if not_sel f then 2 ^ 32 - 1 - b else b in
  let carry_in := if cin_sel f =? 0 then false else if cin_sel f =? 1 then true else status_carry in
  let fadder := a + b_not + Z.b2z carry_in in
  let carry_out := if cout_sel f then shift_carry else tb fadder 32 in
  let overflow := (out_sel f =? 1) &&
    ((negb (tb a 31) && negb (tb b_not 31) && tb fadder 31) || (tb a 31 && tb b_not 31 && negb (tb fadder 31))) in
  let out :=
    if out_sel f =? 0 then b_not else if out_sel f =? 1 then bits fadder 31 0
    else if out_sel f =? 2 then bits b_not 15 0 else if out_sel f =? 3 then bits b_not 7 0
    else if out_sel f =? 4 then catz (repz (tb b_not 15) 16) 16 (bits b_not 15 0)
    else if out_sel f =? 5 then catz (repz (tb b_not 7) 24) 8 (bits b_not 7 0)
    else if out_sel f =? 6 then Z.lxor a b_not else if out_sel f =? 7 then Z.lor a b_not else Z.land a b_not in
  (out, if (out_sel f =? 1) && (cin_sel f =? 2) then Flags false false carry_out false
        else Flags (tb out 31) (out =? 0) carry_out overflow).

(** conditional_execute, a23/a23_functions.vh:131-156, with the codes of a23/a23_localparams.vh:75-94 *)
Definition conditional_execute (condition : Z) (f : flags) : bool :=
  (condition =? 14) ||
  ((condition =? 0) && fZ f) || ((condition =? 1) && negb (fZ f)) ||
  ((condition =? 2) && fC f) || ((condition =? 3) && negb (fC f)) ||
  ((condition =? 4) && fN f) || ((condition =? 5) && negb (fN f)) ||
  ((condition =? 6) && fV f) || ((condition =? 7) && negb (fV f)) ||
  ((condition =? 8) && fC f && negb (fZ f)) || ((condition =? 9) && (negb (fC f) || fZ f)) ||
  ((condition =? 10) && Bool.eqb (fN f) (fV f)) || ((condition =? 11) && negb (Bool.eqb (fN f) (fV f))) ||
  ((condition =? 12) && negb (fZ f) && Bool.eqb (fN f) (fV f)) ||
  ((condition =? 13) && (fZ f || negb (Bool.eqb (fN f) (fV f)))).

(** ** The memory *)
(** The five arrays are one function from addresses of bytes to bytes: the array is in bits 31..24
    of the address.  Beyond the end of an array the function holds whatever a simulator or the
    synthesised circuit reads there; writes do not change it. *)
Record sizes : Type := Sizes { code_size : Z; g_size : Z; e_size : Z; out_size : Z; stack_size : Z }.
Definition memory := Z -> Z.
(** o_m_read, a23/a23_mem.v:57-64 *)
Definition word_at (m : memory) (a : Z) : Z :=
  catz (m (a + 3)) 24 (catz (m (a + 2)) 16 (catz (m (a + 1)) 8 (m a))).
Definition mem_read (m : memory) (address : Z) : Z :=
  if bits address 31 24 <=? 4 then word_at m (4 * bits address 31 2) else 0.
Definition set (m : Z -> Z) (a v : Z) : Z -> Z := fun x => if x =? a then v else m x.
(** The number of words of an array that is written *)
Definition written_size (z : sizes) (region : Z) : Z :=
  if region =? 0 then code_size z else if region =? 3 then out_size z else if region =? 4 then stack_size z else 0.
(** a23/a23_mem.v:85-166, but for the reset *)
Definition mem_write (z : sizes) (m : memory) (address w : Z) (write_en : bool) (byte_enable : Z) : memory :=
  let a := 4 * bits address 31 2 in
  if write_en && (bits address 23 2 <? written_size z (bits address 31 24)) then
    if byte_enable =? 15 then
      set (set (set (set m (a + 3) (bits w 31 24)) (a + 2) (bits w 23 16)) (a + 1) (bits w 15 8)) a (bits w 7 0)
    else if byte_enable =? 1 then set m a (bits w 7 0)
    else if byte_enable =? 2 then set m (a + 1) (bits w 7 0)
    else if byte_enable =? 4 then set m (a + 2) (bits w 7 0)
    else if byte_enable =? 8 then set m (a + 3) (bits w 7 0)
    else m
  else m.

(** ** Decode *)
(** control_state, a23/a23_decode.v:91-117 *)
Definition RST_WAIT1 : Z := 0.
Definition RST_WAIT2 : Z := 1.
Definition INT_WAIT1 : Z := 2.
Definition INT_WAIT2 : Z := 3.
Definition EXECUTE : Z := 4.
Definition PRE_FETCH_EXEC : Z := 5.
Definition MEM_WAIT1 : Z := 6.
Definition MEM_WAIT2 : Z := 7.
Definition PC_STALL1 : Z := 8.
Definition PC_STALL2 : Z := 9.
Definition MTRANS_EXEC1 : Z := 10.
Definition MTRANS_EXEC2 : Z := 11.
Definition MTRANS_EXEC3 : Z := 12.
Definition MTRANS_EXEC3B : Z := 13.
Definition MTRANS_EXEC4 : Z := 14.
Definition MULT_PROC1 : Z := 16.
Definition MULT_PROC2 : Z := 17.
Definition MULT_STORE : Z := 19.
(** The types of instructions, a23/a23_localparams.vh:44-53 *)
Inductive itypes : Type := REGOP | MULT | SWAP | TRANS | MTRANS | BRANCH | CODTRANS | COREGOP | CORTRANS | SWI.
(** itype, a23/a23_decode.v:259-271 *)
Definition itype (i : Z) : itypes :=
  if (bits i 27 23 =? 2) && (bits i 21 20 =? 0) && (bits i 7 4 =? 9) then SWAP
  else if (bits i 27 22 =? 0) && (bits i 7 4 =? 9) then MULT
  else if bits i 27 26 =? 0 then REGOP
  else if bits i 27 26 =? 1 then TRANS
  else if bits i 27 25 =? 4 then MTRANS
  else if bits i 27 25 =? 5 then BRANCH
  else if bits i 27 25 =? 6 then CODTRANS
  else if (bits i 27 24 =? 14) && negb (tb i 4) then COREGOP
  else if bits i 27 24 =? 14 then CORTRANS
  else SWI.
Definition is_regop (t : itypes) : bool := match t with REGOP => true | _ => false end.
Definition is_mult (t : itypes) : bool := match t with MULT => true | _ => false end.
Definition is_trans (t : itypes) : bool := match t with TRANS => true | _ => false end.
Definition is_mtrans (t : itypes) : bool := match t with MTRANS => true | _ => false end.
Definition is_branch (t : itypes) : bool := match t with BRANCH => true | _ => false end.
(** The codes of operations, a23/a23_localparams.vh:57-72: a number of four bits is one of these *)
Definition one_of (o : Z) (l : list Z) : bool := existsb (Z.eqb o) l.
Definition opcode (i : Z) : Z := bits i 24 21.
Definition opcode_compare (i : Z) : bool := one_of (opcode i) [10; 11; 9; 8].
Definition shift_imm (i : Z) : Z := bits i 11 7.
(** a23/a23_decode.v:295 *)
Definition shift_extend (i : Z) : bool := negb (tb i 25) && negb (tb i 4) && (bits i 11 7 =? 0) && (bits i 6 5 =? 3).
Definition load_op (i : Z) : bool := is_trans (itype i) && tb i 20.
(** mtrans_reg, a23/a23_decode.v:364-382; mtrans_num_registers, a23/a23_decode.v:407-422 *)
Fixpoint first_bit (n : nat) (k w : Z) : Z := match n with O => k | S m => if tb w k then k else first_bit m (k + 1) w end.
Definition mtrans_reg (i : Z) : Z := first_bit 15 0 i.
Fixpoint count_bits (n : nat) (w : Z) : Z := match n with O => 0 | S m => Z.b2z (tb w (Z.of_nat m)) + count_bits m w end.
Definition mtrans_num (i : Z) : Z := count_bits 16 i.
(** mtrans_instruction_nxt, a23/a23_decode.v:385-403: the bit of the first register is cleared *)
Definition mtrans_nxt (i : Z) : Z :=
  catz (bits i 31 16) 16 (catz (bits i 15 (mtrans_reg i + 1)) (mtrans_reg i + 1) 0).
(** imm32_nxt, a23/a23_decode.v:324-346; the sixteen rows of the table are one rotation *)
Definition rotated_imm (rot imm8 : Z) : Z :=
  if rot =? 0 then imm8
  else if rot =? 1 then catz (bits imm8 1 0) 30 (bits imm8 7 2) else if rot =? 2 then catz (bits imm8 3 0) 28 (bits imm8 7 4)
  else if rot =? 3 then catz (bits imm8 5 0) 26 (bits imm8 7 6) else catz imm8 (32 - 2 * rot) 0.
Definition imm32_nxt (i : Z) : Z :=
  match itype i with
  | MULT => 0
  | MTRANS => 4 * mtrans_num i
  | BRANCH => catz (repz (tb i 23) 6) 26 (catz (bits i 23 0) 2 0)
  | TRANS => bits i 11 0
  | _ => rotated_imm (bits i 11 8) (bits i 7 0)
  end.
(** The registers of the decoder that are not control signals, a23/a23_decode.v:180-193; the two
    addresses of instructions are never used *)
Record decoder : Type := Decoder
  { read_data : Z; alignment : Z; control_state : Z; reg_d1 : Z; reg_d2 : Z; saved_instruction : Z; pre_fetch : Z }.
(** The control signals for the execute stage, a23/a23_decode.v:61-85 *)
Record control : Type := Control
  { imm32 : Z; imm_shift_amount : Z; condition : Z; rm_sel : Z; rds_sel : Z; rn_sel : Z;
    shift_amount_sel : Z; shift_data_sel : Z; shift_function : Z; alu_function : alufn; use_carry_in : bool;
    mult_enable : bool; mult_accumulate : bool; address_sel : Z; pc_sel : Z; byte_enable_sel : Z; status_bits_sel : Z;
    reg_write_sel : Z; write_data_wen : bool; pc_wen : bool; reg_bank_wen : Z; flags_wen : bool }.
(** a23/a23_decode.v:233-254 *)
Definition use_saved (cs : Z) : bool :=
  one_of cs [MEM_WAIT1; MEM_WAIT2; MTRANS_EXEC1; MTRANS_EXEC2; MTRANS_EXEC3; MTRANS_EXEC3B; MTRANS_EXEC4;
             MULT_PROC1; MULT_PROC2; MULT_STORE].
Definition instruction (d : decoder) : Z :=
  if use_saved (control_state d) then saved_instruction d
  else if control_state d =? PRE_FETCH_EXEC then pre_fetch d else read_data d.
(** instruction_valid, a23/a23_decode.v:826 *)
Definition valid (cs : Z) : bool := (cs =? EXECUTE) || (cs =? PRE_FETCH_EXEC).
(** decode, a23/a23_functions.vh:56-78 *)
Definition one_hot (sel : Z) : Z := if sel <? 15 then 2 ^ sel else 0.
(** o_rn_sel_nxt and o_rds_sel_nxt, a23/a23_decode.v:283-289, 302-306 *)
Definition rn_nxt (i : Z) : Z := if is_branch (itype i) then 15 else bits i 19 16.
Definition rds_nxt (cs i : Z) : Z :=
  let use_rs := (is_regop (itype i) && negb (tb i 25) && tb i 4) ||
                (is_mult (itype i) && ((cs =? MULT_PROC1) || (cs =? MULT_PROC2) || valid cs)) in
  if is_mtrans (itype i) then mtrans_reg i else if is_branch (itype i) then 15
  else if use_rs then bits i 11 8 else bits i 15 12.

(** The always block of a23/a23_decode.v:431-819, one signal after the other; the assignments to a
    signal are in the order of the text *)
Section Signals.
Variables (cs i : Z).
Let iv := valid cs.
Let regop := iv && is_regop (itype i).
Let mem_op := iv && is_trans (itype i).
Let branch := iv && is_branch (itype i).
Let mtrans := iv && is_mtrans (itype i).
Let mult := iv && is_mult (itype i).
Let op l := regop && one_of (opcode i) l.
(** the operand is a register, shifted; a23/a23_decode.v:475-485 *)
Let shifted := regop && negb (tb i 25).
Let indexed := mem_op && ((tb i 24 && tb i 21) || negb (tb i 24)).
Let to_pc := regop && negb (opcode_compare i) && (bits i 15 12 =? 15).
Let load_done := (cs =? MEM_WAIT2) && load_op i.
Let load_pc (d2 : Z) := (cs =? MTRANS_EXEC4) && tb i 20 && (d2 =? 15).
Definition shift_amount_sel_nxt : Z :=
  let s := 0 in
  let s := if shifted && tb i 4 then 1 else s in
  let s := if shifted && negb (tb i 4) then 2 else s in
  let s := if mem_op && tb i 25 && negb (shift_imm i =? 0) then 2 else s in
  if load_done then 3 else s.
Definition shift_data_sel_nxt : Z :=
  let s := 0 in
  let s := if shifted then 2 else s in
  let s := if mem_op && tb i 25 then 2 else s in
  let s := if load_done then 1 else s in
  if one_of cs [MTRANS_EXEC2; MTRANS_EXEC3; MTRANS_EXEC4] then 1 else s.
Definition shift_function_nxt (address : Z) : Z :=
  let s := 0 in
  let s := if shifted then bits i 6 5 else s in
  let s := if mem_op && tb i 25 && negb (shift_imm i =? 0) then bits i 6 5 else s in
  if load_done && negb (bits address 1 0 =? 0) then 3 else s.
(** use_carry_in_nxt, a23/a23_decode.v:492-568 *)
Definition use_carry_in_nxt : bool :=
  if op [4; 11; 5] then shift_extend i else op [6; 7; 1; 9; 12; 14; 13; 15].
(** multiply_function_nxt; mf is the value of o_multiply_function *)
Definition mult_enable_nxt (mf : bool) : bool :=
  if one_of cs [MULT_PROC1; MULT_PROC2; MULT_STORE] then mf else mult.
Definition mult_accumulate_nxt (mf : bool) : bool :=
  if one_of cs [MULT_PROC1; MULT_PROC2; MULT_STORE] then mf else mult && tb i 21.
Definition address_sel_nxt (d2 : Z) : Z :=
  let s := 0 in
  let s := if to_pc then 1 else s in
  let s := if mem_op then (if negb (tb i 24) then 4 else 1) else s in
  let s := if branch then 8 else s in
  let s := if mtrans then (if tb i 23 then (if tb i 24 then 7 else 4) else if tb i 24 then 1 else 6) else s in
  let s := if cs =? MEM_WAIT1 then 3 else s in
  let s := if load_done && (bits i 15 12 =? 15) then 1 else s in
  let s := if one_of cs [MTRANS_EXEC1; MTRANS_EXEC2] then 5 else s in
  let s := if one_of cs [MTRANS_EXEC3; MTRANS_EXEC3B] then 3 else s in
  let s := if load_pc d2 then 1 else s in
  if cs =? MULT_PROC2 then 3 else s.
Definition pc_sel_nxt (d2 : Z) : Z :=
  let s := 0 in
  let s := if to_pc then 1 else s in
  let s := if indexed && (rn_nxt i =? 15) then 1 else s in
  let s := if branch then 3 else s in
  let s := if load_done && (bits i 15 12 =? 15) then 1 else s in
  if load_pc d2 then 1 else s.
Definition byte_enable_sel_nxt : Z := if mem_op && negb (tb i 20) && tb i 22 then 1 else 0.
Definition status_bits_sel_nxt (d2 : Z) : Z :=
  let s := 0 in
  let s := if op [0; 1; 8; 9; 12; 13; 14; 15] then 5 else s in
  let s := if regop && tb i 20 && (bits i 15 12 =? 15) then 1 else s in
  let s := if load_pc d2 && tb i 22 then 1 else s in
  if (cs =? MULT_STORE) && tb i 20 then 4 else s.
Definition reg_write_sel_nxt : Z :=
  let s := if branch && tb i 24 then 1 else 0 in if cs =? MULT_STORE then 2 else s.
Definition write_data_wen_nxt : bool :=
  ((mem_op || mtrans || one_of cs [MTRANS_EXEC1; MTRANS_EXEC2]) && negb (tb i 20)).
Definition pc_wen_nxt (d2 : Z) : bool :=
  let s := true in
  let s := if mem_op || mtrans || mult then false else s in
  let s := if one_of cs [MEM_WAIT1; MTRANS_EXEC1; MTRANS_EXEC2; MTRANS_EXEC3; MTRANS_EXEC3B] then false else s in
  let s := if load_pc d2 then true else s in
  if one_of cs [MULT_PROC1; MULT_PROC2] then false else s.
Definition reg_bank_wsel_nxt (d2 : Z) : Z :=
  let s := 15 in
  let s := if regop && negb (opcode_compare i) && negb (bits i 15 12 =? 15) then bits i 15 12 else s in
  let s := if indexed && negb (rn_nxt i =? 15) then rn_nxt i else s in
  let s := if branch && tb i 24 then 14 else s in
  let s := if mtrans && tb i 21 then rn_nxt i else s in
  let s := if load_done && negb (bits i 15 12 =? 15) then bits i 15 12 else s in
  let s := if one_of cs [MTRANS_EXEC2; MTRANS_EXEC3] && tb i 20 then d2 else s in
  let s := if (cs =? MTRANS_EXEC4) && tb i 20 && negb (d2 =? 15) then d2 else s in
  if cs =? MULT_STORE then bits i 19 16 else s.
Definition flags_wen_nxt (d2 : Z) : bool :=
  (regop && tb i 20) || (load_pc d2 && tb i 22) || ((cs =? MULT_STORE) && tb i 20).
(** the five signals of alu_function_nxt, a23/a23_decode.v:350-354 *)
Definition alu_function_nxt : alufn :=
  let subtracts := (mem_op || mtrans) && negb (tb i 23) in
  Alufn (op [3; 7])
        (op [2; 10; 6; 3; 7; 14; 15] || subtracts)
        (if op [5; 6; 7] then 2 else if op [2; 10; 3] || subtracts then 1 else 0)
        (op [0; 8; 1; 9; 12; 14; 13; 15])
        (let s := 0 in
         let s := if op [4; 11; 5; 2; 10; 6; 3; 7] then 1 else s in
         let s := if op [0; 8; 14] then 8 else s in
         let s := if op [1; 9] then 6 else s in
         let s := if op [12] then 7 else s in
         let s := if mem_op || branch || mtrans then 1 else s in
         if load_done && tb i 22 then 3 else s).
(** saved_current_instruction_wen and pre_fetch_instruction_wen *)
Definition saved_wen : bool := mem_op || mtrans || mult.
Definition pre_fetch_wen : bool := one_of cs [MEM_WAIT1; MTRANS_EXEC1; MTRANS_EXEC3B; MULT_PROC1].
(** write_pc, a23/a23_decode.v:318 *)
Definition write_pc (d2 : Z) : bool := pc_wen_nxt d2 && negb (pc_sel_nxt d2 =? 0).
(** control_state_nxt, a23/a23_decode.v:829-900; i_multiply_done is the constant 1, a23/a23_multiply.v:83 *)
Definition control_state_nxt (d2 : Z) : Z :=
  if cs =? RST_WAIT1 then RST_WAIT2
  else if cs =? RST_WAIT2 then EXECUTE
  else if cs =? INT_WAIT1 then INT_WAIT2
  else if cs =? INT_WAIT2 then EXECUTE
  else if cs =? PC_STALL1 then PC_STALL2
  else if cs =? PC_STALL2 then EXECUTE
  else if cs =? MULT_STORE then PRE_FETCH_EXEC
  else if cs =? MEM_WAIT1 then MEM_WAIT2
  else if cs =? MEM_WAIT2 then (if write_pc d2 then PC_STALL1 else PRE_FETCH_EXEC)
  else if cs =? MTRANS_EXEC1 then (if bits (mtrans_nxt i) 15 0 =? 0 then MTRANS_EXEC3 else MTRANS_EXEC2)
  else if (cs =? MTRANS_EXEC2) && (mtrans_num i =? 1) then MTRANS_EXEC3
  else if cs =? MTRANS_EXEC3 then MTRANS_EXEC4
  else if cs =? MTRANS_EXEC3B then MTRANS_EXEC4
  else if cs =? MTRANS_EXEC4 then (if write_pc d2 then PC_STALL1 else PRE_FETCH_EXEC)
  else if cs =? MULT_PROC1 then MULT_PROC2
  else if cs =? MULT_PROC2 then MULT_STORE
  else if iv then
    let s := EXECUTE in
    let s := if mem_op then MEM_WAIT1 else s in
    let s := if write_pc d2 then PC_STALL1 else s in
    let s := if mtrans then (if mtrans_num i =? 0 then MTRANS_EXEC3 else if mtrans_num i =? 1 then MTRANS_EXEC3B else MTRANS_EXEC1) else s in
    if mult then MULT_PROC1 else s
  else cs.
End Signals.
(** a23/a23_decode.v:936-966 *)
Definition control_nxt (d : decoder) (k : control) (address : Z) : control :=
  let cs := control_state d in let i := instruction d in let d2 := reg_d2 d in
  Control (imm32_nxt i) (shift_imm i) (if valid cs then bits i 31 28 else condition k)
    (bits i 3 0) (rds_nxt cs i) (rn_nxt i)
    (shift_amount_sel_nxt cs i) (shift_data_sel_nxt cs i) (shift_function_nxt cs i address) (alu_function_nxt cs i)
    (use_carry_in_nxt cs i) (mult_enable_nxt cs i (mult_enable k)) (mult_accumulate_nxt cs i (mult_accumulate k))
    (address_sel_nxt cs i d2) (pc_sel_nxt cs i d2) (byte_enable_sel_nxt cs i) (status_bits_sel_nxt cs i d2)
    (reg_write_sel_nxt cs i) (write_data_wen_nxt cs i) (pc_wen_nxt cs i d2) (one_hot (reg_bank_wsel_nxt cs i d2))
    (flags_wen_nxt cs i d2).
(** a23/a23_decode.v:937-938, 963-966, 971-998 *)
Definition decoder_nxt (d : decoder) (address i_read_data : Z) : decoder :=
  let cs := control_state d in let i := instruction d in let d2 := reg_d2 d in
  Decoder i_read_data (8 * bits address 1 0) (control_state_nxt cs i d2) (mtrans_reg i) (reg_d1 d)
    (if is_mtrans (itype i) then mtrans_nxt i else if saved_wen cs i then i else saved_instruction d)
    (if pre_fetch_wen cs then read_data d else pre_fetch d).

(** ** Execute *)
(** The registers of the execute stage, of the multiplier and of the register bank; r15 is a number
    of 24 bits, the address divided by 4 *)
Record executer : Type := Executer
  { write_enable : bool; write_data : Z; address : Z; byte_enable : Z; status : flags;
    product : Z; count : Z; regs : Z -> Z; r15 : Z }.
(** pcf, a23/a23_functions.vh:45-50 *)
Definition pcf (w : Z) : Z := 4 * bits w 25 2.
(** r15_out_rn and r15_out_rm, a23/a23_register_bank.v:178-190 *)
Definition pc_of (r : Z) : Z := 4 * r.
Definition pc_word (f : flags) (r : Z) : Z := catz (word_of_flags f) 28 (catz 3 26 (4 * r)).
(** a23/a23_register_bank.v:205-297: the muxes are the choice of a register by its number *)
Definition rm_of (x : executer) (sel : Z) : Z := if sel =? 15 then pc_word (status x) (r15 x) else regs x sel.
Definition rs_of (x : executer) (sel : Z) : Z := if sel =? 15 then pc_of (r15 x) else regs x sel.
Definition rn_of (x : executer) (sel : Z) : Z := if sel =? 15 then pc_of (r15 x) else regs x sel.
Definition rd_of (x : executer) (sel i_pc : Z) : Z := if sel =? 15 then pc_word (status x) i_pc else regs x sel.
(** The combinational part of a23_execute, a23/a23_execute.v:152-276 *)
Definition shift_amount (k : control) (x : executer) (align : Z) : Z :=
  if shift_amount_sel k =? 0 then 0 else if shift_amount_sel k =? 1 then bits (rs_of x (rds_sel k)) 7 0
  else if shift_amount_sel k =? 2 then imm_shift_amount k else align.
Definition shift_in (k : control) (x : executer) (rdata : Z) : Z :=
  if shift_data_sel k =? 0 then imm32 k else if shift_data_sel k =? 1 then rdata else rm_of x (rm_sel k).
(** a23/a23_execute.v:307-336 *)
Definition shifter (k : control) (x : executer) (rdata align : Z) : Z * bool :=
  barrel_shift (shift_function k) (shift_in k x rdata) (shift_amount k x align) (use_carry_in k && fC (status x)).
Definition alu_both (k : control) (x : executer) (rdata align : Z) : Z * flags :=
  let '(sh, c) := shifter k x rdata align in
  alu (alu_function k) (rn_of x (rn_sel k)) sh
    (if shift_data_sel k =? 0 then (if bits (imm_shift_amount k) 4 1 =? 0 then fC (status x) else tb (imm32 k) 31) else c)
    (fC (status x)).
Definition executes (k : control) (x : executer) : bool := conditional_execute (condition k) (status x).
(** o_address_nxt, a23/a23_execute.v:193-207 *)
Definition address_nxt (k : control) (x : executer) (alu_out : Z) : Z :=
  let pc := pc_of (r15 x) in
  let filtered := if pc_wen k && (pc_sel k =? 1) then pcf alu_out else alu_out in
  let s := address_sel k in
  if s =? 0 then w32 (pc + 4) else if s =? 1 then filtered else if s =? 3 then pc
  else if s =? 4 then rn_of x (rn_sel k) else if s =? 5 then w32 (address x + 4)
  else if s =? 6 then w32 (alu_out + 4) else if s =? 7 then w32 (rn_of x (rn_sel k) + 4)
  else if executes k x then filtered else w32 (pc - 4).
(** pc_nxt, a23/a23_execute.v:213-219 *)
Definition pc_nxt (k : control) (x : executer) (alu_out : Z) : Z :=
  let pc := pc_of (r15 x) in
  if pc_sel k =? 0 then w32 (pc + 4) else if pc_sel k =? 1 then alu_out
  else if executes k x then alu_out else w32 (pc - 4).
(** reg_write_nxt, a23/a23_execute.v:225-236 *)
Definition reg_write_nxt (k : control) (x : executer) (alu_out : Z) : Z :=
  if reg_write_sel k =? 0 then alu_out
  else if reg_write_sel k =? 1 then pc_word (status x) (bits (w32 (pc_of (r15 x) - 4)) 25 2) else product x.
(** byte_enable_nxt and write_data_nxt, a23/a23_execute.v:242-257; byte_enable_sel is never 2 *)
Definition byte_enable_nxt (k : control) (addr : Z) : Z :=
  if byte_enable_sel k =? 0 then 15 else 2 ^ bits addr 1 0.
Definition write_data_nxt (k : control) (x : executer) (i_pc : Z) : Z :=
  let rd := rd_of x (rds_sel k) i_pc in
  if byte_enable_sel k =? 0 then rd
  else let b := bits rd 7 0 in catz b 24 (catz b 16 (catz b 8 b)).
(** status_bits_flags_nxt, a23/a23_execute.v:152-159 *)
Definition status_nxt (k : control) (x : executer) (alu_out : Z) (f : flags) : flags :=
  if status_bits_sel k =? 0 then f
  else if status_bits_sel k =? 1 then flags_of_word (bits alu_out 31 28)
  else if status_bits_sel k =? 4 then Flags (tb (product x) 31) (product x =? 0) (fC (status x)) (fV (status x))
  else if status_bits_sel k =? 5 then Flags (fN f) (fZ f) (fC f) (fV (status x))
  else Flags true true true true.
(** a23_multiply, a23/a23_multiply.v:77-101 *)
Definition product_nxt (k : control) (x : executer) : Z :=
  if mult_enable k then
    if executes k x && (count x =? 0) then w32 (rs_of x (rds_sel k) * rm_of x (rm_sel k))
    else if executes k x && mult_accumulate k && (count x =? 3) then w32 (product x + rs_of x (rds_sel k))
    else product x
  else 0.
Definition count_nxt (k : control) (x : executer) : Z := if mult_enable k then (count x + 1) mod 16 else 0.
(** The edge of the clock: a23/a23_execute.v:263-298, a23/a23_register_bank.v:138-155 *)
Definition executer_nxt (k : control) (x : executer) (rdata align : Z) : executer :=
  let '(alu_out, f) := alu_both k x rdata align in
  let e := executes k x in let i_pc := bits (pc_nxt k x alu_out) 25 2 in
  let addr := address_nxt k x alu_out in
  Executer (e && write_data_wen k) (write_data_nxt k x i_pc) addr (byte_enable_nxt k addr)
    (if e && flags_wen k then status_nxt k x alu_out f else status x)
    (product_nxt k x) (count_nxt k x)
    (fun r => if e && tb (reg_bank_wen k) r then reg_write_nxt k x alu_out else regs x r)
    (if pc_wen k then i_pc else r15 x).

(** ** The processor *)
Record processor : Type := Processor { ctl : control; dec : decoder; exe : executer; mem : memory }.
(** One cycle of a23_gc_main, a23/a23_gc_main.v:20-61, a23/a23_core.v:95-198, a23/a23_fetch.v:66-70 *)
Definition step (z : sizes) (p : processor) : processor :=
  let d := dec p in let x := exe p in
  let bus := 4 * bits (address x) 31 2 in
  Processor (control_nxt d (ctl p) (address x)) (decoder_nxt d (address x) (mem_read (mem p) bus))
    (executer_nxt (ctl p) x (read_data d) (alignment d))
    (mem_write z (mem p) bus (write_data x) (write_enable x) (byte_enable x)).
Fixpoint run (z : sizes) (n : nat) (p : processor) : processor := match n with O => p | S m => run z m (step z p) end.
(** The output terminate, a23/a23_core.v:95 *)
Definition terminate (p : processor) : bool :=
  (4 * bits (address (exe p)) 31 2 =? 24) && (address (executer_nxt (ctl p) (exe p) (read_data (dec p)) (alignment (dec p))) =? 28).
(** The reset, a23/a23_decode.v:908-935, 973-977, a23/a23_execute.v:286-291, a23/a23_multiply.v:87-89,
    a23/a23_register_bank.v:121-137, a23/a23_mem.v:68-84 *)
Definition reset (m : memory) : processor :=
  Processor (Control 0 0 14 0 0 0 0 0 0 (Alufn false false 0 false 0) false false false 0 0 0 0 0 false true 0 false)
    (Decoder 0 0 RST_WAIT2 0 0 0 0)
    (Executer false 0 0 0 (Flags false false false false) 0 0 (fun _ => 0) 0) m.
(** The memory after the reset: the code, the inputs of the two parties, zero elsewhere;
    p, g and e are words, the first at the lowest address *)
Definition load (words : list Z) (a : Z) : Z := bits (nth (Z.to_nat (a / 4)) words 0) (8 * (a mod 4) + 7) (8 * (a mod 4)).
Definition mem_init (p g e : list Z) : memory := fun a =>
  let r := bits a 31 24 in let o := bits a 23 0 in
  if r =? 0 then load p o else if r =? 1 then load g o else if r =? 2 then load e o else 0.
