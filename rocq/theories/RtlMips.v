(** The processor Lite_MIPS, written in Verilog (circuit_synthesis/mips). *)
From Coq Require Import ZArith List Bool Lia.
From Verif Require Import RtlBase RtlLib RtlArith RtlSeq.
Open Scope Z_scope.

(** * Model

    The narrow signals of Control, which select something, are represented by their values;
    mips/defined.vh:5-68. *)
Notation ALU_NOTHING := 0 (only parsing). Notation ALU_ADD := 1 (only parsing). Notation ALU_SUBTRACT := 2 (only parsing). Notation ALU_LESS_THAN := 3 (only parsing).
Notation ALU_LESS_THAN_SIGNED := 4 (only parsing). Notation ALU_OR := 5 (only parsing). Notation ALU_AND := 6 (only parsing). Notation ALU_XOR := 7 (only parsing). Notation ALU_NOR := 8 (only parsing).
Notation SHIFT_NOTHING := 0 (only parsing). Notation SHIFT_LEFT_UNSIGNED := 1 (only parsing). Notation SHIFT_RIGHT_UNSIGNED := 2 (only parsing). Notation SHIFT_RIGHT_SIGNED := 3 (only parsing).
Notation MULT_NOTHING := 0 (only parsing). Notation MULT_READ_LO := 1 (only parsing). Notation MULT_READ_HI := 2 (only parsing). Notation MULT_WRITE_LO := 3 (only parsing). Notation MULT_WRITE_HI := 4 (only parsing).
Notation MULT_MULT := 5 (only parsing). Notation MULT_SIGNED_MULT := 6 (only parsing). Notation MULT_DIVIDE := 7 (only parsing). Notation MULT_SIGNED_DIVIDE := 8 (only parsing).
Notation A_FROM_REG_SOURCE := 0 (only parsing). Notation A_FROM_IMM10_6 := 1 (only parsing). Notation A_FROM_PC := 2 (only parsing).
Notation B_FROM_REG_TARGET := 0 (only parsing). Notation B_FROM_IMM := 1 (only parsing). Notation B_FROM_SIGNED_IMM := 2 (only parsing). Notation B_FROM_IMMX4 := 3 (only parsing).
Notation C_FROM_NULL := 0 (only parsing). Notation C_FROM_ALU := 1 (only parsing). Notation C_FROM_MEMORY := 2 (only parsing). Notation C_FROM_PC := 3 (only parsing).
Notation C_FROM_PC_PLUS4 := 4 (only parsing). Notation C_FROM_IMM_SHIFT16 := 5 (only parsing). Notation C_FROM_REG_SOURCEN := 6 (only parsing).
Notation BRANCH_LTZ := 0 (only parsing). Notation BRANCH_LEZ := 1 (only parsing). Notation BRANCH_EQ := 2 (only parsing). Notation BRANCH_NE := 3 (only parsing).
Notation BRANCH_GEZ := 4 (only parsing). Notation BRANCH_GTZ := 5 (only parsing). Notation BRANCH_YES := 6 (only parsing). Notation BRANCH_NO := 7 (only parsing).
Notation FROM_INC4 := 0 (only parsing). Notation FROM_OPCODE25_0 := 1 (only parsing). Notation FROM_BRANCH := 2 (only parsing). Notation FROM_LBRANCH := 3 (only parsing).
Notation MEM_FETCH := 0 (only parsing). Notation MEM_READ32 := 4 (only parsing). Notation MEM_WRITE32 := 5 (only parsing). Notation MEM_READ16 := 8 (only parsing). Notation MEM_READ16S := 10 (only parsing).
Notation MEM_WRITE16 := 9 (only parsing). Notation MEM_READ8 := 12 (only parsing). Notation MEM_READ8S := 14 (only parsing). Notation MEM_WRITE8 := 13 (only parsing).

(** ALU, mips/ALU.v:3-85 *)
Definition vor (a b : vec) : vec := fun i => a i || b i.
Definition vand (a b : vec) : vec := fun i => a i && b i.
Definition ALU (a_in b_in : vec) (alu_function : Z) (c_alu : vec) : Prop :=
  exists (b_b_not adder_out : vec) (cout cin : bool),
    cin = match alu_function with ALU_SUBTRACT | ALU_LESS_THAN | ALU_LESS_THAN_SIGNED => true | _ => false end /\
    veq 32 b_b_not (if cin then vnot b_in else b_in) /\ ADD 32 32 a_in b_b_not cin cout adder_out /\
    veq 32 c_alu
      match alu_function with
      | ALU_ADD | ALU_SUBTRACT => adder_out
      | ALU_LESS_THAN => cat (rep false) 1 (bit (negb cout))
      | ALU_LESS_THAN_SIGNED => cat (rep false) 1 (bit (a_in 31%nat && negb (b_in 31%nat) || adder_out 31%nat && xorb (negb (a_in 31%nat)) (b_in 31%nat)))
      | ALU_OR => vor a_in b_in | ALU_AND => vand a_in b_in | ALU_XOR => vxor a_in b_in | ALU_NOR => vnot (vor a_in b_in)
      | _ => rep false
      end.

(** Shifter, mips/Shifter.v:3-36; >>> of a signed number repeats its sign. *)
Definition Shifter (value shift_amount : vec) (shift_func : Z) (c_shift : vec) : Prop :=
  let k := Z.to_nat (val 5 shift_amount) in
  veq 32 c_shift
    match shift_func with
    | SHIFT_LEFT_UNSIGNED => vshl value k
    | SHIFT_RIGHT_SIGNED => fun i => if (i + k <? 32)%nat then value (i + k)%nat else value 31%nat
    | SHIFT_RIGHT_UNSIGNED => vshr 32 value k
    | _ => rep false
    end.

(** Control, mips/Control.v:3-835.  Indices of registers have 5 bits: 63 and 46 for SYSCALL and
    BREAK become 31 and 14, and the sixth bit set for MFC0 and MTC0 is lost. *)
Record ctl := Ctl { rs_index : Z; rt_index : Z; rd_index : Z; alu_func : Z; shift_func : Z; mult_func : Z;
                    a_source : Z; b_source : Z; c_source : Z; branch_func : Z; pc_source : Z; mem_source : Z }.
Definition low5 (z : Z) : Z := z mod 32.
Definition Control_special (r1 r2 r3 f53 f20 : Z) : ctl :=
  let nothing := Ctl r1 r2 0 ALU_NOTHING SHIFT_NOTHING MULT_NOTHING A_FROM_REG_SOURCE B_FROM_REG_TARGET C_FROM_ALU BRANCH_NO FROM_INC4 MEM_FETCH in
  let shift f a := Ctl r1 r2 r3 ALU_NOTHING f MULT_NOTHING a B_FROM_REG_TARGET C_FROM_ALU BRANCH_NO FROM_INC4 MEM_FETCH in
  let mult rd f := Ctl r1 r2 rd ALU_NOTHING SHIFT_NOTHING f A_FROM_REG_SOURCE B_FROM_REG_TARGET C_FROM_ALU BRANCH_NO FROM_INC4 MEM_FETCH in
  let alu f := Ctl r1 r2 r3 f SHIFT_NOTHING MULT_NOTHING A_FROM_REG_SOURCE B_FROM_REG_TARGET C_FROM_ALU BRANCH_NO FROM_INC4 MEM_FETCH in
  match f53 with
  | 0 =>
    match f20 with
    | 0 => shift SHIFT_LEFT_UNSIGNED A_FROM_IMM10_6
    | 2 => shift SHIFT_RIGHT_UNSIGNED A_FROM_IMM10_6
    | 3 => shift SHIFT_RIGHT_SIGNED A_FROM_IMM10_6
    | 4 => shift SHIFT_LEFT_UNSIGNED A_FROM_REG_SOURCE
    | 6 => shift SHIFT_RIGHT_UNSIGNED A_FROM_REG_SOURCE
    | 7 => shift SHIFT_RIGHT_SIGNED A_FROM_REG_SOURCE
    | _ => nothing
    end
  | 1 =>
    match f20 with
    | 0 => Ctl r1 0 0 ALU_OR SHIFT_NOTHING MULT_NOTHING A_FROM_REG_SOURCE B_FROM_REG_TARGET C_FROM_ALU BRANCH_YES FROM_LBRANCH MEM_FETCH
    | 1 => Ctl r1 0 r3 ALU_OR SHIFT_NOTHING MULT_NOTHING A_FROM_REG_SOURCE B_FROM_REG_TARGET C_FROM_PC_PLUS4 BRANCH_YES FROM_LBRANCH MEM_FETCH
    | 4 | 5 => Ctl (low5 63) 0 (low5 46) ALU_OR SHIFT_NOTHING MULT_NOTHING A_FROM_REG_SOURCE B_FROM_REG_TARGET C_FROM_PC_PLUS4 BRANCH_YES FROM_LBRANCH MEM_FETCH
    | _ => nothing
    end
  | 2 => match f20 with 0 => mult r3 MULT_READ_HI | 1 => mult 0 MULT_WRITE_HI | 2 => mult r3 MULT_READ_LO | 3 => mult 0 MULT_WRITE_LO | _ => nothing end
  | 3 => match f20 with 0 => mult 0 MULT_SIGNED_MULT | 1 => mult 0 MULT_MULT | 2 => mult 0 MULT_SIGNED_DIVIDE | 3 => mult 0 MULT_DIVIDE | _ => nothing end
  | 4 =>
    match f20 with
    | 0 | 1 => alu ALU_ADD | 2 | 3 => alu ALU_SUBTRACT | 4 => alu ALU_AND | 5 => alu ALU_OR | 6 => alu ALU_XOR | _ => alu ALU_NOR
    end
  | 5 => match f20 with 2 => alu ALU_LESS_THAN_SIGNED | 3 => alu ALU_LESS_THAN | _ => nothing end
  | _ => nothing
  end.
Definition Control_fields (o3129 o2826 r1 r2 r3 f53 f20 : Z) : ctl :=
  let nothing := Ctl r1 r2 0 ALU_NOTHING SHIFT_NOTHING MULT_NOTHING A_FROM_REG_SOURCE B_FROM_REG_TARGET C_FROM_ALU BRANCH_NO FROM_INC4 MEM_FETCH in
  let branch rt rd alu c f := Ctl r1 rt rd alu SHIFT_NOTHING MULT_NOTHING A_FROM_REG_SOURCE B_FROM_REG_TARGET c f FROM_BRANCH MEM_FETCH in
  let imm b f := Ctl r1 r2 r2 f SHIFT_NOTHING MULT_NOTHING A_FROM_REG_SOURCE b C_FROM_ALU BRANCH_NO FROM_INC4 MEM_FETCH in
  let load m := Ctl r1 r2 r2 ALU_ADD SHIFT_NOTHING MULT_NOTHING A_FROM_REG_SOURCE B_FROM_SIGNED_IMM C_FROM_MEMORY BRANCH_NO FROM_INC4 m in
  let store m := Ctl r1 r2 0 ALU_ADD SHIFT_NOTHING MULT_NOTHING A_FROM_REG_SOURCE B_FROM_SIGNED_IMM C_FROM_ALU BRANCH_NO FROM_INC4 m in
  match o3129 with
  | 0 =>
    match o2826 with
    | 0 => Control_special r1 r2 r3 f53 f20
    | 1 =>
      match r2 / 8 with
      | 0 => match r2 mod 8 with 0 => branch 0 0 ALU_OR C_FROM_ALU BRANCH_LTZ | 1 => branch 0 0 ALU_OR C_FROM_ALU BRANCH_GEZ | _ => nothing end
      | 2 => match r2 mod 8 with 0 => branch 0 31 ALU_OR C_FROM_PC_PLUS4 BRANCH_LTZ | 1 => branch 0 31 ALU_OR C_FROM_PC_PLUS4 BRANCH_GEZ | _ => nothing end
      | _ => nothing
      end
    | 2 => Ctl r1 r2 0 ALU_NOTHING SHIFT_NOTHING MULT_NOTHING A_FROM_REG_SOURCE B_FROM_REG_TARGET C_FROM_ALU BRANCH_YES FROM_OPCODE25_0 MEM_FETCH
    | 3 => Ctl r1 r2 31 ALU_NOTHING SHIFT_NOTHING MULT_NOTHING A_FROM_REG_SOURCE B_FROM_REG_TARGET C_FROM_PC_PLUS4 BRANCH_YES FROM_OPCODE25_0 MEM_FETCH
    | 4 => branch r2 0 ALU_XOR C_FROM_ALU BRANCH_EQ
    | 5 => branch r2 0 ALU_XOR C_FROM_ALU BRANCH_NE
    | 6 => branch 0 0 ALU_OR C_FROM_ALU BRANCH_LEZ
    | _ => branch 0 0 ALU_OR C_FROM_ALU BRANCH_GTZ
    end
  | 1 =>
    match o2826 with
    | 0 | 1 => imm B_FROM_SIGNED_IMM ALU_ADD
    | 2 => imm B_FROM_SIGNED_IMM ALU_LESS_THAN_SIGNED
    | 3 => imm B_FROM_IMM ALU_LESS_THAN
    | 4 => imm B_FROM_IMM ALU_AND | 5 => imm B_FROM_IMM ALU_OR | 6 => imm B_FROM_IMM ALU_XOR
    | _ => Ctl r1 r2 r2 ALU_NOTHING SHIFT_NOTHING MULT_NOTHING A_FROM_REG_SOURCE B_FROM_REG_TARGET C_FROM_IMM_SHIFT16 BRANCH_NO FROM_INC4 MEM_FETCH
    end
  | 2 =>
    match o2826 with
    | 0 =>
      match r1 with
      | 0 => Ctl (low5 (32 + r3)) 0 r2 ALU_OR SHIFT_NOTHING MULT_NOTHING A_FROM_REG_SOURCE B_FROM_REG_TARGET C_FROM_ALU BRANCH_NO FROM_INC4 MEM_FETCH
      | 4 => Ctl r2 0 (low5 (32 + r3)) ALU_OR SHIFT_NOTHING MULT_NOTHING A_FROM_REG_SOURCE B_FROM_REG_TARGET C_FROM_ALU BRANCH_NO FROM_INC4 MEM_FETCH
      | _ => nothing
      end
    | _ => nothing
    end
  | 4 =>
    match o2826 with
    | 0 => load MEM_READ8S | 1 => load MEM_READ16S | 2 => load MEM_READ32 | 3 => load MEM_READ32 | 4 => load MEM_READ8 | 5 => load MEM_READ16
    | 6 => load MEM_READ32 | _ => nothing
    end
  | 5 => match o2826 with 0 => store MEM_WRITE8 | 1 => store MEM_WRITE16 | 2 => store MEM_WRITE32 | 3 => store MEM_WRITE32 | _ => nothing end
  | _ => nothing
  end.
Definition Control (opcode : vec) : ctl :=
  Control_fields (val 3 (part 29 opcode)) (val 3 (part 26 opcode)) (val 5 (part 21 opcode)) (val 5 (part 16 opcode)) (val 5 (part 11 opcode))
    (val 3 (part 3 opcode)) (val 3 opcode).

(** Bus_Mux, mips/Bus_Mux.v:3-119 *)
Definition is_zero (c_bus : vec) : bool := val 32 c_bus =? 0.
Definition Bus_Mux (imm_in reg_source reg_target c_bus c_memory c_pc c_pc_plus4 : vec) (a_mux b_mux c_mux branch_func : Z)
  (a_out b_out reg_dest_out : vec) (take_branch : bool) : Prop :=
  veq 32 a_out match a_mux with A_FROM_REG_SOURCE => reg_source | A_FROM_IMM10_6 => cat (rep false) 5 (part 6 imm_in) | A_FROM_PC => cat c_pc 2 (rep false) | _ => rep false end /\
  veq 32 b_out match b_mux with B_FROM_REG_TARGET => reg_target | B_FROM_IMM => cat (rep false) 16 imm_in | B_FROM_SIGNED_IMM => cat (rep (imm_in 15%nat)) 16 imm_in | B_FROM_IMMX4 => cat (cat (rep false) 16 imm_in) 2 (rep false) | _ => rep false end /\
  veq 32 reg_dest_out match c_mux with C_FROM_ALU => c_bus | C_FROM_MEMORY => c_memory | C_FROM_PC => cat c_pc 2 (rep false) | C_FROM_PC_PLUS4 => cat c_pc_plus4 2 (rep false) | C_FROM_IMM_SHIFT16 => cat imm_in 16 (rep false) | C_FROM_REG_SOURCEN => reg_source | _ => rep false end /\
  take_branch = match branch_func with
    | BRANCH_LTZ => c_bus 31%nat | BRANCH_LEZ => if c_bus 31%nat then true else is_zero c_bus | BRANCH_EQ => is_zero c_bus | BRANCH_NE => negb (is_zero c_bus)
    | BRANCH_GEZ => negb (c_bus 31%nat) | BRANCH_GTZ => if c_bus 31%nat then false else negb (is_zero c_bus) | BRANCH_YES => true | _ => false
    end.

(** PC_Next, mips/PC_Next.v:4-92 *)
Definition PC_Next (pc_new : vec) (take_branch : bool) (opcode25_0 : vec) (pc_source : Z) (pc pc_plus4 pc' : vec) : Prop :=
  exists pc_jump,
    veq 30 pc_plus4 (of_val (val 30 pc + 1)) /\ veq 30 pc_jump (of_val (val 30 pc + val 30 (cat (rep (opcode25_0 15%nat)) 16 opcode25_0))) /\
    veq 30 pc' match pc_source with FROM_OPCODE25_0 => cat (part 26 pc) 26 opcode25_0 | FROM_BRANCH => if take_branch then pc_jump else pc_plus4 | FROM_LBRANCH => pc_new | _ => pc_plus4 end.

(** Inst_Mem, mips/Inst_Mem.v:3-56: the index pc[L+3:2] has L + 2 bits; beyond the memory the
    value read is undefined. *)
Definition Inst_Mem (L : nat) (inst_mem_reg : nat -> vec) (pc opcode : vec) : Prop :=
  let i := Z.to_nat (val (L + 2) pc) in (i < 2 ^ L)%nat -> veq 32 opcode (inst_mem_reg i).

(** Data_Mem, mips/Data_Mem.v:4-145 *)
Definition Data_Mem (L : nat) (memory : nat -> vec) (mem_source : Z) (addr data_in data_out : vec) (memory' : nat -> vec) : Prop :=
  let i := Z.to_nat (val L (part 2 addr)) in let m := memory i in let b := val 2 addr in
  (forall j, (j < 2 ^ L)%nat -> veq 32 (memory' j)
     (if (j =? i)%nat then
        match mem_source with
        | MEM_WRITE32 => data_in
        | MEM_WRITE16 => if addr 1%nat then cat data_in 16 m else cat (part 16 m) 16 data_in
        | MEM_WRITE8 => match b with 0 => cat (part 8 m) 8 data_in | 1 => cat (cat (part 16 m) 8 data_in) 8 m | 2 => cat (cat (part 24 m) 8 data_in) 16 m | _ => cat data_in 24 m end
        | _ => m
        end
      else memory j)) /\
  veq 32 data_out
    match mem_source with
    | MEM_READ32 => m
    | MEM_READ16 => if addr 1%nat then cat (rep false) 16 (part 16 m) else cat (rep false) 16 m
    | MEM_READ16S => if addr 1%nat then cat (rep (m 16%nat)) 16 (part 16 m) else cat (rep (m 15%nat)) 16 m
    | MEM_READ8 => match b with 0 => cat (rep false) 8 m | 1 => cat (rep false) 8 (part 8 m) | 2 => cat (rep false) 8 (part 16 m) | _ => cat (rep false) 8 (part 24 m) end
    | MEM_READ8S => match b with 0 => cat (rep (m 7%nat)) 8 m | 1 => cat (rep (m 7%nat)) 8 (part 8 m) | 2 => cat (rep (m 7%nat)) 8 (part 16 m) | _ => cat (rep (m 7%nat)) 8 (part 24 m) end
    | _ => rep false
    end.

(** Reg_Bank, mips/Reg_Bank.v:4-51 *)
Definition Reg_Bank (registers : nat -> vec) (rs_index rt_index rd_index : Z) (reg_source_out reg_target_out reg_dest_new : vec) (registers' : nat -> vec) : Prop :=
  veq 32 reg_source_out (registers (Z.to_nat rs_index)) /\ veq 32 reg_target_out (registers (Z.to_nat rt_index)) /\
  forall j, (j < 32)%nat -> veq 32 (registers' j) (if negb (rd_index =? 0) && (Z.of_nat j =? rd_index) then reg_dest_new else registers j).

(** Lite_MIPS, mips/Lite_MIPS.v:3-208.  The multiplier is commented out there.  The states are
    those after the reset. *)
Record cpu := Cpu { cpu_pc : vec; cpu_inst : nat -> vec; cpu_data : nat -> vec; cpu_regs : nat -> vec }.
Definition Lite_MIPS_step (L : nat) (_ : unit) (s : cpu) (o : vec) (s' : cpu) : Prop :=
  exists (opcode reg_source reg_target reg_dest a_bus b_bus c_bus c_alu c_shift c_mult c_memory imm pc_plus4 : vec) (take_branch : bool),
    let c := Control opcode in
    veq 32 c_bus (vor c_alu (vor c_shift c_mult)) /\
    PC_Next (part 2 c_bus) take_branch opcode (pc_source c) (cpu_pc s) pc_plus4 (cpu_pc s') /\
    Inst_Mem L (cpu_inst s) (cpu_pc s) opcode /\
    (forall j, (j < 2 ^ L)%nat -> veq 32 (cpu_inst s' j) (cpu_inst s j)) /\
    Data_Mem L (cpu_data s) (mem_source c) c_bus reg_target c_memory (cpu_data s') /\
    veq 16 imm opcode /\
    Reg_Bank (cpu_regs s) (rs_index c) (rt_index c) (rd_index c) reg_source reg_target reg_dest (cpu_regs s') /\
    Bus_Mux imm reg_source reg_target c_bus c_memory (cpu_pc s) pc_plus4 (a_source c) (b_source c) (c_source c) (branch_func c) a_bus b_bus reg_dest take_branch /\
    ALU a_bus b_bus (alu_func c) c_alu /\ Shifter b_bus a_bus (shift_func c) c_shift /\ veq 32 c_mult (rep false) /\
    (forall j, (j < 2 ^ L)%nat -> veq 32 (part (j * 32) o) (cpu_data s j)).
Definition Lite_MIPS_init (L : nat) (g_init e_init : vec) (s : cpu) : Prop :=
  veq 30 (cpu_pc s) (rep false) /\
  (forall j, (j < 2 ^ L)%nat -> veq 32 (cpu_inst s j) (part (j * 32) g_init)) /\
  (forall j, (j < 2 ^ L)%nat -> veq 32 (cpu_data s j) (part (j * 32) e_init)) /\
  (forall j, (j < 32)%nat -> veq 32 (cpu_regs s j) (rep false)).
Definition Lite_MIPS (L : nat) (g_init e_init : vec) := clocked (Lite_MIPS_init L g_init e_init) (Lite_MIPS_step L).

(** Mult, mips/Mult.v:3-93, which Lite_MIPS does not use; division has been removed. *)
Definition Mult_step (i : vec * vec * Z) (r : vec * vec) (c_mult : vec) (r' : vec * vec) : Prop :=
  let '(a, b, mult_func) := i in let '(Hi, Lo) := r in
  veq 32 c_mult match mult_func with MULT_READ_LO => Lo | MULT_READ_HI => Hi | _ => rep false end /\
  veq 32 (fst r')
    match mult_func with
    | MULT_WRITE_HI => a | MULT_MULT => part 32 (of_val (val 32 a * val 32 b)) | MULT_SIGNED_MULT => part 32 (of_val (sval 32 a * sval 32 b))
    | MULT_DIVIDE | MULT_SIGNED_DIVIDE => if is_zero b then Hi else rep false | _ => Hi
    end /\
  veq 32 (snd r')
    match mult_func with
    | MULT_WRITE_LO => a | MULT_MULT => of_val (val 32 a * val 32 b) | MULT_SIGNED_MULT => of_val (sval 32 a * sval 32 b)
    | MULT_DIVIDE | MULT_SIGNED_DIVIDE => if is_zero b then Lo else rep false | _ => Lo
    end.
