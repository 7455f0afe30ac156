(** Specification: the instructions of MIPS I, after the manual of the architecture
    (MIPS RISC Architecture, Kane and Heinrich, appendix A), without delay slots,
    exceptions and coprocessors, and with programs apart from the data.  The memory is
    little-endian.  With [lite] = true, what the processor of circuit_synthesis/mips does
    instead where it differs. *)
From Coq Require Import ZArith List Bool.
Import ListNotations.
Open Scope Z_scope.

Inductive shift := Sll | Srl | Sra.
Inductive arith := Add | Addu | Sub | Subu | And | Or | Xor | Nor | Slt | Sltu.
Inductive width := Byte | Half | Word.
Inductive cond := Ltz | Gez | Eq | Ne | Lez | Gtz.
Inductive instr :=
| Shift (k : shift) (rd rt sa : Z) | ShiftV (k : shift) (rd rt rs : Z)
| Arith (o : arith) (rd rs rt : Z) | ArithI (o : arith) (rt rs imm : Z) | Lui (rt imm : Z)
| Load (w : width) (signed : bool) (rt base off : Z) | Store (w : width) (rt base off : Z)
| Branch (c : cond) (link : bool) (rs rt off : Z) | Jump (link : bool) (target : Z) | JumpR (rd rs : Z)
| Mfhi (rd : Z) | Mflo (rd : Z) | Mthi (rs : Z) | Mtlo (rs : Z) | Mult (signed : bool) (rs rt : Z) | Div (signed : bool) (rs rt : Z)
| Mfc0 (rt rd : Z) | Mtc0 (rt rd : Z) | Trap | Sync | Other.

(** * Decoding: bits hi to lo of a number *)
Definition bits (hi lo w : Z) : Z := w / 2 ^ lo mod 2 ^ (hi - lo + 1).
Definition decode (w : Z) : instr :=
  let rs := bits 25 21 w in let rt := bits 20 16 w in let rd := bits 15 11 w in let sa := bits 10 6 w in let imm := bits 15 0 w in
  match bits 31 26 w with
  | 0 =>
    match bits 5 0 w with
    | 0 => Shift Sll rd rt sa | 2 => Shift Srl rd rt sa | 3 => Shift Sra rd rt sa
    | 4 => ShiftV Sll rd rt rs | 6 => ShiftV Srl rd rt rs | 7 => ShiftV Sra rd rt rs
    | 8 => JumpR 0 rs | 9 => JumpR rd rs | 12 | 13 => Trap | 15 => Sync
    | 16 => Mfhi rd | 17 => Mthi rs | 18 => Mflo rd | 19 => Mtlo rs
    | 24 => Mult true rs rt | 25 => Mult false rs rt | 26 => Div true rs rt | 27 => Div false rs rt
    | 32 => Arith Add rd rs rt | 33 => Arith Addu rd rs rt | 34 => Arith Sub rd rs rt | 35 => Arith Subu rd rs rt
    | 36 => Arith And rd rs rt | 37 => Arith Or rd rs rt | 38 => Arith Xor rd rs rt | 39 => Arith Nor rd rs rt
    | 42 => Arith Slt rd rs rt | 43 => Arith Sltu rd rs rt
    | _ => Other
    end
  | 1 => match rt with 0 => Branch Ltz false rs 0 imm | 1 => Branch Gez false rs 0 imm | 16 => Branch Ltz true rs 0 imm | 17 => Branch Gez true rs 0 imm | _ => Other end
  | 2 => Jump false (bits 25 0 w) | 3 => Jump true (bits 25 0 w)
  | 4 => Branch Eq false rs rt imm | 5 => Branch Ne false rs rt imm | 6 => Branch Lez false rs 0 imm | 7 => Branch Gtz false rs 0 imm
  | 8 => ArithI Add rt rs imm | 9 => ArithI Addu rt rs imm | 10 => ArithI Slt rt rs imm | 11 => ArithI Sltu rt rs imm
  | 12 => ArithI And rt rs imm | 13 => ArithI Or rt rs imm | 14 => ArithI Xor rt rs imm | 15 => Lui rt imm
  | 16 => match rs with 0 => Mfc0 rt rd | 4 => Mtc0 rt rd | _ => Other end
  | 32 => Load Byte true rt rs imm | 33 => Load Half true rt rs imm | 35 => Load Word false rt rs imm
  | 36 => Load Byte false rt rs imm | 37 => Load Half false rt rs imm
  | 40 => Store Byte rt rs imm | 41 => Store Half rt rs imm | 43 => Store Word rt rs imm
  | _ => Other
  end.

(** * Execution *)
Definition word (z : Z) : Z := z mod 2 ^ 32.
(** The signed number that n bits stand for *)
Definition signed (n x : Z) : Z := if x <? 2 ^ (n - 1) then x else x - 2 ^ n.
Definition in_range (z : Z) : bool := (- 2 ^ 31 <=? z) && (z <? 2 ^ 31).

Record state := State { pc : Z; reg : Z -> Z; mem : Z -> Z; hi : Z; lo : Z }.
Definition set (r v : Z) (f : Z -> Z) : Z -> Z := fun i => if (i =? r) && negb (r =? 0) then v else f i.
Definition size (w : width) : Z := match w with Byte => 1 | Half => 2 | Word => 4 end.
Definition load (m : Z -> Z) (w : width) (a : Z) : Z :=
  match w with
  | Byte => m a | Half => m a + 2 ^ 8 * m (a + 1) | Word => m a + 2 ^ 8 * m (a + 1) + 2 ^ 16 * m (a + 2) + 2 ^ 24 * m (a + 3)
  end.
Definition store (m : Z -> Z) (w : width) (a v : Z) : Z -> Z :=
  fun b => if (a <=? b) && (b <? a + size w) then v / 2 ^ (8 * (b - a)) mod 2 ^ 8 else m b.
Definition do_shift (k : shift) (v n : Z) : Z :=
  match k with Sll => word (v * 2 ^ n) | Srl => v / 2 ^ n | Sra => word (signed 32 v / 2 ^ n) end.
(** None: overflow *)
Definition do_arith (lite : bool) (o : arith) (x y : Z) : option Z :=
  match o with
  | Addu => Some (word (x + y)) | Subu => Some (word (x - y))
  | Add => if lite || in_range (signed 32 x + signed 32 y) then Some (word (x + y)) else None
  | Sub => if lite || in_range (signed 32 x - signed 32 y) then Some (word (x - y)) else None
  | And => Some (Z.land x y) | Or => Some (Z.lor x y) | Xor => Some (Z.lxor x y) | Nor => Some (2 ^ 32 - 1 - Z.lor x y)
  | Slt => Some (Z.b2z (signed 32 x <? signed 32 y)) | Sltu => Some (Z.b2z (x <? y))
  end.
(** The immediate operand: unsigned for the logical instructions, signed for the others.
    [lite]: unsigned for sltiu too. *)
Definition immediate (lite : bool) (o : arith) (imm : Z) : Z :=
  match o with And | Or | Xor | Nor => imm | Sltu => if lite then imm else word (signed 16 imm) | _ => word (signed 16 imm) end.
Definition taken (c : cond) (x y : Z) : bool :=
  match c with
  | Ltz => signed 32 x <? 0 | Gez => 0 <=? signed 32 x | Eq => x =? y | Ne => negb (x =? y) | Lez => signed 32 x <=? 0 | Gtz => 0 <? signed 32 x
  end.
(** Extension of what has been loaded from [a].  [lite]: the sign of a byte is that of the
    lowest byte of its word, the sign of an upper half is its lowest bit. *)
Definition extend (lite : bool) (m : Z -> Z) (w : width) (a v : Z) : Z :=
  match w with
  | Byte => if lite then (if m (a - a mod 4) <? 2 ^ 7 then v else v + (2 ^ 32 - 2 ^ 8)) else word (signed 8 v)
  | Half => if lite && (a mod 4 =? 2) then (if v mod 2 =? 0 then v else v + (2 ^ 32 - 2 ^ 16)) else word (signed 16 v)
  | Word => v
  end.
(** A memory of [n] bytes *)
Definition valid (n : Z) (w : width) (a : Z) : bool := (a <? n) && (a mod size w =? 0).

Definition exec (lite : bool) (n : Z) (i : instr) (s : state) : option state :=
  let next := word (pc s + 4) in
  let write r v := Some (State next (set r v (reg s)) (mem s) (hi s) (lo s)) in
  match i with
  | Shift k rd rt sa => write rd (do_shift k (reg s rt) sa)
  | ShiftV k rd rt rs => write rd (do_shift k (reg s rt) (reg s rs mod 32))
  | Arith o rd rs rt => match do_arith lite o (reg s rs) (reg s rt) with Some v => write rd v | None => None end
  | ArithI o rt rs imm => match do_arith lite o (reg s rs) (immediate lite o imm) with Some v => write rt v | None => None end
  | Lui rt imm => write rt (imm * 2 ^ 16)
  | Load w sg rt base off =>
    let a := word (reg s base + signed 16 off) in
    if valid n w a then write rt (let v := load (mem s) w a in if sg then extend lite (mem s) w a v else v) else None
  | Store w rt base off =>
    let a := word (reg s base + signed 16 off) in
    if valid n w a then Some (State next (reg s) (store (mem s) w a (reg s rt)) (hi s) (lo s)) else None
  | Branch c link rs rt off =>
    (* lite: relative to the branch, not to the next instruction *)
    let target := word ((if lite then pc s else pc s + 4) + 4 * signed 16 off) in
    Some (State (if taken c (reg s rs) (reg s rt) then target else next) (if link then set 31 next (reg s) else reg s) (mem s) (hi s) (lo s))
  | Jump link t => Some (State ((if lite then pc s else next) / 2 ^ 28 * 2 ^ 28 + 4 * t) (if link then set 31 next (reg s) else reg s) (mem s) (hi s) (lo s))
  | JumpR rd rs => if reg s rs mod 4 =? 0 then Some (State (reg s rs) (set rd next (reg s)) (mem s) (hi s) (lo s)) else None
  (* lite: there are no multiplication and division, reading the result gives 0 *)
  | Mfhi rd => write rd (if lite then 0 else hi s)
  | Mflo rd => write rd (if lite then 0 else lo s)
  | Mthi rs => Some (State next (reg s) (mem s) (if lite then hi s else reg s rs) (lo s))
  | Mtlo rs => Some (State next (reg s) (mem s) (hi s) (if lite then lo s else reg s rs))
  | Mult sg rs rt =>
    let p := (if sg then signed 32 (reg s rs) * signed 32 (reg s rt) else reg s rs * reg s rt) mod 2 ^ 64 in
    Some (State next (reg s) (mem s) (if lite then hi s else p / 2 ^ 32) (if lite then lo s else word p))
  | Div sg rs rt =>
    if lite then Some (State next (reg s) (mem s) (hi s) (lo s)) else
    if reg s rt =? 0 then None
    else if sg then Some (State next (reg s) (mem s) (word (Z.rem (signed 32 (reg s rs)) (signed 32 (reg s rt)))) (word (Z.quot (signed 32 (reg s rs)) (signed 32 (reg s rt)))))
    else Some (State next (reg s) (mem s) (reg s rs mod reg s rt) (reg s rs / reg s rt))
  (* lite: the registers of coprocessor 0 are those of the processor *)
  | Mfc0 rt rd => if lite then write rt (reg s rd) else None
  | Mtc0 rt rd => if lite then write rd (reg s rt) else None
  (* lite: a jump to the address in register 31, leaving the next one in register 14 *)
  | Trap => if lite && (reg s 31 mod 4 =? 0) then Some (State (reg s 31) (set 14 next (reg s)) (mem s) (hi s) (lo s)) else None
  | Sync => Some (State next (reg s) (mem s) (hi s) (lo s))
  | Other => None
  end.
(** One instruction of a program of [n] bytes, the word at address 4*i being [prog i], with [n] bytes of data *)
Definition step (lite : bool) (n : Z) (prog : Z -> Z) (s : state) : option state :=
  if pc s <? n then exec lite n (decode (prog (pc s / 4))) s else None.
Fixpoint run (lite : bool) (n : Z) (prog : Z -> Z) (k : nat) (s : state) : option state :=
  match k with O => Some s | S j => match step lite n prog s with Some s' => run lite n prog j s' | None => None end end.
Definition start (m : Z -> Z) : state := State 0 (fun _ => 0) m 0 0.
