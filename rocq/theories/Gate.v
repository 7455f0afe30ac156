(** Gate-level model: gate codes, known-value propagation, garbling and
    evaluating one gate. *)
From Coq Require Import ZArith NArith List Bool Lia.
From Verif Require Import Base.
Import ListNotations.
Open Scope Z_scope.

(** util/common.h:39-53 *)
Definition CONST_ZERO : Z := -2.
Definition CONST_ONE : Z := -3.
Definition ANDGATE : Z := 8.
Definition ANDNGATE : Z := 4.
Definition NANDGATE : Z := 7.
Definition NANDNGATE : Z := 11.
Definition ORGATE : Z := 14.
Definition ORNGATE : Z := 13.
Definition NORGATE : Z := 1.
Definition NORNGATE : Z := 2.
Definition XORGATE : Z := 6.
Definition XNORGATE : Z := 9.
Definition NOTGATE : Z := 12.

(** garbled_circuit/garbled_circuit_util.h:47-50 *)
Definition SECRET : Z := -1.
Definition SECRET_INV : Z := -2.
Definition IsSecret (x : Z) : bool := x <? 0.

(** crypto/block.h: blocks are 128-bit words, here [N].
    - get_LSB (block.h:68): bit 0.
    - XorBlock (block.h:69).
    - CmpBlock (block.h:71): [_mm_cmpeq_epi64] then the lowest 16 bits, so only
      the low 64-bit halves are compared.
    - MakeBlock(X,Y) (block.h:72): X is the high half, Y the low half. *)
Definition block := N.
Definition get_LSB (x : block) : bool := N.testbit x 0.
Definition XorBlock (x y : block) : block := N.lxor x y.
Definition ZeroBlock : block := 0%N.
Definition CmpBlock (x y : block) : bool :=
  N.eqb (N.modulo x (2 ^ 64)) (N.modulo y (2 ^ 64)).
Definition MakeBlock (hi lo : N) : block := (hi * 2 ^ 64 + lo)%N.

(** util/util.cpp:103-122 Type2V.  The three bits of the result are given as
    (v&1, v&2, v&4). *)
Definition Type2V (t : Z) : bool * bool * bool :=
  if t =? ANDGATE then (false, false, false)
  else if t =? ANDNGATE then (false, true, false)
  else if t =? NANDGATE then (false, false, true)
  else if t =? NANDNGATE then (false, true, true)
  else if t =? ORGATE then (true, true, true)
  else if t =? ORNGATE then (true, false, true)
  else if t =? NORGATE then (true, true, false)
  else if t =? NORNGATE then (true, false, false)
  else (false, false, false).

(** util/util.cpp:124-150 GateOperator (an unknown type yields false). *)
Definition GateOperator (t : Z) (a b : bool) : bool :=
  if t =? ANDGATE then a && b
  else if t =? ANDNGATE then a && negb b
  else if t =? NANDGATE then negb (a && b)
  else if t =? NANDNGATE then negb (a && negb b)
  else if t =? ORGATE then a || b
  else if t =? ORNGATE then a || negb b
  else if t =? NORGATE then negb (a || b)
  else if t =? NORNGATE then negb (a || negb b)
  else if t =? XORGATE then negb (Bool.eqb a b)
  else if t =? XNORGATE then negb (negb (Bool.eqb a b))
  else if t =? NOTGATE then negb a
  else false.

(** C conversions between [bool] and [short]. *)
Definition z2b (z : Z) : bool := negb (z =? 0).
Definition b2z (b : bool) : Z := if b then 1 else 0.

(** The pair (x0, x1) computed at the head of the three "half" functions,
    garbled_circuit_util.cpp:82-89, 105-112, 313-320. *)
Definition half_x (t : Z) (known0 : bool) (v : Z) : bool * bool :=
  if known0 then (GateOperator t (z2b v) false, GateOperator t (z2b v) true)
  else (GateOperator t false (z2b v), GateOperator t true (z2b v)).

(** garbled_circuit_util.cpp:79-100 HalfGarbleEvalGateKnownValue *)
Definition HalfGarbleEvalGateKnownValue (t : Z) (known0 : bool) (v : Z) : Z :=
  let (x0, x1) := half_x t known0 v in
  if Bool.eqb x0 x1 then b2z x0 else SECRET.

(** garbled_circuit_util.cpp:129-140 GarbleEvalGateKnownValue *)
Definition GarbleEvalGateKnownValue (v0 v1 t : Z) : Z :=
  if negb (IsSecret v0) && negb (IsSecret v1) then
    b2z (GateOperator t (z2b v0) (z2b v1))
  else if negb (IsSecret v0) then HalfGarbleEvalGateKnownValue t true v0
  else if negb (IsSecret v1) then HalfGarbleEvalGateKnownValue t false v1
  else SECRET.

(** garbled_circuit_util.h:57-68 *)
Definition BlockPair := (block * block)%type.
Record GarbledTable := { row0 : block; row1 : block; gid : N }.

(** garbled_circuit_util.cpp:102-127 HalfGarbleGate.  [output_value] was set to
    SECRET and [output_labels] to zero by the caller (148-150). *)
Definition HalfGarbleGate (t : Z) (known0 : bool) (v : Z) (sec : BlockPair)
  : BlockPair * Z :=
  let (x0, x1) := half_x t known0 v in
  if Bool.eqb x0 x1 then ((ZeroBlock, ZeroBlock), b2z x0)
  else if negb x0 && x1 then ((fst sec, snd sec), SECRET)
  else ((snd sec, fst sec), SECRET).

(** What a two-secret-input gate does when its inputs carry equal labels
    (garbled_circuit_util.cpp:163-176, 355-369) or inverted labels
    (178-191, 371-384): a constant, a copy of input 0, or its inverse.
    [None] for a type that the code does not treat (only NOT and unknown
    types; outputs then stay zero/SECRET). *)
Inductive shortcut := SConst (z : Z) | SCopy | SInv.
Definition equal_shortcut (t : Z) : option shortcut :=
  if (t =? XORGATE) || (t =? ANDNGATE) || (t =? NORNGATE) then Some (SConst 0)
  else if (t =? XNORGATE) || (t =? ORNGATE) || (t =? NANDNGATE) then Some (SConst 1)
  else if (t =? ANDGATE) || (t =? ORGATE) then Some SCopy
  else if (t =? NANDGATE) || (t =? NORGATE) then Some SInv
  else None.
Definition inverted_shortcut (t : Z) : option shortcut :=
  if (t =? XNORGATE) || (t =? ANDGATE) || (t =? NORGATE) then Some (SConst 0)
  else if (t =? XORGATE) || (t =? ORGATE) || (t =? NANDGATE) then Some (SConst 1)
  else if (t =? ANDNGATE) || (t =? ORNGATE) then Some SCopy
  else if (t =? NANDNGATE) || (t =? NORNGATE) then Some SInv
  else None.

Section Cipher.
(** AES-128 under the (expanded) global key, crypto/aes.h:235-245: any function
    on blocks. *)
Variable aes : block -> block.

(** mask[k] ^ AES(mask[k]) of garbled_circuit_util.cpp:236-252, 420-430. *)
Definition hash (x tweak : block) : block :=
  XorBlock (XorBlock x tweak) (aes (XorBlock x tweak)).

Definition tweak0 (cid gid : N) := MakeBlock cid (2 * gid + 0).
Definition tweak1 (cid gid : N) := MakeBlock cid (2 * gid + 1).

(** garbled_circuit_util.cpp:209-288, the half-gate branch of GarbleGate:
    output labels and the two table rows. *)
Definition HalfGates (in0 in1 : BlockPair) (t : Z) (cid gid : N) (R : block)
  : BlockPair * (block * block) :=
  let '(v0, v1, v2) := Type2V t in
  let A0 := if v0 then snd in0 else fst in0 in
  let A1 := if v0 then fst in0 else snd in0 in
  let B0 := if v1 then snd in1 else fst in1 in
  let B1 := if v1 then fst in1 else snd in1 in
  let pa := get_LSB A0 in
  let pb := get_LSB B0 in
  let m0 := hash A0 (tweak0 cid gid) in
  let m1 := hash A1 (tweak0 cid gid) in
  let m2 := hash B0 (tweak1 cid gid) in
  let m3 := hash B1 (tweak1 cid gid) in
  let T0 := if pb then XorBlock (XorBlock m0 m1) R else XorBlock m0 m1 in
  let G := if pa then XorBlock m0 T0 else m0 in
  let T1 := XorBlock (XorBlock m2 m3) A0 in
  let E := if pb then XorBlock (XorBlock m2 T1) A0 else m2 in
  let out := if v2 then (XorBlock R (XorBlock G E), XorBlock G E)
             else (XorBlock G E, XorBlock R (XorBlock G E)) in
  (out, (T0, T1)).

(** garbled_circuit_util.cpp:142-292 GarbleGate.  The state is the table array
    together with *garbled_table_ind. *)
Definition GarbleGate (in0 : BlockPair) (v0 : Z) (in1 : BlockPair) (v1 : Z) (t : Z)
    (cid gid : N) (R : block) (st : list GarbledTable * Z)
  : option (BlockPair * Z * (list GarbledTable * Z)) :=
  if negb (IsSecret v0) && negb (IsSecret v1) then
    Some ((ZeroBlock, ZeroBlock), b2z (GateOperator t (z2b v0) (z2b v1)), st)
  else if negb (IsSecret v0) then
    let (l, v) := HalfGarbleGate t true v0 in1 in Some (l, v, st)
  else if negb (IsSecret v1) then
    let (l, v) := HalfGarbleGate t false v1 in0 in Some (l, v, st)
  else if negb (t =? NOTGATE) && CmpBlock (fst in0) (fst in1) then
    match equal_shortcut t with
    | Some (SConst z) => Some ((ZeroBlock, ZeroBlock), z, st)
    | Some SCopy => Some ((fst in0, snd in0), SECRET, st)
    | Some SInv => Some ((snd in0, fst in0), SECRET, st)
    | None => Some ((ZeroBlock, ZeroBlock), SECRET, st)
    end
  else if negb (t =? NOTGATE) && CmpBlock (fst in0) (snd in1) then
    match inverted_shortcut t with
    | Some (SConst z) => Some ((ZeroBlock, ZeroBlock), z, st)
    | Some SCopy => Some ((fst in0, snd in0), SECRET, st)
    | Some SInv => Some ((snd in0, fst in0), SECRET, st)
    | None => Some ((ZeroBlock, ZeroBlock), SECRET, st)
    end
  else if t =? XORGATE then
    Some ((XorBlock (fst in0) (fst in1), XorBlock (snd in0) (fst in1)), SECRET, st)
  else if t =? XNORGATE then
    Some ((XorBlock (snd in0) (fst in1), XorBlock (fst in0) (fst in1)), SECRET, st)
  else if t =? NOTGATE then
    Some ((snd in0, fst in0), SECRET, st)
  else
    let '(out, (T0, T1)) := HalfGates in0 in1 t cid gid R in
    do tabs <- wr (fst st) (snd st) {| row0 := T0; row1 := T1; gid := (gid mod 2 ^ 32)%N |};
    Some (out, SECRET, (tabs, snd st + 1)).

(** garbled_circuit_util.cpp:294-307 *)
Definition InvertSecretValue (v : Z) : Z := if v =? SECRET then SECRET_INV else SECRET.
Definition XorSecret (a b : Z) : Z := if a =? b then SECRET else SECRET_INV.

(** garbled_circuit_util.cpp:309-335 HalfEvalGate *)
Definition HalfEvalGate (t : Z) (known0 : bool) (v secv : Z) (sec : block)
  : block * Z :=
  let (x0, x1) := half_x t known0 v in
  if Bool.eqb x0 x1 then (ZeroBlock, b2z x0)
  else if negb x0 && x1 then (sec, secv)
  else (sec, InvertSecretValue secv).

(** garbled_circuit_util.cpp:399-445: evaluate a half gate with a given table. *)
Definition EvalHalfGates (A B : block) (T : block * block) (cid gid : N) : block :=
  let sa := get_LSB A in
  let sb := get_LSB B in
  let m0 := hash A (tweak0 cid gid) in
  let m1 := hash B (tweak1 cid gid) in
  let G := if sa then XorBlock m0 (fst T) else m0 in
  let E := if sb then XorBlock (XorBlock m1 (snd T)) A else m1 in
  XorBlock E G.

(** garbled_circuit_util.cpp:337-449 EvalGate.  The state is the table array,
    *garbled_table_ind and the number of RandomBlock draws made so far; [rnd]
    is the evaluator's RandomBlock stream. *)
Definition EvalGate (rnd : nat -> block) (in0 : block) (v0 : Z) (in1 : block) (v1 : Z)
    (t : Z) (cid gid0 : N) (st : list GarbledTable * Z * nat)
  : option (block * Z * (list GarbledTable * Z * nat)) :=
  if negb (IsSecret v0) && negb (IsSecret v1) then
    Some (ZeroBlock, b2z (GateOperator t (z2b v0) (z2b v1)), st)
  else if negb (IsSecret v0) then
    let (l, v) := HalfEvalGate t true v0 v1 in1 in Some (l, v, st)
  else if negb (IsSecret v1) then
    let (l, v) := HalfEvalGate t false v1 v0 in0 in Some (l, v, st)
  else if negb (t =? NOTGATE) && CmpBlock in0 in1 && (v0 =? v1) then
    match equal_shortcut t with
    | Some (SConst z) => Some (ZeroBlock, z, st)
    | Some SCopy => Some (in0, v0, st)
    | Some SInv => Some (in0, InvertSecretValue v0, st)
    | None => Some (ZeroBlock, SECRET, st)
    end
  else if negb (t =? NOTGATE) && CmpBlock in0 in1 && negb (v0 =? v1) then
    match inverted_shortcut t with
    | Some (SConst z) => Some (ZeroBlock, z, st)
    | Some SCopy => Some (in0, v0, st)
    | Some SInv => Some (in0, InvertSecretValue v0, st)
    | None => Some (ZeroBlock, SECRET, st)
    end
  else if t =? XORGATE then Some (XorBlock in0 in1, XorSecret v0 v1, st)
  else if t =? XNORGATE then
    Some (XorBlock in0 in1, InvertSecretValue (XorSecret v0 v1), st)
  else if t =? NOTGATE then Some (in0, InvertSecretValue v0, st)
  else
    let '(tabs, ind, n) := st in
    do tb <- rd tabs ind;
    if N.eqb (gid tb) gid0 then
      Some (EvalHalfGates in0 in1 (row0 tb, row1 tb) cid gid0, SECRET, (tabs, ind + 1, n))
    else
      Some (EvalHalfGates in0 in1 (rnd n, rnd (S n)) cid gid0, SECRET, (tabs, ind, S (S n))).

End Cipher.
