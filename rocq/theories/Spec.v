(** Specification of what a sequential circuit computes.

    Nothing here refers to evaluation order, labels, or fan-outs.  A valuation
    gives every wire a bit in every clock cycle; it is *consistent* with a
    circuit and inputs when the input wires carry the input bits, registers carry
    their initial value in cycle 0 and afterwards the value their D input had in
    the previous cycle, and each gate's output is its Boolean function of its
    inputs. *)
From Coq Require Import ZArith NArith List Bool.
From Verif Require Import Circuit.
Import ListNotations.
Open Scope Z_scope.

(** Truth tables, indexed by the gate codes of util/common.h:42-52. *)
Definition bool_fun (t : Z) : option (bool -> bool -> bool) :=
  match t with
  | 8 => Some (fun a b => a && b)               (* AND *)
  | 4 => Some (fun a b => a && negb b)          (* ANDN *)
  | 7 => Some (fun a b => negb (a && b))        (* NAND *)
  | 11 => Some (fun a b => negb a || b)         (* NANDN *)
  | 14 => Some (fun a b => a || b)              (* OR *)
  | 13 => Some (fun a b => a || negb b)         (* ORN *)
  | 1 => Some (fun a b => negb (a || b))        (* NOR *)
  | 2 => Some (fun a b => negb a && b)          (* NORN *)
  | 6 => Some xorb                              (* XOR *)
  | 9 => Some (fun a b => negb (xorb a b))      (* XNOR *)
  | 12 => Some (fun a _ => negb a)              (* NOT *)
  | _ => None
  end.

(** All inputs of a run. *)
Record inputs := mkInputs {
  p_init : N; g_init : N; e_init : N; p_input : N; g_input : N; e_input : N }.

(** The bit carried by a wire reference: -3 is constant 1, every other negative
    reference (-2 is constant 0) reads as 0. *)
Definition operand (V : Z -> bool) (idx : Z) : bool :=
  if idx =? -3 then true else if idx <? 0 then false else V idx.

Section Consistent.
Variable c : GarbledCircuit.
Variable x : inputs.

(** First wire of each group: initial values, inputs, registers, gates. *)
Definition first_input : Z :=
  Z.of_nat (p_init_size c + g_init_size c + e_init_size c).
Definition first_dff : Z :=
  first_input + Z.of_nat (p_input_size c + g_input_size c + e_input_size c).
Definition first_gate : Z := first_dff + Z.of_nat (length (D c)).
Definition last_wire : Z := first_gate + Z.of_nat (length (garbledGates c)).

(** Bit number [n] of an input number. *)
Definition bit (a : N) (n : nat) : bool := N.testbit a (N.of_nat n).

(** Initial value of a register whose I reference is [idx]. *)
Definition initial_value (idx : Z) : bool :=
  let np := Z.of_nat (p_init_size c) in
  let ng := Z.of_nat (g_init_size c) in
  let ne := Z.of_nat (e_init_size c) in
  if idx =? -3 then true
  else if idx <? 0 then false
  else if idx <? np then bit (p_init x) (Z.to_nat idx)
  else if idx <? np + ng then bit (g_init x) (Z.to_nat (idx - np))
  else if idx <? np + ng + ne then bit (e_init x) (Z.to_nat (idx - np - ng))
  else false.

(** Input bit [i] (counting public, garbler's, evaluator's) of cycle [cy]. *)
Definition input_value (cy i : nat) : bool :=
  let np := p_input_size c in
  let ng := g_input_size c in
  let ne := e_input_size c in
  if (i <? np)%nat then bit (p_input x) (cy * np + i)
  else if (i <? np + ng)%nat then bit (g_input x) (cy * ng + (i - np))
  else bit (e_input x) (cy * ne + (i - np - ng)).

Record consistent (V : nat -> Z -> bool) : Prop := {
  cons_input : forall cy i, (i < p_input_size c + g_input_size c + e_input_size c)%nat ->
    V cy (first_input + Z.of_nat i) = input_value cy i;
  cons_dff0 : forall i idx, nth_error (I c) i = Some idx -> (i < length (D c))%nat ->
    V O (first_dff + Z.of_nat i) = initial_value idx;
  cons_dffS : forall cy i idx, nth_error (D c) i = Some idx ->
    V (S cy) (first_dff + Z.of_nat i) = operand (V cy) idx;
  cons_gate : forall cy i g f, nth_error (garbledGates c) i = Some g ->
    bool_fun (type g) = Some f ->
    V cy (first_gate + Z.of_nat i) = f (operand (V cy) (input0 g)) (operand (V cy) (input1 g)) }.

(** Well-formed circuits: known gate types, gate [i] drives wire
    [first_gate + i] and reads constants, inputs, registers or earlier gates;
    registers and outputs refer to existing wires.  (Initial-value wires may only
    be referred to by I.) *)
Definition ref_ok (hi w : Z) : Prop := w < hi /\ (w < 0 \/ first_input <= w).
Record well_formed : Prop := {
  wf_gate : forall i g, nth_error (garbledGates c) i = Some g ->
    output g = first_gate + Z.of_nat i /\
    (exists f, bool_fun (type g) = Some f) /\
    ref_ok (first_gate + Z.of_nat i) (input0 g) /\
    ref_ok (first_gate + Z.of_nat i) (input1 g);
  wf_D : forall i w, nth_error (D c) i = Some w -> ref_ok last_wire w;
  wf_I : length (I c) = length (D c);
  wf_out : forall i w, nth_error (outputs c) i = Some w -> first_input <= w < last_wire;
  wf_term : terminate_id c = 0 \/ first_input <= terminate_id c < last_wire }.
End Consistent.
