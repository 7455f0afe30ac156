(** C122: CORDIC in Verilog.
    Statements only; the proofs are in RtlCordic.v. *)
From Coq Require Import ZArith Arith List Bool.
From Verif Require Import RtlBase RtlSeq RtlCordic.
Import ListNotations.
Open Scope Z_scope.

(** * C122: cordic *)
Theorem C122_rotates : forall MOD g e c i o t, MOD = 1 \/ MOD = 0 \/ MOD = -1 -> cordic MOD 0 g e c i o -> (t < c)%nat ->
  let s := (val 16 (part 16 g), val 16 g, s16 (val 16 e)) in
  (forall k, (k < Nat.min t 15)%nat -> let '(x, y, z) := rotations MOD k s in 0 <= x < 2 ^ 15 /\ 0 <= y < 2 ^ 15 /\ - 2 ^ 15 <= z < 2 ^ 15) ->
  let '(x, y, z) := rotations MOD (Nat.min t 15) s in
  snd (o t) = (15 <=? t)%nat /\ val 16 (part 32 (fst (o t))) = x mod 2 ^ 16 /\ val 16 (part 16 (fst (o t))) = y mod 2 ^ 16 /\ val 16 (fst (o t)) = z mod 2 ^ 16.
Proof. exact cordic_rotates. Qed.
Print Assumptions C122_rotates.
Theorem C122_unit : forall g e c i o t, cordic 1 0 g e c i o -> (15 <= t < c)%nat ->
  val 16 (part 16 g) = 9949 -> val 16 g = 0 -> 1258 <= val 16 e <= 24477 ->
  let x := val 16 (part 32 (fst (o t))) in let y := val 16 (part 16 (fst (o t))) in
  snd (o t) = true /\ (x, y) = fst (rotations 1 15 (9949, 0, val 16 e)) /\ Z.abs (x * x + y * y - 2 ^ 28) <= 148044 /\ Z.abs (s16 (val 16 (fst (o t)))) <= 1.
Proof. exact cordic_unit. Qed.
Print Assumptions C122_unit.
Example C122_rotation_case : exists o, cordic 1 0 (of_xy 9949 0) (of_val 12868) 16 (fun _ => tt) o /\ let '(x, y, z) := answer (fst (o 15%nat)) in Z.abs (x - 11585) <= 11 /\ Z.abs (y - 11585) <= 11 /\ snd (o 15%nat) = true.
Proof. exact rotation_case. Qed.
Theorem C122_multiplies : forall g e c i o t, cordic 0 0 g e c i o -> (15 <= t < c)%nat -> let x := val 16 (part 16 g) in x < 2 ^ 15 ->
  snd (o t) = true /\ val 16 (part 32 (fst (o t))) = x /\
  exists Y, val 16 (part 16 (fst (o t))) = Y mod 2 ^ 16 /\ Z.abs (2 ^ 14 * (Y - val 16 g) - x * s16 (val 16 e)) <= 15 * 2 ^ 14 + x.
Proof. exact cordic_multiplies. Qed.
Print Assumptions C122_multiplies.
Example C122_multiply_case : exists o, cordic 0 0 (of_xy 12288 4096) (of_val (-8192)) 16 (fun _ => tt) o /\ let '(x, y, z) := answer (fst (o 15%nat)) in x = 12288 /\ Z.abs (y - -2048) <= 15.
Proof. exact multiply_case. Qed.
(** Where it goes wrong *)
Theorem C122_zero_refuted : forall c i o t, cordic 1 0 (of_xy 9949 0) (of_val 0) c i o -> (15 <= t < c)%nat -> fst (fst (answer (fst (o t)))) < 11300.
Proof. exact zero_wrong. Qed.
Print Assumptions C122_zero_refuted.
Theorem C122_sign_refuted : forall c i o t, cordic 0 0 (of_xy (-16384) 0) (of_val 8192) c i o -> (15 <= t < c)%nat -> snd (fst (answer (fst (o t)))) = 24579.
Proof. exact sign_wrong. Qed.
Print Assumptions C122_sign_refuted.
Theorem C122_vector_refuted : forall c i o t, cordic 0 1 (of_xy 16384 8192) (of_val 0) c i o -> (15 <= t < c)%nat -> answer (fst (o t)) = (16384, -24577, -32767).
Proof. exact vector_wrong. Qed.
Print Assumptions C122_vector_refuted.
Theorem C122_hyperbolic_refuted : forall g e c i o t, cordic (-1) 0 g e c i o -> (1 <= t < c)%nat -> val 16 e < 2 ^ 15 -> val 16 (part 32 (fst (o t))) = val 16 (part 16 (fst (o t))).
Proof. exact hyperbolic_wrong. Qed.
Print Assumptions C122_hyperbolic_refuted.
Theorem C122_runs : forall MOD DIR g e c i, exists o, cordic MOD DIR g e c i o.
Proof. exact cordic_total. Qed.
Print Assumptions C122_runs.
