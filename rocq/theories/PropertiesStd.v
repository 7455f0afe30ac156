(** C149, C150: the cells for arithmetic, comparison and shifts.
    Statements only; the proofs are in StdCells.v. *)
From Coq Require Import ZArith List Bool.
From Verif Require Import StdCells.
Import ListNotations.
Open Scope Z_scope.

(** * C149: sums, differences and comparisons *)
Theorem C149_fulladd : forall A B C, let (X, Y) := fulladd A B C in 2 * Z.b2z X + Z.b2z Y = Z.b2z A + Z.b2z B + Z.b2z C.
Proof. exact full_adder. Qed.
Print Assumptions C149_fulladd.
Theorem C149_add : forall sa sb w A B C, length (add sa sb w A B C) = w /\ number false (add sa sb w A B C) = (number sa A + number sb B + Z.b2z C) mod 2 ^ Z.of_nat w.
Proof. exact add_exact. Qed.
Print Assumptions C149_add.
Theorem C149_sub : forall sa sb w A B, length (sub sa sb w A B) = w /\ number false (sub sa sb w A B) = (number sa A - number sb B) mod 2 ^ Z.of_nat w.
Proof. exact sub_exact. Qed.
Print Assumptions C149_sub.
Theorem C149_neg : forall s w A, number false (neg s w A) = (- number s A) mod 2 ^ Z.of_nat w.
Proof. exact neg_exact. Qed.
Print Assumptions C149_neg.
Theorem C149_compare : forall s A B, A <> [] -> B <> [] -> lt s s A B = (number s A <? number s B) /\ le s s A B = (number s A <=? number s B) /\
  gt s s A B = (number s B <? number s A) /\ ge s s A B = (number s B <=? number s A).
Proof. exact comparisons. Qed.
Print Assumptions C149_compare.
Theorem C149_equal : forall s A B, eq s s A B = (number s A =? number s B) /\ ne s s A B = negb (number s A =? number s B).
Proof. exact equality. Qed.
Print Assumptions C149_equal.
Example C149_case : sub false false 5 [false; true; true] [true; false; false; true] = [true; false; true; true; true] /\
  add true false 4 [true; false] [false; true; true] true = [false; false; false; true] /\
  lt true true [false; true; true] [true; false] = true /\ lt false false [false; true; true] [true; false] = false /\ ge true true [false; true; true] [false; true; true; true] = true /\
  eq true true [false; true] [false; true; true] = true /\ eq false false [false; true] [false; true; true] = false.
Proof. exact arithmetic_case. Qed.
Theorem C149_mixed : forall sa sb A B, sa && sb = false -> lt sa sb A B = (number sa A mod 2 ^ Z.of_nat (Nat.max (length A) (length B)) <? number sb B mod 2 ^ Z.of_nat (Nat.max (length A) (length B))) /\
  le sa sb A B = (number sa A mod 2 ^ Z.of_nat (Nat.max (length A) (length B)) <=? number sb B mod 2 ^ Z.of_nat (Nat.max (length A) (length B))).
Proof. exact mixed_exact. Qed.
Print Assumptions C149_mixed.
Example C149_mixed_case : lt true false [true] [false; true] = false /\ le true false [true] [true; true] = true /\ lt false true [true] [false; true] = true.
Proof. exact mixed_case. Qed.
Theorem C149_mixed_refuted : ~ forall sa sb A B, A <> [] -> B <> [] -> lt sa sb A B = (number sa A <? number sb B).
Proof. exact mixed_refuted. Qed.
Print Assumptions C149_mixed_refuted.
(** * C150: products, quotients and shifts *)
Theorem C150_mul : forall sa sb w A B, mul sa sb w A B = (number sa A * number sb B) mod 2 ^ Z.of_nat w.
Proof. exact mul_exact. Qed.
Print Assumptions C150_mul.
Theorem C150_div : forall s w A B, A <> [] -> B <> [] -> number s B <> 0 -> div_mod s s w A B = (Z.quot (number s A) (number s B) mod 2 ^ Z.of_nat w, Z.rem (number s A) (number s B) mod 2 ^ Z.of_nat w).
Proof. exact div_exact. Qed.
Print Assumptions C150_div.
Theorem C150_div_zero : forall w A B, A <> [] -> number false B = 0 -> div_mod false false w A B = (2 ^ Z.of_nat w - 1, number false A mod 2 ^ Z.of_nat w).
Proof. exact div_zero. Qed.
Print Assumptions C150_div_zero.
Theorem C150_shift : forall X W n A, length A = W -> shift X W (- Z.of_nat n) A = firstn W (repeat false n ++ A) /\ shift X W (Z.of_nat n) A = skipn n A ++ repeat X (Nat.min n W).
Proof. exact shift_exact. Qed.
Print Assumptions C150_shift.
Example C150_shift_case : shift true 4 (- 1) [true; false; false; true] = [false; true; false; false] /\ shift true 4 2 [true; false; false; true] = [false; true; true; true].
Proof. exact shift_case. Qed.
Theorem C150_shl : forall s w A B, (0 < w)%nat -> Z.of_nat w <= 2 ^ 29 -> length (shl s w A B) = w /\ number false (shl s w A B) = (number s A * 2 ^ number false B) mod 2 ^ Z.of_nat w.
Proof. exact shl_exact. Qed.
Print Assumptions C150_shl.
Theorem C150_shr : forall s w A B, (0 < w)%nat -> Z.of_nat (length A) <= 2 ^ 29 -> Z.of_nat w <= 2 ^ 29 ->
  number false (shr s w A B) = number s A mod 2 ^ Z.max (Z.of_nat (length A)) (Z.of_nat w) / 2 ^ number false B mod 2 ^ Z.of_nat w.
Proof. exact shr_exact. Qed.
Print Assumptions C150_shr.
Theorem C150_sshr : forall s w A B, (0 < w)%nat -> A <> [] -> Z.of_nat (length A) <= 2 ^ 29 -> Z.of_nat w <= 2 ^ 29 ->
  number false (sshr s w A B) = (number s A / 2 ^ number false B) mod 2 ^ Z.of_nat w.
Proof. exact sshr_exact. Qed.
Print Assumptions C150_sshr.
Example C150_case : div_mod true true 4 [true; false; false; true] [false; true; false] = (13, 15) /\ mul true true 4 [true; true; false] [false; true] = 10 /\
  div_mod false false 3 [true; false; true] [false] = (7, 5) /\
  sshr true 4 [false; false; false; true] [false; true] = [false; true; true; true] /\ shr true 4 [false; false; false; true] [false; true] = [false; true; false; false] /\
  sshr true 4 [false; false; false; true] [true; false; false; true; false; false] = [true; true; true; true] /\ shl false 4 [true; true] [false; true] = [false; false; true; true] /\
  shl false 4 [true; true] [false; false; false; false; false; true] = [false; false; false; false].
Proof. exact division_case. Qed.
