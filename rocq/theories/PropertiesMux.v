(** C151: the multiplexers with one select bit per input.
    Statements only; the proofs are in StdMux.v. *)
From Coq Require Import Arith List Bool.
From Verif Require Import StdMux.
Import ListNotations.

(** * C151: the multiplexers *)
Theorem C151_none : forall W A B Sel, (forall j, ~ selected Sel j) -> pmux W A B Sel = A.
Proof. exact pmux_none. Qed.
Print Assumptions C151_none.
Theorem C151_some : forall W A B Sel j i, selected Sel j -> i < W ->
  length (pmux W A B Sel) = W /\ (nth i (pmux W A B Sel) false = true <-> exists k, selected Sel k /\ nth i (input W B k) false = true).
Proof. exact pmux_some. Qed.
Print Assumptions C151_some.
Theorem C151_one : forall W A B Sel j, length B = W * length Sel -> selected Sel j -> (forall k, selected Sel k -> k = j) -> pmux W A B Sel = input W B j.
Proof. exact pmux_one. Qed.
Print Assumptions C151_one.
Theorem C151_safe_none : forall W A B Sel, (forall j, ~ selected Sel j) -> safe_pmux W A B Sel = A.
Proof. exact safe_none. Qed.
Print Assumptions C151_safe_none.
Theorem C151_safe_one : forall W A B Sel j, length B = W * length Sel -> selected Sel j -> (forall k, selected Sel k -> k = j) -> safe_pmux W A B Sel = input W B j.
Proof. exact safe_one. Qed.
Print Assumptions C151_safe_one.
Theorem C151_safe_many : forall W A B Sel j k, j <> k -> selected Sel j -> selected Sel k -> safe_pmux W A B Sel = A.
Proof. exact safe_many. Qed.
Print Assumptions C151_safe_many.
Example C151_case : pmux 2 [true; true] [true; false; false; true; false; false] [false; true; false] = [false; true] /\ safe_pmux 2 [true; true] [true; false; false; true; false; false] [false; true; false] = [false; true] /\
  pmux 2 [false; false] [true; false; false; true] [true; true] = [true; true] /\ safe_pmux 2 [false; false] [true; false; false; true] [true; true] = [false; false].
Proof. exact mux_case. Qed.
Theorem C151_two_refuted : ~ forall W A B Sel, length A = W -> length B = W * length Sel -> pmux W A B Sel = A \/ exists j, j < length Sel /\ pmux W A B Sel = input W B j.
Proof. exact pmux_two_refuted. Qed.
Print Assumptions C151_two_refuted.
