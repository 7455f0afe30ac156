(** C152: the cells of the two libraries handed to yosys.
    Statements only; the proofs are in LibCells.v. *)
From Coq Require Import ZArith List Bool Ascii String.
From Verif Require Import Base Gate Circuit Spec Sort Text Netlist Parse LibCells.
Import ListNotations.
Open Scope string_scope.
Open Scope list_scope.

(** * C152: the cells of the libraries *)
Theorem C152_cells : forall c, In c extended -> exists k, kind_name k = cell_name c /\ cell_ins c = pins_in k /\
  (forall z, In z (map fst (cell_outs c)) <-> In z (pins_out k)) /\
  forall z f v, In (z, f) (cell_outs c) -> value f v = Some (library k z v).
Proof. exact extended_means. Qed.
Print Assumptions C152_cells.
Example C152_cells_case : forall v, value "IN0^IN1^CIN" v = Some (xorb (v "IN0") (xorb (v "IN1") (v "CIN"))) /\
  value "A^B&C+D'" v = Some (xorb (v "A") (v "B") && v "C" || negb (v "D")) /\ value "(A+B" v = None.
Proof. exact cells_case. Qed.
Theorem C152_lacks : forall k, (forall c, In c extended -> cell_name c <> kind_name k) <-> k = MUX \/ k = HADDER \/ k = DFF.
Proof. exact extended_lacks. Qed.
Print Assumptions C152_lacks.
Theorem C152_small : forall c st ws rest, In c small -> idle st -> Forall plain ws ->
  parse true st (cell_name c :: ws ++ ";" :: rest) = Failed.
Proof. exact small_fails. Qed.
Print Assumptions C152_small.
Example C152_words_case : idle start /\ Forall plain ["u"; ".A"; "g_input"; ".B"; "e_input"; ".Y"; "o"] /\
  parse true start ["XOR"; "u"; ".A"; "g_input"; ".B"; "e_input"; ".Y"; "o"; ";"; "endmodule"] = Failed.
Proof. exact small_words. Qed.
Example C152_small_case : gates_of (ParseNetlist true (Some (text_of (xor_with "Z")))) = Some [mkRGS "g_input" "e_input" "o" XORGATE] /\
  ParseNetlist true (Some (text_of (xor_with "Y"))) = Failed /\
  gates_of (ParseNetlist false (Some (text_of (xor_with "Y")))) = Some [mkRGS "g_input" "o" "" XORGATE].
Proof. exact small_case. Qed.
Theorem C152_small_refuted : ~ forall c, In c (extended ++ small) -> exists k, kind_name k = cell_name c /\
  forall z, In z (map fst (cell_outs c)) -> In z (pins_out k).
Proof. exact small_refuted. Qed.
Print Assumptions C152_small_refuted.
Theorem C152_dff_zero : forall ds, lib_dff false ds = map Some (register false ds).
Proof. exact dff_zero. Qed.
Print Assumptions C152_dff_zero.
Theorem C152_dff_one : forall ds, lib_dff true ds = repeat (Some true) (S (List.length ds)).
Proof. exact dff_one. Qed.
Print Assumptions C152_dff_one.
Example C152_dff_case : lib_dff false [true; false; true] = [Some false; Some true; Some false; Some true] /\
  lib_dff true [false; false] = [Some true; Some true; Some true] /\ register true [false; false] = [true; false; false].
Proof. exact dff_case. Qed.
Theorem C152_dff_refuted : ~ forall i ds, lib_dff i ds = map Some (register i ds).
Proof. exact dff_refuted. Qed.
Print Assumptions C152_dff_refuted.
