(** C101 to C106: the library of circuits in Verilog, circuit_synthesis/syn_lib.
    Statements only; the proofs are in RtlLib.v and RtlArith.v. *)
From Coq Require Import ZArith List Bool.
From Verif Require Import RtlBase RtlLib RtlArith.
Import ListNotations.
Open Scope Z_scope.

(** * C101: adders, subtracters, comparator, multiplexer *)
Theorem C101_add : forall N M A B CI CO S, (M <= N)%nat -> ADD N M A B CI CO S ->
  val N S + 2 ^ Z.of_nat N * Z.b2z CO = val N A + val M B + Z.b2z CI.
Proof. exact ADD_ok. Qed.
Print Assumptions C101_add.
Theorem C101_sub : forall N M A B CO S, (M <= N)%nat -> SUB N M A B CO S ->
  val N S = (val N A - val M B) mod 2 ^ Z.of_nat N /\ CO = (val M B <=? val N A).
Proof. exact SUB_ok. Qed.
Print Assumptions C101_sub.
Theorem C101_comp : forall N M A B O, (M <= N)%nat -> COMP N M A B O -> O = (val M B <=? val N A).
Proof. exact COMP_ok. Qed.
Print Assumptions C101_comp.
Theorem C101_mux : forall N A B S O, MUX N A B S O <-> veq N O (if S then B else A).
Proof. exact MUX_ok. Qed.
Print Assumptions C101_mux.
Theorem C101_negate : forall N A O, TwosComplement N A O -> val N O = (- val N A) mod 2 ^ Z.of_nat N.
Proof. exact TwosComplement_ok. Qed.
Print Assumptions C101_negate.
Theorem C101_add_signed : forall N M A B O, (0 < M <= N)%nat -> ADD_ N M A B O -> sval (N + 1) O = sval N A + sval M B.
Proof. exact ADD__ok. Qed.
Print Assumptions C101_add_signed.
Theorem C101_sub_signed : forall N M A B O, (0 < M <= N)%nat -> SUB_ N M A B O -> sval (N + 1) O = sval N A - sval M B.
Proof. exact SUB__ok. Qed.
Print Assumptions C101_sub_signed.
(** The equations of every module have a solution, for every size and input. *)
Theorem C101_consistent : forall N M A B CI,
  (exists CO S, ADD N M A B CI CO S) /\ (exists CO S, SUB N M A B CO S) /\ (exists O, COMP N M A B O) /\
  (exists O, TwosComplement N A O) /\ ((0 < N)%nat -> (exists O, ADD_ N M A B O) /\ (exists O, SUB_ N M A B O)).
Proof. exact lib_total. Qed.
Print Assumptions C101_consistent.
Example C101_case : (exists CO S, ADD 600 8 (of_val (2 ^ 600 - 1)) (of_val 2) true CO S /\ val 600 S = 2 /\ CO = true) /\
  (exists O, SUB_ 8 4 (of_val 128) (of_val 7) O /\ sval 9 O = -135).
Proof. exact lib_case. Qed.

(** * C102: multiplication *)
Theorem C102_mult : forall N M A B O, (0 < N)%nat -> MULT N M A B O -> val (N + M) O = val N A * val M B.
Proof. exact MULT_ok. Qed.
Print Assumptions C102_mult.
Theorem C102_mult_signed : forall N M A B O, (0 < N)%nat -> (0 < M)%nat -> MULT_ N M A B O ->
  sval (N + M) O = sval N A * sval M B.
Proof. exact MULT__ok. Qed.
Print Assumptions C102_mult_signed.
Theorem C102_consistent : forall N M A B, (exists O, MULT N M A B O) /\ (exists O, MULT_ N M A B O).
Proof. exact mult_total. Qed.
Print Assumptions C102_consistent.
Example C102_case : exists O, MULT_ 8 5 (of_val (-128)) (of_val (-16)) O /\ sval 13 O = 2048.
Proof. exact mult_case. Qed.

(** * C103: division *)
Theorem C103_div : forall N M A B O, DIV N M A B O ->
  val N O = if val M B =? 0 then 2 ^ Z.of_nat N - 1 else val N A / val M B.
Proof. exact DIV_ok. Qed.
Print Assumptions C103_div.
Theorem C103_div_signed : forall N M A B O, (0 < N)%nat -> (0 < M)%nat -> DIV_ N M A B O -> sval M B <> 0 ->
  val N O = (Z.quot (sval N A) (sval M B)) mod 2 ^ Z.of_nat N /\
  (sval N A <> - 2 ^ Z.of_nat (N - 1) \/ sval M B <> -1 -> sval N O = Z.quot (sval N A) (sval M B)).
Proof. exact DIV__ok. Qed.
Print Assumptions C103_div_signed.
Theorem C103_div_signed_by_zero : forall N M A B O, (0 < N)%nat -> (0 < M)%nat -> DIV_ N M A B O -> sval M B = 0 ->
  val N O = (if A (N - 1)%nat then 1 else 2 ^ Z.of_nat N - 1).
Proof. exact DIV__by_zero. Qed.
Print Assumptions C103_div_signed_by_zero.
Theorem C103_consistent : forall N M A B, (exists O, DIV N M A B O) /\ (exists O, DIV_ N M A B O).
Proof. exact div_total. Qed.
Print Assumptions C103_consistent.
Example C103_case : exists O, DIV_ 8 5 (of_val (-100)) (of_val 7) O /\ sval 8 O = -14.
Proof. exact div_case. Qed.

(** * C104: population count *)
Theorem C104_count : forall N A S, COUNT N A S -> Z.of_nat N < 2 ^ 32 -> val (log2 N) S = ones N A.
Proof. exact COUNT_ok. Qed.
Print Assumptions C104_count.
Theorem C104_width : forall N, Z.of_nat N < 2 ^ 32 -> (0 < N)%nat ->
  (0 < log2 N)%nat /\ (2 ^ (log2 N - 1) <= N < 2 ^ log2 N)%nat.
Proof. exact log2_ok. Qed.
Print Assumptions C104_width.
Theorem C104_consistent : forall N A, (0 < N)%nat -> Z.of_nat N < 2 ^ 32 -> exists S, COUNT N A S.
Proof. exact COUNT_total. Qed.
Print Assumptions C104_consistent.
Example C104_case : exists S, COUNT 14 (of_val 0x2fb7) S /\ val 4 S = 11.
Proof. exact count_case. Qed.

(** * C105: shifts *)
(** Not so: that SHIFT_LEFT multiplies and SHIFT_RIGHT divides by powers of two; it is the
    other way round. *)
Theorem C105_left : forall N L a sh o, SHIFT_LEFT N L a sh o -> val N o = val N a / 2 ^ val (L + 1) sh.
Proof. exact SHIFT_LEFT_ok. Qed.
Print Assumptions C105_left.
Theorem C105_right : forall N L a sh o, SHIFT_RIGHT N L a sh o -> val N o = (val N a * 2 ^ val (L + 1) sh) mod 2 ^ Z.of_nat N.
Proof. exact SHIFT_RIGHT_ok. Qed.
Print Assumptions C105_right.
Theorem C105_names_refuted :
  ~ (forall N L a sh o, SHIFT_LEFT N L a sh o -> val N o = (val N a * 2 ^ val (L + 1) sh) mod 2 ^ Z.of_nat N) /\
  ~ (forall N L a sh o, SHIFT_RIGHT N L a sh o -> val N o = val N a / 2 ^ val (L + 1) sh).
Proof. exact shift_names. Qed.
Print Assumptions C105_names_refuted.
Theorem C105_consistent : forall N L a sh, (exists o, SHIFT_LEFT N L a sh o) /\ (exists o, SHIFT_RIGHT N L a sh o).
Proof. exact shift_total. Qed.
Print Assumptions C105_consistent.
Example C105_case : exists o, SHIFT_RIGHT 16 4 (of_val 0x8421) (of_val 7) o /\ val 16 o = 0x1080.
Proof. exact shift_case. Qed.

(** * C106: square root *)
Theorem C106_square_root : forall n M A O, (0 < n)%nat -> (n <= M)%nat -> square_root_comb (2 * n) M A O ->
  val n O = Z.sqrt (val (2 * n) A).
Proof. exact square_root_ok. Qed.
Print Assumptions C106_square_root.
Theorem C106_consistent : forall n M A, (0 < n)%nat -> exists O, square_root_comb (2 * n) M A O.
Proof. exact square_root_total. Qed.
Print Assumptions C106_consistent.
Example C106_case : exists O, square_root_comb 16 8 (of_val 65024) O /\ val 8 O = 254.
Proof. exact square_root_case. Qed.
