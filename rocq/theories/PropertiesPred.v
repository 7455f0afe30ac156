(** C148: the printing of the gates before a gate.
    Statements only; the proofs are in Predecessors.v. *)
From Coq Require Import ZArith NArith List Bool.
From Verif Require Import Base Gate Circuit Predecessors.
Import ListNotations.
Open Scope Z_scope.

(** * C148: the gates before a gate *)
Theorem C148_garble : forall c wires gid, Z.of_nat (length wires) = wsz c -> sorted c -> 0 <= gid < Z.of_nat (length (garbledGates c)) ->
  exists l, (forall fuel, gid + 2 <= Z.of_nat fuel -> PrintPredecessorsGarble c wires fuel gid = Ends l) /\
    (forall b, In b (map e_gid l) <-> before fst c wires gid b) /\ Forall (right_entry c wires (0, 0)%N) l /\ listing fst c wires (0, 0)%N gid l.
Proof. exact garble_predecessors. Qed.
Print Assumptions C148_garble.
Example C148_garble_case : sorted three /\ PrintPredecessorsGarble three [(0, 9); (5, 0); (6, 3); (0, 8)]%N 4 2 =
  Ends [Entry 2 (5, 0)%N (6, 3)%N (0, 8)%N; Entry 0 (0, 9)%N (0, 0)%N (5, 0)%N; Entry 1 (0, 9)%N (0, 9)%N (6, 3)%N].
Proof. exact garble_case. Qed.
Theorem C148_eval : forall c wires gid, Z.of_nat (length wires) = wsz c -> sorted c -> 0 <= gid < Z.of_nat (length (garbledGates c)) ->
  exists l, (forall fuel, gid + 2 <= Z.of_nat fuel -> PrintPredecessorsEval c wires fuel gid = Ends l) /\
    (forall b, In b (map e_gid l) <-> before (fun v => v) c wires gid b) /\ Forall (right_entry c wires 0%N) l /\ listing (fun v => v) c wires 0%N gid l.
Proof. exact eval_predecessors. Qed.
Print Assumptions C148_eval.
Example C148_eval_case : sorted (chain 2) /\ PrintPredecessorsEval (chain 2) [5; 6; 7]%N 3 1 = Ends [Entry 1 6%N 6%N 7%N; Entry 0 5%N 5%N 6%N; Entry 0 5%N 5%N 6%N].
Proof. exact predecessors_case. Qed.
Example C148_outside_case : PrintPredecessorsEval (mkCircuit 0 0 0 0 1 0 [mkGate 2 0 1 ANDGATE] [] [] [] 0) [5; 6]%N 2 0 = Ends [Entry 0 0%N 5%N 6%N].
Proof. exact outside_case. Qed.
Theorem C148_once_refuted : forall n, exists l, PrintPredecessorsEval (chain n) (repeat 1%N (S n)) (S n) (Z.of_nat n - 1) = Ends l /\ Z.of_nat (length l) = 2 ^ Z.of_nat n - 1.
Proof. exact many_times. Qed.
Print Assumptions C148_once_refuted.
Theorem C148_ends_refuted : forall fuel, PrintPredecessorsEval looping [1; 1]%N fuel 0 = Running.
Proof. exact loop_refuted. Qed.
Print Assumptions C148_ends_refuted.
Theorem C148_half_refuted : ~ forall c wires gid g v l, nth_error (garbledGates c) (Z.to_nat gid) = Some g -> 0 <= gid -> rd wires (input0 g) = Some v -> v <> 0%N -> get_gate_lo_index c <= input0 g ->
  PrintPredecessorsEval c wires 5 gid = Ends l -> In (input0 g - get_gate_lo_index c) (map e_gid l).
Proof. exact half_refuted. Qed.
Print Assumptions C148_half_refuted.
