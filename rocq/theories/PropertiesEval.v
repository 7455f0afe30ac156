(** C144, C145: the runs of the timing evaluation.
    Statements only; the proofs are in EvalRuns.v. *)
From Coq Require Import String ZArith List Bool.
From Verif Require Import EvalRuns.
Import ListNotations.
Open Scope Z_scope.

(** * C144: the runs *)
Theorem C144_runs : forall (num : string -> option Z) o alice bs ls rest n, Forall2 (written num) bs ls -> (length bs < n)%nat ->
  eval_main true num alice o n (concat ls ++ "terminate"%string :: rest) = Left_loop (wanted alice o bs).
Proof. exact runs_wanted. Qed.
Print Assumptions C144_runs.
Example C144_runs_case : eval_main true digits false (Options 1234 "127.0.0.1" 2) 9 ["sum"; "256"; "0"; "SUM"; "256"; "aes"; "1"; "0"; "AES"; "128"; "terminate"]%string =
  Left_loop [Command "sum" 1234 "127.0.0.1" 256 0 false; Command "sum" 1244 "127.0.0.1" 256 0 false; Command "aes" 1234 "127.0.0.1" 1 0 false; Command "aes" 1244 "127.0.0.1" 1 0 false].
Proof. exact runs_case. Qed.
Theorem C144_parties : forall (num : string -> option Z) o t file n, eval_main t num false o n file = other_outcome (eval_main t num true o n file).
Proof. exact runs_match. Qed.
Print Assumptions C144_parties.
Theorem C144_ports : forall o i j, (i < j)%nat -> Z.of_nat j < 32768 -> (port o + 10 * Z.of_nat i) mod 65536 <> (port o + 10 * Z.of_nat j) mod 65536.
Proof. exact run_ports. Qed.
Print Assumptions C144_ports.
Theorem C144_ports_refuted : ~ forall num alice o n file l i j c d, eval_main true num alice o n file = Left_loop l -> nth_error l i = Some c -> nth_error l j = Some d -> i <> j -> x_port c <> x_port d.
Proof. exact ports_again. Qed.
Print Assumptions C144_ports_refuted.
(** * C145: the end, and the measurements *)
Theorem C145_without_end : forall (num : string -> option Z) o alice bs ls b l n, Forall2 (written num) bs ls -> written num b l ->
  eval_main true num alice o (length bs + S n) (concat (ls ++ [l])) = In_loop (wanted alice o (bs ++ repeat b (S n))).
Proof. exact runs_without_end. Qed.
Print Assumptions C145_without_end.
Example C145_without_end_case : eval_main true digits true (Options 1234 "127.0.0.1" 1) 3 ["aes"; "1"; "0"; "AES"; "128"]%string =
  In_loop [Command "aes" 1234 "127.0.0.1" 1 0 true; Command "aes" 1234 "127.0.0.1" 1 0 true; Command "aes" 1234 "127.0.0.1" 1 0 true].
Proof. exact endless_case. Qed.
Theorem C145_bad_number : forall (num : string -> option Z) o alice bs ls name bad rest n, Forall2 (written num) bs ls -> name <> "terminate"%string -> num bad = None ->
  forall l, eval_main true num alice o n (concat ls ++ name :: bad :: rest) <> Left_loop l.
Proof. exact runs_bad_number. Qed.
Print Assumptions C145_bad_number.
Theorem C145_zero_cycles : forall (num : string -> option Z) o alice b l bs ls name bad rest n, written num b l -> Forall2 (written num) bs ls -> name <> "terminate"%string -> num bad = None ->
  eval_main true num alice o (S (length bs + n)) (l ++ concat ls ++ name :: bad :: rest) = In_loop (wanted alice o (b :: bs ++ repeat (Bench name 0 (last (map b_mode bs) (b_mode b))) n)).
Proof. exact runs_zero_cycles. Qed.
Print Assumptions C145_zero_cycles.
Example C145_zero_cycles_case : eval_main true digits true (Options 1234 "127.0.0.1" 1) 3 ["aes"; "1"; "0"; "AES"; "128"; "sum"; "x"; "0"; "SUM"; "128"; "terminate"]%string =
  In_loop [Command "aes" 1234 "127.0.0.1" 1 0 true; Command "sum" 1234 "127.0.0.1" 0 0 true; Command "sum" 1234 "127.0.0.1" 0 0 true].
Proof. exact zero_case. Qed.
Theorem C145_ends_refuted : ~ forall num alice o file, exists n l, eval_main true num alice o n file = Left_loop l.
Proof. exact ends_refuted. Qed.
Print Assumptions C145_ends_refuted.
Theorem C145_sums : forall (num : string -> option Z) outs vals dc s0 s1 s2, Forall2 (fun out v => exists x y z rest, out = x :: y :: z :: rest /\ num x = Some (fst (fst v)) /\ num y = Some (snd (fst v)) /\ num z = Some (snd v)) outs vals ->
  sums num outs dc (s0, s1, s2) = Some (fold_left (fun s v => s + fst (fst v)) vals s0, fold_left (fun s v => s + snd (fst v)) vals s1, fold_left (fun s v => s + snd v) vals s2).
Proof. exact sums_exact. Qed.
Print Assumptions C145_sums.
Theorem C145_empty_run_refuted : forall (num : string -> option Z) out a b c x y z rest s0 s1 s2 dc, out = x :: y :: z :: rest -> num x = Some a -> num y = Some b -> num z = Some c ->
  sums num [out; []] dc (s0, s1, s2) = Some (s0 + a + a, s1 + b + b, s2 + c + c) /\ sums num [[]; out] (None, None, None) (s0, s1, s2) = None.
Proof. exact empty_run. Qed.
Print Assumptions C145_empty_run_refuted.
Example C145_empty_run_case : sums digits [["1"; "128"; "256"; "ff"]; []]%string (None, None, None) (0, 0, 0) = Some (2, 256, 512).
Proof. exact empty_case. Qed.
