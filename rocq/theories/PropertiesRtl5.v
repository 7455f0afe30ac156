(** C117: RSA in Verilog.
    Statements only; the proofs are in RtlRsa.v, RtlRsaSeq.v and RtlRsaRun.v. *)
From Coq Require Import ZArith Arith List Bool.
From Verif Require Import RtlBase RtlSeq RtlRsa RtlRsaSeq RtlRsaRun.
Import ListNotations.
Open Scope Z_scope.

Import ListNotations.
(** * C117: modular multiplication and exponentiation *)
(** As they are ([swap] = false), the circuits are wrong: the multiplexers are used with
    their data inputs exchanged. *)
Theorem C117_product_refuted : forall N o, (2 <= N)%nat -> modmult_comb false N (rep false) (rep false) (of_val 3) o -> val N o = 2 ^ Z.of_nat (N - 1).
Proof. exact modmult_refuted. Qed.
Print Assumptions C117_product_refuted.
Theorem C117_power_refuted : forall swap K c i o, In (swap, K) [(false, 1%nat); (false, 2%nat); (false, 4%nat); (false, 8%nat); (true, 2%nat); (true, 4%nat); (true, 8%nat)] ->
  modexp_2N swap 8 K (of_val 1) (key 8 1 2) c i o -> (2 * 8 * K <= c)%nat -> val 8 (o (2 * 8 * K - 1)%nat) mod 2 = 0.
Proof. exact modexp_2N_refuted. Qed.
Print Assumptions C117_power_refuted.
(** With the inputs exchanged *)
Theorem C117_product : forall N x y n o, (0 < N)%nat -> modmult_comb true N x y n o -> 0 < val N n -> val N y <= val N n ->
  val N o <= val N n /\ val N o mod val N n = (val N x * val N y) mod val N n.
Proof. exact modmult_comb_ok. Qed.
Print Assumptions C117_product.
Theorem C117_product_cycles : forall N CC k c i o t x x0 y0 y n, modmult true N CC c i o -> (CC * k = N)%nat -> (0 < N)%nat -> (t + CC < c)%nat ->
  i t = (true, x, x0, y0) -> (forall j, (1 <= j <= CC)%nat -> exists s xj, i (t + j)%nat = (s, xj, y, n) /\ (s = true -> j = CC)) ->
  0 < val N n -> val N y <= val N n ->
  val N (o (t + CC)%nat) <= val N n /\ val N (o (t + CC)%nat) mod val N n = (val N x * val N y) mod val N n.
Proof. exact modmult_ok. Qed.
Print Assumptions C117_product_cycles.
Theorem C117_power : forall N g e c i o, modexp_2N true N 1 g e c i o -> (0 < N)%nat -> (2 * N <= c)%nat -> 0 < val N e -> val N g <= val N e ->
  if val N (part N e) =? 0 then val N (o (2 * N - 1)%nat) = val N g
  else val N (o (2 * N - 1)%nat) <= val N e /\ val N (o (2 * N - 1)%nat) mod val N e = val N g ^ val N (part N e) mod val N e.
Proof. exact modexp_2N_ok. Qed.
Print Assumptions C117_power.
Theorem C117_residue_refuted : forall c i o, modexp_2N true 8 1 (of_val 6) (key 8 2 9) c i o -> (16 <= c)%nat -> val 8 (o 15%nat) = 9.
Proof. exact modexp_2N_zero. Qed.
Print Assumptions C117_residue_refuted.
Theorem C117_register : forall N CC k c s g ne, (CC * k = N)%nat -> (0 < N)%nat -> 0 < val N (part N ne) -> val N g <= val N (part N ne) ->
  modexp_1_init N (s 0%nat) -> (forall t, (t < c)%nat -> exists o, modexp_1_step true N CC (g, ne) (s t) o (s (S t))) -> (CC <= c)%nat ->
  if val N ne =? 0 then val N (creg1 (s CC)) = val N g
  else val N (creg1 (s CC)) <= val N (part N ne) /\ val N (creg1 (s CC)) mod val N (part N ne) = val N g ^ val N ne mod val N (part N ne).
Proof. exact modexp_1_register. Qed.
Print Assumptions C117_register.
(** The output of modexp_1_N is driven by nothing. *)
Theorem C117_undriven : forall swap N CC c i o o', modexp_1 swap N CC c i o -> modexp_1 swap N CC c i o'.
Proof. exact modexp_1_undriven. Qed.
Print Assumptions C117_undriven.
Theorem C117_product_runs : forall swap N x y n, exists o, modmult_comb swap N x y n o.
Proof. exact comb_total. Qed.
Print Assumptions C117_product_runs.
Theorem C117_product_cycles_runs : forall swap N CC c i, exists o, modmult swap N CC c i o.
Proof. exact modmult_total. Qed.
Print Assumptions C117_product_cycles_runs.
Theorem C117_power_runs : forall swap N K g e c i, exists o, modexp_2N swap N K g e c i o.
Proof. exact modexp_2N_total. Qed.
Print Assumptions C117_power_runs.
Theorem C117_register_runs : forall swap N CC c i, exists o, modexp_1 swap N CC c i o.
Proof. exact modexp_1_total. Qed.
Print Assumptions C117_register_runs.
Example C117_product_case : exists o, modmult_comb true 8 (of_val 100) (of_val 77) (of_val 101) o /\ val 8 o = (100 * 77) mod 101.
Proof. exact modmult_case. Qed.
Example C117_product_zero_case : exists o, modmult_comb true 4 (of_val 3) (of_val 6) (of_val 9) o /\ val 4 o = 9.
Proof. exact modmult_zero_case. Qed.
Example C117_power_case : exists o, modexp_2N true 8 1 (of_val 5) (key 8 13 187) 16 (fun _ => tt) o /\ val 8 (o 15%nat) = 5 ^ 13 mod 187.
Proof. exact modexp_case. Qed.
