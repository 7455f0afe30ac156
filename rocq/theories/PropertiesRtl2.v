(** C107 to C114: the circuits in Verilog of circuit_synthesis.
    Statements only; the proofs are in RtlSeq.v, RtlMatrix.v, RtlSelect.v, RtlKnns.v, RtlStack.v and RtlDemo.v. *)
From Coq Require Import ZArith List Bool.
From Verif Require Import RtlBase RtlLib RtlArith RtlSeq RtlMatrix RtlSelect RtlKnns RtlStack RtlDemo.
Import ListNotations.
Open Scope Z_scope.

(** * C107: sum, compare, hamming, in one or several cycles *)
Theorem C107_sum : forall N CC G E o O, (0 < CC)%nat -> let M := (N / CC)%nat in
  sum N CC CC (pieces M G E) o -> joined M CC o O ->
  val (CC * M) O = (val (CC * M) G + val (CC * M) E) mod 2 ^ Z.of_nat (CC * M).
Proof. exact sum_ok. Qed.
Print Assumptions C107_sum.
Theorem C107_compare : forall N CC G E o, (0 < CC)%nat -> let M := (N / CC)%nat in
  compare N CC CC (pieces M G E) o -> o (CC - 1)%nat = (val (CC * M) E <=? val (CC * M) G).
Proof. exact compare_ok. Qed.
Print Assumptions C107_compare.
Theorem C107_hamming : forall N CC G E o, (0 < CC)%nat -> let M := (N / CC)%nat in Z.of_nat N < 2 ^ 32 -> (0 < M)%nat ->
  hamming N CC CC (pieces M G E) o -> val (log2 N) (o (CC - 1)%nat) = ones (CC * M) (vxor G E).
Proof. exact hamming_ok. Qed.
Print Assumptions C107_hamming.
(** Every run exists. *)
Theorem C107_sum_runs : forall N CC n i, exists o, sum N CC n i o.
Proof. exact sum_total. Qed.
Print Assumptions C107_sum_runs.
Theorem C107_compare_runs : forall N CC n i, exists o, compare N CC n i o.
Proof. exact compare_total. Qed.
Print Assumptions C107_compare_runs.
Theorem C107_hamming_runs : forall N CC n i, (0 < CC)%nat -> Z.of_nat N < 2 ^ 32 -> (0 < N / CC)%nat -> exists o, hamming N CC n i o.
Proof. exact hamming_total. Qed.
Print Assumptions C107_hamming_runs.
Example C107_sum_case : exists o O, sum 64 8 8 (pieces 8 (of_val (2 ^ 64 - 1)) (of_val 0x1234)) o /\ joined 8 8 o O /\ val 64 O = 0x1233.
Proof. exact sum_case. Qed.
Example C107_compare_case : exists o, compare 64 8 8 (pieces 8 (of_val 0xff00) (of_val 0xff01)) o /\ o 7%nat = false.
Proof. exact compare_case. Qed.
Example C107_hamming_case : forall CC, CC = 1%nat \/ CC = 4%nat -> exists o, hamming 32 CC CC (pieces (32 / CC) (of_val 0xFF55AA77) (of_val 0x12345678)) o /\ val (log2 32) (o (CC - 1)%nat) = 0x13.
Proof. exact hamming_case. Qed.

(** * C108: mult *)
Theorem C108_mult : forall N g e o, (0 < N)%nat -> mult N 1 g e o -> val N o = (val N g * val N e) mod 2 ^ Z.of_nat N.
Proof. exact mult_1cc. Qed.
Print Assumptions C108_mult.
Theorem C108_mult_cycles : forall N CC g e o, (0 < N)%nat -> (0 < CC)%nat -> mult N CC g e o ->
  val N o = (val N g * val (N / CC) e) mod 2 ^ Z.of_nat N.
Proof. exact mult_ok. Qed.
Print Assumptions C108_mult_cycles.
(** For more than one cycle the product is wrong. *)
Theorem C108_cycles_refuted : exists N CC g e o, (1 < CC)%nat /\ (N mod CC = 0)%nat /\ mult N CC g e o /\ val N o <> (val N g * val N e) mod 2 ^ Z.of_nat N.
Proof. exact mult_cycles. Qed.
Print Assumptions C108_cycles_refuted.
Theorem C108_runs : forall N CC g e, exists o, mult N CC g e o.
Proof. exact mult_circuit_total. Qed.
Print Assumptions C108_runs.
Example C108_case : exists o, mult 8 1 (of_val 25) (of_val 11) o /\ val 8 o = 275 - 256.
Proof. exact mult_circuit_case. Qed.

(** * C109: matrix multiplication *)
Theorem C109_parallel : forall N M X Y o, matrix_mult_0 N M X Y o ->
  forall i j, (i < N)%nat -> (j < N)%nat -> elem N M o i j = product N M X Y i j mod 2 ^ Z.of_nat M.
Proof. exact matrix_0_ok. Qed.
Print Assumptions C109_parallel.
Theorem C109_serial : forall M n X Y o, matrix_mult_3 M n (fun t => (X t, Y t)) o ->
  forall t, (t < n)%nat -> val M (o t) = total (t + 1) (fun u => val M (X u) * val M (Y u)) mod 2 ^ Z.of_nat M.
Proof. exact matrix_3_ok. Qed.
Print Assumptions C109_serial.
Theorem C109_serial_element : forall N M X Y i j o, (0 < N)%nat ->
  matrix_mult_3 M N (fun k => (part (M * (N * i + k)) X, part (M * (N * k + j)) Y)) o ->
  val M (o (N - 1)%nat) = product N M X Y i j mod 2 ^ Z.of_nat M.
Proof. exact matrix_3_element. Qed.
Print Assumptions C109_serial_element.
(** A row in a cycle, and an element in a cycle: the sums go on from cycle to cycle and show a cycle late. *)
Theorem C109_by_row : forall N M n X Y o, (0 < M)%nat -> matrix_mult_1 N M n (fun t => (X t, Y t)) o ->
  forall t i, (t < n)%nat -> (i < N)%nat ->
    val M (part (M * i) (o t)) = total t (fun u => total N (fun k => val M (part (M * k) (X u)) * elem N M (Y u) k i)) mod 2 ^ Z.of_nat M.
Proof. exact matrix_1_ok. Qed.
Print Assumptions C109_by_row.
Theorem C109_by_row_refuted : exists N M X Y, forall n o, matrix_mult_1 N M n (fun t => (part (M * (N * Nat.min t (N - 1))) X, Y)) o ->
  exists i, (i < N)%nat /\ forall t, (t < n)%nat -> exists j, (j < N)%nat /\ val M (part (M * j) (o t)) <> product N M X Y i j mod 2 ^ Z.of_nat M.
Proof. exact matrix_1_rows. Qed.
Print Assumptions C109_by_row_refuted.
Theorem C109_by_element : forall N M n X Y o, (0 < M)%nat -> matrix_mult_2 N M n (fun t => (X t, Y t)) o ->
  forall t, (t < n)%nat -> val M (o t) = total t (fun u => total N (fun k => val M (part (M * k) (X u)) * val M (part (M * k) (Y u)))) mod 2 ^ Z.of_nat M.
Proof. exact matrix_2_ok. Qed.
Print Assumptions C109_by_element.
Theorem C109_by_element_refuted : exists N M X Y, forall n o, matrix_mult_2 N M n (fun t => (part (M * N * (t / N)) X, part (M * N * (t mod N)) Y)) o ->
  forall t, (t < n)%nat -> (t <= N * N)%nat -> val M (o t) <> total N (fun k => elem N M X 0 k * elem N M Y 1 k) mod 2 ^ Z.of_nat M.
Proof. exact matrix_2_elements. Qed.
Print Assumptions C109_by_element_refuted.
Theorem C109_parallel_runs : forall N M X Y, (0 < M)%nat -> exists o, matrix_mult_0 N M X Y o.
Proof. exact matrix_0_total. Qed.
Print Assumptions C109_parallel_runs.
Theorem C109_by_row_runs : forall N M n i, (0 < M)%nat -> exists o, matrix_mult_1 N M n i o.
Proof. exact matrix_1_total. Qed.
Print Assumptions C109_by_row_runs.
Theorem C109_by_element_runs : forall N M n i, exists o, matrix_mult_2 N M n i o.
Proof. exact matrix_2_total. Qed.
Print Assumptions C109_by_element_runs.
Theorem C109_serial_runs : forall M n i, exists o, matrix_mult_3 M n i o.
Proof. exact matrix_3_total. Qed.
Print Assumptions C109_serial_runs.
Example C109_case : exists o, matrix_mult_0 2 8 (of_val 0x07050301) (of_val 0x0b020109) o /\
  elem 2 8 o 0 0 = 15 /\ elem 2 8 o 0 1 = 34 /\ elem 2 8 o 1 0 = 59 /\ elem 2 8 o 1 1 = 82.
Proof. exact matrix_case. Qed.
Example C109_serial_case : exists o, matrix_mult_3 8 2 (fun k => (part (8 * (2 * 1 + k)) (of_val 0x07050301), part (8 * (2 * k + 0)) (of_val 0x0b020109))) o /\ val 8 (o 1%nat) = 59.
Proof. exact matrix_serial_case. Qed.

(** * C110: maximum, encoder, distance *)
Theorem C110_argmax : forall N M inp max ind, (0 < N)%nat -> Z.of_nat N < 2 ^ 32 -> argmax N M inp max ind ->
  exists i, (i < N)%nat /\ val (log2 N) ind = Z.of_nat i /\ val M max = val M (part (i * M) inp) /\
    (forall j, (j < N)%nat -> val M (part (j * M) inp) <= val M max) /\
    (forall j, (i < j)%nat -> (j < N)%nat -> val M (part (j * M) inp) < val M max).
Proof. exact argmax_ok. Qed.
Print Assumptions C110_argmax.
Theorem C110_encoder : forall logS g e o k, encoder logS g e o -> (k < 2 ^ logS)%nat ->
  (forall i, (i < 2 ^ logS)%nat -> cat e (2 ^ logS / 2) g i = (i =? k)%nat) -> val logS o = Z.of_nat k.
Proof. exact encoder_ok. Qed.
Print Assumptions C110_encoder.
Theorem C110_encoder_any : forall logS inp o, encoder_ logS inp o ->
  forall b, (b < logS)%nat -> o b = true <-> exists i, (i < 2 ^ logS)%nat /\ inp i = true /\ Nat.testbit i b = true.
Proof. exact encoder__ok. Qed.
Print Assumptions C110_encoder_any.
Theorem C110_taxicab : forall N x1 y1 x2 y2 dist, taxicab_distance N x1 y1 x2 y2 dist ->
  val (N + 2) dist = Z.abs (val N x1 - val N x2) + Z.abs (val N y1 - val N y2).
Proof. exact taxicab_ok. Qed.
Print Assumptions C110_taxicab.
Theorem C110_argmax_runs : forall N M inp, exists max ind, argmax N M inp max ind.
Proof. exact argmax_total. Qed.
Print Assumptions C110_argmax_runs.
Theorem C110_encoder_runs : forall logS g e, (0 < logS)%nat -> exists o, encoder logS g e o.
Proof. exact encoder_total. Qed.
Print Assumptions C110_encoder_runs.
Theorem C110_taxicab_runs : forall N x1 y1 x2 y2, exists dist, taxicab_distance N x1 y1 x2 y2 dist.
Proof. exact taxicab_total. Qed.
Print Assumptions C110_taxicab_runs.
Example C110_argmax_case : exists max ind, argmax 4 8 (of_val 0x09010903) max ind /\ val 8 max = 9 /\ val (log2 4) ind = 3.
Proof. exact argmax_case. Qed.
Example C110_encoder_case : exists o, encoder 4 (of_val 0) (of_val 0x20) o /\ val 4 o = 13.
Proof. exact encoder_case. Qed.
Example C110_taxicab_case : exists d, taxicab_distance 8 (of_val 10) (of_val 200) (of_val 250) (of_val 3) d /\ val 10 d = 437.
Proof. exact taxicab_case. Qed.

(** * C111: the first nearest neighbour *)
(** The combinational circuits find the farthest element. *)
Theorem C111_farthest : forall W N g e o, (0 < N)%nat -> Z.of_nat W < 2 ^ 32 -> first_nns_comb W N g e o ->
  exists i, (i < N)%nat /\ veq W o (part (W * i) e) /\ forall j, (j < N)%nat -> hdist W g (part (W * j) e) <= hdist W g (part (W * i) e).
Proof. exact first_comb_ok. Qed.
Print Assumptions C111_farthest.
Theorem C111_farthest_taxicab : forall W N g e o, (0 < N)%nat -> first_nns_comb_td W N g e o ->
  exists i, (i < N)%nat /\ veq (2 * W) o (part (2 * W * i) e) /\ forall j, (j < N)%nat -> tdist W (part (2 * W * j) e) g <= tdist W (part (2 * W * i) e) g.
Proof. exact first_comb_td_ok. Qed.
Print Assumptions C111_farthest_taxicab.
Theorem C111_nearest_refuted : exists W N g e o, first_nns_comb W N g e o /\
  ~ exists i, (i < N)%nat /\ veq W o (part (W * i) e) /\ forall j, (j < N)%nat -> hdist W g (part (W * i) e) <= hdist W g (part (W * j) e).
Proof. exact first_comb_nearest. Qed.
Print Assumptions C111_nearest_refuted.
(** The sequential ones always show 0. *)
Theorem C111_zero : forall W n i o, first_nns_seq W n i o -> forall t, (t < n)%nat -> val W (o t) = 0.
Proof. exact first_seq_zero. Qed.
Print Assumptions C111_zero.
Theorem C111_zero_taxicab : forall W n i o, first_nns_seq_td W n i o -> forall t, (t < n)%nat -> val (2 * W) (o t) = 0.
Proof. exact first_seq_td_zero. Qed.
Print Assumptions C111_zero_taxicab.
Theorem C111_sequential_refuted : exists W n g e, forall o, first_nns_seq W n (fun t => (g, e t)) o -> exists t, (t < n)%nat /\
  ~ exists u, (u <= t)%nat /\ val W (o t) = val W (e u).
Proof. exact first_seq_nearest. Qed.
Print Assumptions C111_sequential_refuted.
Theorem C111_sequential_taxicab_refuted : exists W n g e, forall o, first_nns_seq_td W n (fun t => (g, e t)) o -> exists t, (t < n)%nat /\
  ~ exists u, (u <= t)%nat /\ val (2 * W) (o t) = val (2 * W) (e u).
Proof. exact first_seq_td_nearest. Qed.
Print Assumptions C111_sequential_taxicab_refuted.
Theorem C111_runs : forall W N g e, (0 < W)%nat -> Z.of_nat W < 2 ^ 32 -> exists o, first_nns_comb W N g e o.
Proof. exact first_comb_total. Qed.
Print Assumptions C111_runs.
Theorem C111_taxicab_runs : forall W N g e, exists o, first_nns_comb_td W N g e o.
Proof. exact first_comb_td_total. Qed.
Print Assumptions C111_taxicab_runs.
Theorem C111_sequential_runs : forall W n i, (0 < W)%nat -> Z.of_nat W < 2 ^ 32 -> exists o, first_nns_seq W n i o.
Proof. exact first_seq_total. Qed.
Print Assumptions C111_sequential_runs.
Theorem C111_sequential_taxicab_runs : forall W n i, exists o, first_nns_seq_td W n i o.
Proof. exact first_seq_td_total. Qed.
Print Assumptions C111_sequential_taxicab_runs.
Example C111_case : exists o, first_nns_comb 15 2 (of_val 0x1234) (of_val (0x1235 + 2 ^ 15 * 0x7fff)) o /\ val 15 o = 0x7fff.
Proof. exact first_comb_case. Qed.

(** * C112: the k nearest neighbours *)
Theorem C112_nearest : forall W K n g e o, (0 < K)%nat -> Z.of_nat W < 2 ^ 32 -> k_nns_seq W K n (fun t => (g t, e t)) o -> forall t, (t < n)%nat ->
  exists a, nearest K (map (fun u => (hdist W (g u) (e u), val W (e u))) (seq 0 (t + 1))) a /\
    forall j, (j < K)%nat -> val W (part (W * j) (o t)) = nth j (map snd a) 0.
Proof. exact k_nns_ok. Qed.
Print Assumptions C112_nearest.
Theorem C112_nearest_taxicab : forall W K n g e o, (0 < K)%nat -> k_nns_seq_td W K n (fun t => (g t, e t)) o -> forall t, (t < n)%nat ->
  exists a, nearest K (map (fun u => (tdist W (e u) (g u), val (2 * W) (g u))) (seq 0 (t + 1))) a /\
    forall j, (j < K)%nat -> val (2 * W) (part (2 * W * j) (o t)) = nth j (map snd a) 0.
Proof. exact k_nns_td_ok. Qed.
Print Assumptions C112_nearest_taxicab.
Theorem C112_runs : forall W K n i, (0 < W)%nat -> Z.of_nat W < 2 ^ 32 -> exists o, k_nns_seq W K n i o.
Proof. exact k_nns_total. Qed.
Print Assumptions C112_runs.
Theorem C112_taxicab_runs : forall W K n i, (0 < W)%nat -> exists o, k_nns_seq_td W K n i o.
Proof. exact k_nns_td_total. Qed.
Print Assumptions C112_taxicab_runs.
Example C112_case : exists o, k_nns_seq 8 2 4 (fun t => (of_val 3, of_val (nth t [0xff; 0x01; 0x07; 0x00] 0))) o /\
  forall x, x = 0x01 \/ x = 0x07 <-> x = val 8 (part (8 * 0) (o 3%nat)) \/ x = val 8 (part (8 * 1) (o 3%nat)).
Proof. exact k_nns_case. Qed.

(** * C113: the test circuits *)
Theorem C113_non_secret : forall N n g e o, non_secret_test N n (fun t => (g t, e t)) o ->
  forall t, (t < n)%nat -> val N (o t) = (if Nat.even t then val N (g t) + val N (e t) else val N (g t) - val N (e t)) mod 2 ^ Z.of_nat N.
Proof. exact non_secret_ok. Qed.
Print Assumptions C113_non_secret.
Theorem C113_public : forall p0 g0 e0 n p g e o, public_test p0 g0 e0 n (fun t => (p t, g t, e t)) o ->
  forall t, (t < n)%nat -> veq 32 (o t) (vxor (vxor (cat (rep false) 8 (vxor p0 (xors (t + 1) e))) (cat (rep false) 16 (vxor g0 (xors (t + 1) g)))) (vxor e0 (xors (t + 1) p))).
Proof. exact public_ok. Qed.
Print Assumptions C113_public.
Theorem C113_non_secret_runs : forall N n i, exists o, non_secret_test N n i o.
Proof. exact non_secret_total. Qed.
Print Assumptions C113_non_secret_runs.
Theorem C113_public_runs : forall p0 g0 e0 n i, exists o, public_test p0 g0 e0 n i o.
Proof. exact public_total. Qed.
Print Assumptions C113_public_runs.
Example C113_non_secret_case : exists o, non_secret_test 8 2 (fun _ => (of_val 5, of_val 7)) o /\ val 8 (o 0%nat) = 12 /\ val 8 (o 1%nat) = 254.
Proof. exact non_secret_case. Qed.
Example C113_public_case : exists o, public_test (of_val 1) (of_val 2) (of_val 4) 2 (fun t => (of_val 0x10000000, of_val 0x1000, of_val 0x10)) o /\ val 32 (o 0%nat) = 0x10001017 /\ val 32 (o 1%nat) = 7.
Proof. exact public_case. Qed.

(** * C114: the stack machine and the memory *)
Theorem C114_stack : forall N S n i o p s, stackMachine N S n i o -> (forall t, (t < n)%nat -> carries N (i t) (p t)) -> runs_within N S n p s ->
  forall t x r, (t < n)%nat -> s (Datatypes.S t) = x :: r -> val N (o t) = x.
Proof. exact stack_ok. Qed.
Print Assumptions C114_stack.
Theorem C114_xor_refuted : exists N S g st, forall e o st', stack_step N S (g, e) st o st' -> val N o <> Z.lxor (val N (st 0%nat)) (val N (st 1%nat)).
Proof. exact stack_no_xor. Qed.
Print Assumptions C114_xor_refuted.
Theorem C114_memory : forall M W n i o, Z.of_nat M < 2 ^ 32 -> select M W n i o -> forall t, (t < n)%nat ->
  let '(read_adr, _, _, _) := i t in val (log2 (M - 1)) read_adr < Z.of_nat M ->
  val W (o t) = contents W M (fun u => let '(_, w1, w2, w3) := i u in (w1, w2, w3)) t (val (log2 (M - 1)) read_adr).
Proof. exact select_ok. Qed.
Print Assumptions C114_memory.
Theorem C114_addresses : forall M, Z.of_nat M < 2 ^ 32 -> (0 < M)%nat -> Z.of_nat M <= 2 ^ Z.of_nat (log2 (M - 1)).
Proof. exact select_addresses. Qed.
Print Assumptions C114_addresses.
Theorem C114_stack_runs : forall N S n i, exists o, stackMachine N S n i o.
Proof. exact stack_total. Qed.
Print Assumptions C114_stack_runs.
Theorem C114_memory_runs : forall M W n i, exists o, select M W n i o.
Proof. exact select_total. Qed.
Print Assumptions C114_memory_runs.
Example C114_stack_case : exists o, stackMachine 8 8 6 demo_in o /\ val 8 (o 5%nat) = 256 - 14.
Proof. exact stack_case. Qed.
Example C114_memory_case : exists o, select 8 32 3 sel_in o /\ val 32 (o 0%nat) = 0 /\ val 32 (o 1%nat) = 77 /\ val 32 (o 2%nat) = 0.
Proof. exact select_case. Qed.
