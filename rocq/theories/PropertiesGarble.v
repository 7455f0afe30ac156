(** Theorems about garbling and evaluation.  Statements use the specification
    ([Spec]), the session vocabulary ([Results]) and the model functions only;
    each is followed by a concrete case that meets its hypotheses. *)
From Coq Require Import ZArith NArith List Bool Lia.
From Verif Require Import Base Gate Circuit Spec GateFacts GateSim CycleModel Run Plain Safe Comm Demo Results.
Import ListNotations.
Open Scope Z_scope.

(** * C01 One gate

    [holds R b p v e ev]: garbler's labels [p] and value [v], evaluator's label
    [e] and value [ev] represent bit [b]. *)
Theorem C01_gate : forall aes rnd t f cid g R va vb in0 v0 e0 ev0 in1 v1 e1 ev1 tabs ind dr,
  bool_fun t = Some f -> t <> NOTGATE -> get_LSB R = true -> (N.of_nat g < 2 ^ 32)%N ->
  holds R va in0 v0 e0 ev0 -> holds R vb in1 v1 e1 ev1 ->
  (IsSecret v0 = true -> IsSecret v1 = true -> comparable R va vb in0 in1 ev0 ev1) ->
  0 <= ind < Z.of_nat (length tabs) ->
  exists out v tabs' ind' eout ev,
    GarbleGate aes in0 v0 in1 v1 t cid (N.of_nat g) R (tabs, ind) = Some (out, v, (tabs', ind')) /\
    EvalGate aes rnd e0 ev0 e1 ev1 t cid (N.of_nat g) (tabs', ind, dr) = Some (eout, ev, (tabs', ind', dr)) /\
    holds R (f va vb) out v eout ev.
Proof. exact gate_correct. Qed.
Print Assumptions C01_gate.
Example C01_gate_example : let R := 0x8421%N in
  holds R true (0x1234%N, N.lxor 0x1234 R) SECRET (N.lxor 0x1234 R) SECRET_INV /\
  holds R false (0x5678%N, N.lxor 0x5678 R) SECRET 0x5678%N SECRET /\
  comparable R true false (0x1234%N, N.lxor 0x1234 R) (0x5678%N, N.lxor 0x5678 R) SECRET_INV SECRET /\
  bool_fun 11 = Some (fun a b => negb a || b).
Proof.
  cbv zeta. split; [apply (holds_secret _ true 0x1234%N true)|].
  split; [apply (holds_secret _ false 0x5678%N false)|]. split; [left; split; reflexivity|reflexivity].
Qed.

Theorem C01_not_gate : forall aes rnd cid g R va in0 v0 e0 ev0 in1 e1 v1 ev1 tabs ind dr,
  holds R va in0 v0 e0 ev0 ->
  (IsSecret ev1 = IsSecret v1 /\ (IsSecret v1 = false -> ev1 = v1)) ->
  exists out v eout ev,
    GarbleGate aes in0 v0 in1 v1 NOTGATE cid (N.of_nat g) R (tabs, ind) = Some (out, v, (tabs, ind)) /\
    EvalGate aes rnd e0 ev0 e1 ev1 NOTGATE cid (N.of_nat g) (tabs, ind, dr) = Some (eout, ev, (tabs, ind, dr)) /\
    holds R (negb va) out v eout ev.
Proof. exact not_gate_correct. Qed.
Print Assumptions C01_not_gate.
Example C01_not_gate_example :
  holds 0x8421%N true (0x1234%N, N.lxor 0x1234 0x8421) SECRET (N.lxor 0x1234 0x8421) SECRET /\
  IsSecret SECRET_INV = IsSecret SECRET.
Proof. split; [apply (holds_secret _ true 0x1234%N false)|reflexivity]. Qed.

(** The table of a non-linear gate: both rows, without the comparison shortcuts. *)
Theorem C01_half_gates : forall aes t f cid gid R A B (va vb : bool) out T,
  bool_fun t = Some f -> t <> XORGATE -> t <> XNORGATE -> t <> NOTGATE ->
  get_LSB R = true ->
  HalfGates aes (A, N.lxor A R) (B, N.lxor B R) t cid gid R = (out, T) ->
  snd out = N.lxor (fst out) R /\
  EvalHalfGates aes (if va then N.lxor A R else A) (if vb then N.lxor B R else B) T cid gid =
    (if f va vb then snd out else fst out).
Proof. exact half_gates_eval. Qed.
Print Assumptions C01_half_gates.
Example C01_half_gates_example : exists out T,
  HalfGates toy_aes (0x1234%N, N.lxor 0x1234 0x8421) (0x5679%N, N.lxor 0x5679 0x8421) NORNGATE 3 7 0x8421%N = (out, T) /\
  fst T <> snd T /\ EvalHalfGates toy_aes 0x1234%N (N.lxor 0x5679 0x8421) T 3 7 = snd out.
Proof. do 2 eexists. split; [vm_compute; reflexivity|]. split; [discriminate|]. vm_compute. reflexivity. Qed.

(** * C02 Cycle-level correctness, any number of cycles *)
Theorem C02_cycles : forall s n V,
  honest s -> no_collisions s n -> consistent (s_c s) (s_x s) V ->
  exists m os, run s n = Some (m, os) /\ length os = n /\
    forall cy o, nth_error os cy = Some o ->
      length (o_gouts o) = length (outputs (s_c s)) /\ length (o_eouts o) = length (outputs (s_c s)) /\
      (forall i u, nth_error (outputs (s_c s)) i = Some u ->
        exists g e, nth_error (o_gouts o) i = Some g /\ nth_error (o_eouts o) i = Some e /\
          decodes (V cy u) g e) /\
      (0 < terminate_id (s_c s) -> exists g e, o_gterm o = Some g /\ o_eterm o = Some e /\
          decodes (V cy (terminate_id (s_c s))) g e).
Proof. exact run_decodes. Qed.
Print Assumptions C02_cycles.
Example C02_cycles_example : let s := demo_session demo_x true in
  honest s /\ no_collisions s 4 /\ consistent (s_c s) (s_x s) (demo_V demo_x) /\
  map (fun cy => map (demo_V demo_x cy) (outputs demo)) [0; 1; 2; 3]%nat =
  [[false; true; false; false; true]; [true; false; true; false; false];
   [false; true; false; false; true]; [false; false; true; false; false]].
Proof.
  cbv zeta. split; [apply demo_honest|]. split; [apply demo_free|]. split; [apply demo_consistent|].
  vm_compute. reflexivity.
Qed.

(** * C03 Table synchronisation *)
Theorem C03_table_sync : forall s n, honest s -> no_collisions s n ->
  exists m os, run s n = Some (m, os) /\ length os = n /\
    forall o, In o os -> o_used o = Z.of_nat (length (o_sent o)).
Proof. exact run_table_sync. Qed.
Print Assumptions C03_table_sync.
Example C03_table_sync_example : let s := demo_session demo_x false in
  honest s /\ no_collisions s 4 /\
  option_map (fun r => map (fun o => (o_used o, length (o_sent o))) (snd r)) (run s 4) =
  Some [(3, 3%nat); (2, 2%nat); (3, 3%nat); (2, 2%nat)].
Proof.
  cbv zeta. split; [apply demo_honest|]. split; [apply demo_free|]. vm_compute. reflexivity.
Qed.

(** * C04 Refuted: leftover memory in the evaluator's table array *)
Theorem C04_uninitialised_tables_refuted :
  exists s et m os o, honest s /\ no_collisions s 1 /\ length et = length (m_et (s_m0 s)) /\
    run (with_tables s et) 1 = Some (m, os) /\ In o os /\
    o_used o <> Z.of_nat (length (o_sent o)).
Proof. exact leftover_mismatch. Qed.
Print Assumptions C04_uninitialised_tables_refuted.

(** * C05 Skipping soundness *)
Theorem C05_public_wires : forall s1 s2 n V1 V2,
  honest s1 -> honest s2 -> no_collisions s1 n -> no_collisions s2 n ->
  s_c s1 = s_c s2 -> p_init (s_x s1) = p_init (s_x s2) -> p_input (s_x s1) = p_input (s_x s2) ->
  consistent (s_c s1) (s_x s1) V1 -> consistent (s_c s2) (s_x s2) V2 ->
  exists m1 os1 m2 os2, run s1 n = Some (m1, os1) /\ run s2 n = Some (m2, os2) /\
    map public_trace os1 = map public_trace os2 /\
    forall cy, n = S cy ->
      garbler_values m1 = garbler_values m2 /\
      forall u v, first_input (s_c s1) <= u -> rd (garbler_values m1) u = Some v ->
        v = SECRET \/ (v = b2z (V1 cy u) /\ V2 cy u = V1 cy u /\ rd (evaluator_values m1) u = Some v).
Proof. exact run_public. Qed.
Print Assumptions C05_public_wires.
Example C05_public_wires_example :
  let s1 := demo_session demo_x true in let s2 := demo_session demo_x' false in
  honest s1 /\ honest s2 /\ no_collisions s1 4 /\ no_collisions s2 4 /\ s_c s1 = s_c s2 /\
  p_init (s_x s1) = p_init (s_x s2) /\ p_input (s_x s1) = p_input (s_x s2) /\
  g_input (s_x s1) <> g_input (s_x s2) /\
  option_map (fun r => garbler_values (fst r)) (run s1 4) =
    Some [-1; -1; -1; 0; -1; -1; -1; -1; -1; 0; -1; -1; -1; 1; -1; -1; -1; -1; 0; 1; 0].
Proof.
  cbv zeta. split; [apply demo_honest|]. split; [apply demo_honest|]. split; [apply demo_free|].
  split; [apply demo_free'|]. do 3 (split; [reflexivity|]). split; [discriminate|]. vm_compute. reflexivity.
Qed.

(** * C06, C26 Needed gates keep their labels and tables; the two labels of a
    secret wire differ by R (hence in the colour bit) and the evaluator holds
    the right one *)
Theorem C06_needed_gates : forall s n V cy,
  honest s -> no_collisions s n -> consistent (s_c s) (s_x s) V -> n = S cy ->
  exists m os, run s n = Some (m, os) /\
    (forall u, first_input (s_c s) <= u < first_gate (s_c s) -> wire_held (s_R s) (V cy u) m u) /\
    (forall k, needed (s_c s) (wires_val (m_g m)) k ->
       (exists f, nth_error (fanout (m_g m)) k = Some f /\ 0 < f) /\
       (exists f, nth_error (fanout (m_e m)) k = Some f /\ 0 < f) /\
       wire_held (s_R s) (V cy (first_gate (s_c s) + Z.of_nat k)) m (first_gate (s_c s) + Z.of_nat k)).
Proof. exact run_labels. Qed.
Print Assumptions C06_needed_gates.
Example C06_needed_gates_example : let s := demo_session demo_x true in
  honest s /\ no_collisions s 3 /\ consistent (s_c s) (s_x s) (demo_V demo_x) /\
  (exists m os, run s 3 = Some (m, os) /\ needed demo (wires_val (m_g m)) 0).
Proof. exact demo_needed. Qed.

Theorem C26_colour_bits : forall R b p e ev, get_LSB R = true -> holds R b p SECRET e ev ->
  snd p = N.lxor (fst p) R /\ get_LSB (snd p) = negb (get_LSB (fst p)) /\
  e = (if b then snd p else fst p) /\ xorb (get_LSB (fst p)) (get_LSB e) = b.
Proof. exact holds_colour. Qed.
Print Assumptions C26_colour_bits.
Example C26_colour_bits_example :
  holds 0x8421%N true (0x1234%N, N.lxor 0x1234 0x8421) SECRET (N.lxor 0x1234 0x8421) SECRET_INV.
Proof. apply (holds_secret _ true 0x1234%N true). Qed.

(** * C07 Communication *)
Theorem C07_tables : forall s n, honest s ->
  exists m os, run s n = Some (m, os) /\ length os = n /\
    forall o, In o os ->
      (length (o_sent o) <= NumOfNonXor (s_c s))%nat /\
      NoDup (map gid (o_sent o)) /\
      (forall tb, In tb (o_sent o) -> exists k g, gid tb = N.of_nat k /\
          nth_error (garbledGates (s_c s)) k = Some g /\
          type g <> XORGATE /\ type g <> XNORGATE /\ type g <> NOTGATE).
Proof. exact run_tables. Qed.
Print Assumptions C07_tables.
Example C07_tables_example : honest (demo_session demo_x true) /\
  option_map (fun r => map (fun o => map gid (o_sent o)) (snd r)) (run (demo_session demo_x true) 2) =
  Some [[0; 2; 5]; [0; 2]]%N.
Proof. split; [apply demo_honest|]. vm_compute. reflexivity. Qed.

Theorem C07_public_circuit : forall s n, honest s ->
  g_init_size (s_c s) = O -> e_init_size (s_c s) = O -> g_input_size (s_c s) = O -> e_input_size (s_c s) = O ->
  exists m os, run s n = Some (m, os) /\ length os = n /\
    forall o, In o os -> o_sent o = [] /\ o_used o = 0 /\
      (forall y, In y (o_gouts o) -> IsSecret (snd y) = false) /\
      (forall y, In y (o_eouts o) -> IsSecret (snd y) = false).
Proof. exact run_public_circuit. Qed.
Print Assumptions C07_public_circuit.
Example C07_public_circuit_example : honest counter_session /\
  option_map (fun r => map (fun o => map snd (o_eouts o)) (snd r)) (run counter_session 4) =
  Some [[1; 0]; [0; 1]; [1; 1]; [0; 0]].
Proof. split; [exact counter_honest|]. vm_compute. reflexivity. Qed.

(** * C08 No out-of-bounds access ([None] is an out-of-bounds access) *)
Theorem C08_memory_safe : forall c fan0 aes R rnd reset p_init p_input ginit gin einit ein,
  refs_in_range c -> length fan0 = length (garbledGates c) ->
  (forall k, 0 <= k < Z.of_nat (get_secret_init_size c) -> exists l, ginit k = Some l) ->
  (forall cy i, (i < get_secret_input_size c)%nat -> exists l, gin cy i = Some l) ->
  (forall k, 0 <= k < Z.of_nat (get_secret_init_size c) -> exists l, einit k = Some l) ->
  (forall cy i, (i < get_secret_input_size c)%nat -> exists l, ein cy i = Some l) ->
  forall n m0, machine_sized c m0 ->
  exists m os, machine_run c fan0 aes R rnd reset p_init p_input ginit gin einit ein n m0 = Some (m, os) /\
    machine_sized c m /\ length os = n /\
    forall o, In o os -> (length (o_sent o) <= NumOfNonXor c)%nat /\ 0 <= o_used o <= Z.of_nat (NumOfNonXor c) /\
      length (o_gouts o) = output_size c /\ length (o_eouts o) = output_size c.
Proof. exact machine_run_safe. Qed.
Print Assumptions C08_memory_safe.
(** A circuit with an unknown gate type, a forward reference and a reference far
    out of range still meets the hypotheses. *)
Example C08_memory_safe_example : let c := {|
    p_init_size := 0; g_init_size := 0; e_init_size := 0; p_input_size := 0; g_input_size := 1; e_input_size := 1;
    garbledGates := [ mkGate 3 1 2 77; mkGate 2 90 3 ANDGATE ];
    outputs := [3]; D := []; I := []; terminate_id := 0 |} in
  refs_in_range c /\ machine_sized c (demo_machine c).
Proof. exact odd_circuit_sized. Qed.

(** * C10 FillFanout *)
Theorem C10_fill_fanout : forall c junk,
  length junk = length (garbledGates c) ->
  (forall w, In w (D c) -> w < last_wire c) -> (forall w, In w (outputs c) -> w < last_wire c) ->
  (0 < terminate_id c -> terminate_id c < last_wire c) ->
  exists fan ok, FillFanout c junk = Some (fan, ok) /\ length fan = length (garbledGates c) /\
    (topological c -> forall k, (k < length (garbledGates c))%nat ->
       nth_error fan k = Some (Z.of_nat (count_occ Z.eq_dec (reads c) (first_gate c + Z.of_nat k)))) /\
    (ok = true <-> topological c /\
       forall k, (k < length (garbledGates c))%nat -> In (first_gate c + Z.of_nat k) (reads c)).
Proof. exact fill_fanout_counts. Qed.
Print Assumptions C10_fill_fanout.
Example C10_fill_fanout_example :
  FillFanout demo (repeat 99 11) = Some ([1; 3; 2; 1; 2; 2; 1; 1; 2; 2; 1], true) /\
  FillFanout dropped [7; 8] = Some ([2; 1], true) /\
  option_map snd (FillFanout {| p_init_size := 0; g_init_size := 0; e_init_size := 0;
     p_input_size := 0; g_input_size := 1; e_input_size := 1;
     garbledGates := [ mkGate 0 1 2 ANDGATE; mkGate 0 1 3 XORGATE ];
     outputs := [3]; D := []; I := []; terminate_id := 0 |} [7; 8]) = Some false.
Proof. split; [|split]; vm_compute; reflexivity. Qed.

(** * C28 Refuted: labels are compared in full *)
Theorem C28_half_comparison_refuted :
  exists s a b m os o g V, honest s /\ consistent (s_c s) (s_x s) V /\
    s_gin s 0 0 = Some (a, N.lxor a (s_R s)) /\ s_gin s 0 1 = Some (b, N.lxor b (s_R s)) /\
    a <> b /\ a <> N.lxor b (s_R s) /\ (a < 2 ^ 128)%N /\ (b < 2 ^ 128)%N /\
    run s 1 = Some (m, os) /\ nth_error os 0 = Some o /\
    nth_error (outputs (s_c s)) 0 = Some 2 /\ V O 2 = true /\
    nth_error (o_gouts o) 0 = Some g /\ snd g = 0.
Proof. exact half_equal_wrong. Qed.
Print Assumptions C28_half_comparison_refuted.

(** * C30 The plaintext evaluator *)
Theorem C30_plaintext : forall c x V period n wl0 ll0, well_formed c -> consistent c x V ->
  length wl0 = get_wire_size c -> length ll0 = dff_size c ->
  exists out, EvalauatePlaintext c x true n period wl0 ll0 = Some (true, out, executed c V period n) /\
    (forall cy i u, (cy < executed c V period n)%nat -> nth_error (outputs c) i = Some u ->
       N.testbit out (N.of_nat (cy * output_size c + i)) = V cy u) /\
    (forall p, (N.of_nat (executed c V period n * output_size c) <= p)%N -> N.testbit out p = false).
Proof. exact EvalauatePlaintext_ok. Qed.
Print Assumptions C30_plaintext.
Theorem C30_semantics_exists : forall c x, well_formed c -> exists V, consistent c x V.
Proof. exact consistent_exists. Qed.
Print Assumptions C30_semantics_exists.
Theorem C30_semantics_unique : forall c x V W, well_formed c -> consistent c x V -> consistent c x W ->
  forall cy u, first_input c <= u < last_wire c -> W cy u = V cy u.
Proof. exact consistent_functional. Qed.
Print Assumptions C30_semantics_unique.
Example C30_plaintext_example : well_formed demo /\ consistent demo demo_x (demo_V demo_x) /\
  EvalauatePlaintext demo demo_x true 4 1 (repeat true 21) [true; true] = Some (true, 18%N, 1%nat) /\
  EvalauatePlaintext demo demo_x true 4 0 (repeat true 21) [true; true] = Some (true, 149682%N, 4%nat).
Proof.
  split; [apply demo_wf|]. split; [apply demo_consistent|]. split; vm_compute; reflexivity.
Qed.
