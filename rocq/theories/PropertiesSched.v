(** Theorems about the scheduler for several cores (scd/scheduling.cpp:26-329); each is
    followed by a concrete case that meets its hypotheses.

    [chain G i k]: k gates, the first being gate i, each later in the list than the one
    before it and reading its output; [level G i m]: m is the length of the longest.
    [ordered rc ord]: every gate of [ord] comes after the gates that it reads.
    [dealt nc ord cores]: gate number k of [ord] is on core k mod nc, in slot k / nc.
    [room rc nc cores]: nc rows with at least (number of gates) / nc slots each.
    The uninitialised arrays [sl] and [cores] are arbitrary. *)
From Coq Require Import ZArith NArith List Bool Lia Arith Permutation.
From Verif Require Import Base Gate Circuit Spec Plain Sort SortOk Sched SchedSort SchedOk SchedEnd SchedDemo.
Import ListNotations.
Open Scope Z_scope.

(** * C80 Gates are sorted by their level *)
Theorem C80_quick_sort : forall arr idx, arr <> [] -> length idx = length arr -> exists arr' idx',
  QuickSort (S (length arr)) arr idx 0 (Z.of_nat (length arr) - 1) = Some (arr', idx') /\
  length idx' = length arr' /\ Permutation (combine arr' idx') (combine arr idx) /\ non_increasing arr'.
Proof. exact quick_sort_sorts. Qed.
Print Assumptions C80_quick_sort.
Theorem C80_level_exists : forall G i, (i < length G)%nat -> exists m, level G i m /\ (1 <= m)%nat.
Proof. exact level_exists. Qed.
Print Assumptions C80_level_exists.
Theorem C80_top_sort : forall G sl, G <> [] -> length sl = length G -> exists index, TopSort G (length G) sl = Some index /\
  Permutation index (map Z.of_nat (seq 0 (length G))) /\
  forall a b i j mi mj, (a <= b)%nat -> nth_error index a = Some (Z.of_nat i) -> nth_error index b = Some (Z.of_nat j) ->
    level G i mi -> level G j mj -> (mj <= mi)%nat.
Proof. exact top_sort_ok. Qed.
Print Assumptions C80_top_sort.
Example C80_example : QuickSort 6 [2; 5; 5; 1; 3] [0; 1; 2; 3; 4] 0 4 = Some ([5; 5; 3; 2; 1], [2; 1; 4; 0; 3]) /\
  TopSort (gate_list shuffled) 5 [7; 7; 7; 7; 7] = Some [2; 1; 4; 3; 0] /\ chain (gate_list shuffled) 1 2 /\ chain (gate_list shuffled) 2 2.
Proof.
  split; [vm_compute; reflexivity|]. split; [vm_compute; reflexivity|]. split.
  - apply (chain_more _ 1 3 (mkRG 7 5 4 6) (mkRG 4 (-3) 6 14) 1); [reflexivity|reflexivity|lia|cbn; auto|apply chain_one; cbn; lia].
  - apply (chain_more _ 2 4 (mkRG 0 1 5 8) (mkRG 5 2 7 6) 1); [reflexivity|reflexivity|lia|cbn; auto|apply chain_one; cbn; lia].
Qed.
(** [path G i k]: like a chain, in whatever order the gates are listed. *)
Theorem C80_level_refuted : exists G, (forall sl, length sl = length G -> exists index a b i j, TopSort G (length G) sl = Some index /\
  nth_error index a = Some (Z.of_nat i) /\ nth_error index b = Some (Z.of_nat j) /\ (a < b)%nat /\
  path G j 3 /\ forall k, path G i k -> (k <= 2)%nat).
Proof. exact level_refuted. Qed.
Print Assumptions C80_level_refuted.
(** Without gates, an element that does not exist is read. *)
Theorem C80_no_gates_refuted : forall fuel G, QuickSort (S fuel) [] [] 0 (-1) = None /\ TopSort G 0 [] = None.
Proof. exact top_sort_empty. Qed.
Print Assumptions C80_no_gates_refuted.

(** * C81 Every gate is scheduled once, after the gates it reads; with a loop scheduling never ends *)
Theorem C81_schedule : forall rc, in_range rc -> roots_in_range rc -> gate_list rc <> [] ->
  forall nc, (1 <= nc)%nat -> forall sl, length sl = length (gate_list rc) -> forall cores, room rc nc cores ->
  forall fuel, ~ has_loop rc -> (length (gate_list rc) <= fuel)%nat -> exists s ord,
  Schedule fuel sl rc nc cores = Some (Done s) /\
  Permutation ord (map Z.of_nat (seq 0 (length (gate_list rc)))) /\ ordered rc ord /\ dealt nc ord (core s).
Proof. exact schedule_ok. Qed.
Print Assumptions C81_schedule.
Theorem C81_loop : forall rc, in_range rc -> roots_in_range rc -> gate_list rc <> [] ->
  forall nc, (1 <= nc)%nat -> forall sl, length sl = length (gate_list rc) -> forall cores, room rc nc cores ->
  forall fuel, has_loop rc -> exists s, Schedule fuel sl rc nc cores = Some (Running s).
Proof. exact schedule_loop. Qed.
Print Assumptions C81_loop.
Example C81_example : in_range shuffled /\ roots_in_range shuffled /\ ~ has_loop shuffled /\
  room shuffled 2 [repeat 9 3; repeat 9 3] /\
  Schedule 5 [7; 7; 7; 7; 7] shuffled 2 [repeat 9 3; repeat 9 3] =
    Some (Done (mkPlan [0; 0; 0; 1; 1] [[2; 1; 0]; [4; 3; 9]] [3; 2] [3; 2] 5)) /\
  in_range looped /\ roots_in_range looped /\ has_loop looped.
Proof.
  split; [apply range_shuffled|]. split; [apply (translatable_roots _ translatable_shuffled)|]. split; [apply (tr_loop _ translatable_shuffled)|].
  split. { split; [cbn; lia|]. intros [|[|c]] row C E; [| |lia]; injection E as <-; cbn; lia. }
  split; [vm_compute; reflexivity|]. split; [apply range_looped|]. split; [|apply loop_looped]. intros w H. each H. subst w. cbn. lia.
Qed.
(** The slots cannot be worked through by the cores at the same time: the two gates of a
    chain get the same slot on two cores. *)
Theorem C81_parallel_refuted : exists rc s t u, in_range rc /\ roots_in_range rc /\ ~ has_loop rc /\
  reads rc (Z.of_nat (init_input_dff_size rc) + t) (Z.of_nat (init_input_dff_size rc) + u) /\
  (forall fuel sl, (2 <= fuel)%nat -> length sl = length (gate_list rc) -> Schedule fuel sl rc 2 [[-1; -1]; [-1; -1]] = Some (Done s)) /\
  exists c c' row row' k, rd (core s) c = Some row /\ rd (core s) c' = Some row' /\ rd row k = Some t /\ rd row' k = Some u.
Proof. exact parallel_refuted. Qed.
Print Assumptions C81_parallel_refuted.

(** * C82 The search for loops *)
Theorem C82_find_path : forall rc, in_range rc -> roots_in_range rc -> exists ok, FindPath rc = Some ok /\
  (ok = true <-> ~ has_loop rc /\
    forall w, Z.of_nat (init_input_dff_size rc) <= w < Z.of_nat (init_input_dff_size rc + length (gate_list rc)) -> live rc w).
Proof. exact find_path_iff. Qed.
Print Assumptions C82_find_path.
Example C82_example : in_range shuffled /\ roots_in_range shuffled /\ FindPath shuffled = Some true /\ FindPath looped = Some false.
Proof. split; [apply range_shuffled|]. split; [apply (translatable_roots _ translatable_shuffled)|]. split; vm_compute; reflexivity. Qed.
(** What it reports as a loop can be a gate that leads nowhere. *)
Theorem C82_dead_refuted : exists rc, translatable rc /\ roots_in_range rc /\ ~ has_loop rc /\ FindPath rc = Some false.
Proof. exact dead_refuted. Qed.
Print Assumptions C82_dead_refuted.

(** * C83 Sorting with the scheduler keeps the meaning of a netlist *)
Theorem C83_keeps_meaning : forall rc, translatable rc -> gate_list rc <> [] -> rc_terminate_id rc < Z.of_nat (init_input_dff_size rc) ->
  forall fuel sl, (length (gate_list rc) <= fuel)%nat -> length sl = length (gate_list rc) -> exists rc' gs,
  TopologicalSortMultiCore fuel sl rc = Some (Some rc') /\ scheduled rc' = Some gs /\
  let c := circuit_with rc' gs in
  well_formed c /\
  p_init_size c = rc_p_init rc /\ g_init_size c = rc_g_init rc /\ e_init_size c = rc_e_init rc /\
  p_input_size c = rc_p_input rc /\ g_input_size c = rc_g_input rc /\ e_input_size c = rc_e_input rc /\
  length (D c) = length (dff_list rc) /\ length (garbledGates c) = length (gate_list rc) /\ length (outputs c) = length (output_list rc) /\
  (terminate_id c = 0 <-> rc_terminate_id rc = 0) /\
  forall x, (exists W, consistent (unsorted rc) x W) /\
    forall V W, consistent c x V -> consistent (unsorted rc) x W ->
    forall cy, (forall i w, nth_error (output_list rc) i = Some w -> exists w', nth_error (outputs c) i = Some w' /\ V cy w' = W cy w) /\
      (rc_terminate_id rc <> 0 -> V cy (terminate_id c) = W cy (rc_terminate_id rc)).
Proof. exact multi_core_meaning. Qed.
Print Assumptions C83_keeps_meaning.
Example C83_example : translatable shuffled /\ gate_list shuffled <> [] /\ rc_terminate_id shuffled < Z.of_nat (init_input_dff_size shuffled) /\
  TopologicalSortMultiCore 5 [7; 7; 7; 7; 7] shuffled = Some (Some (mkRC 0 0 0 0 2 1 [7; 6]
    [mkRG 3 5 7 8; mkRG 4 3 5 6; mkRG 0 1 3 8; mkRG 5 (-3) 6 14; mkRG 3 2 4 6] [] [2; 4; 1; 3; 0] 0)).
Proof. split; [apply translatable_shuffled|]. split; [discriminate|]. split; [cbn; lia|]. vm_compute. reflexivity. Qed.
(** A terminate wire that a gate drives is not renumbered: the run then ends by the value
    of another wire. *)
Theorem C83_terminate_refuted : exists rc rc' gs x, translatable rc /\ gate_list rc <> [] /\
  (forall fuel sl, (length (gate_list rc) <= fuel)%nat -> length sl = length (gate_list rc) -> TopologicalSortMultiCore fuel sl rc = Some (Some rc')) /\
  scheduled rc' = Some gs /\ (exists V, consistent (circuit_with rc' gs) x V) /\ (exists W, consistent (unsorted rc) x W) /\
  forall V W, consistent (circuit_with rc' gs) x V -> consistent (unsorted rc) x W ->
    V 0%nat (terminate_id (circuit_with rc' gs)) = true /\ W 0%nat (rc_terminate_id rc) = false.
Proof. exact terminate_refuted. Qed.
Print Assumptions C83_terminate_refuted.
