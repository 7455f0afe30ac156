(** Cases for the scheduler, and what it gets wrong. *)
From Coq Require Import ZArith NArith List Bool Lia Arith Permutation.
From Verif Require Import Base Gate Circuit Spec Plain Sort SortOk Sched SchedSort SchedOk SchedEnd.
Import ListNotations.
Open Scope Z_scope.

(** Three inputs and five gates, out of order. *)
Definition shuffled : ReadCircuit :=
  mkRC 0 0 0 0 2 1 [3; 6] [mkRG 5 4 3 8; mkRG 7 5 4 6; mkRG 0 1 5 8; mkRG 4 (-3) 6 14; mkRG 5 2 7 6] [] [] 0.
(** Two gates that read each other. *)
Definition looped : ReadCircuit := mkRC 0 0 0 0 1 0 [2] [mkRG 2 0 1 8; mkRG 1 0 2 6] [] [] 0.
(** An exclusive or after the conjunction that reads it; the run ends with the conjunction. *)
Definition ended : ReadCircuit := mkRC 0 0 0 0 1 1 [2] [mkRG 3 0 2 8; mkRG 0 1 3 6] [] [] 2.
(** A chain of two gates. *)
Definition two : ReadCircuit := mkRC 0 0 0 0 1 1 [3] [mkRG 0 1 2 8; mkRG 2 1 3 6] [] [] 0.
(** The second gate leads nowhere. *)
Definition dead : ReadCircuit := mkRC 0 0 0 0 1 1 [2] [mkRG 0 1 2 8; mkRG 0 1 3 6] [] [] 0.

Ltac each H := cbn in H; decompose [or] H; try contradiction; clear H.
Lemma no_loop rc l : in_range rc -> TopologicalSort rc = Some (Some l) -> ~ has_loop rc.
Proof. intros R E L. apply (proj1 (topological_sort_iff rc R)) in L. congruence. Qed.
Lemma range_shuffled : in_range shuffled. Proof. intros g H; each H; subst g; cbn; lia. Qed.
Lemma range_looped : in_range looped. Proof. intros g H; each H; subst g; cbn; lia. Qed.
Lemma range_ended : in_range ended. Proof. intros g H; each H; subst g; cbn; lia. Qed.
Lemma range_two : in_range two. Proof. intros g H; each H; subst g; cbn; lia. Qed.
Lemma range_dead : in_range dead. Proof. intros g H; each H; subst g; cbn; lia. Qed.
Lemma loop_looped : has_loop looped.
Proof. exists 1. apply dep_more with 2; [|apply dep_one]; [exists 0%nat|exists 1%nat]; eexists; (split; [reflexivity|]); cbn; repeat split; try lia; auto. Qed.
Lemma translatable_shuffled : translatable shuffled.
Proof.
  assert (F : forall a c, bool_fun a = Some c -> exists f, bool_fun a = Some f) by eauto.
  split; cbn.
  - lia.
  - intros g H; each H; subst g; cbn; (split; [eexists; reflexivity|]); unfold wire_ref; cbn; lia.
  - tauto.
  - intros w H; each H; subst w; unfold wire_ref; cbn; lia.
  - auto.
  - apply (no_loop _ [0; 1; 2; 5; 7; 4; 3; 6] range_shuffled). vm_compute. reflexivity.
Qed.
Lemma translatable_ended : translatable ended.
Proof.
  split; cbn.
  - lia.
  - intros g H; each H; subst g; cbn; (split; [eexists; reflexivity|]); unfold wire_ref; cbn; lia.
  - tauto.
  - intros w H; each H; subst w; unfold wire_ref; cbn; lia.
  - right. unfold wire_ref; cbn; lia.
  - apply (no_loop _ [0; 1; 3; 2] range_ended). vm_compute. reflexivity.
Qed.

(** On two cores, the two gates of a chain get the same time slot. *)
Theorem parallel_refuted : exists rc s t u, in_range rc /\ roots_in_range rc /\ ~ has_loop rc /\
  reads rc (Z.of_nat (init_input_dff_size rc) + t) (Z.of_nat (init_input_dff_size rc) + u) /\
  (forall fuel sl, (2 <= fuel)%nat -> length sl = length (gate_list rc) -> Schedule fuel sl rc 2 [[-1; -1]; [-1; -1]] = Some (Done s)) /\
  exists c c' row row' k, rd (core s) c = Some row /\ rd (core s) c' = Some row' /\ rd row k = Some t /\ rd row' k = Some u.
Proof.
  exists two, (mkPlan [0; 1] [[0; -1]; [1; -1]] [1; 1] [1; 1] 2), 1, 0.
  split; [apply range_two|]. split; [intros w H; each H; subst w; cbn; lia|].
  split; [apply (no_loop _ [0; 1; 2; 3] range_two); vm_compute; reflexivity|].
  split; [exists 1%nat; eexists; split; [reflexivity|]; cbn; repeat split; auto; lia|].
  split.
  - intros fuel sl F L. destruct fuel as [|[|fuel]]; [lia|lia|]. destruct sl as [|x [|y [|z sl]]]; try discriminate L.
    cbv. destruct fuel; reflexivity.
  - exists 1, 0, [1; -1], [0; -1], 0. vm_compute. auto.
Qed.

(** A gate that leads nowhere is reported as a loop. *)
Theorem dead_refuted : exists rc, translatable rc /\ roots_in_range rc /\ ~ has_loop rc /\ FindPath rc = Some false.
Proof.
  exists dead. assert (NL : ~ has_loop dead) by (apply (no_loop _ [0; 1; 2; 3] range_dead); vm_compute; reflexivity).
  split; [|split; [intros w H; each H; subst w; cbn; lia|split; [exact NL|vm_compute; reflexivity]]].
  split; cbn.
  - lia.
  - intros g H; each H; subst g; cbn; (split; [eexists; reflexivity|]); unfold wire_ref; cbn; lia.
  - tauto.
  - intros w H; each H; subst w; unfold wire_ref; cbn; lia.
  - auto.
  - exact NL.
Qed.

(** The terminate wire keeps its number, which belongs to another gate afterwards. *)
Theorem terminate_refuted : exists rc rc' gs x, translatable rc /\ gate_list rc <> [] /\
  (forall fuel sl, (length (gate_list rc) <= fuel)%nat -> length sl = length (gate_list rc) -> TopologicalSortMultiCore fuel sl rc = Some (Some rc')) /\
  scheduled rc' = Some gs /\ (exists V, consistent (circuit_with rc' gs) x V) /\ (exists W, consistent (unsorted rc) x W) /\
  forall V W, consistent (circuit_with rc' gs) x V -> consistent (unsorted rc) x W ->
    V 0%nat (terminate_id (circuit_with rc' gs)) = true /\ W 0%nat (rc_terminate_id rc) = false.
Proof.
  exists ended, (mkRC 0 0 0 0 1 1 [3] [mkRG 2 0 3 8; mkRG 0 1 2 6] [] [1; 0] 2), [mkRG 0 1 2 6; mkRG 2 0 3 8], (mkInputs 0 0 0 0 0 1).
  split; [apply translatable_ended|]. split; [discriminate|]. split.
  { intros fuel sl F L. destruct sl as [|x [|y [|z sl]]]; try discriminate L. cbn in F. destruct fuel as [|[|fuel]]; [lia|lia|].
    cbv. destruct fuel; reflexivity. }
  split; [reflexivity|]. split.
  { apply consistent_exists. split; cbn.
    - intros [|[|[|i]]] g H; try discriminate H; injection H as <-; cbn; unfold ref_ok, first_gate, first_dff, first_input; cbn; repeat split; eauto; lia.
    - intros [|i] w H; discriminate H.
    - reflexivity.
    - intros [|[|i]] w H; try discriminate H; injection H as <-. unfold last_wire, first_gate, first_dff, first_input; cbn; lia.
    - right. unfold last_wire, first_gate, first_dff, first_input; cbn; lia. }
  split. { destruct (sort_netlist_meaning ended translatable_ended) as (r' & g' & _ & _ & H). apply H. }
  intros V W CV CW.
  pose proof (cons_input _ _ _ CV 0%nat 0%nat ltac:(cbn; lia)) as V0. pose proof (cons_input _ _ _ CV 0%nat 1%nat ltac:(cbn; lia)) as V1.
  pose proof (cons_gate _ _ _ CV 0%nat 0%nat _ _ eq_refl eq_refl) as V2.
  pose proof (cons_input _ _ _ CW 0%nat 0%nat ltac:(cbn; lia)) as W0.
  pose proof (cons_gate _ _ _ CW 0%nat 0%nat _ _ eq_refl eq_refl) as W2.
  cbn in V0, V1, V2, W0, W2 |- *. unfold operand in V2, W2. cbn in V2, W2. rewrite V0, V1 in V2. rewrite W0 in W2. cbn in V2, W2. split; [exact V2|].
  rewrite W2. destruct (W 0%nat 3); reflexivity.
Qed.

(** Chains that follow the wires, whatever the order of the list. *)
Inductive path (G : list ReadGate) : nat -> nat -> Prop :=
| path_one i : (i < length G)%nat -> path G i 1
| path_more i j g h k : nth_error G i = Some g -> nth_error G j = Some h ->
    rg_in0 h = rg_out g \/ rg_in1 h = rg_out g -> path G j k -> path G i (S k).
(** In a list that is not in order, readers that come earlier do not count: a gate with a
    longer path is put after one with a shorter path. *)
Theorem level_refuted : exists G, (forall sl, length sl = length G -> exists index a b i j, TopSort G (length G) sl = Some index /\
  nth_error index a = Some (Z.of_nat i) /\ nth_error index b = Some (Z.of_nat j) /\ (a < b)%nat /\
  path G j 3 /\ forall k, path G i k -> (k <= 2)%nat).
Proof.
  exists [mkRG 5 0 2 8; mkRG 0 1 3 8; mkRG 3 1 4 8; mkRG 0 1 5 6; mkRG 2 1 6 6]. intros sl L.
  destruct sl as [|x0 [|x1 [|x2 [|x3 [|x4 [|x5 sl]]]]]]; try discriminate L.
  exists [1; 0; 4; 3; 2], 0%nat, 3%nat, 1%nat, 3%nat.
  split; [cbv; reflexivity|]. split; [reflexivity|]. split; [reflexivity|]. split; [lia|]. split.
  - eapply (path_more _ 3 0); [reflexivity|reflexivity|cbn; auto|]. eapply (path_more _ 0 4); [reflexivity|reflexivity|cbn; auto|]. apply path_one. cbn. lia.
  - assert (P2 : forall k, path [mkRG 5 0 2 8; mkRG 0 1 3 8; mkRG 3 1 4 8; mkRG 0 1 5 6; mkRG 2 1 6 6] 2 k -> (k <= 1)%nat).
    { intros k P. inversion P as [|i j g h k' G1 G2 O Q]; subst; [lia|]. injection G1 as <-.
      destruct j as [|[|[|[|[|j]]]]]; cbn in G2; try (injection G2 as <-; cbn in O; lia). destruct j; discriminate. }
    intros k P. inversion P as [|i j g h k' G1 G2 O Q]; subst; [lia|]. injection G1 as <-.
    destruct j as [|[|[|[|[|j]]]]]; cbn in G2; try (injection G2 as <-; cbn in O; lia); [apply P2 in Q; lia|]. destruct j; discriminate.
Qed.
