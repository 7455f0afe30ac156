(** FindPath, Schedule and TopologicalSortMultiCore (scd/scheduling.cpp:109-329). *)
From Coq Require Import ZArith NArith List Bool Lia Arith Permutation FinFun.
From Verif Require Import Base Gate Circuit Spec Plain Sort SortOk Sched SchedSort SchedOk.
Import ListNotations.
Open Scope Z_scope.

(** What the search starts from: the inputs of the flip-flops and the outputs. *)
Definition roots (rc : ReadCircuit) : list Z := map rg_in0 (dff_list rc) ++ output_list rc.
Definition roots_in_range (rc : ReadCircuit) : Prop :=
  forall w, In w (roots rc) -> w < Z.of_nat (init_input_dff_size rc + length (gate_list rc)).
(** The wire matters for a flip-flop or an output. *)
Definition live (rc : ReadCircuit) (w : Z) : Prop := exists r, In r (roots rc) /\ 0 <= r /\ (w = r \/ depends rc r w).

Section Search.
Variable rc : ReadCircuit.
Notation G := (gate_list rc).
Notation n := (length G).
Notation b := (init_input_dff_size rc).
Hypothesis RG : in_range rc.

(** DFS marks as the other search does (scheduling.cpp:338-376). *)
Lemma dfs_visit : forall fuel marks sorted w, DFS fuel G (Z.of_nat b) marks w =
  match visit G (Z.of_nat b) fuel marks sorted w with Some (ok, m, _) => Some (ok, m) | None => None end.
Proof.
  induction fuel as [|fuel IH]; intros marks sorted w; cbn [DFS visit]; [reflexivity|].
  destruct (w <? 0); [reflexivity|]. destruct (rd marks w) as [m|]; cbn [obind]; [|reflexivity]. destruct m; try reflexivity.
  destruct (wr marks w TempMarked) as [m1|]; cbn [obind]; [|reflexivity]. destruct (rd G (w - Z.of_nat b)) as [g|]; cbn [obind]; [|reflexivity].
  rewrite (IH m1 sorted). destruct (visit G (Z.of_nat b) fuel m1 sorted (rg_in0 g)) as [[[ok m2] s2]|]; cbn [obind]; [|reflexivity].
  destruct (negb ok); [reflexivity|]. rewrite (IH m2 s2). destruct (visit G (Z.of_nat b) fuel m2 s2 (rg_in1 g)) as [[[ok' m3] s3]|]; cbn [obind]; [|reflexivity].
  destruct (negb ok'); [reflexivity|]. destruct (wr m3 w PerMarked); reflexivity.
Qed.

Lemma visit_reach : forall fuel marks sorted w ok m s, visit G (Z.of_nat b) fuel marks sorted w = Some (ok, m, s) ->
  forall x, In x s -> In x sorted \/ 0 <= w /\ (x = w \/ depends rc w x).
Proof.
  induction fuel as [|fuel IH]; intros marks sorted w ok m s E x X; cbn [visit] in E; [discriminate|].
  destruct (Z.ltb_spec w 0) as [N|N]; [injection E as <- <- <-; auto|].
  apply obind_some in E as (mk & _ & E). destruct mk; try (injection E as <- <- <-; auto).
  apply obind_some in E as (m1 & _ & E). apply obind_some in E as (g & Eg & E).
  apply obind_some in E as ([[ok1 m2] s2] & E1 & E).
  assert (R0 : forall y, In y s2 -> In y sorted \/ 0 <= w /\ (y = w \/ depends rc w y)).
  { intros y Y. destruct (IH _ _ _ _ _ _ E1 y Y) as [I|[P [->|D]]]; [auto| |].
    - right. split; [exact N|]. right. apply dep_one. eapply reads_of; eauto.
    - right. split; [exact N|]. right. eapply dep_more; [|exact D]. eapply reads_of; eauto. }
  destruct (negb ok1); [injection E as <- <- <-; auto|].
  apply obind_some in E as ([[ok2 m3] s3] & E2 & E).
  assert (R1 : forall y, In y s3 -> In y sorted \/ 0 <= w /\ (y = w \/ depends rc w y)).
  { intros y Y. destruct (IH _ _ _ _ _ _ E2 y Y) as [I|[P [->|D]]]; [auto| |].
    - right. split; [exact N|]. right. apply dep_one. eapply reads_of; eauto.
    - right. split; [exact N|]. right. eapply dep_more; [|exact D]. eapply reads_of; eauto. }
  destruct (negb ok2); [injection E as <- <- <-; auto|].
  apply obind_some in E as (m4 & _ & E). injection E as <- <- <-. apply in_app_iff in X as [X|[<-|[]]]; auto.
Qed.

Lemma dfs_all_ok : forall rs marks sorted, inv rc marks sorted -> no_temp marks ->
  (forall w, In w rs -> w < Z.of_nat (b + n)) -> (exists ext, sorted = map Z.of_nat (seq 0 b) ++ ext) ->
  exists ok m, DFS_all G (Z.of_nat b) rs marks = Some (ok, m) /\
    if ok : bool then exists s, inv rc m s /\ (exists ext, s = map Z.of_nat (seq 0 b) ++ ext) /\ incl sorted s /\
      (forall r, In r rs -> 0 <= r -> In r s) /\
      (forall x, In x s -> In x sorted \/ exists r, In r rs /\ 0 <= r /\ (x = r \/ depends rc r x))
    else has_loop rc.
Proof.
  induction rs as [|r rs IH]; intros marks sorted J T R X; cbn [DFS_all].
  - exists true, marks. split; [reflexivity|]. exists sorted. split; [exact J|]. split; [exact X|]. split; [apply incl_refl|]. split; [intros r []|auto].
  - destruct (visit_ok rc RG (S (S (length marks))) marks sorted r) as (ok & m & s & E & H).
    { pose proof (count_un_le marks). lia. } { exact J. } { apply R. cbn. auto. } { intros v V. destruct (T v V). }
    rewrite (dfs_visit _ _ sorted), E. cbn [obind]. destruct ok; cbn [negb]; [|exists false, m; auto].
    destruct H as (J' & (ext & XE) & T' & I' & _).
    destruct (IH m s J') as (ok2 & m2 & E2 & H2).
    { intros v V. apply T' in V. apply (T v V). } { intros w W. apply R. cbn. auto. } { destruct X as [e ->]. exists (e ++ ext). rewrite XE, app_assoc. reflexivity. }
    exists ok2, m2. split; [exact E2|]. destruct ok2; [|exact H2]. destruct H2 as (s2 & J2 & X2 & S2 & R2 & D2). exists s2.
    split; [exact J2|]. split; [exact X2|]. split; [intros x Hx; apply S2; rewrite XE; apply in_app_iff; auto|]. split.
    + intros w [<-|W] P; [apply S2, I'; exact P|auto].
    + intros x Hx. destruct (D2 x Hx) as [I|(w & W & D)]; [|right; exists w; cbn; auto].
      destruct (visit_reach _ _ _ _ _ _ _ E x I) as [I2|[P D]]; [auto|]. right. exists r. cbn. auto.
Qed.

(** FindPath succeeds exactly when there is no loop and every gate is live. *)
Theorem find_path_iff : roots_in_range rc -> exists ok, FindPath rc = Some ok /\
  (ok = true <-> ~ has_loop rc /\ forall w, Z.of_nat b <= w < Z.of_nat (b + n) -> live rc w).
Proof.
  intros RR. unfold FindPath. cbv zeta. fold (roots rc).
  destruct (dfs_all_ok (roots rc) (repeat PerMarked b ++ repeat UnMarked n) (map Z.of_nat (seq 0 b)) (inv0 rc)) as (ok & m & E & H).
  { intros v. rewrite rd_marks0. repeat destruct (_ <? _); discriminate. } { exact RR. } { exists []. rewrite app_nil_r. reflexivity. }
  rewrite E. cbn [obind]. destruct ok; cbn [negb].
  2:{ exists false. split; [reflexivity|]. split; [discriminate|]. intros [NL _]. contradiction. }
  eexists. split; [reflexivity|]. destruct H as (s & J & X & S & R & D).
  assert (ALL : forallb (fun s => match s with PerMarked => true | _ => false end) m = true <-> forall w, 0 <= w < Z.of_nat (b + n) -> In w s).
  { rewrite forallb_forall. split.
    - intros F w W. apply (iv_per _ _ _ J). destruct (rd_ok m w) as [k K]; [rewrite (iv_len _ _ _ J); lia|]. rewrite K.
      pose proof (nth_error_In _ _ (rd_nth _ _ _ K)) as I. apply F in I. destruct k; [discriminate|discriminate|reflexivity].
    - intros F k K. apply In_nth_error in K as [i Ei]. pose proof (nth_error_lt _ _ _ Ei) as Li. rewrite (iv_len _ _ _ J) in Li.
      pose proof (F (Z.of_nat i) ltac:(lia)) as I. apply (iv_per _ _ _ J) in I. rewrite rd_nat in I. assert (k = PerMarked) by congruence. subst k. reflexivity. }
  rewrite ALL. split.
  - intros F. split.
    + apply (sorting_no_loop rc s RG). split; [apply (iv_nodup _ _ _ J)|]. split; [|split; [apply (iv_order _ _ _ J)|exact X]].
      intros w. split; [apply (inv_sub _ _ _ _ J)|apply F].
    + intros w W. destruct (D w (F w ltac:(lia))) as [I|L]; [|exact L]. apply sorted_first in I. lia.
  - intros [NL LV] w W. destruct (Z.lt_ge_cases w (Z.of_nat b)) as [L|L]; [apply S, sorted_first; lia|].
    destruct (LV w ltac:(lia)) as (r & IR & P & [->|DP]); [apply R; assumption|].
    pose proof (R r IR P) as I. apply in_split in I as (l1 & l2 & EL).
    pose proof (depends_earlier _ _ (iv_order _ _ _ J) (iv_nodup _ _ _ J) _ _ DP _ _ EL) as I. rewrite EL. apply in_app_iff. auto.
Qed.
End Search.

(** * Schedule *)
Section Schedules.
Variable rc : ReadCircuit.
Notation G := (gate_list rc).
Notation n := (length G).
Notation b := (init_input_dff_size rc).
Hypothesis RG : in_range rc.
Hypothesis RR : roots_in_range rc.
Hypothesis NE : G <> [].

Lemma perm_complete index : Permutation index (map Z.of_nat (seq 0 n)) -> complete rc index.
Proof.
  intros P. split.
  - apply (Permutation_NoDup (Permutation_sym P)). apply Injective_map_NoDup; [intros x y; apply Nat2Z.inj|apply seq_NoDup].
  - intros t. split; intros T.
    + apply (Permutation_in _ P) in T. apply in_map_iff in T as (k & <- & K). apply in_seq in K. lia.
    + apply (Permutation_in _ (Permutation_sym P)). apply in_map_iff. exists (Z.to_nat t). split; [lia|]. apply in_seq. lia.
Qed.

(** A full order is a sorting of the wires. *)
Definition wires_of (ord : list Z) : list Z := map Z.of_nat (seq 0 b) ++ map (fun t => t + Z.of_nat b) ord.
Lemma order_sorting ord : NoDup ord -> (forall t, In t ord -> 0 <= t < Z.of_nat n) -> length ord = n -> ordered rc ord -> sorting rc (wires_of ord).
Proof.
  intros ND RA L O.
  assert (CM : forall t, 0 <= t < Z.of_nat n -> In t ord).
  { intros t T. apply (NoDup_length_incl ND (l' := map Z.of_nat (seq 0 n))).
    - rewrite map_length, seq_length. lia.
    - intros u U. apply RA in U. apply in_map_iff. exists (Z.to_nat u). split; [lia|]. apply in_seq. lia.
    - apply in_map_iff. exists (Z.to_nat t). split; [lia|]. apply in_seq. lia. }
  assert (LB : length (map Z.of_nat (seq 0 b)) = b) by (rewrite map_length, seq_length; reflexivity).
  split; [|split; [|split; [|exists (map (fun t => t + Z.of_nat b) ord); reflexivity]]].
  - unfold wires_of. assert (N1 : NoDup (map Z.of_nat (seq 0 b))) by (apply Injective_map_NoDup; [intros x y; apply Nat2Z.inj|apply seq_NoDup]).
    assert (N2 : NoDup (map (fun t => t + Z.of_nat b) ord)) by (apply Injective_map_NoDup; [intros x y; lia|exact ND]).
    assert (DJ : forall x, In x (map Z.of_nat (seq 0 b)) -> ~ In x (map (fun t => t + Z.of_nat b) ord)).
    { intros x X Y. apply sorted_first in X. apply in_map_iff in Y as (t & <- & T). apply RA in T. lia. }
    revert N1 DJ. generalize (map Z.of_nat (seq 0 b)). induction l as [|x l IH]; intros N1 DJ; cbn; [exact N2|].
    apply NoDup_cons_iff in N1 as [A B]. constructor; [|apply IH; [exact B|intros y Y; apply DJ; cbn; auto]].
    rewrite in_app_iff. intros [I|I]; [contradiction|]. apply (DJ x); cbn; auto.
  - intros w. unfold wires_of. rewrite in_app_iff, sorted_first, in_map_iff. split.
    + intros [W|(t & <- & T)]; [lia|]. apply RA in T. lia.
    + intros W. destruct (Z.lt_ge_cases w (Z.of_nat b)); [left; lia|]. right. exists (w - Z.of_nat b). split; [lia|]. apply CM. lia.
  - intros l1 v l2 E w R.
    assert (POS : nth_error (wires_of ord) (length l1) = Some v) by (rewrite E, nth_error_app2, Nat.sub_diag by lia; reflexivity).
    assert (GOAL : forall p, (p < length l1)%nat -> nth_error (wires_of ord) p = Some w -> In w l1).
    { intros p P H. rewrite E, nth_error_app1 in H by exact P. eapply nth_error_In; exact H. }
    assert (BV : (b <= length l1)%nat).
    { destruct (le_lt_dec b (length l1)) as [Q|Q]; [exact Q|]. exfalso. unfold wires_of in POS. rewrite nth_error_app1 in POS by lia.
      apply nth_error_In, sorted_first in POS. destruct R as (i & g & _ & -> & _). lia. }
    unfold wires_of in POS. rewrite nth_error_app2 in POS by lia. rewrite LB, nth_error_map in POS.
    destruct (nth_error ord (length l1 - b)) as [t|] eqn:ET; [|discriminate]. cbn in POS. injection POS as <-.
    assert (W0 : 0 <= w) by (destruct R as (? & ? & ? & ? & ? & ?); lia).
    destruct (Z.lt_ge_cases w (Z.of_nat b)) as [Q|Q].
    + apply (GOAL (Z.to_nat w)); [lia|]. unfold wires_of. rewrite nth_error_app1 by lia.
      rewrite nth_error_map, (nth_error_nth' _ 0%nat), seq_nth by (rewrite ?seq_length; lia). cbn. f_equal. lia.
    + destruct (O _ _ ET (w - Z.of_nat b) ltac:(lia)) as (j & J & EJ).
      { replace (Z.of_nat b + t) with (t + Z.of_nat b) by lia. replace (Z.of_nat b + (w - Z.of_nat b)) with w by lia. exact R. }
      apply (GOAL (b + j)%nat); [lia|]. unfold wires_of. rewrite nth_error_app2 by lia. rewrite LB. replace (b + j - b)%nat with j by lia.
      rewrite nth_error_map, EJ. cbn. f_equal. lia.
Qed.

Section Cores.
Variable nc : nat.
Hypothesis NC : (1 <= nc)%nat.
Variable sl : list Z.
Hypothesis SL : length sl = n.
Variable cores : list (list Z).
Hypothesis RO : room rc nc cores.

Lemma planned0 : planned rc nc [] (mkPlan (repeat (-1) n) cores (repeat 0 nc) (repeat 0 nc) 0).
Proof.
  assert (Z0 : repeat 0 nc = loads nc 0).
  { unfold loads. rewrite <- (map_ext (fun _ => 0)) by (intros c; unfold load; rewrite Nat.mod_0_l, Nat.div_0_l by lia; reflexivity).
    clear. generalize 0%nat at 1. induction nc as [|k IH]; intros m; cbn; [reflexivity|]. f_equal. apply IH. }
  split; cbn; auto; try tauto.
  - constructor.
  - split; [apply repeat_length|]. intros t T. destruct (rd_ok (repeat (-1) n) t) as [v V]; [rewrite repeat_length; exact T|].
    exists v. split; [exact V|]. apply rd_repeat in V. cbn. lia.
  - intros k t K. destruct k; discriminate.
Qed.

Lemma schedule_spec fuel : exists r ord s, Schedule fuel sl rc nc cores = Some r /\ planned rc nc ord s /\ ordered rc ord /\
    match r with
    | Done s' => s' = s /\ length ord = n
    | Running s' => s' = s /\ (length ord < n)%nat /\ (~ has_loop rc -> (fuel <= length ord)%nat)
    end.
Proof.
  unfold Schedule. cbv zeta. destruct (find_path_iff rc RG RR) as (ok & -> & _). cbn [obind].
  destruct (top_sort_ok G sl NE SL) as (index & -> & P & _). cbn [obind].
  destruct (rounds_ok rc RG nc NC index (perm_complete _ P) fuel [] _ planned0) as (r & ord & s & E & H); [intros k t K; destruct k; discriminate|].
  exists r, ord, s. split; [exact E|]. exact H.
Qed.

(** Without a loop every gate is placed, once and after the gates that it reads, in as many rounds as there are gates. *)
Theorem schedule_ok fuel : ~ has_loop rc -> (n <= fuel)%nat -> exists s ord, Schedule fuel sl rc nc cores = Some (Done s) /\
  Permutation ord (map Z.of_nat (seq 0 n)) /\ ordered rc ord /\ dealt nc ord (core s).
Proof.
  intros NL F. destruct (schedule_spec fuel) as (r & ord & s & E & PL & O & H). destruct r as [s'|s'].
  { destruct H as (-> & L & H). specialize (H NL). lia. }
  destruct H as [-> L]. exists s, ord. split; [exact E|]. split; [|split; [exact O|apply (pl_core _ _ _ _ PL)]].
  apply NoDup_Permutation; [apply (pl_nodup _ _ _ _ PL)|apply Injective_map_NoDup; [intros x y; apply Nat2Z.inj|apply seq_NoDup]|].
  pose proof (order_sorting ord (pl_nodup _ _ _ _ PL) (pl_range _ _ _ _ PL) L O) as (_ & M & _).
  intros t. rewrite in_map_iff. split.
  - intros T. apply (pl_range _ _ _ _ PL) in T. exists (Z.to_nat t). split; [lia|]. apply in_seq. lia.
  - intros (k & <- & K). apply in_seq in K. assert (I : In (Z.of_nat k + Z.of_nat b) (wires_of ord)) by (apply M; lia).
    unfold wires_of in I. apply in_app_iff in I as [I|I]; [apply sorted_first in I; lia|]. apply in_map_iff in I as (u & U & I). replace (Z.of_nat k) with u by lia. exact I.
Qed.

(** With a loop it goes on for ever. *)
Theorem schedule_loop fuel : has_loop rc -> exists s, Schedule fuel sl rc nc cores = Some (Running s).
Proof.
  intros HL. destruct (schedule_spec fuel) as (r & ord & s & E & PL & O & H). destruct r as [s'|s']; [eauto|].
  destruct H as [-> L]. exfalso. eapply sorting_no_loop; [exact RG| |exact HL]. apply (order_sorting ord); auto; apply PL.
Qed.
End Cores.
End Schedules.

(** * TopologicalSortMultiCore *)
Section Multi.
Variable rc : ReadCircuit.
Notation G := (gate_list rc).
Notation n := (length G).
Notation b := (init_input_dff_size rc).
Hypothesis TR : translatable rc.
Hypothesis NE : G <> [].

Lemma translatable_roots : roots_in_range rc.
Proof.
  intros w W. unfold roots in W. apply in_app_iff in W as [W|W].
  - apply in_map_iff in W as (d & <- & D). apply (tr_dff _ TR d D).
  - destruct (tr_out _ TR w W) as [[A _] _]. exact A.
Qed.

(** The circuit of the renumbering, with the number of the terminate wire as it was. *)
Definition keep_terminate (rc' : ReadCircuit) : ReadCircuit :=
  mkRC (rc_p_init rc') (rc_g_init rc') (rc_e_init rc') (rc_p_input rc') (rc_g_input rc') (rc_e_input rc')
    (output_list rc') (gate_list rc') (dff_list rc') (task_schedule rc') (rc_terminate_id rc).

Lemma multi_core_is fuel sl : (n <= fuel)%nat -> length sl = n ->
  exists p q, renumbering rc p q /\ TopologicalSortMultiCore fuel sl rc = Some (Some (keep_terminate (sorted_circuit rc p q))).
Proof.
  intros F SL. pose proof (translatable_range _ TR) as RG. unfold TopologicalSortMultiCore. cbv zeta.
  assert (RO : room rc 1 [repeat (-1) (n + 1)]).
  { split; [cbn; lia|]. intros [|c] row C; [|lia]. intros [= <-]. rewrite repeat_length. lia. }
  destruct (schedule_spec rc RG translatable_roots NE 1 (le_n 1) sl SL _ RO fuel) as (r & ord & s & E & PL & O & H).
  rewrite E. cbn [obind]. destruct r as [s'|s'].
  { destruct H as (_ & L & H). specialize (H (tr_loop _ TR)). lia. }
  destruct H as [-> L]. pose proof (pl_room _ _ _ _ PL) as [R1 _]. destruct (rd_ok (core s) 0) as [row ER]; [lia|]. rewrite ER. cbn [obind].
  assert (OM : omap (fun i => rd row (Z.of_nat i)) (seq 0 n) = Some ord).
  { assert (Q : forall k t, nth_error ord k = Some t -> rd row (Z.of_nat k) = Some t).
    { intros k t K. destruct (pl_core _ _ _ _ PL k t K) as (row' & A & B). rewrite Nat.mod_1_r in A. rewrite Nat.div_1_r in B.
      rewrite <- (rd_nat _ 0) in A. change (Z.of_nat 0) with 0 in A. rewrite ER in A. injection A as <-. rewrite rd_nat. exact B. }
    clear - Q L. rewrite <- L. clear L. revert Q. assert (GEN : forall l m, (forall k t, nth_error l k = Some t -> rd row (Z.of_nat (m + k)) = Some t) ->
      omap (fun i => rd row (Z.of_nat i)) (seq m (length l)) = Some l).
    { clear ord. induction l as [|x l IH]; intros m Q; cbn; [reflexivity|]. rewrite <- (Nat.add_0_r m) at 1. rewrite (Q 0%nat x eq_refl). cbn [obind].
      rewrite (IH (S m)); [reflexivity|]. intros k t K. rewrite Nat.add_succ_comm. apply (Q (S k) t K). }
    intros Q. apply (GEN ord 0%nat). exact Q. }
  rewrite OM. cbn [obind]. fold (wires_of rc ord).
  pose proof (order_sorting rc ord (pl_nodup _ _ _ _ PL) (pl_range _ _ _ _ PL) L O) as SO.
  destruct (sorting_renumbering rc TR _ SO) as (p & q & iv & RN & EI & RNB & RDI & EQ). exists p, q. split; [exact RN|].
  rewrite EI. cbn [obind].
  rewrite (omap_map _ (fun d => mkRG (p (rg_in0 d)) (p (rg_in1 d)) (p (rg_out d)) (rg_type d))).
  2:{ intros d Hd. destruct (tr_dff _ TR d Hd) as ([A _] & B & C). unfold sort_dff. rewrite (RNB _ A). cbn [obind]. rewrite (RNB _ B). cbn [obind]. rewrite RDI by lia. reflexivity. }
  cbn [obind].
  rewrite (omap_map _ (sorted_gate rc p)).
  2:{ intros [i g] Hg. pose proof (in_combine_r _ _ _ _ Hg) as GG. pose proof (in_combine_l _ _ _ _ Hg) as HI. apply in_seq in HI.
      destruct (tr_gate _ TR g GG) as (_ & [A _] & [B _]). unfold sort_gate. rewrite RDI by lia. cbn [obind].
      rewrite (RNB _ A). cbn [obind]. rewrite (RNB _ B). reflexivity. }
  cbn [obind]. rewrite (omap_map _ p).
  2:{ intros w Hw. destruct (tr_out _ TR w Hw) as [[A _] B]. apply RDI. lia. }
  cbn [obind]. do 2 f_equal. unfold keep_terminate, sorted_circuit. cbn. f_equal.
  unfold wires_of in EQ. rewrite skipn_app in EQ. rewrite map_length, seq_length, Nat.sub_diag in EQ. cbn [skipn] in EQ.
  rewrite (skipn_all2 (map Z.of_nat (seq 0 b))) in EQ by (rewrite map_length, seq_length; lia). cbn [app] in EQ.
  transitivity (map (fun w => w - Z.of_nat b) (map (fun t => t + Z.of_nat b) ord)).
  - rewrite map_map. rewrite <- (map_id ord) at 1. apply map_ext. intros t. lia.
  - rewrite EQ, map_map. reflexivity.
Qed.

(** The result is the netlist in another order, if the terminate wire is not driven by a gate. *)
Theorem multi_core_meaning : rc_terminate_id rc < Z.of_nat b -> forall fuel sl, (n <= fuel)%nat -> length sl = n -> exists rc' gs,
  TopologicalSortMultiCore fuel sl rc = Some (Some rc') /\ scheduled rc' = Some gs /\
  let c := circuit_with rc' gs in
  well_formed c /\
  p_init_size c = rc_p_init rc /\ g_init_size c = rc_g_init rc /\ e_init_size c = rc_e_init rc /\
  p_input_size c = rc_p_input rc /\ g_input_size c = rc_g_input rc /\ e_input_size c = rc_e_input rc /\
  length (D c) = length (dff_list rc) /\ length (garbledGates c) = length (gate_list rc) /\ length (outputs c) = length (output_list rc) /\
  (terminate_id c = 0 <-> rc_terminate_id rc = 0) /\
  forall x, (exists W, consistent (unsorted rc) x W) /\
    forall V W, consistent c x V -> consistent (unsorted rc) x W ->
    forall cy, (forall i w, nth_error (output_list rc) i = Some w -> exists w', nth_error (outputs c) i = Some w' /\ V cy w' = W cy w) /\
      (rc_terminate_id rc <> 0 -> V cy (terminate_id c) = W cy (rc_terminate_id rc)).
Proof.
  intros TB fuel sl F SL. destruct (multi_core_is fuel sl F SL) as (p & q & RN & E). exists (sorted_circuit rc p q), (sorted_gates rc p q).
  assert (K : keep_terminate (sorted_circuit rc p q) = sorted_circuit rc p q).
  { unfold keep_terminate, sorted_circuit. cbn. f_equal. symmetry. apply (rn_low _ _ _ RN). exact TB. }
  rewrite K in E. split; [exact E|]. apply (sorted_meaning rc TR p q RN).
Qed.
End Multi.
