(** Numbered netlists and their topological sorting (scd/scheduling.cpp). *)
From Coq Require Import ZArith NArith List Bool Lia FinFun.
From Verif Require Import Base.
Import ListNotations.
Open Scope Z_scope.

(** scd/v_2_scd.h:65-70 ReadGate *)
Record ReadGate := mkRG { rg_in0 : Z; rg_in1 : Z; rg_out : Z; rg_type : Z }.

(** scd/v_2_scd.h:72-112 ReadCircuit.  [gate_size], [dff_size], [output_size] are
    the lengths of the vectors (IdAssignment resizes them, parse_netlist.cpp:560-562).
    The entries of [output_list], [task_schedule] and [terminate_id] are uint64_t. *)
Record ReadCircuit := mkRC {
  rc_p_init : nat; rc_g_init : nat; rc_e_init : nat;
  rc_p_input : nat; rc_g_input : nat; rc_e_input : nat;
  output_list : list Z; gate_list : list ReadGate; dff_list : list ReadGate;
  task_schedule : list Z; rc_terminate_id : Z }.

(** v_2_scd.h:91-94 *)
Definition get_init_input_size (rc : ReadCircuit) : nat :=
  (rc_p_init rc + rc_g_init rc + rc_e_init rc + rc_p_input rc + rc_g_input rc + rc_e_input rc)%nat.
(** scheduling.cpp:343, 383, 442 *)
Definition init_input_dff_size (rc : ReadCircuit) : nat := (get_init_input_size rc + length (dff_list rc))%nat.

(** scheduling.cpp:332-336 *)
Inductive Mark := UnMarked | TempMarked | PerMarked.
Definition is_unmarked (m : Mark) : bool := match m with UnMarked => true | _ => false end.

Section Visit.
Variable gates : list ReadGate.
Variable bias : Z.                 (* init_input_dff_size *)

(** scheduling.cpp:338-376 TopologicalSortVisit.  [None]: an access out of range
    ([marks->at] throws, [gate_list[]] is undefined) or [fuel] used up, which is
    proved not to happen.  The Boolean is SUCCESS.  The list of visited gates that
    is printed for a loop is not modelled. *)
Fixpoint visit (fuel : nat) (marks : list Mark) (sorted : list Z) (w : Z) : option (bool * list Mark * list Z) :=
  match fuel with
  | O => None
  | S fuel =>
    if w <? 0 then Some (true, marks, sorted)
    else
      do m <- rd marks w;
      match m with
      | TempMarked => Some (false, marks, sorted)
      | PerMarked => Some (true, marks, sorted)
      | UnMarked =>
        do marks <- wr marks w TempMarked;
        do g <- rd gates (w - bias);
        do '(ok, marks, sorted) <- visit fuel marks sorted (rg_in0 g);
        if negb (ok : bool) then Some (false, marks, sorted) else
        do '(ok, marks, sorted) <- visit fuel marks sorted (rg_in1 g);
        if negb (ok : bool) then Some (false, marks, sorted) else
        do marks <- wr marks w PerMarked;
        Some (true, marks, sorted ++ [w])
      end
  end.

(** scheduling.cpp:401-407: the first unmarked gate at or after [i]. *)
Fixpoint first_unmarked (marks : list Mark) (i k : nat) : option Z :=
  match k with
  | O => None
  | S k' => match rd marks (bias + Z.of_nat i) with
            | Some UnMarked => Some (bias + Z.of_nat i)
            | _ => first_unmarked marks (S i) k'
            end
  end.

(** scheduling.cpp:395-429; [fuel] bounds the number of rounds, proved to suffice.
    The recursion depth of [visit] is bounded by the number of wires. *)
Fixpoint sort_loop (fuel : nat) (marks : list Mark) (sorted : list Z) : option (bool * list Z) :=
  match fuel with
  | O => None
  | S fuel =>
    if (length sorted =? length marks)%nat then Some (true, sorted)
    else match first_unmarked marks 0 (length gates) with
    | Some w =>
      do '(ok, marks, sorted) <- visit (S (S (length marks))) marks sorted w;
      if (ok : bool) then sort_loop fuel marks sorted else Some (false, sorted)
    | None => Some (true, sorted)
    end
  end.
End Visit.

(** scheduling.cpp:378-436 TopologicalSort: [None] undefined, [Some None] FAILURE.
    The final check (430-432) is only made with logging; it is proved to hold. *)
Definition TopologicalSort (rc : ReadCircuit) : option (option (list Z)) :=
  let b := init_input_dff_size rc in
  let n := (b + length (gate_list rc))%nat in
  let marks := repeat PerMarked b ++ repeat UnMarked (length (gate_list rc)) in
  let sorted := map Z.of_nat (seq 0 b) in
  do '(ok, sorted) <- sort_loop (gate_list rc) (Z.of_nat b) (S (length (gate_list rc))) marks sorted;
  if negb (ok : bool) then Some None
  else if negb (length sorted =? n)%nat then Some None
  else Some (Some sorted).

(** scheduling.cpp:448-452: the position of each wire in the sorted list. *)
Definition invert_body (sorted : list Z) (i : nat) (inv : list Z) : option (list Z) :=
  do w <- rd sorted (Z.of_nat i); wr inv w (Z.of_nat i).
Definition invert (sorted : list Z) : option (list Z) :=
  for_ (length sorted) (invert_body sorted) (repeat 0 (length sorted)).

Fixpoint omap {A B} (f : A -> option B) (l : list A) : option (list B) :=
  match l with
  | [] => Some []
  | x :: t => do y <- f x; do r <- omap f t; Some (y :: r)
  end.

(** scheduling.cpp:462-471, 475-488: positive references are renumbered. *)
Definition renumber (inv : list Z) (w : Z) : option Z := if 0 <? w then rd inv w else Some w.

(** scheduling.cpp:461-472 *)
Definition sort_dff (inv : list Z) (d : ReadGate) : option ReadGate :=
  do i0 <- renumber inv (rg_in0 d);
  do i1 <- renumber inv (rg_in1 d);
  do o <- rd inv (rg_out d);
  Some (mkRG i0 i1 o (rg_type d)).
(** scheduling.cpp:473-489, gate number [i]; the result is [None] in the inner
    option when a check fails (only made with logging). *)
Definition sort_gate (inv : list Z) (b : nat) (ig : nat * ReadGate) : option ReadGate :=
  let (i, g) := ig in
  do o <- rd inv (Z.of_nat b + Z.of_nat i);
  do i0 <- renumber inv (rg_in0 g);
  do i1 <- renumber inv (rg_in1 g);
  Some (mkRG i0 i1 o (rg_type g)).
Definition gate_checks (gs gs' : list ReadGate) : bool :=
  forallb (fun p => (negb (0 <? rg_in0 (fst p)) || (rg_in0 (snd p) <? rg_out (snd p))) &&
                    (negb (0 <? rg_in1 (fst p)) || (rg_in1 (snd p) <? rg_out (snd p)))) (combine gs gs').

(** scheduling.cpp:438-499 SortNetlist, with logging ([log]) or without. *)
Definition SortNetlist (log : bool) (rc : ReadCircuit) : option (option ReadCircuit) :=
  let b := init_input_dff_size rc in
  do r <- TopologicalSort rc;
  match r with
  | None => Some None
  | Some sorted =>
    do inv <- invert sorted;
    let sched := map (fun w => w - Z.of_nat b) (skipn b sorted) in
    do dffs <- omap (sort_dff inv) (dff_list rc);
    do gs <- omap (sort_gate inv b) (combine (seq 0 (length (gate_list rc))) (gate_list rc));
    if log && negb (gate_checks (gate_list rc) gs) then Some None else
    do outs <- omap (rd inv) (output_list rc);
    do t <- (if rc_terminate_id rc =? 0 then Some 0 else rd inv (rc_terminate_id rc));
    Some (Some (mkRC (rc_p_init rc) (rc_g_init rc) (rc_e_init rc) (rc_p_input rc) (rc_g_input rc) (rc_e_input rc)
                  outs gs dffs sched t))
  end.

(** * Specification *)

(** Wire [w] is read by the gate that drives wire [v]. *)
Definition reads (rc : ReadCircuit) (v w : Z) : Prop :=
  exists i g, nth_error (gate_list rc) i = Some g /\ v = Z.of_nat (init_input_dff_size rc) + Z.of_nat i /\
    (w = rg_in0 g \/ w = rg_in1 g) /\ 0 <= w.
Inductive depends (rc : ReadCircuit) : Z -> Z -> Prop :=
| dep_one v w : reads rc v w -> depends rc v w
| dep_more v w x : reads rc v w -> depends rc w x -> depends rc v x.
(** A combinational loop: a wire that depends on itself. *)
Definition has_loop (rc : ReadCircuit) : Prop := exists v, depends rc v v.
(** All references of gates are to existing wires (or negative: constants). *)
Definition in_range (rc : ReadCircuit) : Prop :=
  forall g, In g (gate_list rc) -> let n := Z.of_nat (init_input_dff_size rc + length (gate_list rc)) in rg_in0 g < n /\ rg_in1 g < n.
(** A list in which every wire comes after the wires its gate reads. *)
Definition reads_earlier (rc : ReadCircuit) (l : list Z) : Prop :=
  forall l1 v l2, l = l1 ++ v :: l2 -> forall w, reads rc v w -> In w l1.

(** * Facts *)
Lemma depends_trans rc a b c : depends rc a b -> depends rc b c -> depends rc a c.
Proof. induction 1; intros; [eapply dep_more; eauto|]. eapply dep_more; eauto. Qed.

Section Facts.
Variable rc : ReadCircuit.
Notation gates := (gate_list rc).
Notation b := (init_input_dff_size rc).
Notation n := (b + length gates)%nat.
Hypothesis range : in_range rc.

Definition count_un (marks : list Mark) : nat := length (filter is_unmarked marks).

Lemma count_un_upd marks k : nth_error marks k = Some UnMarked -> forall m, is_unmarked m = false ->
  S (count_un (upd_nat marks k m)) = count_un marks.
Proof.
  unfold count_un. revert k; induction marks as [|x t IH]; intros [|k] E m Hm; cbn in *; try discriminate.
  - injection E as ->. cbn. rewrite Hm. reflexivity.
  - destruct x; cbn; rewrite (IH _ E _ Hm); reflexivity.
Qed.
Lemma count_un_upd_same marks k x m : nth_error marks k = Some x -> is_unmarked x = is_unmarked m ->
  count_un (upd_nat marks k m) = count_un marks.
Proof.
  unfold count_un. revert k; induction marks as [|y t IH]; intros [|k] E Hm; cbn in *; try discriminate.
  - injection E as ->. rewrite Hm. destruct (is_unmarked m); reflexivity.
  - destruct (is_unmarked y); cbn; rewrite (IH _ E Hm); reflexivity.
Qed.
Lemma count_un_le marks : (count_un marks <= length marks)%nat.
Proof. unfold count_un. induction marks as [|x t IH]; cbn; [lia|]. destruct (is_unmarked x); cbn; lia. Qed.

Lemma wr_upd {A} (l : list A) i v l' : wr l i v = Some l' -> l' = upd_nat l (Z.to_nat i) v.
Proof. unfold wr. repeat match goal with |- context [if ?c then _ else _] => destruct c end; intros H; congruence. Qed.
Lemma rd_nth {A} (l : list A) i x : rd l i = Some x -> nth_error l (Z.to_nat i) = Some x.
Proof. intros H. pose proof (rd_bound _ _ _ H). rewrite <- rd_nat, Z2Nat.id by lia. exact H. Qed.

(** The invariant of the search. *)
Record inv (marks : list Mark) (sorted : list Z) : Prop := {
  iv_len : length marks = n;
  iv_inputs : forall w, 0 <= w < Z.of_nat b -> rd marks w = Some PerMarked;
  iv_per : forall w, In w sorted <-> rd marks w = Some PerMarked;
  iv_nodup : NoDup sorted;
  iv_order : reads_earlier rc sorted }.

Lemma gate_at w : Z.of_nat b <= w < Z.of_nat n -> exists g, rd gates (w - Z.of_nat b) = Some g /\ In g gates.
Proof.
  intros H. destruct (proj2 (rd_some_iff gates (w - Z.of_nat b))) as [g E]; [lia|].
  exists g. split; [exact E|]. apply rd_nth in E. eapply nth_error_In; eauto.
Qed.
Lemma reads_of w g : rd gates (w - Z.of_nat b) = Some g -> forall v, 0 <= v -> v = rg_in0 g \/ v = rg_in1 g -> reads rc w v.
Proof.
  intros E v P H. pose proof (rd_bound _ _ _ E). apply rd_nth in E.
  exists (Z.to_nat (w - Z.of_nat b)), g. split; [exact E|]. split; [lia|]. auto.
Qed.
Lemma reads_inv w g v : rd gates (w - Z.of_nat b) = Some g -> reads rc w v -> (v = rg_in0 g \/ v = rg_in1 g) /\ 0 <= v.
Proof.
  intros E (i & g' & E' & Ev & H & P). apply rd_nth in E.
  replace (Z.to_nat (w - Z.of_nat b)) with i in E by lia. assert (g' = g) by congruence. subst. auto.
Qed.

(** What a visit does: it fails only when there is a loop; otherwise the
    temporary marks are as before and [w] is sorted. *)
Definition visited (marks : list Mark) (sorted : list Z) (w : Z) (marks' : list Mark) (sorted' : list Z) : Prop :=
  inv marks' sorted' /\ (exists ext, sorted' = sorted ++ ext) /\
  (forall v, rd marks' v = Some TempMarked <-> rd marks v = Some TempMarked) /\
  (0 <= w -> In w sorted') /\ (count_un marks' <= count_un marks)%nat.

Lemma visit_ok : forall fuel marks sorted w,
  (count_un marks < fuel)%nat -> inv marks sorted -> w < Z.of_nat n ->
  (forall v, rd marks v = Some TempMarked -> 0 <= w -> depends rc v w) ->
  exists ok marks' sorted', visit gates (Z.of_nat b) fuel marks sorted w = Some (ok, marks', sorted') /\
    if ok : bool then visited marks sorted w marks' sorted' else has_loop rc.
Proof.
  induction fuel as [|fuel IH]; intros marks sorted w F J W T; [lia|].
  cbn [visit]. destruct (Z.ltb_spec w 0) as [N|N].
  { exists true, marks, sorted. split; [reflexivity|]. split; [exact J|]. split; [exists []; now rewrite app_nil_r|].
    split; [tauto|]. split; [lia|]. lia. }
  destruct (proj2 (rd_some_iff marks w)) as [m E]; [rewrite (iv_len _ _ J); lia|].
  rewrite E. cbn [obind]. destruct m.
  - (* unmarked *)
    assert (WB : Z.of_nat b <= w).
    { destruct (Z.lt_ge_cases w (Z.of_nat b)) as [L|L]; auto. rewrite (iv_inputs _ _ J w ltac:(lia)) in E. discriminate. }
    destruct (wr_ok marks w TempMarked) as [mk1 W1]; [rewrite (iv_len _ _ J); lia|].
    rewrite W1. cbn [obind]. destruct (gate_at w ltac:(lia)) as (g & Eg & Ig). rewrite Eg. cbn [obind].
    destruct (range _ Ig) as [R0 R1]. cbv zeta in R0, R1.
    assert (C1 : S (count_un mk1) = count_un marks).
    { rewrite (wr_upd _ _ _ _ W1). apply count_un_upd; [apply rd_nth; exact E|reflexivity]. }
    assert (J1 : inv mk1 sorted).
    { split.
      - rewrite (wr_length _ _ _ _ W1). apply (iv_len _ _ J).
      - intros v V. rewrite (rd_wr_other _ _ _ _ _ W1) by lia. apply (iv_inputs _ _ J); lia.
      - intros v. rewrite (iv_per _ _ J), (rd_wr _ _ _ _ v W1).
        destruct (Z.eqb_spec v w) as [->|]; [|tauto]. rewrite E. split; discriminate.
      - apply (iv_nodup _ _ J).
      - apply (iv_order _ _ J). }
    assert (T1 : forall v, rd mk1 v = Some TempMarked <-> v = w \/ rd marks v = Some TempMarked).
    { intros v. rewrite (rd_wr _ _ _ _ v W1). destruct (Z.eqb_spec v w) as [->|]; [tauto|]. split; [auto|].
      intros [?|?]; [lia|auto]. }
    destruct (IH mk1 sorted (rg_in0 g)) as (ok1 & mk2 & so2 & E2 & H2); [lia|exact J1|exact R0| |].
    { intros v Hv P. apply T1 in Hv. pose proof (reads_of w g Eg (rg_in0 g) P ltac:(auto)) as RD.
      destruct Hv as [->|Hv]; [now apply dep_one|]. eapply depends_trans; [apply (T v Hv N)|now apply dep_one]. }
    rewrite E2. cbn [obind]. destruct ok1; cbn [negb].
    2:{ exists false, mk2, so2. auto. }
    destruct H2 as (J2 & (x2 & X2) & T2 & S2 & C2).
    destruct (IH mk2 so2 (rg_in1 g)) as (ok2 & mk3 & so3 & E3 & H3); [lia|exact J2|exact R1| |].
    { intros v Hv P. apply T2, T1 in Hv. pose proof (reads_of w g Eg (rg_in1 g) P ltac:(auto)) as RD.
      destruct Hv as [->|Hv]; [now apply dep_one|]. eapply depends_trans; [apply (T v Hv N)|now apply dep_one]. }
    rewrite E3. cbn [obind]. destruct ok2; cbn [negb].
    2:{ exists false, mk3, so3. auto. }
    destruct H3 as (J3 & (x3 & X3) & T3 & S3 & C3).
    destruct (wr_ok mk3 w PerMarked) as [mk4 W4]; [rewrite (iv_len _ _ J3); lia|].
    rewrite W4. cbn [obind]. exists true, mk4, (so3 ++ [w]). split; [reflexivity|].
    assert (Tw : rd mk3 w = Some TempMarked) by (apply T3, T2, T1; auto).
    assert (NI : ~ In w so3) by (intros I; apply (iv_per _ _ J3) in I; congruence).
    split.
    { split.
      - rewrite (wr_length _ _ _ _ W4). apply (iv_len _ _ J3).
      - intros v V. rewrite (rd_wr_other _ _ _ _ _ W4) by lia. apply (iv_inputs _ _ J3); lia.
      - intros v. rewrite in_app_iff, (iv_per _ _ J3), (rd_wr _ _ _ _ v W4). cbn [In].
        destruct (Z.eqb_spec v w) as [->|]; [tauto|]. split; [|tauto]. intros [?|[?|[]]]; [auto|congruence].
      - apply NoDup_rev in NI || idtac. rewrite <- (rev_involutive (so3 ++ [w])). apply NoDup_rev. rewrite rev_app_distr. cbn.
        constructor; [rewrite <- in_rev; exact NI|]. apply NoDup_rev. apply (iv_nodup _ _ J3).
      - intros l1 v l2 El u Ru.
        destruct (list_eq_dec Z.eq_dec l2 []) as [->|NE].
        + apply app_inj_tail in El as [<- <-]. destruct (reads_inv _ _ _ Eg Ru) as [[->| ->] P]; [|auto].
          subst so3. apply in_app_iff. left. auto.
        + destruct (exists_last NE) as (l2' & z & ->). rewrite app_comm_cons, app_assoc in El.
          apply app_inj_tail in El as [El _]. eapply (iv_order _ _ J3); eauto. }
    split; [exists (x2 ++ x3 ++ [w]); subst; now rewrite !app_assoc|].
    split.
    { intros v. rewrite (rd_wr _ _ _ _ v W4). destruct (Z.eqb_spec v w) as [->|NE].
      - split; [discriminate|]. congruence.
      - rewrite T3, T2, T1. tauto. }
    split; [intros _; apply in_app_iff; cbn; auto|].
    rewrite (wr_upd _ _ _ _ W4), (count_un_upd_same _ _ TempMarked) by (try (apply rd_nth; exact Tw); reflexivity). lia.
  - exists false, marks, sorted. split; [reflexivity|]. exists w. apply T; auto.
  - exists true, marks, sorted. split; [reflexivity|]. split; [exact J|]. split; [exists []; now rewrite app_nil_r|].
    split; [tauto|]. split; [intros _; now apply (iv_per _ _ J)|]. lia.
Qed.

Lemma first_unmarked_some marks : forall k i w, first_unmarked (Z.of_nat b) marks i k = Some w ->
  rd marks w = Some UnMarked /\ Z.of_nat b + Z.of_nat i <= w < Z.of_nat b + Z.of_nat (i + k).
Proof.
  induction k as [|k IH]; intros i w; cbn [first_unmarked]; [discriminate|].
  destruct (rd marks (Z.of_nat b + Z.of_nat i)) as [[]|] eqn:E; intros H; try (apply IH in H; destruct H; split; [auto|lia]).
  injection H as <-. split; [exact E|lia].
Qed.
Lemma first_unmarked_none marks : forall k i, first_unmarked (Z.of_nat b) marks i k = None ->
  forall w, Z.of_nat b + Z.of_nat i <= w < Z.of_nat b + Z.of_nat (i + k) -> rd marks w <> Some UnMarked.
Proof.
  induction k as [|k IH]; intros i H w L; [lia|]. cbn [first_unmarked] in H.
  destruct (Z.eq_dec w (Z.of_nat b + Z.of_nat i)) as [->|NE].
  - intros E. rewrite E in H. discriminate.
  - apply (IH (S i)); [|lia]. destruct (rd marks (Z.of_nat b + Z.of_nat i)) as [[]|]; try discriminate; exact H.
Qed.

(** The wires of the circuit, in the order of their numbers. *)
Definition all_wires : list Z := map Z.of_nat (seq 0 n).
Lemma in_all_wires w : In w all_wires <-> 0 <= w < Z.of_nat n.
Proof.
  unfold all_wires. rewrite in_map_iff. split.
  - intros (k & <- & K). apply in_seq in K. lia.
  - intros W. exists (Z.to_nat w). split; [lia|]. apply in_seq. lia.
Qed.
Lemma all_wires_nodup : NoDup all_wires.
Proof. apply Injective_map_NoDup; [intros x y; apply Nat2Z.inj|apply seq_NoDup]. Qed.

Definition sorting (l : list Z) : Prop :=
  NoDup l /\ (forall w, In w l <-> 0 <= w < Z.of_nat n) /\ reads_earlier rc l /\ exists ext, l = map Z.of_nat (seq 0 b) ++ ext.

Lemma sorting_length l : sorting l -> length l = n.
Proof.
  intros (ND & M & _). assert (E : length all_wires = n) by (unfold all_wires; now rewrite map_length, seq_length).
  rewrite <- E. apply Nat.le_antisymm; apply NoDup_incl_length; auto using all_wires_nodup; intros w H.
  - apply in_all_wires, M, H.
  - apply M, in_all_wires, H.
Qed.

Definition no_temp (marks : list Mark) : Prop := forall v, rd marks v <> Some TempMarked.
Lemma inv_sub marks sorted w : inv marks sorted -> In w sorted -> 0 <= w < Z.of_nat n.
Proof. intros J H. apply (iv_per _ _ J), rd_bound in H. rewrite (iv_len _ _ J) in H. exact H. Qed.
Lemma inv_all marks sorted : inv marks sorted -> length sorted = n -> forall w, In w sorted <-> 0 <= w < Z.of_nat n.
Proof.
  intros J L w. split; [apply (inv_sub _ _ _ J)|]. intros W.
  apply (NoDup_length_incl (iv_nodup _ _ J) (l' := all_wires)).
  - unfold all_wires. rewrite map_length, seq_length. lia.
  - intros v V. apply in_all_wires, (inv_sub _ _ _ J V).
  - apply in_all_wires. exact W.
Qed.

Lemma sort_loop_ok : forall fuel marks sorted,
  (count_un marks < fuel)%nat -> inv marks sorted -> no_temp marks -> (exists ext, sorted = map Z.of_nat (seq 0 b) ++ ext) ->
  exists ok sorted', sort_loop gates (Z.of_nat b) fuel marks sorted = Some (ok, sorted') /\
    if ok : bool then sorting sorted' else has_loop rc.
Proof.
  induction fuel as [|fuel IH]; intros marks sorted F J T X; [lia|].
  cbn [sort_loop]. destruct (Nat.eqb_spec (length sorted) (length marks)) as [E|E].
  { rewrite (iv_len _ _ J) in E. exists true, sorted. split; [reflexivity|].
    split; [apply (iv_nodup _ _ J)|]. split; [apply (inv_all _ _ J E)|]. split; [apply (iv_order _ _ J)|exact X]. }
  destruct (first_unmarked (Z.of_nat b) marks 0 (length gates)) as [w|] eqn:U.
  - apply first_unmarked_some in U as [U L].
    destruct (visit_ok (S (S (length marks))) marks sorted w) as (ok & mk & so & EV & H).
    + pose proof (count_un_le marks). lia.
    + exact J.
    + lia.
    + intros v V. destruct (T v V).
    + rewrite EV. cbn [obind]. destruct ok; [|exists false, so; auto].
      destruct H as (J' & (ext & XE) & T' & I' & C').
      assert (IW : In w so) by (apply I'; lia).
      apply IH.
      * assert (count_un mk < count_un marks)%nat; [|lia].
        cbn [visit] in EV. destruct (Z.ltb_spec w 0); [lia|]. rewrite U in EV. cbn [obind] in EV.
        assert (NE : mk <> marks) by (intros ->; apply (iv_per _ _ J') in IW; congruence).
        (* the number of unmarked wires went down: w is no longer unmarked *)
        clear EV IH. pose proof (iv_per _ _ J' w) as PW. apply PW in IW. clear PW.
        assert (forall v, rd marks v <> Some UnMarked -> rd mk v <> Some UnMarked) as MON.
        { intros v NV EV. assert (B : 0 <= v < Z.of_nat (length marks)).
          { apply rd_bound in EV. rewrite (iv_len _ _ J') in EV. rewrite (iv_len _ _ J). exact EV. }
          destruct (proj2 (rd_some_iff marks v) B) as [m Em]. destruct m.
          - congruence.
          - destruct (T v Em).
          - apply (iv_per _ _ J) in Em. assert (In v so) by (subst so; apply in_app_iff; auto).
            apply (iv_per _ _ J') in H0. congruence. }
        assert (LEN : length mk = length marks) by (rewrite (iv_len _ _ J), (iv_len _ _ J'); reflexivity).
        assert (L0 : 0 <= w) by lia.
        apply rd_nth in U. apply rd_nth in IW. revert U IW MON LEN. generalize (Z.to_nat w). clear.
        intros k U IW MON LEN.
        assert (MON' : forall j, nth_error marks j <> Some UnMarked -> nth_error mk j <> Some UnMarked).
        { intros j. rewrite <- !rd_nat. apply MON. }
        clear MON. unfold count_un. revert mk k U IW MON' LEN.
        assert (LE : forall l l' : list Mark, length l' = length l ->
          (forall j, nth_error l j <> Some UnMarked -> nth_error l' j <> Some UnMarked) ->
          (length (filter is_unmarked l') <= length (filter is_unmarked l))%nat).
        { induction l as [|x l IH]; intros [|y l'] L M; cbn in L; try discriminate; [cbn; lia|].
          assert (IHl := IH l' ltac:(lia) (fun j => M (S j))). pose proof (M 0%nat) as M0. cbn in M0.
          cbn [filter]. destruct x, y; cbn [is_unmarked length]; try lia; exfalso; apply M0; congruence. }
        induction marks as [|x l IH]; intros [|y l'] [|k] U I M L; cbn in U, I, L; try discriminate.
        -- injection U as ->. injection I as ->. cbn [filter is_unmarked length].
           assert (G := LE l l' ltac:(lia) (fun j => M (S j))). lia.
        -- assert (G := IH l' k U I (fun j => M (S j)) ltac:(lia)). pose proof (M 0%nat) as M0. cbn in M0.
           cbn [filter]. destruct x, y; cbn [is_unmarked length]; try lia; exfalso; apply M0; congruence.
      * exact J'.
      * intros v V. apply T' in V. apply (T v V).
      * destruct X as [e ->]. exists (e ++ ext). rewrite XE, app_assoc. reflexivity.
  - exfalso. apply E. rewrite (iv_len _ _ J).
    assert (A : forall w, 0 <= w < Z.of_nat n -> In w sorted).
    { intros w W. apply (iv_per _ _ J). destruct (Z.lt_ge_cases w (Z.of_nat b)) as [B|B]; [apply (iv_inputs _ _ J); lia|].
      pose proof (first_unmarked_none _ _ _ U w ltac:(lia)) as NU.
      destruct (proj2 (rd_some_iff marks w)) as [m Em]; [rewrite (iv_len _ _ J); lia|].
      destruct m; [congruence|destruct (T w Em)|exact Em]. }
    assert (E1 : length all_wires = n) by (unfold all_wires; now rewrite map_length, seq_length).
    rewrite <- E1. apply Nat.le_antisymm; apply NoDup_incl_length; auto using all_wires_nodup, (iv_nodup _ _ J).
    + intros w H. apply in_all_wires, (inv_sub _ _ _ J H).
    + intros w H. apply A, in_all_wires, H.
Qed.

Lemma rd_marks0 w : rd (repeat PerMarked b ++ repeat UnMarked (length gates)) w =
  if w <? 0 then None else if w <? Z.of_nat b then Some PerMarked else if w <? Z.of_nat n then Some UnMarked else None.
Proof.
  destruct (Z.ltb_spec w 0) as [L|L].
  { destruct (rd (repeat PerMarked b ++ repeat UnMarked (length gates)) w) eqn:E; auto. apply rd_bound in E. lia. }
  destruct (Z.ltb_spec w (Z.of_nat b)).
  { rewrite rd_app_l by (rewrite repeat_length; lia). destruct (proj2 (rd_some_iff (repeat PerMarked b) w)) as [m E]; [rewrite repeat_length; lia|].
    rewrite E. f_equal. eapply rd_repeat; eauto. }
  destruct (Z.ltb_spec w (Z.of_nat n)).
  { rewrite rd_app_r by (rewrite repeat_length; lia). rewrite repeat_length.
    destruct (proj2 (rd_some_iff (repeat UnMarked (length gates)) (w - Z.of_nat b))) as [m E]; [rewrite repeat_length; lia|].
    rewrite E. f_equal. eapply rd_repeat; eauto. }
  destruct (rd (repeat PerMarked b ++ repeat UnMarked (length gates)) w) eqn:E; auto. apply rd_bound in E.
  rewrite app_length, !repeat_length in E. lia.
Qed.

Lemma sorted_first : forall w, In w (map Z.of_nat (seq 0 b)) <-> 0 <= w < Z.of_nat b.
Proof.
  intros w. rewrite in_map_iff. split; [intros (k & <- & K); apply in_seq in K; lia|].
  intros W. exists (Z.to_nat w). rewrite in_seq. lia.
Qed.

Lemma inv0 : inv (repeat PerMarked b ++ repeat UnMarked (length gates)) (map Z.of_nat (seq 0 b)).
Proof.
  split.
  - rewrite app_length, !repeat_length. reflexivity.
  - intros w W. rewrite rd_marks0. destruct (Z.ltb_spec w 0); [lia|]. destruct (Z.ltb_spec w (Z.of_nat b)); [reflexivity|lia].
  - intros w. rewrite sorted_first, rd_marks0. destruct (Z.ltb_spec w 0); [split; [lia|discriminate]|].
    destruct (Z.ltb_spec w (Z.of_nat b)); [split; [reflexivity|lia]|].
    destruct (Z.ltb_spec w (Z.of_nat n)); split; intros; try discriminate; lia.
  - apply Injective_map_NoDup; [intros x y; apply Nat2Z.inj|apply seq_NoDup].
  - intros l1 v l2 E w R. exfalso. assert (I : In v (map Z.of_nat (seq 0 b))) by (rewrite E, in_app_iff; cbn; auto).
    apply sorted_first in I. destruct R as (i & g & _ & -> & _). lia.
Qed.

(** ** TopologicalSort *)
Theorem topological_sort : exists r, TopologicalSort rc = Some r /\
  match r with
  | Some l => sorting l
  | None => has_loop rc
  end.
Proof.
  unfold TopologicalSort.
  destruct (sort_loop_ok (S (length gates)) (repeat PerMarked b ++ repeat UnMarked (length gates)) (map Z.of_nat (seq 0 b)))
    as (ok & l & E & H).
  - unfold count_un. rewrite filter_app, app_length.
    assert (E1 : forall k, length (filter is_unmarked (repeat PerMarked k)) = 0%nat) by (induction k; cbn; auto).
    assert (E2 : forall k, length (filter is_unmarked (repeat UnMarked k)) = k) by (induction k; cbn; auto).
    rewrite E1, E2. lia.
  - apply inv0.
  - intros v. rewrite rd_marks0. repeat destruct (_ <? _); discriminate.
  - exists []. now rewrite app_nil_r.
  - rewrite E. cbn [obind]. destruct ok; cbn [negb].
    + rewrite (sorting_length _ H), Nat.eqb_refl. cbn [negb]. eauto.
    + eauto.
Qed.
End Facts.

Lemma nth_error_lt {A} (l : list A) i x : nth_error l i = Some x -> (i < length l)%nat.
Proof. intros H. apply nth_error_Some. congruence. Qed.

(** A list in which everything comes after what it reads excludes loops. *)
Lemma depends_earlier rc l : reads_earlier rc l -> NoDup l -> forall v w, depends rc v w ->
  forall l1 l2, l = l1 ++ v :: l2 -> In w l1.
Proof.
  intros RE ND v w H. induction H as [v w R|v w x R _ IH]; intros l1 l2 E; [eapply RE; eauto|].
  pose proof (RE _ _ _ E _ R) as I. apply in_split in I as (a & c & ->).
  assert (In x a) by (apply (IH a (c ++ v :: l2)); rewrite E, <- app_assoc; reflexivity).
  apply in_app_iff. auto.
Qed.
Lemma sorting_no_loop rc l : in_range rc -> sorting rc l -> ~ has_loop rc.
Proof.
  intros RG (ND & M & RE & _) [v H].
  assert (V : In v l).
  { apply M. assert (R : exists w, reads rc v w) by (inversion H; subst; eauto).
    destruct R as (w & i & g & E & -> & _). apply nth_error_lt in E. lia. }
  apply in_split in V as (l1 & l2 & E). pose proof (depends_earlier _ _ RE ND _ _ H _ _ E) as I.
  subst l. apply NoDup_remove_2 in ND. apply ND. apply in_app_iff. auto.
Qed.
Theorem topological_sort_iff rc : in_range rc ->
  (TopologicalSort rc = Some None <-> has_loop rc) /\
  (~ has_loop rc <-> exists l, TopologicalSort rc = Some (Some l) /\ sorting rc l).
Proof.
  intros RG. destruct (topological_sort rc RG) as (r & E & H). rewrite E.
  destruct r as [l|].
  - pose proof (sorting_no_loop _ _ RG H). split; [split; [discriminate|tauto]|]. split; [eauto|auto].
  - split; [tauto|]. split; [tauto|]. intros (l & E' & _). discriminate.
Qed.
