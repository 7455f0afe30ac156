(** Facts about FillFanout and ReduceFanout. *)
From Coq Require Import ZArith NArith List Bool Lia.
From Verif Require Import Base Gate Circuit.
Import ListNotations.
Open Scope Z_scope.

(** * Counting uses of a wire *)
Definition is_ref (w k : Z) : Z := if w =? k then 1 else 0.
Definition gate_uses (g : GarbledGate) (w : Z) : Z :=
  is_ref (input0 g) w + is_ref (input1 g) w.
Fixpoint sumf (f : nat -> Z) (n : nat) : Z :=
  match n with O => 0 | S m => sumf f m + f m end.

Lemma is_ref_nonneg w k : 0 <= is_ref w k <= 1.
Proof. unfold is_ref; destruct (w =? k); lia. Qed.
Lemma is_ref_same w : is_ref w w = 1.
Proof. unfold is_ref; now rewrite Z.eqb_refl. Qed.
Lemma is_ref_diff w k : w <> k -> is_ref w k = 0.
Proof. unfold is_ref; destruct (Z.eqb_spec w k); congruence. Qed.

Lemma sumf_ext f g n : (forall j, (j < n)%nat -> f j = g j) -> sumf f n = sumf g n.
Proof. induction n; simpl; intros H; auto. rewrite IHn, (H n) by (auto; lia). auto. Qed.
Lemma sumf_nonneg f n : (forall j, (j < n)%nat -> 0 <= f j) -> 0 <= sumf f n.
Proof. induction n; simpl; intros H; [lia|]. specialize (IHn ltac:(auto)).
  specialize (H n ltac:(lia)). lia. Qed.
Lemma sumf_le f g n : (forall j, (j < n)%nat -> f j <= g j) -> sumf f n <= sumf g n.
Proof. induction n; simpl; intros H; [lia|]. specialize (IHn ltac:(auto)).
  specialize (H n ltac:(lia)). lia. Qed.
Lemma sumf_ge_one f n j :
  (j < n)%nat -> (forall j, (j < n)%nat -> 0 <= f j) -> f j <= sumf f n.
Proof.
  induction n; simpl; intros Hj H; [lia|].
  pose proof (sumf_nonneg f n ltac:(auto)).
  destruct (Nat.eq_dec j n).
  - subst. lia.
  - specialize (IHn ltac:(lia) ltac:(auto)). specialize (H n ltac:(lia)). lia.
Qed.
Lemma sumf_change f g n k :
  (k < n)%nat -> (forall j, j <> k -> f j = g j) ->
  sumf f n = sumf g n + f k - g k.
Proof.
  induction n; simpl; intros Hk H; [lia|].
  destruct (Nat.eq_dec k n).
  - subst. rewrite (sumf_ext f g n); [lia|]. intros; apply H; lia.
  - rewrite IHn by (auto; lia). rewrite (H n) by lia. lia.
Qed.
Lemma sumf_plus f g n : sumf (fun j => f j + g j) n = sumf f n + sumf g n.
Proof. induction n; simpl; lia. Qed.

(** * Total view of fan-out lists *)
Definition fz (fan : list Z) (k : nat) : Z := nth k fan 0.

Lemma rd_fz fan k f : rd fan (Z.of_nat k) = Some f -> fz fan k = f.
Proof. rewrite rd_nat. unfold fz. intros H. now apply nth_error_nth. Qed.
Lemma rd_fz_ok fan k : (k < length fan)%nat -> rd fan (Z.of_nat k) = Some (fz fan k).
Proof. intros. rewrite rd_nat. unfold fz. now apply nth_error_nth'. Qed.
Lemma rd_fz_Z fan k : 0 <= k < Z.of_nat (length fan) -> rd fan k = Some (fz fan (Z.to_nat k)).
Proof. intros. rewrite <- rd_fz_ok by lia. f_equal; lia. Qed.
Lemma fz_wr fan k v fan' j :
  wr fan k v = Some fan' -> fz fan' j = if Z.of_nat j =? k then v else fz fan j.
Proof.
  intros H. pose proof (wr_bound _ _ _ _ H) as B. pose proof (wr_length _ _ _ _ H) as E.
  destruct (le_lt_dec (length fan) j).
  - unfold fz. rewrite !nth_overflow by lia.
    destruct (Z.eqb_spec (Z.of_nat j) k); auto; lia.
  - pose proof (rd_wr _ _ _ _ (Z.of_nat j) H) as Q.
    rewrite (rd_fz_ok fan') in Q by lia. rewrite (rd_fz_ok fan) in Q by lia.
    destruct (Z.eqb_spec (Z.of_nat j) k); congruence.
Qed.
Lemma fz_wr_same fan k v fan' : wr fan (Z.of_nat k) v = Some fan' -> fz fan' k = v.
Proof. intros H. rewrite (fz_wr _ _ _ _ _ H), Z.eqb_refl; auto. Qed.
Lemma fz_wr_other fan k v fan' j :
  wr fan (Z.of_nat k) v = Some fan' -> j <> k -> fz fan' j = fz fan j.
Proof. intros H N. rewrite (fz_wr _ _ _ _ _ H). destruct (Z.eqb_spec (Z.of_nat j) (Z.of_nat k)); auto; lia. Qed.

Lemma posum_nonneg l : 0 <= posum l.
Proof. induction l; simpl; lia. Qed.
Lemma posum_upd l n v :
  (n < length l)%nat ->
  posum (upd_nat l n v) = posum l - Z.max 0 (nth n l 0) + Z.max 0 v.
Proof.
  revert n; induction l; intros [|n] H; simpl in *; try lia.
  rewrite IHl by lia. lia.
Qed.
Lemma posum_wr l k v l' f :
  wr l k v = Some l' -> rd l k = Some f -> posum l' = posum l - Z.max 0 f + Z.max 0 v.
Proof.
  intros H1 H2. pose proof (wr_bound _ _ _ _ H1) as B.
  unfold wr in H1. destruct (_ && _); [|discriminate]. inv H1.
  rewrite posum_upd by lia.
  rewrite rd_fz_Z in H2 by lia. unfold fz in H2. congruence.
Qed.

(** * ReduceFanout *)
Section Reduce.
Variable gs : list GarbledGate.
Variable bias : Z.

Lemma reduce_total fuel fan wid :
  length fan = length gs -> (Z.to_nat (posum fan) < fuel)%nat ->
  exists fan', reduce_fanout gs bias fuel fan wid = Some fan' /\
    length fan' = length fan /\ posum fan' <= posum fan /\
    (forall k, fz fan' k <= fz fan k) /\
    (forall k, 0 <= fz fan k -> 0 <= fz fan' k).
Proof.
  revert fan wid. induction fuel; intros fan wid HL HF; [lia|]. simpl.
  destruct ((0 <=? wid - bias) && (wid - bias <? Z.of_nat (length gs))) eqn:E.
  2:{ exists fan; repeat split; auto; lia. }
  apply andb_true_iff in E as [E1 E2]. apply Z.leb_le in E1. apply Z.ltb_lt in E2.
  destruct (rd_ok fan (wid - bias)) as [f Hf]; [lia|]. rewrite Hf. simpl.
  destruct (Z.ltb_spec 0 f).
  2:{ exists fan; repeat split; auto; lia. }
  destruct (wr_ok fan (wid - bias) (f - 1)) as [fan1 H1]; [lia|]. rewrite H1. simpl.
  pose proof (wr_length _ _ _ _ H1) as L1.
  pose proof (posum_wr _ _ _ _ _ H1 Hf) as P1.
  pose proof (posum_nonneg fan1) as NN.
  assert (M1 : forall k, fz fan1 k <= fz fan k /\ (0 <= fz fan k -> 0 <= fz fan1 k)).
  { intros k. rewrite (fz_wr _ _ _ _ _ H1).
    destruct (Z.eqb_spec (Z.of_nat k) (wid - bias)) as [e|]; [|lia].
    rewrite <- e in Hf. apply rd_fz in Hf. lia. }
  destruct (f - 1 =? 0).
  2:{ exists fan1; repeat split; auto; try lia; intros; apply M1; auto. }
  destruct (rd_ok gs (wid - bias)) as [g Hg]; [lia|]. rewrite Hg. simpl.
  destruct (IHfuel fan1 (input0 g)) as (fan2 & H2 & L2 & P2 & M2 & N2); [lia|lia|].
  rewrite H2. simpl.
  destruct (IHfuel fan2 (input1 g)) as (fan3 & H3 & L3 & P3 & M3 & N3); [lia|lia|].
  exists fan3. repeat split; auto; try lia.
  - intros k. specialize (M1 k). specialize (M2 k). specialize (M3 k). lia.
  - intros k Hk. apply N3, N2, M1; auto.
Qed.

(** Topological order: gate [k] only reads wires below [bias + k]. *)
Definition topo : Prop :=
  forall k g, nth_error gs k = Some g ->
    input0 g < bias + Z.of_nat k /\ input1 g < bias + Z.of_nat k.

Definition juse (j : nat) (w : Z) : Z :=
  match nth_error gs j with Some g => gate_uses g w | None => 0 end.

Lemma juse_nonneg j w : 0 <= juse j w.
Proof.
  unfold juse, gate_uses. destruct (nth_error gs j); [|lia].
  pose proof (is_ref_nonneg (input0 g) w); pose proof (is_ref_nonneg (input1 g) w). lia.
Qed.

Lemma juse_topo j k : topo -> (j <= k)%nat -> juse j (bias + Z.of_nat k) = 0.
Proof.
  intros T H. unfold juse. destruct (nth_error gs j) eqn:E; auto.
  destruct (T _ _ E). unfold gate_uses. rewrite !is_ref_diff by lia. auto.
Qed.

(** Consumers that still hold their uses: not yet visited, or positive fan-out. *)
Definition live (bnd : nat) (fan : list Z) (j : nat) : bool :=
  (bnd <=? j)%nat || (0 <? fz fan j).

Definition live_uses bnd fan w : Z :=
  sumf (fun j => if live bnd fan j then juse j w else 0) (length gs).

Lemma live_uses_nonneg bnd fan w : 0 <= live_uses bnd fan w.
Proof. apply sumf_nonneg. intros. destruct (live _ _ _); [apply juse_nonneg|lia]. Qed.

(** The counting invariant.  [pub k]: gate [k]'s value is public.  [ext]: uses by
    registers, outputs and the terminate signal.  [p]: decrements that are still
    pending. *)
Definition FI (bnd : nat) (pub : nat -> bool) (ext : nat -> Z) (fan : list Z) (p : nat -> Z) : Prop :=
  forall k, (k < bnd)%nat -> pub k = false ->
    live_uses bnd fan (bias + Z.of_nat k) + ext k + p k <= fz fan k.

Lemma FI_weaken bnd pub ext fan p q :
  (forall k, (k < bnd)%nat -> pub k = false -> q k <= p k) ->
  FI bnd pub ext fan p -> FI bnd pub ext fan q.
Proof. intros H F k Hk Hp. specialize (F k Hk Hp). specialize (H k Hk Hp). lia. Qed.

Lemma reduce_FI bnd pub ext fuel :
  topo -> (bnd <= length gs)%nat -> (forall k, 0 <= ext k) ->
  forall fan wid p fan',
  length fan = length gs ->
  (forall k, 0 <= p k) ->
  (forall k, (k < bnd)%nat -> pub k = true -> fz fan k = 0) ->
  wid < bias + Z.of_nat bnd ->
  FI bnd pub ext fan (fun k => p k + is_ref wid (bias + Z.of_nat k)) ->
  reduce_fanout gs bias fuel fan wid = Some fan' ->
  FI bnd pub ext fan' p /\ (forall k, (k < bnd)%nat -> pub k = true -> fz fan' k = 0)
  /\ length fan' = length gs.
Proof.
  intros T HB HE. induction fuel; intros fan wid p fan' HL HP PZ HW HF HR; [discriminate|].
  simpl in HR.
  destruct ((0 <=? wid - bias) && (wid - bias <? Z.of_nat (length gs))) eqn:E.
  2:{ inv HR. split; [|auto]. eapply FI_weaken; [|exact HF].
      intros. simpl. pose proof (is_ref_nonneg wid (bias + Z.of_nat k)). lia. }
  apply andb_true_iff in E as [E1 E2]. apply Z.leb_le in E1. apply Z.ltb_lt in E2.
  assert (exists k, wid = bias + Z.of_nat k) as [k ->]
    by (exists (Z.to_nat (wid - bias)); lia).
  assert (Kb : (k < bnd)%nat) by lia.
  replace (bias + Z.of_nat k - bias) with (Z.of_nat k) in * by lia.
  bnd HR. rename x into f. rename H into Hf.
  pose proof (rd_fz _ _ _ Hf) as Ff.
  destruct (Z.ltb_spec 0 f) as [fp|fn].
  2:{ inv HR. split; [|auto]. intros m Hm Pm. specialize (HF m Hm Pm). simpl in HF.
      pose proof (is_ref_nonneg (bias + Z.of_nat k) (bias + Z.of_nat m)). lia. }
  assert (Pk : pub k = false).
  { destruct (pub k) eqn:P; auto. specialize (PZ k Kb P). lia. }
  bnd HR. rename x into fan1. rename H into H1.
  pose proof (wr_length _ _ _ _ H1) as L1.
  pose proof (fz_wr_same _ _ _ _ H1) as S1.
  assert (PZ1 : forall m, (m < bnd)%nat -> pub m = true -> fz fan1 m = 0).
  { intros m Hm Pm. rewrite (fz_wr_other _ _ _ _ _ H1); auto. congruence. }
  destruct (Z.eqb_spec (f - 1) 0) as [fz0|fnz].
  - bnd HR. rename x into g. rename H into Hg. bnd HR. rename x into fan2. rename H into H2.
    rewrite rd_nat in Hg.
    assert (LU : forall w, live_uses bnd fan1 w = live_uses bnd fan w - juse k w).
    { intros w. unfold live_uses.
      rewrite (sumf_change _ (fun j => if live bnd fan j then juse j w else 0) _ k);
        [|lia|].
      - assert (live bnd fan1 k = false) as ->.
        { unfold live. rewrite S1. apply orb_false_iff; split;
            [apply Nat.leb_gt; lia | apply Z.ltb_ge; lia]. }
        assert (live bnd fan k = true) as ->.
        { unfold live. rewrite Ff. apply orb_true_iff; right; apply Z.ltb_lt; lia. }
        lia.
      - intros j Hj. unfold live. now rewrite (fz_wr_other _ _ _ _ _ H1). }
    assert (F1 : FI bnd pub ext fan1 (fun m => (p m + is_ref (input1 g) (bias + Z.of_nat m))
                                     + is_ref (input0 g) (bias + Z.of_nat m))).
    { intros m Hm Pm. specialize (HF m Hm Pm). simpl in HF. rewrite LU.
      assert (juse k (bias + Z.of_nat m) = gate_uses g (bias + Z.of_nat m)) as J
        by (unfold juse; now rewrite Hg).
      destruct (Nat.eq_dec m k) as [->|nk].
      - rewrite is_ref_same in HF. rewrite S1.
        pose proof (juse_topo k k T ltac:(lia)) as J0.
        rewrite J0 in *. unfold gate_uses in J. 
        pose proof (is_ref_nonneg (input0 g) (bias + Z.of_nat k)).
        pose proof (is_ref_nonneg (input1 g) (bias + Z.of_nat k)). lia.
      - rewrite (fz_wr_other _ _ _ _ _ H1) by auto. rewrite J. unfold gate_uses.
        pose proof (is_ref_nonneg (bias + Z.of_nat k) (bias + Z.of_nat m)). lia. }
    destruct (T _ _ Hg) as [T0 T1].
    destruct (IHfuel fan1 (input0 g) (fun m => p m + is_ref (input1 g) (bias + Z.of_nat m)) fan2)
      as (F2 & PZ2 & L2); auto; try lia.
    { intros m. pose proof (is_ref_nonneg (input1 g) (bias + Z.of_nat m)).
      specialize (HP m). lia. }
    destruct (IHfuel fan2 (input1 g) p fan') as (F3 & PZ3 & L3); auto; try lia.
  - inv HR. split; [|split; [auto|lia]].
    intros m Hm Pm. specialize (HF m Hm Pm). simpl in HF.
    assert (live_uses bnd fan' (bias + Z.of_nat m) = live_uses bnd fan (bias + Z.of_nat m)) as ->.
    { apply sumf_ext. intros j _.
      assert (live bnd fan' j = live bnd fan j) as ->; auto.
      unfold live. f_equal. destruct (Nat.eq_dec j k) as [->|nk].
      - rewrite S1. destruct (Z.ltb_spec 0 (fz fan k)); destruct (Z.ltb_spec 0 (fz fan k - 1)); lia.
      - now rewrite (fz_wr_other _ _ _ _ _ H1). }
    destruct (Nat.eq_dec m k) as [->|nk].
    + rewrite is_ref_same in HF. rewrite S1. lia.
    + rewrite (fz_wr_other _ _ _ _ _ H1) by auto.
      pose proof (is_ref_nonneg (bias + Z.of_nat k) (bias + Z.of_nat m)). lia.
Qed.

(** Entries at and above [bnd] neither matter nor change. *)
Lemma reduce_above bnd fuel :
  topo -> forall fan wid fan',
  wid < bias + Z.of_nat bnd ->
  reduce_fanout gs bias fuel fan wid = Some fan' ->
  forall k, (bnd <= k)%nat -> fz fan' k = fz fan k.
Proof.
  intros T. induction fuel; intros fan wid fan' HW HR k Hk; [discriminate|]. simpl in HR.
  destruct ((0 <=? wid - bias) && (wid - bias <? Z.of_nat (length gs))) eqn:E; [|congruence].
  apply andb_true_iff in E as [E1 E2]. apply Z.leb_le in E1. apply Z.ltb_lt in E2.
  assert (exists m, wid = bias + Z.of_nat m) as [m ->]
    by (exists (Z.to_nat (wid - bias)); lia).
  replace (bias + Z.of_nat m - bias) with (Z.of_nat m) in * by lia.
  bnd HR. destruct (0 <? x); [|congruence].
  bnd HR. assert (fz x0 k = fz fan k) as Q by (eapply fz_wr_other; eauto; lia).
  destruct (x - 1 =? 0); [|congruence].
  bnd HR. bnd HR. rewrite rd_nat in H1. destruct (T _ _ H1).
  transitivity (fz x2 k); [eapply IHfuel; [|exact HR|]; lia|].
  transitivity (fz x0 k); [eapply IHfuel; [|exact H2|]; lia|auto].
Qed.

Lemma reduce_agree bnd fuel1 :
  topo -> (bnd <= length gs)%nat -> forall fuel2 fan1 fan2 wid r1 r2,
  length fan1 = length gs -> length fan2 = length gs ->
  (forall k, (k < bnd)%nat -> fz fan1 k = fz fan2 k) ->
  wid < bias + Z.of_nat bnd ->
  reduce_fanout gs bias fuel1 fan1 wid = Some r1 ->
  reduce_fanout gs bias fuel2 fan2 wid = Some r2 ->
  length r1 = length gs /\ length r2 = length gs /\
  forall k, (k < bnd)%nat -> fz r1 k = fz r2 k.
Proof.
  intros T HB. induction fuel1; intros [|fuel2] fan1 fan2 wid r1 r2 L1 L2 HA HW R1 R2;
    try discriminate. simpl in R1, R2.
  destruct ((0 <=? wid - bias) && (wid - bias <? Z.of_nat (length gs))) eqn:E.
  2:{ inv R1. inv R2. auto. }
  apply andb_true_iff in E as [E1 E2]. apply Z.leb_le in E1. apply Z.ltb_lt in E2.
  assert (exists m, wid = bias + Z.of_nat m) as [m ->]
    by (exists (Z.to_nat (wid - bias)); lia).
  replace (bias + Z.of_nat m - bias) with (Z.of_nat m) in * by lia.
  assert (Mb : (m < bnd)%nat) by lia.
  rewrite rd_fz_ok in R1 by lia. rewrite rd_fz_ok in R2 by lia. simpl in R1, R2.
  rewrite <- (HA m Mb) in R2.
  destruct (0 <? fz fan1 m); [|inv R1; inv R2; auto].
  bnd R1. bnd R2. rename H into W1. rename H0 into W2.
  pose proof (wr_length _ _ _ _ W1). pose proof (wr_length _ _ _ _ W2).
  assert (A : forall k, (k < bnd)%nat -> fz x k = fz x0 k).
  { intros k Hk. rewrite (fz_wr _ _ _ _ _ W1), (fz_wr _ _ _ _ _ W2).
    destruct (Z.of_nat k =? Z.of_nat m); auto. }
  destruct (fz fan1 m - 1 =? 0); [|inv R1; inv R2; repeat split; auto; lia].
  bnd R1. bnd R2. assert (x2 = x1) as -> by congruence.
  rewrite rd_nat in H1. destruct (T _ _ H1).
  bnd R1. bnd R2.
  edestruct (IHfuel1 fuel2 x x0 (input0 x1)) as (? & ? & ?); try eassumption; try lia.
  eapply (IHfuel1 fuel2 x2 x3 (input1 x1)); eauto; lia.
Qed.
End Reduce.

(** * FillFanout *)
Definition count_ref (l : list Z) (w : Z) : Z := fold_right (fun x a => is_ref x w + a) 0 l.

Lemma count_ref_nonneg l w : 0 <= count_ref l w.
Proof. induction l; simpl; [lia|]. pose proof (is_ref_nonneg a w); lia. Qed.

Lemma count_ref_firstn_S l n x w :
  nth_error l n = Some x ->
  count_ref (firstn (S n) l) w = count_ref (firstn n l) w + is_ref x w.
Proof.
  revert n; induction l; intros [|n] H; simpl in *; try discriminate.
  - inv H. lia.
  - rewrite (IHl n H). lia.
Qed.

Lemma count_ref_in l w i : nth_error l i = Some w -> 1 <= count_ref l w.
Proof.
  revert i; induction l; intros [|i] H; simpl in *; try discriminate.
  - inv H. rewrite is_ref_same. pose proof (count_ref_nonneg l w). lia.
  - specialize (IHl _ H). pose proof (is_ref_nonneg a w). lia.
Qed.

Lemma count_ref_pos_in l w : 1 <= count_ref l w -> In w l.
Proof.
  induction l; simpl; [lia|]. unfold is_ref at 1. destruct (Z.eqb_spec a w); auto.
Qed.

(** Uses of gate [k] that are never dropped: registers, outputs, terminate. *)
Definition ext_uses (c : GarbledCircuit) (k : nat) : Z :=
  let w := get_gate_lo_index c + Z.of_nat k in
  count_ref (D c) w + count_ref (outputs c) w +
  (if terminate_id c >? 0 then is_ref (terminate_id c) w else 0).

Lemma ext_uses_nonneg c k : 0 <= ext_uses c k.
Proof.
  unfold ext_uses.
  pose proof (count_ref_nonneg (D c) (get_gate_lo_index c + Z.of_nat k)).
  pose proof (count_ref_nonneg (outputs c) (get_gate_lo_index c + Z.of_nat k)).
  pose proof (is_ref_nonneg (terminate_id c) (get_gate_lo_index c + Z.of_nat k)).
  destruct (_ >? _); lia.
Qed.

Lemma incr_ok fan i :
  0 <= i < Z.of_nat (length fan) ->
  exists fan', incr fan i = Some fan' /\ length fan' = length fan /\
    forall k, fz fan' k = fz fan k + is_ref i (Z.of_nat k).
Proof.
  intros H. unfold incr. rewrite rd_fz_Z by lia. simpl.
  destruct (wr_ok fan i (fz fan (Z.to_nat i) + 1) H) as [fan' E]. exists fan'.
  split; [auto|]. split; [eapply wr_length; eauto|].
  intros k. rewrite (fz_wr _ _ _ _ _ E). unfold is_ref. rewrite Z.eqb_sym.
  destruct (Z.eqb_spec i (Z.of_nat k)); [|lia]. subst. rewrite Nat2Z.id. lia.
Qed.

Lemma is_ref_shift w b k : is_ref (w - b) k = is_ref w (b + k).
Proof. unfold is_ref. destruct (Z.eqb_spec (w - b) k), (Z.eqb_spec w (b + k)); auto; lia. Qed.

Section Fill.
Variable gs : list GarbledGate.
Variable bias : Z.

(** Gates below [n] read earlier wires only. *)
Definition topo_upto (n : nat) : Prop :=
  forall k g, (k < n)%nat -> nth_error gs k = Some g ->
    input0 g < bias + Z.of_nat k /\ input1 g < bias + Z.of_nat k.

Lemma topo_upto_all : topo_upto (length gs) <-> topo gs bias.
Proof.
  split; intros H k g; [intros|intros _]; apply H; auto.
  apply nth_error_Some; congruence.
Qed.

Lemma fill_use_ok i w fan :
  (i < length fan)%nat ->
  exists fan' ok, fill_use bias i w (fan, true) = Some (fan', ok) /\
    length fan' = length fan /\
    (ok = true <-> w < bias + Z.of_nat i) /\
    (ok = true -> forall k, fz fan' k = fz fan k + is_ref w (bias + Z.of_nat k)).
Proof.
  intros Hi. unfold fill_use.
  destruct (Z.leb_spec bias w).
  - destruct (Z.ltb_spec (w - bias) (Z.of_nat i)).
    + destruct (incr_ok fan (w - bias)) as (fan' & E & L & F); [lia|].
      rewrite E. simpl. exists fan', true. repeat split; auto; try lia.
      intros _ k. rewrite F, is_ref_shift. auto.
    + exists fan, false. repeat split; auto; try lia; discriminate.
  - exists fan, true. repeat split; auto; try lia.
    intros _ k. rewrite is_ref_diff; lia.
Qed.

Local Arguments fill_use : simpl never.

Lemma fill_gates junk :
  length junk = length gs ->
  exists fan ok, for_ (length gs) (fill_gate bias gs) (junk, true) = Some (fan, ok) /\
    length fan = length gs /\ (ok = true <-> topo gs bias) /\
    (ok = true -> forall k, (k < length gs)%nat ->
       fz fan k = sumf (fun j => juse gs j (bias + Z.of_nat k)) (length gs)).
Proof.
  intros HL.
  destruct (for_inv (fun i (st : list Z * bool) =>
      length (fst st) = length gs /\ (snd st = true <-> topo_upto i) /\
      (snd st = true -> forall k, (k < i)%nat ->
        fz (fst st) k = sumf (fun j => juse gs j (bias + Z.of_nat k)) i))
      (length gs) (fill_gate bias gs) (junk, true)) as ([fan ok] & E & L & T & F).
  - simpl. repeat split; auto; try lia.
  - intros i [fan ok] Hi (L & T & F). simpl in *.
    destruct ok.
    2:{ exists (fan, false). simpl. split; [auto|]. split; [auto|]. split; [|discriminate].
        split; [discriminate|]. intros Q. apply T. intros k g Hk. apply Q. lia. }
    destruct (rd_ok gs (Z.of_nat i)) as [g Hg]; [lia|]. rewrite Hg. simpl.
    rewrite rd_nat in Hg.
    destruct (wr_ok fan (Z.of_nat i) 0) as [fan1 W]; [lia|]. rewrite W. simpl.
    pose proof (wr_length _ _ _ _ W) as L1.
    destruct (fill_use_ok i (input0 g) fan1) as (fan2 & ok2 & E2 & L2 & T2 & F2); [lia|].
    rewrite E2. simpl. destruct ok2.
    + destruct (fill_use_ok i (input1 g) fan2) as (fan3 & ok3 & E3 & L3 & T3 & F3); [lia|].
      rewrite E3. exists (fan3, ok3). simpl.
      assert (TT : ok3 = true <-> topo_upto (S i)).
      { rewrite T3. split.
        - intros H k g' Hk Hg'. destruct (Nat.eq_dec k i) as [->|].
          + assert (g' = g) as -> by congruence. split; auto. apply T2; auto.
          + apply (proj1 T eq_refl k g'); auto; lia.
        - intros H. apply (H i g); auto. }
      split; [auto|]. split; [lia|]. split; [exact TT|].
      intros -> k Hk. rewrite F3, F2 by auto. simpl.
      replace (juse gs i (bias + Z.of_nat k)) with (gate_uses g (bias + Z.of_nat k))
        by (unfold juse; now rewrite Hg).
      unfold gate_uses.
      destruct (Nat.eq_dec k i) as [->|ni].
      * rewrite (fz_wr_same _ _ _ _ W).
        rewrite (sumf_ext _ (fun _ => 0)).
        { assert (Z0 : sumf (fun _ => 0) i = 0) by (clear; induction i; simpl; lia). lia. }
        intros j Hj. unfold juse. destruct (nth_error gs j) as [gj|] eqn:Ej; auto.
        destruct (proj1 TT eq_refl j gj ltac:(lia) Ej).
        unfold gate_uses. rewrite !is_ref_diff by lia. auto.
      * rewrite (fz_wr_other _ _ _ _ _ W) by auto. rewrite F by (auto; lia). lia.
    + exists (fan2, false). simpl. split; [auto|]. split; [lia|]. split; [|discriminate].
      split; [discriminate|]. intros H. apply T2. apply (H i g); auto.
  - simpl in *. exists fan, ok. split; [auto|]. split; [auto|]. split; [|auto].
    rewrite T. apply topo_upto_all.
Qed.
End Fill.

Lemma fill_exts bias l fan :
  (forall w, In w l -> w < bias + Z.of_nat (length fan)) ->
  exists fan', for_ (length l) (fill_ext bias l) fan = Some fan' /\
    length fan' = length fan /\
    forall k, fz fan' k = fz fan k + count_ref l (bias + Z.of_nat k).
Proof.
  intros HR.
  destruct (for_inv (fun i fan' => length fan' = length fan /\
      forall k, fz fan' k = fz fan k + count_ref (firstn i l) (bias + Z.of_nat k))
      (length l) (fill_ext bias l) fan) as (fan' & E & L & F).
  - split; auto. intros; simpl; lia.
  - intros i fan1 Hi (L & F). unfold fill_ext.
    destruct (rd_ok l (Z.of_nat i)) as [w Hw]; [lia|]. rewrite Hw. simpl.
    rewrite rd_nat in Hw.
    destruct (Z.leb_spec 0 (w - bias)).
    + specialize (HR w (nth_error_In _ _ Hw)).
      destruct (incr_ok fan1 (w - bias)) as (fan2 & E2 & L2 & F2); [lia|].
      exists fan2. repeat split; auto; try lia.
      intros k. rewrite F2, F, is_ref_shift, (count_ref_firstn_S _ _ _ _ Hw). lia.
    + exists fan1. repeat split; auto. intros k.
      rewrite F, (count_ref_firstn_S _ _ _ _ Hw), is_ref_diff; lia.
  - rewrite firstn_all in F. eauto.
Qed.

(** Total number of uses of gate [k]. *)
Definition total_uses (c : GarbledCircuit) (k : nat) : Z :=
  sumf (fun j => juse (garbledGates c) j (get_gate_lo_index c + Z.of_nat k)) (gate_size c)
  + ext_uses c k.

Lemma get_wire_size_eq c : wsz c = get_gate_lo_index c + Z.of_nat (gate_size c).
Proof. unfold wsz, get_wire_size, get_gate_lo_index. lia. Qed.

Lemma FillFanout_ok c junk :
  length junk = gate_size c ->
  (forall w, In w (D c) -> w < wsz c) ->
  (forall w, In w (outputs c) -> w < wsz c) ->
  (0 < terminate_id c -> terminate_id c < wsz c) ->
  exists fan ok, FillFanout c junk = Some (fan, ok) /\ length fan = gate_size c /\
    (topo (garbledGates c) (get_gate_lo_index c) ->
      (forall k, (k < gate_size c)%nat -> fz fan k = total_uses c k) /\
      (ok = true <-> forall k, (k < gate_size c)%nat -> 0 < total_uses c k)) /\
    (ok = true -> topo (garbledGates c) (get_gate_lo_index c)).
Proof.
  intros HL HD HO HT. unfold FillFanout. pose proof (get_wire_size_eq c) as W.
  destruct (fill_gates (garbledGates c) (get_gate_lo_index c) junk HL)
    as (fan & ok & E & L & T & F).
  unfold gate_size at 1. rewrite E. simpl. destruct ok.
  2:{ exists fan, false. repeat split; auto; try discriminate.
      - intros k Hk. exfalso. apply T in H. discriminate.
      - intros _. exfalso. apply T in H. discriminate. }
  destruct (fill_exts (get_gate_lo_index c) (D c) fan) as (fan1 & E1 & L1 & F1).
  { intros w Hw. specialize (HD w Hw). unfold gate_size in *. lia. }
  unfold dff_size. rewrite E1. simpl.
  destruct (fill_exts (get_gate_lo_index c) (outputs c) fan1) as (fan2 & E2 & L2 & F2).
  { intros w Hw. specialize (HO w Hw). unfold gate_size in *. lia. }
  unfold output_size. rewrite E2. simpl.
  assert (exists fan3, (if terminate_id c >? 0 then
                  if 0 <=? terminate_id c - get_gate_lo_index c
                  then incr fan2 (terminate_id c - get_gate_lo_index c)
                  else Some fan2
                else Some fan2) = Some fan3 /\ length fan3 = length fan2 /\
     forall k, fz fan3 k = fz fan2 k +
       (if terminate_id c >? 0 then is_ref (terminate_id c) (get_gate_lo_index c + Z.of_nat k) else 0))
    as (fan3 & E3 & L3 & F3).
  { destruct (Z.gtb_spec (terminate_id c) 0) as [HT0|HT0].
    - specialize (HT HT0). destruct (Z.leb_spec 0 (terminate_id c - get_gate_lo_index c)).
      + destruct (incr_ok fan2 (terminate_id c - get_gate_lo_index c)) as (fan3 & E3 & L3 & F3).
        { unfold gate_size in *. lia. }
        exists fan3. repeat split; auto. intros k. rewrite F3, is_ref_shift. auto.
      + exists fan2. repeat split; auto. intros k. rewrite is_ref_diff; lia.
    - exists fan2. repeat split; auto. intros; lia. }
  rewrite E3. simpl.
  assert (FT : forall k, (k < gate_size c)%nat -> fz fan3 k = total_uses c k).
  { intros k Hk. rewrite F3, F2, F1, F by auto. unfold total_uses, ext_uses, gate_size. lia. }
  assert (LL : length fan3 = gate_size c) by (unfold gate_size in *; lia).
  exists fan3, (forallb (fun f => 0 <? f) fan3). split; [auto|]. split; [auto|].
  split; [|intros; apply T; auto].
  intros _. split; [auto|]. split.
  - rewrite forallb_forall. intros H0 k Hk. specialize (H0 (fz fan3 k)).
    rewrite <- FT by auto. apply Z.ltb_lt, H0. unfold fz. apply nth_In. lia.
  - intros H0. apply forallb_forall. intros f Hf.
    destruct (In_nth _ _ 0 Hf) as (k & Hk & <-). apply Z.ltb_lt.
    fold (fz fan3 k). rewrite FT by lia. apply H0; lia.
Qed.
