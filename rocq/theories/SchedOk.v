(** The schedules of Schedule (scd/scheduling.cpp:173-243). *)
From Coq Require Import ZArith NArith List Bool Lia Arith Permutation FinFun.
From Verif Require Import Base Sort SortOk Sched SchedSort.
Import ListNotations.
Open Scope Z_scope.

(** * The first least element *)
Lemma get_min_index arr size : (1 <= size)%nat -> length arr = size -> exists k, GetMinIndex arr size = Some (Z.of_nat k) /\ (k < size)%nat /\
  (forall j, (j < size)%nat -> nth k arr 0 <= nth j arr 0) /\ forall j, (j < k)%nat -> nth k arr 0 < nth j arr 0.
Proof.
  intros S1 L. unfold GetMinIndex. rewrite (rd_get arr 0) by lia. cbn [obind]. unfold get. cbn [Z.to_nat].
  destruct (for_from_inv (fun i (s : Z * Z) => let '(m, k) := s in exists k', k = Z.of_nat k' /\ (k' < i)%nat /\ m = nth k' arr 0 /\
      (forall j, (j < i)%nat -> nth k' arr 0 <= nth j arr 0) /\ forall j, (j < k')%nat -> nth k' arr 0 < nth j arr 0)
    (min_step arr) 1 (size - 1) (nth 0 arr 0, 0)) as ([m k] & E & k' & -> & K & -> & A & B).
  - exists 0%nat. split; [reflexivity|]. split; [lia|]. split; [reflexivity|]. split; [|intros; lia]. intros j J. replace j with 0%nat by lia. lia.
  - intros i [m k] HI (k' & -> & K & -> & A & B). unfold min_step. rewrite rd_get by lia. cbn [obind]. unfold get. rewrite Nat2Z.id.
    eexists. split; [reflexivity|]. destruct (Z.ltb_spec (nth i arr 0) (nth k' arr 0)) as [Q|Q].
    + exists i. split; [reflexivity|]. split; [lia|]. split; [reflexivity|]. split.
      * intros j J. destruct (Nat.eq_dec j i) as [->|]; [lia|]. specialize (A j ltac:(lia)). lia.
      * intros j J. specialize (A j J). lia.
    + exists k'. split; [reflexivity|]. split; [lia|]. split; [reflexivity|]. split; [|exact B].
      intros j J. destruct (Nat.eq_dec j i) as [->|]; [lia|]. apply A. lia.
  - rewrite E. cbn [obind]. exists k'. split; [reflexivity|]. replace (1 + (size - 1))%nat with size in * by lia. auto.
Qed.

(** * Spreading over the cores *)
Section Loads.
Variable nc : nat.
Hypothesis NC : (1 <= nc)%nat.
Definition load (m c : nat) : nat := if (c <? m mod nc)%nat then S (m / nc) else (m / nc)%nat.
Definition loads (m : nat) : list Z := map (fun c => Z.of_nat (load m c)) (seq 0 nc).
Lemma loads_length m : length (loads m) = nc.
Proof. unfold loads. rewrite map_length, seq_length. reflexivity. Qed.
Lemma nth_loads m c : (c < nc)%nat -> nth_error (loads m) c = Some (Z.of_nat (load m c)).
Proof. intros C. unfold loads. rewrite nth_error_map, (nth_error_nth' _ 0%nat), seq_nth by (rewrite ?seq_length; exact C). reflexivity. Qed.
Lemma split_at q r : (r < nc)%nat -> ((nc * q + r) / nc = q /\ (nc * q + r) mod nc = r)%nat.
Proof. intros R. split; symmetry; [eapply Nat.div_unique|eapply Nat.mod_unique]; eauto. Qed.
Lemma load_S m c : (c < nc)%nat -> load (S m) c = if (c =? m mod nc)%nat then S (m / nc) else load m c.
Proof.
  intros C. pose proof (Nat.div_mod m nc ltac:(lia)) as DM. pose proof (Nat.mod_upper_bound m nc ltac:(lia)) as UB.
  set (q := (m / nc)%nat) in *. set (r := (m mod nc)%nat) in *.
  assert (E : load m c = if (c <? r)%nat then S q else q) by reflexivity. rewrite E. unfold load.
  destruct (Nat.eq_dec (S r) nc) as [W|W].
  - destruct (split_at (S q) 0 ltac:(lia)) as [D0 M0]. replace (nc * S q + 0)%nat with (S m) in * by lia. rewrite D0, M0.
    destruct (Nat.ltb_spec c 0); [lia|]. destruct (Nat.eqb_spec c r); [reflexivity|]. destruct (Nat.ltb_spec c r); [reflexivity|lia].
  - destruct (split_at q (S r) ltac:(lia)) as [D0 M0]. replace (nc * q + S r)%nat with (S m) in * by lia. rewrite D0, M0.
    destruct (Nat.ltb_spec c (S r)); destruct (Nat.eqb_spec c r); destruct (Nat.ltb_spec c r); try lia; reflexivity.
Qed.
Lemma load_here m : load m (m mod nc) = (m / nc)%nat.
Proof. unfold load. rewrite Nat.ltb_irrefl. reflexivity. Qed.
Lemma wr_loads m : wr (loads m) (Z.of_nat (m mod nc)) (Z.of_nat (m / nc) + 1) = Some (loads (S m)).
Proof.
  pose proof (Nat.mod_upper_bound m nc ltac:(lia)) as UB.
  destruct (wr_ok (loads m) (Z.of_nat (m mod nc)) (Z.of_nat (m / nc) + 1)) as [l W]; [rewrite loads_length; lia|]. rewrite W. f_equal.
  apply list_ext_rd. intros i. rewrite (rd_wr _ _ _ _ i W).
  destruct (Z.lt_ge_cases i 0) as [N|N].
  { destruct (Z.eqb_spec i (Z.of_nat (m mod nc))); [lia|]. unfold rd. destruct (Z.ltb_spec i 0); [reflexivity|lia]. }
  replace i with (Z.of_nat (Z.to_nat i)) by lia. set (c := Z.to_nat i). rewrite !rd_nat.
  destruct (le_lt_dec nc c) as [G|G].
  { rewrite !(proj2 (nth_error_None _ _)) by (rewrite loads_length; lia). destruct (Z.eqb_spec (Z.of_nat c) (Z.of_nat (m mod nc))); [lia|reflexivity]. }
  rewrite !nth_loads by exact G. rewrite load_S by exact G.
  destruct (Z.eqb_spec (Z.of_nat c) (Z.of_nat (m mod nc))); destruct (Nat.eqb_spec c (m mod nc)); try lia; [f_equal; lia|reflexivity].
Qed.
Lemma least_load m : GetMinIndex (loads m) nc = Some (Z.of_nat (m mod nc)).
Proof.
  pose proof (Nat.mod_upper_bound m nc ltac:(lia)) as UB.
  destruct (get_min_index (loads m) nc NC (loads_length m)) as (k & E & K & A & B). rewrite E. do 2 f_equal.
  assert (N : forall c, (c < nc)%nat -> nth c (loads m) 0 = Z.of_nat (load m c)) by (intros c C; apply nth_error_nth, nth_loads, C).
  specialize (A _ UB). rewrite !N in A by lia. rewrite load_here in A. unfold load in A.
  destruct (Nat.lt_total k (m mod nc)) as [L|[L|L]]; [|exact L|].
  - destruct (Nat.ltb_spec k (m mod nc)); lia.
  - specialize (B _ L). rewrite !N in B by lia. rewrite load_here in B. unfold load in B. destruct (Nat.ltb_spec k (m mod nc)); lia.
Qed.
End Loads.

(** * The plan *)
Section Plan.
Variable rc : ReadCircuit.
Notation G := (gate_list rc).
Notation n := (length G).
Notation b := (init_input_dff_size rc).
Hypothesis RG : in_range rc.
Variable nc : nat.
Hypothesis NC : (1 <= nc)%nat.

(** An order of gates in which every gate comes after the gates it reads. *)
Definition ordered (ord : list Z) : Prop := forall k t, nth_error ord k = Some t -> forall u, 0 <= u ->
  reads rc (Z.of_nat b + t) (Z.of_nat b + u) -> exists j, (j < k)%nat /\ nth_error ord j = Some u.
(** The gates of [ord], dealt out to the cores one after the other. *)
Definition dealt (ord : list Z) (cores : list (list Z)) : Prop := forall k t, nth_error ord k = Some t ->
  exists row, nth_error cores (k mod nc)%nat = Some row /\ nth_error row (k / nc)%nat = Some t.
Definition assigned (ord : list Z) (p : list Z) : Prop :=
  length p = n /\ forall t, 0 <= t < Z.of_nat n -> exists v, rd p t = Some v /\ (v <> -1 <-> In t ord).
Definition room (cores : list (list Z)) : Prop :=
  (nc <= length cores)%nat /\ forall c row, (c < nc)%nat -> nth_error cores c = Some row -> (n <= nc * length row)%nat.

Record planned (ord : list Z) (s : plan) : Prop := {
  pl_count : no_scheduled s = length ord;
  pl_nodup : NoDup ord;
  pl_range : forall t, In t ord -> 0 <= t < Z.of_nat n;
  pl_p1 : assigned ord (p1 s);
  pl_core : dealt ord (core s);
  pl_room : room (core s);
  pl_index : core_index s = loads nc (length ord);
  pl_busy : core_busy s = loads nc (length ord) }.

Lemma bounded (l : list Z) : NoDup l -> (forall t, In t l -> 0 <= t < Z.of_nat n) -> (length l <= n)%nat.
Proof.
  intros ND R. replace n with (length (map Z.of_nat (seq 0 n))) by (rewrite map_length, seq_length; reflexivity).
  apply NoDup_incl_length; [exact ND|]. intros t T. apply R in T. apply in_map_iff. exists (Z.to_nat t). split; [lia|]. apply in_seq. lia.
Qed.
Lemma nodup_snoc (l : list Z) t : NoDup l -> ~ In t l -> NoDup (l ++ [t]).
Proof. intros ND NI. apply NoDup_rev in ND. rewrite <- (rev_involutive (l ++ [t])). apply NoDup_rev. rewrite rev_app_distr. cbn. constructor; [rewrite <- in_rev; exact NI|exact ND]. Qed.

Lemma assign_ok ord s t : planned ord s -> 0 <= t < Z.of_nat n -> ~ In t ord ->
  exists s', assign nc t s = Some s' /\ planned (ord ++ [t]) s'.
Proof.
  intros [CNT ND RA [PL PA] CO [RO1 RO2] IX BU] T NI. unfold assign. rewrite BU, IX. set (m := length ord) in *.
  pose proof (Nat.mod_upper_bound m nc ltac:(lia)) as UB.
  assert (ND' : NoDup (ord ++ [t])) by (apply nodup_snoc; assumption).
  assert (RA' : forall u, In u (ord ++ [t]) -> 0 <= u < Z.of_nat n) by (intros u U; apply in_app_iff in U as [U|[<-|[]]]; auto).
  assert (M : (m < n)%nat) by (pose proof (bounded _ ND' RA') as B; rewrite app_length in B; cbn in B; lia).
  rewrite (least_load nc NC m). cbn [obind].
  destruct (wr_ok (p1 s) t (Z.of_nat (m mod nc))) as [p W]; [lia|]. rewrite W. cbn [obind].
  destruct (rd_ok (core s) (Z.of_nat (m mod nc))) as [row ER]; [lia|]. rewrite ER. cbn [obind]. rewrite rd_nat in ER.
  rewrite rd_nat, (nth_loads nc m (m mod nc) UB), load_here. cbn [obind].
  assert (DM : (m / nc < length row)%nat).
  { apply Nat.div_lt_upper_bound; [lia|]. specialize (RO2 _ _ UB ER). lia. }
  destruct (wr_ok row (Z.of_nat (m / nc)) t) as [row' WR]; [lia|]. rewrite WR. cbn [obind].
  destruct (wr_ok (core s) (Z.of_nat (m mod nc)) row') as [co WC]; [lia|]. rewrite WC. cbn [obind].
  rewrite (wr_loads nc NC m). cbn [obind].
  eexists. split; [reflexivity|]. split; cbn [no_scheduled p1 core core_index core_busy].
  - rewrite app_length, CNT. cbn. lia.
  - exact ND'.
  - exact RA'.
  - split; [rewrite (wr_length _ _ _ _ W); exact PL|]. intros u U. rewrite (rd_wr _ _ _ _ u W). destruct (Z.eqb_spec u t) as [->|NE].
    + eexists. split; [reflexivity|]. rewrite in_app_iff. cbn. split; [auto|lia].
    + destruct (PA u U) as (v & V & Q). exists v. split; [exact V|]. rewrite Q, in_app_iff. cbn. intuition congruence.
  - intros k u K. destruct (le_lt_dec m k) as [L|L].
    + rewrite nth_error_app2 in K by exact L. fold m in K. destruct (k - m)%nat as [|d] eqn:Q; cbn in K; [|destruct d; discriminate]. injection K as <-.
      assert (k = m) by lia. subst k. exists row'. rewrite <- !rd_nat. split; [apply (rd_wr_same _ _ _ _ WC)|apply (rd_wr_same _ _ _ _ WR)].
    + rewrite nth_error_app1 in K by exact L. destruct (CO k u K) as (r & R1 & R2).
      rewrite <- rd_nat, (rd_wr _ _ _ _ _ WC). destruct (Z.eqb_spec (Z.of_nat (k mod nc)) (Z.of_nat (m mod nc))) as [Q|Q].
      * exists row'. split; [reflexivity|]. assert (Q' : (k mod nc = m mod nc)%nat) by lia. rewrite Q', ER in R1. injection R1 as <-.
        rewrite <- rd_nat, (rd_wr _ _ _ _ _ WR). destruct (Z.eqb_spec (Z.of_nat (k / nc)) (Z.of_nat (m / nc))) as [S|S]; [|rewrite rd_nat; exact R2].
        exfalso. pose proof (Nat.div_mod k nc ltac:(lia)). pose proof (Nat.div_mod m nc ltac:(lia)). assert (S' : (k / nc = m / nc)%nat) by lia. rewrite S' in *. lia.
      * exists r. rewrite rd_nat. auto.
  - split; [rewrite (wr_length _ _ _ _ WC); exact RO1|]. intros c r C. rewrite <- rd_nat, (rd_wr _ _ _ _ _ WC), rd_nat.
    destruct (Z.eqb_spec (Z.of_nat c) (Z.of_nat (m mod nc))) as [Q|Q]; [|apply RO2; exact C].
    intros [= <-]. rewrite (wr_length _ _ _ _ WR). apply (RO2 _ _ UB ER).
  - rewrite app_length. cbn. rewrite Nat.add_1_r. reflexivity.
  - rewrite app_length. cbn. rewrite Nat.add_1_r. reflexivity.
Qed.

(** * One round *)
Definition inb (t : Z) (l : list Z) : bool := existsb (Z.eqb t) l.
Lemma inb_in t l : inb t l = true <-> In t l.
Proof. unfold inb. rewrite existsb_exists. split; [intros (x & X & E); apply Z.eqb_eq in E; congruence|intros I; exists t; split; [exact I|apply Z.eqb_refl]]. Qed.
Definition ready_wire (ord : list Z) (w : Z) : bool := (w - Z.of_nat b <? 0) || inb (w - Z.of_nat b) ord.
(** Not yet placed, and everything it reads is. *)
Definition ready (ord : list Z) (t : Z) : bool :=
  negb (inb t ord) && match rd G t with Some g => ready_wire ord (rg_in0 g) && ready_wire ord (rg_in1 g) | None => false end.

Lemma input_ready_ok ord p0 w : assigned ord p0 -> w < Z.of_nat (b + n) -> input_ready p0 (w - Z.of_nat b) = Some (ready_wire ord w).
Proof.
  intros [PL PA] W. unfold input_ready, ready_wire. destruct (Z.ltb_spec (w - Z.of_nat b) 0); [reflexivity|]. cbn [orb].
  destruct (PA (w - Z.of_nat b) ltac:(lia)) as (v & -> & Q). cbn [obind]. f_equal. apply eq_true_iff_eq. rewrite inb_in, <- Q.
  rewrite negb_true_iff, Z.eqb_neq. tauto.
Qed.

Definition complete (index : list Z) : Prop := NoDup index /\ forall t, In t index <-> 0 <= t < Z.of_nat n.
Lemma complete_length index : complete index -> length index = n.
Proof.
  intros [ND M]. apply Nat.le_antisymm; [apply bounded; [exact ND|intros t; apply M]|].
  replace n with (length (map Z.of_nat (seq 0 n))) at 1 by (rewrite map_length, seq_length; reflexivity).
  apply NoDup_incl_length; [apply Injective_map_NoDup; [intros x y; apply Nat2Z.inj|apply seq_NoDup]|].
  intros t T. apply in_map_iff in T as (k & <- & K). apply in_seq in K. apply M. lia.
Qed.

Variable index : list Z.
Hypothesis IX : complete index.

Lemma firstn_snoc {A} (l : list A) i x : nth_error l i = Some x -> firstn (S i) l = firstn i l ++ [x].
Proof. revert i. induction l as [|y l IH]; intros [|i] H; cbn in *; try discriminate; [congruence|]. f_equal. apply IH. exact H. Qed.

Lemma round_ok ord s : planned ord s ->
  exists s', for_ n (consider G (Z.of_nat b) nc index (p1 s)) s = Some s' /\ planned (ord ++ filter (ready ord) index) s'.
Proof.
  intros PL. pose proof (pl_p1 _ _ PL) as AS. set (p0 := p1 s) in *. clearbody p0.
  pose proof (complete_length _ IX) as LX. destruct IX as [ND M].
  destruct (for_inv (fun i s => planned (ord ++ filter (ready ord) (firstn i index)) s) n (consider G (Z.of_nat b) nc index p0) s) as (s' & E & H).
  - cbn. rewrite app_nil_r. exact PL.
  - clear s PL. intros i s Hi PL. unfold consider.
    destruct (rd_ok index (Z.of_nat i)) as [t Et]; [lia|]. rewrite Et. cbn [obind]. rewrite rd_nat in Et.
    assert (T : 0 <= t < Z.of_nat n) by (apply M; eapply nth_error_In; exact Et).
    rewrite (firstn_snoc _ _ _ Et), filter_app. cbn [filter].
    destruct AS as [AL AA]. destruct (AA t T) as (v & V & Q). rewrite V. cbn [obind].
    destruct (rd_ok G t) as [g Eg]; [lia|]. rewrite Eg. cbn [obind].
    assert (GI : In g G) by (apply rd_nth in Eg; eapply nth_error_In; exact Eg). destruct (RG g GI) as [R0 R1]. cbv zeta in R0, R1.
    rewrite !(input_ready_ok ord p0) by (assumption || (split; assumption)).
    assert (RE : ready ord t = (v =? -1) && (ready_wire ord (rg_in0 g) && ready_wire ord (rg_in1 g))).
    { unfold ready. rewrite Eg. f_equal. apply eq_true_iff_eq. rewrite negb_true_iff, <- not_true_iff_false, inb_in, <- Q, Z.eqb_eq. lia. }
    rewrite RE. destruct (Z.eqb_spec v (-1)) as [E1|E1]; cbn [negb andb obind].
    2:{ exists s. split; [reflexivity|]. rewrite app_nil_r. exact PL. }
    destruct (ready_wire ord (rg_in0 g)) eqn:Q0; cbn [negb andb obind].
    2:{ exists s. split; [reflexivity|]. rewrite app_nil_r. exact PL. }
    destruct (ready_wire ord (rg_in1 g)) eqn:Q1; cbn [negb andb obind].
    2:{ exists s. split; [reflexivity|]. rewrite app_nil_r. exact PL. }
    rewrite app_assoc. apply assign_ok; [exact PL|exact T|]. rewrite in_app_iff. intros [I|I]; [apply Q in I; lia|].
    apply filter_In in I as [I _]. apply In_nth_error in I as [j Ej].
    assert (J : (j < i)%nat). { pose proof (nth_error_lt _ _ _ Ej) as LJ. rewrite firstn_length in LJ. lia. }
    assert (Ej' : nth_error index j = Some t). { rewrite <- (firstn_skipn i index), nth_error_app1; [exact Ej|]. eapply nth_error_lt; exact Ej. }
    assert (j = i); [|lia]. eapply NoDup_nth_error; [exact ND| |congruence]. apply nth_error_Some. congruence.
  - exists s'. split; [exact E|]. rewrite <- LX, firstn_all in H. exact H.
Qed.

Lemma round_ordered ord : ordered ord -> ordered (ord ++ filter (ready ord) index).
Proof.
  intros O k t K u U R. destruct (le_lt_dec (length ord) k) as [L|L].
  - rewrite nth_error_app2 in K by exact L. apply nth_error_In, filter_In in K as [_ K].
    assert (I : In u ord).
    { unfold ready in K. apply andb_true_iff in K as [_ K]. destruct (rd G t) as [g|] eqn:Eg; [|discriminate]. apply andb_true_iff in K as [K0 K1].
      pose proof (rd_bound _ _ _ Eg) as BT.
      destruct R as (i & g' & Eg' & EI & O' & _). apply rd_nth in Eg. replace (Z.to_nat t) with i in Eg by lia. assert (g' = g) by congruence. subst g'.
      unfold ready_wire in K0, K1. destruct O' as [O'|O']; rewrite <- O' in *.
      - replace (Z.of_nat b + u - Z.of_nat b) with u in K0 by lia. apply orb_true_iff in K0 as [K0|K0]; [apply Z.ltb_lt in K0; lia|apply inb_in; exact K0].
      - replace (Z.of_nat b + u - Z.of_nat b) with u in K1 by lia. apply orb_true_iff in K1 as [K1|K1]; [apply Z.ltb_lt in K1; lia|apply inb_in; exact K1]. }
    apply In_nth_error in I as [j J]. pose proof (nth_error_lt _ _ _ J). exists j. split; [lia|]. rewrite nth_error_app1 by assumption. exact J.
  - rewrite nth_error_app1 in K by exact L. destruct (O k t K u U R) as (j & J & E). exists j. split; [exact J|]. rewrite nth_error_app1 by lia. exact E.
Qed.

(** Without loops something is ready as long as something is missing. *)
Lemma progress_ok ord : ~ has_loop rc -> NoDup ord -> (forall t, In t ord -> 0 <= t < Z.of_nat n) -> (length ord < n)%nat ->
  exists t, In t index /\ ready ord t = true.
Proof.
  intros NL ND RA L. destruct (topological_sort rc RG) as ([l|] & _ & H); [|contradiction]. destruct H as (_ & ML & RE & _).
  set (missing := fun w => (Z.of_nat b <=? w) && negb (inb (w - Z.of_nat b) ord)).
  assert (EX : exists w, In w l /\ missing w = true).
  { destruct (existsb missing l) eqn:E; [apply existsb_exists in E; exact E|]. exfalso.
    assert (C : (n <= length ord)%nat); [|lia]. replace n with (length (map Z.of_nat (seq 0 n))) by (rewrite map_length, seq_length; reflexivity).
    apply NoDup_incl_length; [apply Injective_map_NoDup; [intros x y; apply Nat2Z.inj|apply seq_NoDup]|].
    intros t T. apply in_map_iff in T as (k & <- & K). apply in_seq in K.
    assert (IL : In (Z.of_nat b + Z.of_nat k) l) by (apply ML; lia).
    rewrite <- not_true_iff_false in E. destruct (inb (Z.of_nat k) ord) eqn:Q; [apply inb_in; exact Q|]. exfalso. apply E. apply existsb_exists.
    exists (Z.of_nat b + Z.of_nat k). split; [exact IL|]. unfold missing. replace (Z.of_nat b + Z.of_nat k - Z.of_nat b) with (Z.of_nat k) by lia. rewrite Q.
    cbn. rewrite andb_true_r. apply Z.leb_le. lia. }
  assert (FST : exists l1 w l2, l = l1 ++ w :: l2 /\ missing w = true /\ forall v, In v l1 -> missing v = false).
  { clear - EX. induction l as [|x l IH]; [destruct EX as (w & [] & _)|]. destruct (missing x) eqn:E.
    - exists [], x, l. split; [reflexivity|]. split; [exact E|]. intros v [].
    - destruct IH as (l1 & w & l2 & -> & A & B); [destruct EX as (w & [<-|I] & Q); [congruence|eauto]|].
      exists (x :: l1), w, l2. split; [reflexivity|]. split; [exact A|]. intros v [<-|I]; auto. }
  destruct FST as (l1 & w & l2 & EL & MW & B). unfold missing in MW. apply andb_true_iff in MW as [W NW]. apply Z.leb_le in W.
  assert (WN : 0 <= w < Z.of_nat (b + n)) by (apply ML; rewrite EL; apply in_app_iff; cbn; auto).
  exists (w - Z.of_nat b). split; [apply IX; lia|]. unfold ready. rewrite NW. cbn [andb].
  destruct (gate_at rc w ltac:(lia)) as (g & Eg & _). rewrite Eg.
  assert (RW : forall v, v = rg_in0 g \/ v = rg_in1 g -> ready_wire ord v = true).
  { intros v O. unfold ready_wire. destruct (Z.ltb_spec (v - Z.of_nat b) 0) as [Q|Q]; [reflexivity|]. cbn [orb].
    assert (I : In v l1) by (eapply RE; [exact EL|]; eapply reads_of; [exact Eg|lia|exact O]).
    apply B in I. unfold missing in I. destruct (Z.leb_spec (Z.of_nat b) v); [|lia]. cbn in I. apply negb_false_iff in I. exact I. }
  rewrite !RW by auto. reflexivity.
Qed.

Lemma rounds_ok : forall fuel ord s, planned ord s -> ordered ord ->
  exists r ord' s', schedule_rounds fuel G (Z.of_nat b) nc index (p1 s) s = Some r /\ planned ord' s' /\ ordered ord' /\
    match r with
    | Done s'' => s'' = s' /\ length ord' = n
    | Running s'' => s'' = s' /\ (length ord' < n)%nat /\ (~ has_loop rc -> (length ord + fuel <= length ord')%nat)
    end.
Proof.
  induction fuel as [|fuel IH]; intros ord s PL O; cbn [schedule_rounds]; rewrite (pl_count _ _ PL).
  - destruct (Nat.ltb_spec (length ord) n) as [L|L].
    + exists (Running s), ord, s. split; [reflexivity|]. split; [exact PL|]. split; [exact O|]. split; [reflexivity|]. split; [exact L|]. intros _. lia.
    + exists (Done s), ord, s. split; [reflexivity|]. split; [exact PL|]. split; [exact O|]. split; [reflexivity|].
      pose proof (bounded _ (pl_nodup _ _ PL) (pl_range _ _ PL)). lia.
  - destruct (Nat.ltb_spec (length ord) n) as [L|L].
    + destruct (round_ok ord s PL) as (s1 & E1 & PL1). rewrite E1. cbn [obind].
      destruct (IH _ s1 PL1 (round_ordered _ O)) as (r & ord' & s' & E & P' & O' & H). exists r, ord', s'. split; [exact E|]. split; [exact P'|]. split; [exact O'|].
      destruct r as [s''|s'']; [|exact H]. destruct H as (-> & L' & H). split; [reflexivity|]. split; [exact L'|]. intros NL. specialize (H NL).
      destruct (progress_ok ord NL (pl_nodup _ _ PL) (pl_range _ _ PL) L) as (t & T & RT).
      assert (F : (1 <= length (filter (ready ord) index))%nat).
      { assert (I : In t (filter (ready ord) index)) by (apply filter_In; auto). destruct (filter (ready ord) index); [destruct I|cbn; lia]. }
      rewrite app_length in H. lia.
    + exists (Done s), ord, s. split; [reflexivity|]. split; [exact PL|]. split; [exact O|]. split; [reflexivity|].
      pose proof (bounded _ (pl_nodup _ _ PL) (pl_range _ _ PL)). lia.
Qed.
End Plan.
