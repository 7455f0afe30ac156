(** The shortest path program for the garbled processor: a23/dijkstra/dijkstra.c.
    [V] is the parameter [n]. *)
From Coq Require Import ZArith List Bool Lia.
From Verif Require Import Base SchedSort A23Int A23Sort.
Import ListNotations.
Open Scope Z_scope.

(** dijkstra.c:6 *)
Definition INT_MAX : Z := 32767.
(** dijkstra.c:17-24; [min_index] is not initialised *)
Definition min_step (dist sptSet : list Z) (v : nat) (s : Z * option Z) : option (Z * option Z) :=
  do spt <- rd sptSet (Z.of_nat v);
  do d <- rd dist (Z.of_nat v);
  let condition := (spt =? 0) && (d <=? fst s) in
  Some (if condition then (d, Some (Z.of_nat v)) else s).
(** dijkstra.c:12-29 *)
Definition minDistance (n : nat) (dist sptSet : list Z) : option Z :=
  do s <- for_ n (min_step dist sptSet) (INT_MAX, None); snd s.
(** dijkstra.c:61-71; [graph] is stored by rows *)
Definition relax (m : overflow) (n : nat) (graph sptSet : list Z) (u : Z) (v : nat) (dist : list Z) : option (list Z) :=
  do du <- rd dist u;
  do w <- rd graph (Z.of_nat n * u + Z.of_nat v);
  do dv <- rd dist (Z.of_nat v);
  do through <- int_result m (du + w);
  do spt <- rd sptSet (Z.of_nat v);
  let closer := through <? dv in
  let not_max := negb (du =? INT_MAX) in
  let not_spt := spt =? 0 in
  let connected := negb (w =? 0) in
  if closer && not_spt && connected && not_max then wr dist (Z.of_nat v) through else Some dist.
(** dijkstra.c:50-72 *)
Definition dijkstra_round (m : overflow) (n : nat) (graph : list Z) (s : list Z * list Z) : option (list Z * list Z) :=
  let '(dist, sptSet) := s in
  do u <- minDistance n dist sptSet;
  do sptSet <- wr sptSet u 1;
  do dist <- for_ n (relax m n graph sptSet u) dist;
  Some (dist, sptSet).
(** dijkstra.c:33-74; [spt0]: what is on the stack in [sptSet] *)
Definition dijkstra (m : overflow) (n : nat) (graph spt0 : list Z) (src : Z) (dist : list Z) : option (list Z) :=
  do s <- for_ n (fun i s => do d <- wr (fst s) (Z.of_nat i) INT_MAX; do t <- wr (snd s) (Z.of_nat i) 0; Some (d, t)) (dist, spt0);
  let '(dist, sptSet) := s in
  do dist <- wr dist src 0;
  do s <- for_ (n - 1) (fun _ => dijkstra_round m n graph) (dist, sptSet);
  Some (fst s).
(** dijkstra.c:81-85 *)
Definition fill_graph (n : nat) (g e graph : list Z) : option (list Z) :=
  for_ n (fun i graph => for_ n (fun j graph =>
    do x <- rd g (Z.of_nat n * Z.of_nat i + Z.of_nat j);
    do y <- rd e (Z.of_nat n * Z.of_nat i + Z.of_nat j);
    wr graph (Z.of_nat n * Z.of_nat i + Z.of_nat j) (Z.lxor x y)) graph) graph.
(** dijkstra.c:76-88; the global [graph] is zero at first *)
Definition dijkstra_main (m : overflow) (n : nat) (g e o spt0 : list Z) : option (list Z) :=
  do graph <- fill_graph n g e (repeat 0 (n * n));
  dijkstra m n graph spt0 0 o.

(** * Specification *)
(** There is an arrow from [u] to [v] when the entry of the matrix is not zero. *)
Definition entry (n : nat) (graph : list Z) (u v : nat) : Z := nth (n * u + v) graph 0.
Inductive walk (n : nat) (graph : list Z) (src : nat) : nat -> Z -> Prop :=
| walk_here : walk n graph src src 0
| walk_step u v d : walk n graph src u d -> (u < n)%nat -> (v < n)%nat -> entry n graph u v <> 0 ->
    walk n graph src v (d + entry n graph u v).
(** [d] is the length of the shortest walk to [v], where 32767 stands for
    everything from 32767 on. *)
Definition distance_to (n : nat) (graph : list Z) (src v : nat) (d : Z) : Prop :=
  (forall x, walk n graph src v x -> d <= x) /\ d <= 32767 /\ (d < 32767 -> walk n graph src v d).

(** * Proofs *)
Lemma fill_graph_ok n g e : length g = (n * n)%nat -> length e = (n * n)%nat -> fill_graph n g e (repeat 0 (n * n)) = Some (shared g e).
Proof.
  intros G E. unfold fill_graph.
  destruct (for_inv (fun i (s : list Z) => length s = (n * n)%nat /\ forall k, 0 <= k < Z.of_nat n * Z.of_nat i -> rd s k = rd (shared g e) k) n
    (fun i graph => for_ n (fun j graph =>
      do x <- rd g (Z.of_nat n * Z.of_nat i + Z.of_nat j); do y <- rd e (Z.of_nat n * Z.of_nat i + Z.of_nat j);
      wr graph (Z.of_nat n * Z.of_nat i + Z.of_nat j) (Z.lxor x y)) graph) (repeat 0 (n * n))) as (s & F & L & R).
  - split; [apply repeat_length|]. lia.
  - intros i s I [L R]. 
    destruct (for_inv (fun j (s : list Z) => length s = (n * n)%nat /\ forall k, 0 <= k < Z.of_nat n * Z.of_nat i + Z.of_nat j -> rd s k = rd (shared g e) k) n
      (fun j graph => do x <- rd g (Z.of_nat n * Z.of_nat i + Z.of_nat j); do y <- rd e (Z.of_nat n * Z.of_nat i + Z.of_nat j);
        wr graph (Z.of_nat n * Z.of_nat i + Z.of_nat j) (Z.lxor x y)) s) as (s' & F & L' & R').
    + split; [exact L|]. intros k K. apply R. lia.
    + intros j t J [LT RT].
      assert (B : 0 <= Z.of_nat n * Z.of_nat i + Z.of_nat j < Z.of_nat (n * n)) by nia.
      destruct (rd_ok g (Z.of_nat n * Z.of_nat i + Z.of_nat j)) as [x X]; [rewrite G; exact B|].
      destruct (rd_ok e (Z.of_nat n * Z.of_nat i + Z.of_nat j)) as [y Y]; [rewrite E; exact B|].
      rewrite X, Y. cbn [obind]. destruct (wr_ok t (Z.of_nat n * Z.of_nat i + Z.of_nat j) (Z.lxor x y)) as [t' W]; [rewrite LT; exact B|].
      exists t'. split; [exact W|]. split; [rewrite (wr_length _ _ _ _ W); exact LT|]. intros k K. rewrite (rd_wr _ _ _ _ _ W).
      destruct (Z.eqb_spec k (Z.of_nat n * Z.of_nat i + Z.of_nat j)) as [->|N]; [symmetry; apply shared_rd; assumption|]. apply RT. lia.
    + exists s'. split; [exact F|]. split; [exact L'|]. intros k K. apply R'. lia.
  - rewrite F. f_equal. apply list_ext_rd. intros k. pose proof (shared_length g e) as SL.
    destruct (Z.lt_ge_cases k 0) as [N|N]; [unfold rd; destruct (Z.ltb_spec k 0); [reflexivity|lia]|].
    destruct (Z.lt_ge_cases k (Z.of_nat n * Z.of_nat n)) as [M|M]; [apply R; lia|].
    unfold rd. destruct (Z.ltb_spec k 0); [lia|]. rewrite !(proj2 (nth_error_None _ _)) by (rewrite ?SL, ?G, ?E, ?L; nia). reflexivity.
Qed.

Section Fix.
Variables (m : overflow) (n : nat) (graph : list Z) (src : nat).
Hypothesis GL : length graph = (n * n)%nat.
Hypothesis SRC : (src < n)%nat.
(** No weight is negative or so large that adding it overflows. *)
Hypothesis W : forall w, In w graph -> 0 <= w /\ w + 32767 < 2 ^ 31.
Local Notation ent := (entry n graph).
Local Notation N := (Z.of_nat n).

Lemma ent_rd u v : (u < n)%nat -> (v < n)%nat -> rd graph (N * Z.of_nat u + Z.of_nat v) = Some (ent u v).
Proof.
  intros U V. rewrite rd_get by (rewrite GL; nia). unfold get, entry. do 2 f_equal. nia.
Qed.
Lemma ent_bound u v : (u < n)%nat -> (v < n)%nat -> 0 <= ent u v /\ ent u v + 32767 < 2 ^ 31.
Proof. intros U V. apply W. unfold entry. apply nth_In. rewrite GL. nia. Qed.
Lemma walk_nonneg v d : walk n graph src v d -> 0 <= d.
Proof. induction 1 as [|u v d _ IH U V _]; [lia|]. pose proof (ent_bound u v U V). lia. Qed.

(** In the set *)
Definition inS (spt : list Z) (v : nat) : Prop := get spt (Z.of_nat v) <> 0.
Definition dst (dist : list Z) (v : nat) : Z := get dist (Z.of_nat v).
Record good (k : nat) (dist spt : list Z) : Prop := Good {
  g_ld : length dist = n; g_ls : length spt = n;
  g_max : forall v, (v < n)%nat -> dst dist v <= 32767;
  g_real : forall v, (v < n)%nat -> dst dist v = 32767 \/ walk n graph src v (dst dist v);
  g_src : dst dist src <= 0;
  g_near : forall u v, (u < n)%nat -> (v < n)%nat -> inS spt u -> ~ inS spt v -> dst dist u <= dst dist v;
  g_edge : forall u v, (u < n)%nat -> (v < n)%nat -> inS spt u -> ent u v <> 0 -> dst dist v <= dst dist u + ent u v;
  g_count : length (filter (fun z => z =? 0) spt) = (n - k)%nat }.

Lemma min_ok dist spt k : good k dist spt -> (k < n)%nat ->
  exists u, minDistance n dist spt = Some (Z.of_nat u) /\ (u < n)%nat /\ ~ inS spt u /\
    forall v, (v < n)%nat -> ~ inS spt v -> dst dist u <= dst dist v.
Proof.
  intros G K. destruct G as [LD LS MX _ _ _ _ CNT]. unfold minDistance.
  destruct (for_inv (fun i (s : Z * option Z) =>
      match snd s with
      | None => fst s = 32767 /\ forall v, (v < i)%nat -> inS spt v
      | Some z => exists u, z = Z.of_nat u /\ (u < n)%nat /\ ~ inS spt u /\ fst s = dst dist u /\
          forall v, (v < i)%nat -> ~ inS spt v -> dst dist u <= dst dist v
      end) n (min_step dist spt) (INT_MAX, None)) as ([mn idx] & F & I).
  - cbn. split; [reflexivity|lia].
  - intros i [mn idx] Hi I. unfold min_step. rewrite !rd_get by lia. cbn [obind fst].
    eexists. split; [reflexivity|]. cbn [fst snd] in I.
    destruct (Z.eqb_spec (get spt (Z.of_nat i)) 0) as [Z0|Z0]; cbn [andb].
    + destruct (Z.leb_spec (get dist (Z.of_nat i)) mn) as [LE|GT]; cbn [snd fst].
      * exists i. split; [reflexivity|]. split; [exact Hi|]. split; [unfold inS; lia|]. split; [reflexivity|].
        intros v V NV. unfold dst. destruct (Nat.eq_dec v i) as [->|NE]; [lia|].
        destruct idx as [z|].
        -- destruct I as (u & -> & U & NU & -> & B). specialize (B v ltac:(lia) NV). unfold dst in *. lia.
        -- destruct I as [_ B]. exfalso. apply NV, B. lia.
      * destruct idx as [z|].
        -- destruct I as (u & -> & U & NU & EQ & B). exists u. split; [reflexivity|]. split; [exact U|]. split; [exact NU|]. split; [exact EQ|].
           intros v V NV. destruct (Nat.eq_dec v i) as [->|NE]; [unfold dst in *; lia|]. apply B; [lia|exact NV].
        -- destruct I as [EQ B]. specialize (MX i Hi). unfold dst in MX. lia.
    + destruct idx as [z|].
      * destruct I as (u & -> & U & NU & EQ & B). exists u. split; [reflexivity|]. split; [exact U|]. split; [exact NU|]. split; [exact EQ|].
        intros v V NV. destruct (Nat.eq_dec v i) as [->|NE]; [contradiction NV|]. apply B; [lia|exact NV].
      * destruct I as [EQ B]. cbn [snd fst]. split; [exact EQ|]. intros v V. destruct (Nat.eq_dec v i) as [->|NE]; [exact Z0|]. apply B. lia.
  - rewrite F. cbn [obind]. cbn [fst snd] in *. destruct idx as [z|].
    + destruct I as (u & -> & U & NU & _ & B). exists u. split; [reflexivity|]. split; [exact U|]. split; [exact NU|exact B].
    + exfalso. destruct I as [_ B].
      assert (filter (fun z => z =? 0) spt = []) as E; [|rewrite E in CNT; cbn in CNT; lia].
      assert (A : forall z, In z spt -> z <> 0).
      { intros z Z1. apply (In_nth _ _ 0) in Z1 as (i & Hi & <-). specialize (B i ltac:(lia)). unfold inS, get in B. rewrite Nat2Z.id in B. exact B. }
      clear - A. induction spt as [|z l IH]; [reflexivity|]. cbn. destruct (Z.eqb_spec z 0) as [->|NE]; [exfalso; apply (A 0); [left; reflexivity|reflexivity]|].
      apply IH. intros y Y. apply A. right. exact Y.
Qed.

Lemma relax_ok dist spt u v : (u < n)%nat -> (v < n)%nat -> length dist = n -> length spt = n -> 0 <= dst dist u <= 32767 ->
  exists dist', relax m n graph spt (Z.of_nat u) v dist = Some dist' /\ length dist' = n /\
    forall x, dst dist' x = if (x =? v)%nat then
        (if (dst dist u + ent u v <? dst dist v) && (get spt (Z.of_nat v) =? 0) && negb (ent u v =? 0) && negb (dst dist u =? INT_MAX)
         then dst dist u + ent u v else dst dist v)
      else dst dist x.
Proof.
  intros U V LD LS B. unfold relax. rewrite (rd_get dist) by lia. rewrite ent_rd by assumption. rewrite (rd_get dist) by lia. rewrite (rd_get spt) by lia. cbn [obind].
  pose proof (ent_bound u v U V) as EB. fold (dst dist u) (dst dist v).
  rewrite int_result_id by (unfold is_int; lia). cbn [obind].
  destruct ((dst dist u + ent u v <? dst dist v) && (get spt (Z.of_nat v) =? 0) && negb (ent u v =? 0) && negb (dst dist u =? INT_MAX)) eqn:C.
  - destruct (wr_ok dist (Z.of_nat v) (dst dist u + ent u v)) as [d' WR]; [lia|]. exists d'. split; [exact WR|].
    split; [rewrite (wr_length _ _ _ _ WR); exact LD|]. intros x. unfold dst at 1. rewrite (get_wr _ _ _ _ _ WR) by lia.
    destruct (Nat.eqb_spec x v) as [->|NE]; [rewrite Z.eqb_refl; reflexivity|]. destruct (Z.eqb_spec (Z.of_nat x) (Z.of_nat v)); [lia|reflexivity].
  - exists dist. split; [reflexivity|]. split; [exact LD|]. intros x. destruct (Nat.eqb_spec x v) as [->|NE]; reflexivity.
Qed.

Lemma filter_upd spt u : (u < length spt)%nat -> nth u spt 1 = 0 ->
  S (length (filter (fun z => z =? 0) (upd_nat spt u 1))) = length (filter (fun z => z =? 0) spt).
Proof.
  revert u. induction spt as [|z l IH]; intros [|u] L E; cbn in *; try lia.
  - subst z. reflexivity.
  - destruct (z =? 0); cbn [length]; rewrite <- (IH u) by (assumption || lia); reflexivity.
Qed.

Lemma round_ok k dist spt : (k < n)%nat -> good k dist spt ->
  exists s, dijkstra_round m n graph (dist, spt) = Some s /\ good (S k) (fst s) (snd s).
Proof.
  intros K G. destruct (min_ok dist spt k G K) as (u & MU & U & NU & MIN). pose proof G as [LD LS MX RE SR NEAR EDGE CNT].
  unfold dijkstra_round. rewrite MU. cbn [obind].
  destruct (wr_ok spt (Z.of_nat u) 1) as [spt' WS]; [lia|]. rewrite WS. cbn [obind].
  pose proof (wr_length _ _ _ _ WS) as LS'.
  assert (IN : forall v, inS spt' v <-> v = u \/ inS spt v).
  { intros v. unfold inS. rewrite (get_wr _ _ _ _ _ WS) by lia. destruct (Z.eqb_spec (Z.of_nat v) (Z.of_nat u)).
    - split; [left; lia|lia].
    - split; [intros H; right; exact H|]. intros [->|H]; [lia|exact H]. }
  assert (DU : 0 <= dst dist u <= 32767).
  { split; [|apply MX; exact U]. destruct (RE u U) as [->|H]; [lia|]. apply (walk_nonneg u). exact H. }
  (* the inner loop *)
  destruct (for_inv (fun i (d : list Z) => length d = n /\
      forall x, dst d x = if (x <? i)%nat && (dst dist u + ent u x <? dst dist x) && (get spt' (Z.of_nat x) =? 0) && negb (ent u x =? 0) && negb (dst dist u =? INT_MAX)
        then dst dist u + ent u x else dst dist x) n (relax m n graph spt' (Z.of_nat u)) dist) as (d & F & LD' & D).
  - split; [exact LD|]. intros x. destruct (Nat.ltb_spec x 0); [lia|]. reflexivity.
  - intros i d Hi [L D].
    assert (EU : dst d u = dst dist u).
    { rewrite D. assert (get spt' (Z.of_nat u) <> 0) as NZ by (apply IN; left; reflexivity). destruct (Z.eqb_spec (get spt' (Z.of_nat u)) 0); [contradiction|].
      rewrite !andb_false_r. reflexivity. }
    destruct (relax_ok d spt' u i) as (d' & R & L' & D'); try assumption; try lia. exists d'. split; [exact R|]. split; [exact L'|].
    intros x. rewrite D', EU. destruct (Nat.eqb_spec x i) as [->|NE].
    + rewrite (D i). destruct (Nat.ltb_spec i i); [lia|]. destruct (Nat.ltb_spec i (S i)); [|lia]. cbn [andb]. reflexivity.
    + rewrite D. replace (x <? S i)%nat with (x <? i)%nat; [reflexivity|]. destruct (Nat.ltb_spec x i), (Nat.ltb_spec x (S i)); lia.
  - rewrite F. cbn [obind]. eexists. split; [reflexivity|]. cbn [fst snd].
    assert (LE : forall x, dst d x <= dst dist x).
    { intros x. rewrite D. destruct (Z.ltb_spec (dst dist u + ent u x) (dst dist x)); rewrite ?andb_false_r; cbn [andb]; [|lia].
      destruct (_ && _); lia. }
    assert (INS : forall x, inS spt' x -> dst d x = dst dist x).
    { intros x X. rewrite D. destruct (Z.eqb_spec (get spt' (Z.of_nat x)) 0) as [E|_]; [contradiction|]. rewrite !andb_false_r. reflexivity. }
    assert (UPD : forall x, (x < n)%nat -> ~ inS spt' x -> ent u x <> 0 -> dst d x <= dst dist u + ent u x).
    { intros x X NX NE. rewrite D. assert (Z0 : get spt' (Z.of_nat x) = 0) by (unfold inS in NX; lia). rewrite Z0. cbn [Z.eqb].
      destruct (Nat.ltb_spec x n); [|lia]. destruct (Z.eqb_spec (ent u x) 0); [contradiction|]. cbn [andb negb].
      destruct (Z.ltb_spec (dst dist u + ent u x) (dst dist x)); cbn [andb]; [|lia].
      destruct (Z.eqb_spec (dst dist u) INT_MAX) as [E|_]; cbn [negb andb]; [|lia].
      exfalso. unfold INT_MAX in E. pose proof (MX x X). pose proof (ent_bound u x U X). lia. }
    assert (DD : forall x, (x < n)%nat -> dst d x = dst dist x \/ ent u x <> 0 /\ dst dist u <> 32767 /\ dst d x = dst dist u + ent u x).
    { intros x X. rewrite D. destruct (Z.eqb_spec (ent u x) 0); rewrite ?andb_false_r; cbn [andb negb]; [left; reflexivity|].
      destruct (Z.eqb_spec (dst dist u) INT_MAX); rewrite ?andb_false_r; [left; reflexivity|].
      destruct ((x <? n)%nat && (dst dist u + ent u x <? dst dist x) && (get spt' (Z.of_nat x) =? 0) && true && negb false); [right|left; reflexivity].
      split; [assumption|]. split; [assumption|reflexivity]. }
    split.
    + exact LD'.
    + lia.
    + intros v V. specialize (LE v). specialize (MX v V). lia.
    + intros v V. destruct (DD v V) as [E|(NE & NM & E)]; rewrite E; [apply RE; exact V|]. right.
      destruct (RE u U) as [E2|WU]; [contradiction|]. apply walk_step; assumption.
    + specialize (LE src). lia.
    + intros x y X Y SX NY. rewrite (INS x SX).
      assert (NY' : y <> u /\ ~ inS spt y) by (split; intros H; apply NY, IN; [left; exact H|right; exact H]).
      assert (XY : dst dist x <= dst dist u) by (apply IN in SX as [->|SX]; [lia|apply NEAR; assumption]).
      destruct (DD y Y) as [E|(_ & _ & E)]; rewrite E.
      * specialize (MIN y Y (proj2 NY')). lia.
      * pose proof (ent_bound u y U Y). lia.
    + intros x y X Y SX NE. rewrite (INS x SX).
      destruct (proj1 (IN x) SX) as [->|SX'].
      * assert (DEC : inS spt' y \/ ~ inS spt' y) by (unfold inS; lia). destruct DEC as [SY|NY].
        -- rewrite (INS y SY). pose proof (ent_bound u y U Y) as EB. destruct (proj1 (IN y) SY) as [E|SY'].
           ++ subst y. lia.
           ++ specialize (NEAR y u Y U SY' NU). lia.
        -- apply UPD; assumption.
      * specialize (EDGE x y X Y SX' NE). specialize (LE y). lia.
    + unfold wr in WS. destruct (_ && _); [|discriminate]. injection WS as <-. rewrite Nat2Z.id.
      pose proof (filter_upd spt u ltac:(lia)) as FU. rewrite CNT in FU. assert (nth u spt 1 = 0) as E0.
      { unfold inS, get in NU. rewrite Nat2Z.id in NU. rewrite (nth_indep _ 1 0) by lia. lia. }
      specialize (FU E0). lia.
Qed.

Lemma one_left (l : list Z) i j : length (filter (fun z => z =? 0) l) = 1%nat -> (i < length l)%nat -> (j < length l)%nat -> nth i l 0 = 0 -> nth j l 0 = 0 -> i = j.
Proof.
  revert i j. induction l as [|z l IH]; intros [|i] [|j] C LI LJ I J; cbn in *; try lia; try reflexivity.
  - subst z. cbn in C. exfalso. assert (In 0 (filter (fun z => z =? 0) l)) as H; [|destruct (filter _ l); [exact H|cbn in C; lia]].
    apply filter_In. split; [|reflexivity]. rewrite <- J. apply nth_In. lia.
  - subst z. cbn in C. exfalso. assert (In 0 (filter (fun z => z =? 0) l)) as H; [|destruct (filter _ l); [exact H|cbn in C; lia]].
    apply filter_In. split; [|reflexivity]. rewrite <- I. apply nth_In. lia.
  - f_equal. apply IH; try lia; try assumption. destruct (Z.eqb_spec z 0) as [->|_]; [|exact C].
    exfalso. cbn in C. assert (In 0 (filter (fun z => z =? 0) l)) as H; [|destruct (filter _ l); [exact H|cbn in C; lia]].
    apply filter_In. split; [|reflexivity]. rewrite <- I. apply nth_In. lia.
Qed.

Lemma good_end dist spt : good (n - 1) dist spt -> forall v, (v < n)%nat -> distance_to n graph src v (dst dist v).
Proof.
  intros [LD LS MX RE SR NEAR EDGE CNT].
  assert (ALL : forall u v, (u < n)%nat -> (v < n)%nat -> ent u v <> 0 -> dst dist v <= dst dist u + ent u v).
  { intros u v U V NE. assert (DU : inS spt u \/ ~ inS spt u) by (unfold inS; lia). destruct DU as [SU|NU]; [apply EDGE; assumption|].
    assert (DV : inS spt v \/ ~ inS spt v) by (unfold inS; lia). pose proof (ent_bound u v U V). destruct DV as [SV|NV].
    - specialize (NEAR v u V U SV NU). lia.
    - assert (u = v) as ->; [|lia]. apply (one_left spt); try lia; unfold inS, get in NU, NV; rewrite ?Nat2Z.id in *; lia. }
  intros v V. split; [|split].
  - intros x X. induction X as [|u v d X IH U _ NE].
    + exact SR.
    + specialize (ALL u v U V NE). specialize (IH U). lia.
  - apply MX; exact V.
  - intros L. destruct (RE v V) as [E|H]; [lia|exact H].
Qed.

Lemma dijkstra_ok spt0 o : length spt0 = n -> length o = n ->
  exists o', dijkstra m n graph spt0 (Z.of_nat src) o = Some o' /\ length o' = n /\
    forall v, (v < n)%nat -> distance_to n graph src v (nth v o' 0).
Proof.
  intros L1 L2. unfold dijkstra.
  destruct (for_inv (fun i (s : list Z * list Z) => length (fst s) = n /\ length (snd s) = n /\
      forall x, (x < i)%nat -> get (fst s) (Z.of_nat x) = INT_MAX /\ get (snd s) (Z.of_nat x) = 0) n
    (fun i s => do d <- wr (fst s) (Z.of_nat i) INT_MAX; do t <- wr (snd s) (Z.of_nat i) 0; Some (d, t)) (o, spt0)) as ([d t] & F & LD & LT & V0).
  - cbn [fst snd]. split; [exact L2|]. split; [exact L1|]. lia.
  - intros i [d t] Hi (LD & LT & V0). cbn [fst snd] in *.
    destruct (wr_ok d (Z.of_nat i) INT_MAX) as [d' W1]; [lia|]. destruct (wr_ok t (Z.of_nat i) 0) as [t' W2]; [lia|]. rewrite W1, W2. cbn [obind].
    eexists. split; [reflexivity|]. cbn [fst snd]. rewrite (wr_length _ _ _ _ W1), (wr_length _ _ _ _ W2). split; [exact LD|]. split; [exact LT|].
    intros x X. rewrite (get_wr _ _ _ _ _ W1), (get_wr _ _ _ _ _ W2) by lia. destruct (Z.eqb_spec (Z.of_nat x) (Z.of_nat i)); [split; reflexivity|]. apply V0. lia.
  - rewrite F. cbn [obind]. cbn [fst snd] in *. destruct (wr_ok d (Z.of_nat src) 0) as [d1 W1]; [lia|]. rewrite W1. cbn [obind].
    pose proof (wr_length _ _ _ _ W1) as LD1.
    assert (VD : forall x, (x < n)%nat -> dst d1 x = if (x =? src)%nat then 0 else 32767).
    { intros x X. unfold dst. rewrite (get_wr _ _ _ _ _ W1) by lia. destruct (Nat.eqb_spec x src) as [->|NE]; [rewrite Z.eqb_refl; reflexivity|].
      destruct (Z.eqb_spec (Z.of_nat x) (Z.of_nat src)); [lia|]. apply V0. exact X. }
    destruct (for_inv (fun k (s : list Z * list Z) => good k (fst s) (snd s)) (n - 1) (fun _ => dijkstra_round m n graph) (d1, t)) as ([d2 t2] & F2 & G2).
    + cbn [fst snd]. split; try lia.
      * intros v V. rewrite VD by exact V. destruct (v =? src)%nat; lia.
      * intros v V. rewrite VD by exact V. destruct (Nat.eqb_spec v src) as [->|NE]; [right; constructor|left; reflexivity].
      * rewrite VD, Nat.eqb_refl by exact SRC. lia.
      * intros u v U V SU. exfalso. apply SU. apply V0. exact U.
      * intros u v U V SU. exfalso. apply SU. apply V0. exact U.
      * assert (A : forall z, In z t -> z = 0).
        { intros z Z1. apply (In_nth _ _ 0) in Z1 as (i & Hi & <-). destruct (V0 i ltac:(lia)) as [_ E]. unfold get in E. rewrite Nat2Z.id in E. exact E. }
        clear - A LT. rewrite Nat.sub_0_r, <- LT. clear LT. induction t as [|z l IH]; [reflexivity|]. cbn. rewrite (A z) by (left; reflexivity). cbn. f_equal.
        apply IH. intros y Y. apply A. right. exact Y.
    + intros k [d3 t3] Hk G. cbn [fst snd] in G. apply round_ok; [lia|exact G].
    + rewrite F2. cbn [obind fst]. exists d2. split; [reflexivity|]. cbn [fst snd] in G2. split; [apply (g_ld _ _ _ G2)|].
      intros v V. pose proof (good_end d2 t2 G2 v V) as H. unfold dst, get in H. rewrite Nat2Z.id in H. exact H.
Qed.
End Fix.

Theorem dijkstra_main_ok : forall m n g e o spt0, (0 < n)%nat -> length g = (n * n)%nat -> length e = (n * n)%nat -> length o = n -> length spt0 = n ->
  (forall w, In w (shared g e) -> 0 <= w /\ w + 32767 < 2 ^ 31) ->
  exists o', dijkstra_main m n g e o spt0 = Some o' /\ length o' = n /\
    forall v, (v < n)%nat -> distance_to n (shared g e) 0 v (nth v o' 0).
Proof.
  intros m n g e o spt0 N G E O S W. unfold dijkstra_main. rewrite fill_graph_ok by assumption. cbn [obind].
  apply (dijkstra_ok m n (shared g e) 0); try assumption. rewrite shared_length. lia.
Qed.
