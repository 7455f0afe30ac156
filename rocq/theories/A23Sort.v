(** The sorting programs for the garbled processor: a23/bubble-sort/bubble-sort.c
    and a23/merge-sort/merge-sort.c.

    An [int] is an integer; the programs only compare and move the values they
    sort, so no range is needed.  [G_SIZE] is the parameter [n]. *)
From Coq Require Import ZArith List Bool Lia Permutation.
From Verif Require Import Base SchedSort.
Import ListNotations.
Open Scope Z_scope.

(** bubble-sort.c:8-12 (one comparison and exchange) *)
Definition bubble_step (i : nat) (array : list Z) : option (list Z) :=
  do x <- rd array (Z.of_nat i);
  do y <- rd array (Z.of_nat i + 1);
  if y <? x then do array <- wr array (Z.of_nat i) y; wr array (Z.of_nat i + 1) x else Some array.
(** bubble-sort.c:5-15 *)
Definition bubble_sort (n : nat) (array : list Z) : option (list Z) :=
  for_ (n - 1) (fun j array => for_ (n - j - 1) bubble_step array) array.
(** bubble-sort.c:21-23, merge-sort.c:31-33: [o[i] = g[i] ^ e[i]] *)
Definition unshare (n : nat) (g e o : list Z) : option (list Z) :=
  for_ n (fun i o => do x <- rd g (Z.of_nat i); do y <- rd e (Z.of_nat i); wr o (Z.of_nat i) (Z.lxor x y)) o.
(** bubble-sort.c:17-26 *)
Definition bubble_main (n : nat) (g e o : list Z) : option (list Z) :=
  do o <- unshare n g e o; bubble_sort n o.

(** merge-sort.c:5-6: the array that is sorted, the temporary array and the
    global variables.  [k] is only used in its own loop. *)
Record msort := MS { m_array : list Z; m_b : list Z; m_i : Z; m_j : Z; m_m : Z }.
(** merge-sort.c:12-13 *)
Definition copy_left (l : Z) (s : msort) : option msort :=
  for_ (Z.to_nat (m_m s + 1 - l)) (fun _ s =>
    do x <- rd (m_array s) (m_i s - 1);
    do b <- wr (m_b s) (m_i s - 1) x;
    Some (MS (m_array s) b (m_i s - 1) (m_j s) (m_m s)))
  (MS (m_array s) (m_b s) (m_m s + 1) (m_j s) (m_m s)).
(** merge-sort.c:14-15 *)
Definition copy_right (r : Z) (s : msort) : option msort :=
  for_ (Z.to_nat (r - m_m s)) (fun _ s =>
    do x <- rd (m_array s) (m_j s + 1);
    do b <- wr (m_b s) (r + m_m s - m_j s) x;
    Some (MS (m_array s) b (m_i s) (m_j s + 1) (m_m s)))
  (MS (m_array s) (m_b s) (m_i s) (m_m s) (m_m s)).
(** merge-sort.c:17-21 *)
Definition merge_step (l : Z) (k : nat) (s : msort) : option msort :=
  do x <- rd (m_b s) (m_i s);
  do y <- rd (m_b s) (m_j s);
  if x <? y then
    do a <- wr (m_array s) (l + Z.of_nat k) x; Some (MS a (m_b s) (m_i s + 1) (m_j s) (m_m s))
  else
    do a <- wr (m_array s) (l + Z.of_nat k) y; Some (MS a (m_b s) (m_i s) (m_j s - 1) (m_m s)).
(** merge-sort.c:7-24.  [stack] is the number of calls for which there is room;
    a deeper recursion is undefined.  [m] is global: the second call and the
    merging use what the calls left in it. *)
Fixpoint mergesort (stack : nat) (l r : Z) (s : msort) : option msort :=
  match stack with
  | O => None
  | S stack =>
    if l <? r then
      let s := MS (m_array s) (m_b s) (m_i s) (m_j s) (Z.quot (r + l) 2) in
      do s <- mergesort stack l (m_m s) s;
      do s <- mergesort stack (m_m s + 1) r s;
      do s <- copy_left l s;
      do s <- copy_right r s;
      for_ (Z.to_nat (r - l + 1)) (merge_step l) s
    else Some s
  end.
(** merge-sort.c:26-36; the globals are zero at first *)
Definition merge_main (stack n : nat) (g e o : list Z) : option (list Z) :=
  do o <- unshare n g e o;
  do s <- mergesort stack 0 (Z.of_nat n - 1) (MS o (repeat 0 n) 0 0 0);
  Some (m_array s).

(** * Specification *)
(** [l] is in ascending order *)
Fixpoint ascending (l : list Z) : Prop :=
  match l with x :: (y :: _) as t => x <= y /\ ascending t | _ => True end.
(** The list that the two parties share. *)
Fixpoint shared (g e : list Z) : list Z :=
  match g, e with x :: g, y :: e => Z.lxor x y :: shared g e | _, _ => [] end.

(** * Facts *)
Lemma shared_rd : forall g e i x y, rd g i = Some x -> rd e i = Some y -> rd (shared g e) i = Some (Z.lxor x y).
Proof.
  assert (H : forall g e i x y, nth_error g i = Some x -> nth_error e i = Some y -> nth_error (shared g e) i = Some (Z.lxor x y)).
  { induction g as [|a g IH]; intros [|c e] [|i] x y G E; cbn in *; try discriminate; [congruence|]. apply IH; assumption. }
  intros g e i x y. unfold rd. destruct (i <? 0); [discriminate|]. apply H.
Qed.
Lemma shared_length : forall g e, length (shared g e) = Nat.min (length g) (length e).
Proof. induction g as [|a g IH]; intros [|c e]; cbn; try reflexivity. f_equal. apply IH. Qed.
Lemma unshare_ok n g e o : length g = n -> length e = n -> length o = n -> unshare n g e o = Some (shared g e).
Proof.
  intros G E O. unfold unshare.
  destruct (for_inv (fun k s => length s = n /\ forall i, 0 <= i < Z.of_nat k -> rd s i = rd (shared g e) i) n
    (fun i o => do x <- rd g (Z.of_nat i); do y <- rd e (Z.of_nat i); wr o (Z.of_nat i) (Z.lxor x y)) o) as (o' & F & L & R).
  - split; [assumption|lia].
  - intros i s I [L R]. destruct (rd_ok g (Z.of_nat i)) as [x X]; [lia|]. destruct (rd_ok e (Z.of_nat i)) as [y Y]; [lia|].
    rewrite X, Y. cbn [obind]. destruct (wr_ok s (Z.of_nat i) (Z.lxor x y)) as [s' W]; [lia|]. exists s'. split; [exact W|].
    split; [rewrite (wr_length _ _ _ _ W); exact L|]. intros k K. rewrite (rd_wr _ _ _ _ _ W).
    destruct (Z.eqb_spec k (Z.of_nat i)) as [->|N]; [symmetry; apply shared_rd; assumption|]. apply R. lia.
  - rewrite F. f_equal. apply list_ext_rd. intros i. pose proof (shared_length g e) as SL.
    destruct (Z.lt_ge_cases i 0) as [N|N]; [unfold rd; destruct (Z.ltb_spec i 0); [reflexivity|lia]|].
    destruct (Z.lt_ge_cases i (Z.of_nat n)) as [M|M]; [apply R; lia|].
    unfold rd. destruct (Z.ltb_spec i 0); [lia|]. rewrite !(proj2 (nth_error_None _ _)) by lia. reflexivity.
Qed.
Lemma ascending_get l : (forall p q, 0 <= p -> p < q -> q < Z.of_nat (length l) -> get l p <= get l q) -> ascending l.
Proof.
  induction l as [|x l IH]; intros H; [exact Logic.I|]. destruct l as [|y l]; [exact Logic.I|]. split.
  - apply (H 0 1); cbn [length]; lia.
  - apply IH. intros p q P Q L. specialize (H (p + 1) (q + 1) ltac:(lia) ltac:(lia)).
    unfold get in *. replace (Z.to_nat (p + 1)) with (S (Z.to_nat p)) in H by lia. replace (Z.to_nat (q + 1)) with (S (Z.to_nat q)) in H by lia.
    cbn [nth] in H. apply H. cbn [length] in *. lia.
Qed.

(** * Bubble sort *)
Lemma bubble_step_ok i l : Z.of_nat i + 1 < Z.of_nat (length l) ->
  exists l', bubble_step i l = Some l' /\ Permutation l l' /\ length l' = length l /\
    get l' (Z.of_nat i) <= get l' (Z.of_nat i + 1) /\
    (forall k, 0 <= k -> k <> Z.of_nat i -> k <> Z.of_nat i + 1 -> get l' k = get l k) /\
    (get l' (Z.of_nat i) = get l (Z.of_nat i) /\ get l' (Z.of_nat i + 1) = get l (Z.of_nat i + 1) \/
     get l' (Z.of_nat i) = get l (Z.of_nat i + 1) /\ get l' (Z.of_nat i + 1) = get l (Z.of_nat i)).
Proof.
  intros I. unfold bubble_step. rewrite !rd_get by lia. cbn [obind].
  destruct (Z.ltb_spec (get l (Z.of_nat i + 1)) (get l (Z.of_nat i))) as [L|L].
  - destruct (wr_ok l (Z.of_nat i) (get l (Z.of_nat i + 1))) as [l1 W1]; [lia|]. rewrite W1. cbn [obind].
    pose proof (wr_length _ _ _ _ W1) as L1.
    destruct (wr_ok l1 (Z.of_nat i + 1) (get l (Z.of_nat i))) as [l2 W2]; [lia|]. exists l2. split; [exact W2|].
    pose proof (wr_length _ _ _ _ W2) as L2.
    assert (G : forall k, 0 <= k -> get l2 k = if k =? Z.of_nat i + 1 then get l (Z.of_nat i) else if k =? Z.of_nat i then get l (Z.of_nat i + 1) else get l k).
    { intros k K. rewrite (get_wr _ _ _ _ _ W2 K), (get_wr _ _ _ _ _ W1 K). reflexivity. }
    assert (Ga : get l2 (Z.of_nat i) = get l (Z.of_nat i + 1)).
    { rewrite G by lia. destruct (Z.eqb_spec (Z.of_nat i) (Z.of_nat i + 1)); [lia|]. rewrite Z.eqb_refl. reflexivity. }
    assert (Gb : get l2 (Z.of_nat i + 1) = get l (Z.of_nat i)) by (rewrite G, Z.eqb_refl by lia; reflexivity).
    split; [|split; [lia|split; [lia|split]]].
    + unfold wr in W1, W2. destruct (_ && _); [|discriminate]. injection W1 as <-. destruct (_ && _); [|discriminate]. injection W2 as <-.
      apply swap_perm; rewrite <- rd_nat, ?Z2Nat.id by lia; apply rd_get; lia.
    + intros k K N1 N2. rewrite G by lia. destruct (Z.eqb_spec k (Z.of_nat i + 1)); [lia|]. destruct (Z.eqb_spec k (Z.of_nat i)); [lia|reflexivity].
    + right. split; assumption.
  - exists l. split; [reflexivity|]. split; [reflexivity|]. split; [reflexivity|]. split; [lia|]. split; [reflexivity|]. left. split; reflexivity.
Qed.

(** The part from [f] on is final: nothing later or before is out of order with it. *)
Definition final_from (f : Z) (l : list Z) : Prop :=
  forall p q, 0 <= p -> p < q -> f <= q -> q < Z.of_nat (length l) -> get l p <= get l q.
Lemma bubble_sort_ok n l : length l = n ->
  exists l', bubble_sort n l = Some l' /\ Permutation l l' /\ ascending l'.
Proof.
  intros L. unfold bubble_sort.
  destruct (for_inv (fun j s => Permutation l s /\ final_from (Z.of_nat n - Z.of_nat j) s) (n - 1)
    (fun j array => for_ (n - j - 1) bubble_step array) l) as (l' & F & P & FN).
  - split; [reflexivity|]. intros p q. lia.
  - intros j s J [P FN].
    assert (LS : length s = n) by (rewrite <- (Permutation_length P); exact L).
    destruct (for_inv (fun i t => Permutation l t /\ final_from (Z.of_nat n - Z.of_nat j) t /\
        forall p, 0 <= p -> p < Z.of_nat i -> get t p <= get t (Z.of_nat i)) (n - j - 1) bubble_step s) as (t & FT & PT & FF & MX).
    + split; [exact P|]. split; [exact FN|]. intros p; cbn; lia.
    + intros i t I (PT & FF & MX).
      assert (LT : length t = n) by (rewrite <- (Permutation_length PT); exact L).
      destruct (bubble_step_ok i t) as (t' & B & PB & LB & LE & SAME & VAL); [lia|].
      exists t'. split; [exact B|]. split; [transitivity t; assumption|].
      pose (a := Z.of_nat i). fold a in LE, SAME, VAL, MX. assert (A0 : 0 <= a) by lia.
      assert (AB : a + 1 < Z.of_nat n - Z.of_nat j) by (unfold a; lia).
      split.
      * intros p q P0 PQ Q QL. rewrite LB, LT in QL.
        assert (QS : get t' q = get t q) by (apply SAME; lia). rewrite QS.
        assert (TA : forall k, 0 <= k -> k < q -> get t k <= get t q) by (intros k K KQ; apply FF; rewrite ?LT; lia).
        destruct (Z.eq_dec p a) as [->|NA]; [destruct VAL as [[-> _]|[-> _]]; apply TA; lia|].
        destruct (Z.eq_dec p (a + 1)) as [->|NB]; [destruct VAL as [[_ ->]|[_ ->]]; apply TA; lia|].
        rewrite SAME by assumption. apply TA; lia.
      * intros p P0 PI. replace (Z.of_nat (S i)) with (a + 1) in * by (unfold a; lia).
        destruct (Z.eq_dec p a) as [->|NA]; [exact LE|].
        rewrite SAME by lia. specialize (MX p P0 ltac:(lia)). lia.
    + exists t. split; [exact FT|]. split; [exact PT|].
      intros p q P0 PQ Q QL. destruct (Z.eq_dec q (Z.of_nat n - Z.of_nat (S j))) as [E|NE].
      * replace q with (Z.of_nat (n - j - 1)) by lia. apply MX; lia.
      * apply FF; lia.
  - exists l'. split; [exact F|]. split; [exact P|]. apply ascending_get. intros p q P0 PQ QL.
    pose proof (Permutation_length P) as LP. apply FN; lia.
Qed.
Theorem bubble_main_ok : forall n g e o, length g = n -> length e = n -> length o = n ->
  exists o', bubble_main n g e o = Some o' /\ Permutation (shared g e) o' /\ ascending o'.
Proof.
  intros n g e o G E O. unfold bubble_main. rewrite (unshare_ok n g e o G E O). cbn [obind].
  apply bubble_sort_ok. rewrite shared_length. lia.
Qed.

(** * Merge sort *)
(** The values at [from], [from + 1], ... *)
Definition slice_of (l : list Z) (from : Z) (n : nat) : list Z := map (fun k => get l (from + Z.of_nat k)) (seq 0 n).
Lemma slice_S l from n : slice_of l from (S n) = slice_of l from n ++ [get l (from + Z.of_nat n)].
Proof. unfold slice_of. rewrite seq_S, map_app. reflexivity. Qed.
Lemma slice_cons l from n : slice_of l from (S n) = get l from :: slice_of l (from + 1) n.
Proof.
  unfold slice_of. cbn [seq map]. f_equal; [f_equal; lia|]. rewrite <- seq_shift, map_map. apply map_ext. intros k. f_equal. lia.
Qed.
Lemma slice_ext l l' from n : (forall k, from <= k -> k < from + Z.of_nat n -> get l k = get l' k) -> slice_of l from n = slice_of l' from n.
Proof. intros H. apply map_ext_in. intros k K. apply in_seq in K. apply H; lia. Qed.
Lemma slice_all l : slice_of l 0 (length l) = l.
Proof.
  unfold slice_of. apply nth_ext with (d := 0) (d' := 0); [rewrite map_length, seq_length; reflexivity|].
  intros i I. rewrite map_length, seq_length in I.
  rewrite nth_indep with (d' := (fun k => get l (0 + Z.of_nat k)) 0%nat) by (rewrite map_length, seq_length; exact I).
  rewrite (map_nth (fun k => get l (0 + Z.of_nat k))). unfold get. rewrite seq_nth by exact I. f_equal. lia.
Qed.
Lemma slice_app l from n m : slice_of l from (n + m) = slice_of l from n ++ slice_of l (from + Z.of_nat n) m.
Proof.
  revert from. induction n as [|n IH]; intros from; cbn [plus].
  - cbn. f_equal. lia.
  - rewrite !slice_cons, IH. cbn [app]. do 3 f_equal. lia.
Qed.
(** Arrays that agree outside of a window and are rearrangements there *)
Lemma window_perm a a' l n : length a' = length a -> 0 <= l -> l + Z.of_nat n <= Z.of_nat (length a) ->
  (forall k, 0 <= k -> k < l \/ l + Z.of_nat n <= k -> get a' k = get a k) ->
  Permutation (slice_of a l n) (slice_of a' l n) -> Permutation a a'.
Proof.
  intros L L0 LN OUT P. rewrite <- (slice_all a), <- (slice_all a'). rewrite L.
  replace (length a) with (Z.to_nat l + (n + (length a - Z.to_nat l - n)))%nat by lia.
  rewrite !slice_app, Z2Nat.id by lia. cbn [Z.add].
  apply Permutation_app; [|apply Permutation_app].
  - rewrite (slice_ext a a'); [reflexivity|]. intros k K1 K2. symmetry. apply OUT; lia.
  - replace (0 + l) with l by lia. exact P.
  - rewrite (slice_ext a a'); [reflexivity|]. intros k K1 K2. symmetry. apply OUT; lia.
Qed.

Lemma copy_left_ok l s : 0 <= l <= m_m s -> m_m s < Z.of_nat (length (m_array s)) -> length (m_b s) = length (m_array s) ->
  exists b, copy_left l s = Some (MS (m_array s) b l (m_j s) (m_m s)) /\ length b = length (m_b s) /\
    forall k, l <= k <= m_m s -> get b k = get (m_array s) k.
Proof.
  destruct s as [a b i j m]. cbn [m_array m_b m_i m_j m_m]. intros L M LB. unfold copy_left. cbn [m_array m_b m_i m_j m_m].
  destruct (for_inv (fun k (s : msort) => exists b', s = MS a b' (m + 1 - Z.of_nat k) j m /\ length b' = length b /\
      forall q, m + 1 - Z.of_nat k <= q <= m -> get b' q = get a q) (Z.to_nat (m + 1 - l))
    (fun _ s => do x <- rd (m_array s) (m_i s - 1); do b <- wr (m_b s) (m_i s - 1) x; Some (MS (m_array s) b (m_i s - 1) (m_j s) (m_m s)))
    (MS a b (m + 1) j m)) as (s' & F & b' & -> & LB' & G).
  - exists b. split; [f_equal; lia|]. split; [reflexivity|]. lia.
  - intros k s K (b' & -> & LB' & G). cbn [m_array m_b m_i m_j m_m]. rewrite rd_get by lia. cbn [obind].
    destruct (wr_ok b' (m + 1 - Z.of_nat k - 1) (get a (m + 1 - Z.of_nat k - 1))) as [b2 W]; [lia|]. rewrite W. cbn [obind].
    eexists. split; [reflexivity|]. exists b2. split; [f_equal; lia|]. split; [rewrite (wr_length _ _ _ _ W); exact LB'|].
    intros q Q. rewrite (get_wr _ _ _ _ _ W) by lia. destruct (Z.eqb_spec q (m + 1 - Z.of_nat k - 1)) as [->|N]; [reflexivity|]. apply G. lia.
  - exists b'. rewrite F. split; [do 2 f_equal; lia|]. split; [exact LB'|]. intros k K. apply G. lia.
Qed.
Lemma copy_right_ok r s : 0 <= m_m s <= r -> r < Z.of_nat (length (m_array s)) -> length (m_b s) = length (m_array s) ->
  exists b, copy_right r s = Some (MS (m_array s) b (m_i s) r (m_m s)) /\ length b = length (m_b s) /\
    (forall k, 0 <= k <= m_m s -> get b k = get (m_b s) k) /\
    forall k, m_m s < k <= r -> get b (r + m_m s + 1 - k) = get (m_array s) k.
Proof.
  destruct s as [a b i j m]. cbn [m_array m_b m_i m_j m_m]. intros L M LB. unfold copy_right. cbn [m_array m_b m_i m_j m_m].
  destruct (for_inv (fun k (s : msort) => exists b', s = MS a b' i (m + Z.of_nat k) m /\ length b' = length b /\
      (forall q, 0 <= q <= m -> get b' q = get b q) /\
      forall q, m < q <= m + Z.of_nat k -> get b' (r + m + 1 - q) = get a q) (Z.to_nat (r - m))
    (fun _ s => do x <- rd (m_array s) (m_j s + 1); do b <- wr (m_b s) (r + m_m s - m_j s) x; Some (MS (m_array s) b (m_i s) (m_j s + 1) (m_m s)))
    (MS a b i m m)) as (s' & F & b' & -> & LB' & SM & G).
  - exists b. split; [f_equal; lia|]. split; [reflexivity|]. split; [reflexivity|]. lia.
  - intros k s K (b' & -> & LB' & SM & G). cbn [m_array m_b m_i m_j m_m]. rewrite rd_get by lia. cbn [obind].
    destruct (wr_ok b' (r + m - (m + Z.of_nat k)) (get a (m + Z.of_nat k + 1))) as [b2 W]; [lia|]. rewrite W. cbn [obind].
    eexists. split; [reflexivity|]. exists b2. split; [f_equal; lia|]. split; [rewrite (wr_length _ _ _ _ W); exact LB'|]. split.
    + intros q Q. rewrite (get_wr _ _ _ _ _ W) by lia. destruct (Z.eqb_spec q (r + m - (m + Z.of_nat k))); [lia|]. apply SM. lia.
    + intros q Q. rewrite (get_wr _ _ _ _ _ W) by lia. destruct (Z.eqb_spec (r + m + 1 - q) (r + m - (m + Z.of_nat k))) as [EQ|N].
      * f_equal. lia.
      * apply G. lia.
  - exists b'. rewrite F. split; [do 2 f_equal; lia|]. split; [exact LB'|]. split; [exact SM|]. intros k K. apply G. lia.
Qed.
Lemma slice_rev l l' n : forall from from',
  (forall k, (k < n)%nat -> get l' (from' + Z.of_nat n - 1 - Z.of_nat k) = get l (from + Z.of_nat k)) ->
  Permutation (slice_of l from n) (slice_of l' from' n).
Proof.
  induction n as [|n IH]; intros from from' H; [reflexivity|].
  rewrite slice_cons, slice_S. transitivity (slice_of l (from + 1) n ++ [get l from]); [apply Permutation_cons_append|].
  apply Permutation_app.
  - apply IH. intros k K. specialize (H (S k) ltac:(lia)). replace (from + 1 + Z.of_nat k) with (from + Z.of_nat (S k)) by lia.
    rewrite <- H. f_equal. lia.
  - specialize (H 0%nat ltac:(lia)). replace (from' + Z.of_nat n) with (from' + Z.of_nat (S n) - 1 - Z.of_nat 0) by lia. rewrite H.
    replace (from + Z.of_nat 0) with from by lia. reflexivity.
Qed.
(** The merging empties the window [i..j] of [b] from both ends. *)
Lemma merge_ok l r s : 0 <= l <= r -> r < Z.of_nat (length (m_array s)) -> length (m_b s) = length (m_array s) ->
  m_i s = l -> m_j s = r ->
  exists s', for_ (Z.to_nat (r - l + 1)) (merge_step l) s = Some s' /\ m_m s' = m_m s /\ m_b s' = m_b s /\
    length (m_array s') = length (m_array s) /\
    (forall k, 0 <= k -> k < l \/ r < k -> get (m_array s') k = get (m_array s) k) /\
    Permutation (slice_of (m_b s) l (Z.to_nat (r - l + 1))) (slice_of (m_array s') l (Z.to_nat (r - l + 1))).
Proof.
  destruct s as [a b i j m]. cbn [m_array m_b m_i m_j m_m]. intros L R LB -> ->.
  pose (n := Z.to_nat (r - l + 1)). fold n. assert (N : Z.of_nat n = r - l + 1) by (unfold n; lia).
  destruct (for_inv (fun k (s : msort) => exists a' i' j', s = MS a' b i' j' m /\ length a' = length a /\
      l <= i' /\ j' <= r /\ j' - i' + 1 = r - l + 1 - Z.of_nat k /\
      (forall q, 0 <= q -> q < l \/ r < q -> get a' q = get a q) /\
      Permutation (slice_of b l n) (slice_of a' l k ++ slice_of b i' (n - k))) n (merge_step l) (MS a b l r m))
    as (s' & F & a' & i' & j' & -> & LA & I & J & W & OUT & P).
  - exists a, l, r. split; [reflexivity|]. split; [reflexivity|]. split; [lia|]. split; [lia|]. split; [lia|]. split; [reflexivity|].
    cbn [slice_of seq map app]. rewrite Nat.sub_0_r. reflexivity.
  - intros k s K (a' & i' & j' & -> & LA & I & J & W & OUT & P). unfold merge_step. cbn [m_array m_b m_i m_j m_m].
    rewrite !rd_get by lia. cbn [obind].
    replace (n - k)%nat with (S (n - S k)) in P by lia.
    destruct (get b i' <? get b j').
    + destruct (wr_ok a' (l + Z.of_nat k) (get b i')) as [a2 WR]; [lia|]. rewrite WR. cbn [obind]. eexists. split; [reflexivity|].
      exists a2, (i' + 1), j'. split; [reflexivity|]. split; [rewrite (wr_length _ _ _ _ WR); exact LA|]. split; [lia|]. split; [lia|]. split; [lia|]. split.
      * intros q Q O. rewrite (get_wr _ _ _ _ _ WR Q). destruct (Z.eqb_spec q (l + Z.of_nat k)); [lia|]. apply OUT; assumption.
      * rewrite slice_S. rewrite (get_wr _ _ _ _ _ WR), Z.eqb_refl by lia. rewrite (slice_ext a2 a').
        -- rewrite <- app_assoc. cbn [app]. rewrite slice_cons in P. exact P.
        -- intros q Q1 Q2. rewrite (get_wr _ _ _ _ _ WR) by lia. destruct (Z.eqb_spec q (l + Z.of_nat k)); [lia|reflexivity].
    + destruct (wr_ok a' (l + Z.of_nat k) (get b j')) as [a2 WR]; [lia|]. rewrite WR. cbn [obind]. eexists. split; [reflexivity|].
      exists a2, i', (j' - 1). split; [reflexivity|]. split; [rewrite (wr_length _ _ _ _ WR); exact LA|]. split; [lia|]. split; [lia|]. split; [lia|]. split.
      * intros q Q O. rewrite (get_wr _ _ _ _ _ WR Q). destruct (Z.eqb_spec q (l + Z.of_nat k)); [lia|]. apply OUT; assumption.
      * rewrite (slice_S a2). rewrite (get_wr _ _ _ _ _ WR), Z.eqb_refl by lia. rewrite (slice_ext a2 a').
        -- rewrite P, <- app_assoc. apply Permutation_app_head. rewrite slice_S. replace (i' + Z.of_nat (n - S k)) with j' by lia.
           symmetry. apply Permutation_cons_append.
        -- intros q Q1 Q2. rewrite (get_wr _ _ _ _ _ WR) by lia. destruct (Z.eqb_spec q (l + Z.of_nat k)); [lia|reflexivity].
  - eexists. split; [exact F|]. cbn [m_array m_b m_m]. split; [reflexivity|]. split; [reflexivity|]. split; [exact LA|]. split; [exact OUT|].
    rewrite Nat.sub_diag in P. cbn [slice_of seq map] in P. rewrite app_nil_r in P. exact P.
Qed.

Lemma mergesort_kept : forall stack l r s, 0 <= l -> r < Z.of_nat (length (m_array s)) -> length (m_b s) = length (m_array s) ->
  r - l < Z.of_nat stack -> l - 1 <= r ->
  (1 <= stack)%nat ->
  exists s', mergesort stack l r s = Some s' /\ length (m_b s') = length (m_b s) /\ Permutation (m_array s) (m_array s') /\
    (forall k, 0 <= k -> k < l \/ r < k -> get (m_array s') k = get (m_array s) k) /\
    (if l <? r then l <= m_m s' < r else m_m s' = m_m s).
Proof.
  induction stack as [|stack IH]; intros l r s L R LB D LR S1; [lia|].
  cbn [mergesort]. destruct (Z.ltb_spec l r) as [LT|GE].
  2:{ exists s. split; [reflexivity|]. split; [reflexivity|]. split; [reflexivity|]. split; reflexivity. }
  destruct s as [a b i j m0]. cbn [m_array m_b m_i m_j m_m] in *.
  assert (Q : l <= Z.quot (r + l) 2 < r).
  { rewrite Z.quot_div_nonneg by lia. pose proof (Z.div_mod (r + l) 2 ltac:(lia)). pose proof (Z.mod_pos_bound (r + l) 2 ltac:(lia)). lia. }
  set (m := Z.quot (r + l) 2) in *.
  destruct (IH l m (MS a b i j m)) as (s1 & E1 & B1 & P1 & O1 & M1); cbn [m_array m_b m_m] in *; try lia.
  rewrite E1. cbn [obind].
  assert (MM1 : l <= m_m s1 < r) by (destruct (Z.ltb_spec l m); lia).
  pose proof (Permutation_length P1) as LP1.
  destruct (IH (m_m s1 + 1) r s1) as (s2 & E2 & B2 & P2 & O2 & M2); try lia.
  rewrite E2. cbn [obind].
  assert (MM2 : l <= m_m s2 < r) by (destruct (Z.ltb_spec (m_m s1 + 1) r); lia).
  pose proof (Permutation_length P2) as LP2.
  destruct (copy_left_ok l s2) as (b3 & E3 & B3 & G3); try lia. rewrite E3. cbn [obind].
  set (s3 := MS (m_array s2) b3 l (m_j s2) (m_m s2)).
  destruct (copy_right_ok r s3) as (b4 & E4 & B4 & K4 & G4); cbn [s3 m_array m_b m_m m_i m_j] in *; try lia.
  rewrite E4. cbn [obind m_array m_b m_i m_j m_m].
  destruct (merge_ok l r (MS (m_array s2) b4 l r (m_m s2))) as (s5 & E5 & M5 & B5 & L5 & O5 & P5); cbn [m_array m_b m_i m_j m_m] in *; try lia.
  exists s5. split; [exact E5|]. split; [rewrite B5; lia|].
  assert (P25 : Permutation (m_array s2) (m_array s5)).
  { apply (window_perm _ _ l (Z.to_nat (r - l + 1))); try lia.
    - intros k K O. apply O5; lia.
    - rewrite <- P5. clear P5.
      replace (Z.to_nat (r - l + 1)) with (Z.to_nat (m_m s2 + 1 - l) + Z.to_nat (r - m_m s2))%nat by lia.
      rewrite !slice_app. apply Permutation_app.
      + rewrite (slice_ext (m_array s2) b4); [reflexivity|]. intros k K1 K2. rewrite K4 by lia. symmetry. apply G3. lia.
      + apply slice_rev. intros k K. rewrite <- (G4 (l + Z.of_nat (Z.to_nat (m_m s2 + 1 - l)) + Z.of_nat k)) by lia. f_equal. lia. }
  split; [rewrite P1, P2; exact P25|]. split.
  - intros k K O. rewrite O5 by lia. rewrite O2 by lia. apply O1; lia.
  - rewrite M5. exact MM2.
Qed.
Theorem merge_main_rearranges : forall stack n g e o, length g = n -> length e = n -> length o = n -> (n <= stack)%nat -> (1 <= stack)%nat ->
  exists o', merge_main stack n g e o = Some o' /\ Permutation (shared g e) o'.
Proof.
  intros stack n g e o G E O ST S1. unfold merge_main. rewrite (unshare_ok n g e o G E O). cbn [obind].
  destruct (mergesort_kept stack 0 (Z.of_nat n - 1) (MS (shared g e) (repeat 0 n) 0 0 0)) as (s & M & _ & P & _);
    cbn [m_array m_b]; rewrite ?repeat_length, ?shared_length; try lia.
  rewrite M. cbn [obind]. exists (m_array s). split; [reflexivity|exact P].
Qed.
