(** QuickSort and TopSort of scd/scheduling.cpp. *)
From Coq Require Import ZArith NArith List Bool Lia Permutation.
From Verif Require Import Base Sort SortOk Sched.
Import ListNotations.
Open Scope Z_scope.

(** * Arrays as functions *)
Definition get (l : list Z) (k : Z) : Z := nth (Z.to_nat k) l 0.
Lemma rd_get l k : 0 <= k < Z.of_nat (length l) -> rd l k = Some (get l k).
Proof. intros H. unfold rd, get. destruct (Z.ltb_spec k 0); [lia|]. apply nth_error_nth'. lia. Qed.
Lemma get_wr l i v l' k : wr l i v = Some l' -> 0 <= k -> get l' k = if k =? i then v else get l k.
Proof.
  intros W K. pose proof (wr_bound _ _ _ _ W) as B. pose proof (rd_wr l i v l' k W) as R.
  destruct (Z.lt_ge_cases k (Z.of_nat (length l))) as [L|L].
  - rewrite (rd_get l' k) in R by (rewrite (wr_length _ _ _ _ W); lia). rewrite (rd_get l k) in R by lia. destruct (k =? i); congruence.
  - destruct (Z.eqb_spec k i); [lia|]. unfold get. rewrite !nth_overflow; [reflexivity|lia|rewrite (wr_length _ _ _ _ W); lia].
Qed.
Lemma exchange_ok l i j : 0 <= i < Z.of_nat (length l) -> 0 <= j < Z.of_nat (length l) ->
  exists l', exchange l i j = Some l' /\ length l' = length l /\
    forall k, 0 <= k -> get l' k = if k =? j then get l i else if k =? i then get l j else get l k.
Proof.
  intros I J. unfold exchange. rewrite (rd_get l i I), (rd_get l j J). cbn [obind].
  destruct (wr_ok l i (get l j) I) as [l1 W1]. rewrite W1. cbn [obind]. pose proof (wr_length _ _ _ _ W1) as L1.
  destruct (wr_ok l1 j (get l i)) as [l2 W2]; [lia|]. exists l2. split; [exact W2|]. split; [rewrite (wr_length _ _ _ _ W2); exact L1|].
  intros k K. rewrite (get_wr _ _ _ _ _ W2 K), (get_wr _ _ _ _ _ W1 K). reflexivity.
Qed.

(** * Exchanging is a permutation of the pairs *)
Lemma upd_combine {A B} (l : list A) (m : list B) n a b : length l = length m ->
  combine (upd_nat l n a) (upd_nat m n b) = upd_nat (combine l m) n (a, b).
Proof. revert m n. induction l as [|x l IH]; intros [|y m] [|n] H; cbn in *; try discriminate; try reflexivity. f_equal. apply IH. lia. Qed.
Lemma upd_split {A} (l1 : list A) x l2 v : upd_nat (l1 ++ x :: l2) (length l1) v = l1 ++ v :: l2.
Proof. induction l1; cbn; congruence. Qed.
Lemma swap_perm {A} (l : list A) i j x y : nth_error l i = Some x -> nth_error l j = Some y ->
  Permutation l (upd_nat (upd_nat l i y) j x).
Proof.
  assert (H : forall i j x y, (i < j)%nat -> nth_error l i = Some x -> nth_error l j = Some y ->
    Permutation l (upd_nat (upd_nat l i y) j x) /\ upd_nat (upd_nat l i y) j x = upd_nat (upd_nat l j x) i y).
  { clear. intros i j x y L I J. apply nth_error_split in I as (l1 & r & -> & <-).
    rewrite nth_error_app2 in J by lia. replace (j - length l1)%nat with (S (j - length l1 - 1)) in J by lia. cbn in J.
    apply nth_error_split in J as (l2 & l3 & -> & E2).
    assert (J : j = length (l1 ++ x :: l2)) by (rewrite app_length; cbn; lia).
    assert (E : upd_nat (upd_nat (l1 ++ x :: l2 ++ y :: l3) (length l1) y) j x = l1 ++ y :: l2 ++ x :: l3).
    { rewrite upd_split. replace (l1 ++ y :: l2 ++ y :: l3) with ((l1 ++ y :: l2) ++ y :: l3) by (rewrite <- app_assoc; reflexivity).
      replace j with (length (l1 ++ y :: l2)) by (rewrite J, !app_length; reflexivity). rewrite upd_split, <- app_assoc. reflexivity. }
    assert (E' : upd_nat (upd_nat (l1 ++ x :: l2 ++ y :: l3) j x) (length l1) y = l1 ++ y :: l2 ++ x :: l3).
    { replace (l1 ++ x :: l2 ++ y :: l3) with ((l1 ++ x :: l2) ++ y :: l3) by (rewrite <- app_assoc; reflexivity).
      rewrite J, upd_split, <- app_assoc. cbn [app]. rewrite upd_split. reflexivity. }
    split; [|congruence]. rewrite E. apply Permutation_app_head. transitivity (x :: y :: l2 ++ l3).
    - constructor. symmetry. apply Permutation_middle.
    - transitivity (y :: x :: l2 ++ l3); [constructor|]. constructor. apply Permutation_middle. }
  intros I J. destruct (Nat.lt_total i j) as [L|[->|L]].
  - apply (H i j x y L I J).
  - rewrite J in I. injection I as ->. apply nth_error_split in J as (l1 & r & -> & <-). rewrite !upd_split. reflexivity.
  - destruct (H j i y x L J I) as [P E]. rewrite <- E. exact P.
Qed.
Lemma exchange_perm arr idx i j arr' idx' : length idx = length arr -> exchange arr i j = Some arr' -> exchange idx i j = Some idx' ->
  Permutation (combine arr idx) (combine arr' idx').
Proof.
  intros L E F. unfold exchange in *.
  apply obind_some in E as (x & X & E). apply obind_some in E as (y & Y & E). apply obind_some in E as (a1 & A1 & A2).
  apply obind_some in F as (u & U & F). apply obind_some in F as (v & V & F). apply obind_some in F as (b1 & B1 & B2).
  apply wr_upd in A1, A2, B1, B2. subst. apply rd_nth in X, Y, U, V.
  rewrite !upd_combine by (rewrite ?upd_nat_length; lia).
  assert (C : forall n (a b : Z), nth_error arr n = Some a -> nth_error idx n = Some b -> nth_error (combine arr idx) n = Some (a, b)).
  { clear. revert idx. induction arr as [|p arr IH]; intros [|q idx] [|n] a b H1 H2; cbn in *; try discriminate; [congruence|auto]. }
  apply swap_perm; apply C; assumption.
Qed.

(** * Partitioning *)
Lemma scan_up_ok arr pivot r : r < Z.of_nat (length arr) -> forall fuel i, 0 <= i -> (exists k, i <= k <= r /\ get arr k <= pivot) -> r - i + 1 < Z.of_nat fuel ->
  exists i', scan_up fuel arr pivot i = Some i' /\ i <= i' <= r /\ (forall k, i <= k < i' -> pivot <= get arr k) /\ get arr i' <= pivot /\
    (forall k, i <= k <= r -> get arr k <= pivot -> i' <= k).
Proof.
  intros R. induction fuel as [|fuel IH]; intros i I (k & K & P) F; [lia|]. cbn [scan_up]. rewrite rd_get by lia. cbn [obind].
  destruct (Z.ltb_spec pivot (get arr i)) as [G|G].
  - assert (k <> i) by (intros ->; lia).
    destruct (IH (i + 1) ltac:(lia)) as (i' & E & B & Q & S & T); [exists k; split; [lia|exact P]|lia|].
    exists i'. split; [exact E|]. split; [lia|]. split; [|split; [exact S|]].
    + intros m M. destruct (Z.eq_dec m i) as [->|]; [lia|]. apply Q. lia.
    + intros m M H'. destruct (Z.eq_dec m i) as [->|]; [lia|]. apply T; [lia|exact H'].
  - exists i. split; [reflexivity|]. split; [lia|]. split; [intros; lia|]. split; [exact G|]. intros; lia.
Qed.
Lemma scan_down_ok arr pivot l : 0 <= l -> forall fuel j, j < Z.of_nat (length arr) -> (exists k, l <= k <= j /\ pivot <= get arr k) -> j - l + 1 < Z.of_nat fuel ->
  exists j', scan_down fuel arr pivot j = Some j' /\ l <= j' <= j /\ (forall k, j' < k <= j -> get arr k <= pivot) /\ pivot <= get arr j' /\
    (forall k, l <= k <= j -> pivot <= get arr k -> k <= j').
Proof.
  intros L0. induction fuel as [|fuel IH]; intros j J (k & K & P) F; [lia|]. cbn [scan_down]. rewrite rd_get by lia. cbn [obind].
  destruct (Z.ltb_spec (get arr j) pivot) as [G|G].
  - assert (k <> j) by (intros ->; lia).
    destruct (IH (j - 1) ltac:(lia)) as (j' & E & B & Q & S & T); [exists k; split; [lia|exact P]|lia|].
    exists j'. split; [exact E|]. split; [lia|]. split; [|split; [exact S|]].
    + intros m M. destruct (Z.eq_dec m j) as [->|]; [lia|]. apply Q. lia.
    + intros m M H'. destruct (Z.eq_dec m j) as [->|]; [lia|]. apply T; [lia|exact H'].
  - exists j. split; [reflexivity|]. split; [lia|]. split; [intros; lia|]. split; [exact G|]. intros; lia.
Qed.

(** Moving values about inside [l, r]. *)
Record within (l r : Z) (arr idx arr' idx' : list Z) : Prop := {
  wi_len : length arr' = length arr; wi_len' : length idx' = length idx;
  wi_perm : Permutation (combine arr idx) (combine arr' idx');
  wi_out : forall k, 0 <= k -> k < l \/ r < k -> get arr' k = get arr k /\ get idx' k = get idx k;
  wi_in : forall k, l <= k <= r -> exists k', l <= k' <= r /\ get arr' k = get arr k' }.
Lemma within_refl l r arr idx : within l r arr idx arr idx.
Proof. split; auto. intros k K. exists k. auto. Qed.
Lemma within_trans l r a i a' i' a'' i'' : within l r a i a' i' -> within l r a' i' a'' i'' -> within l r a i a'' i''.
Proof.
  intros [L1 L1' P1 O1 N1] [L2 L2' P2 O2 N2]. split; try congruence.
  - etransitivity; eassumption.
  - intros k K H. destruct (O1 k K H). destruct (O2 k K H). split; congruence.
  - intros k K. destruct (N2 k K) as (k' & K' & E'). destruct (N1 k' K') as (k'' & K'' & E''). exists k''. split; [exact K''|congruence].
Qed.
Lemma within_wider l r l' r' a i a' i' : 0 <= l' -> l' <= l -> r <= r' -> within l r a i a' i' -> within l' r' a i a' i'.
Proof.
  intros Z0 L R [L1 L1' P O N]. split; auto.
  - intros k K H. apply O; [exact K|lia].
  - intros k K. destruct (Z.lt_ge_cases k l) as [Q|Q]; [exists k; split; [exact K|]; apply O; lia|].
    destruct (Z.lt_ge_cases r k) as [S|S]; [exists k; split; [exact K|]; apply O; lia|].
    destruct (N k ltac:(lia)) as (k' & K' & E). exists k'. split; [lia|exact E].
Qed.

Lemma partition_ok pivot l r : 0 <= l -> forall fuel arr idx i j, length idx = length arr -> r < Z.of_nat (length arr) ->
  (1 <= fuel)%nat -> (i <= j -> j - i + 3 <= Z.of_nat fuel) -> l <= i -> j <= r -> i <= r + 1 -> l - 1 <= j ->
  (forall k, l <= k < i -> pivot <= get arr k) -> (forall k, j < k <= r -> get arr k <= pivot) ->
  (i <= j -> (exists k, i <= k <= r /\ get arr k <= pivot) /\ (exists k, l <= k <= j /\ pivot <= get arr k)) ->
  exists arr' idx' i' j', partition_loop fuel arr idx pivot i j = Some (arr', idx', i', j') /\ within l r arr idx arr' idx' /\
    i <= i' <= r + 1 /\ l - 1 <= j' <= j /\ j' < i' /\ (forall k, l <= k < i' -> pivot <= get arr' k) /\ (forall k, j' < k <= r -> get arr' k <= pivot).
Proof.
  intros L0. induction fuel as [|fuel IH]; intros arr idx i j LI R F1 F LI' JR IR LJ HI HJ ST; [lia|]. cbn [partition_loop].
  destruct (Z.leb_spec i j) as [IJ|IJ].
  2:{ exists arr, idx, i, j. split; [reflexivity|]. split; [apply within_refl|]. split; [lia|]. split; [lia|]. split; [lia|]. auto. }
  destruct (ST IJ) as [SU SD].
  destruct (scan_up_ok arr pivot r R (S (length arr)) i ltac:(lia) SU ltac:(lia)) as (i1 & E1 & B1 & Q1 & S1 & _). rewrite E1. cbn [obind].
  destruct (scan_down_ok arr pivot l L0 (S (length arr)) j ltac:(lia) SD ltac:(lia)) as (j1 & E2 & B2 & Q2 & S2 & _). rewrite E2. cbn [obind].
  assert (HI1 : forall k, l <= k < i1 -> pivot <= get arr k) by (intros k K; destruct (Z.lt_ge_cases k i); [apply HI; lia|apply Q1; lia]).
  assert (HJ1 : forall k, j1 < k <= r -> get arr k <= pivot) by (intros k K; destruct (Z.lt_ge_cases j k); [apply HJ; lia|apply Q2; lia]).
  destruct (Z.leb_spec i1 j1) as [IJ1|IJ1].
  - destruct (exchange_ok arr i1 j1 ltac:(lia) ltac:(lia)) as (arr1 & X1 & LX & G1). rewrite X1. cbn [obind].
    destruct (exchange_ok idx i1 j1 ltac:(lia) ltac:(lia)) as (idx1 & X2 & LX2 & G2). rewrite X2. cbn [obind].
    assert (W : within l r arr idx arr1 idx1).
    { split; auto; [eapply exchange_perm; eassumption| |].
      - intros k K O. rewrite G1, G2 by exact K. destruct (Z.eqb_spec k j1); [lia|]. destruct (Z.eqb_spec k i1); [lia|]. auto.
      - intros k K. rewrite G1 by lia. destruct (Z.eqb_spec k j1); [exists i1; split; [lia|reflexivity]|]. destruct (Z.eqb_spec k i1); [exists j1; split; [lia|reflexivity]|].
        exists k. auto. }
    destruct (IH arr1 idx1 (i1 + 1) (j1 - 1)) as (a & x & i' & j' & E & W' & Bi & Bj & IJ' & H1 & H2); try lia.
    + intros k K. rewrite G1 by lia. destruct (Z.eqb_spec k j1); [subst k; assert (i1 = j1) by lia; subst; exact S2|]. destruct (Z.eqb_spec k i1); [exact S2|]. apply HI1. lia.
    + intros k K. rewrite G1 by lia. destruct (Z.eqb_spec k j1); [exact S1|]. destruct (Z.eqb_spec k i1); [subst k; assert (i1 = j1) by lia; subst; lia|]. apply HJ1. lia.
    + intros H. split; [exists j1|exists i1]; (split; [lia|]); rewrite G1 by lia.
      * rewrite Z.eqb_refl. exact S1.
      * destruct (Z.eqb_spec i1 j1); [lia|]. rewrite Z.eqb_refl. exact S2.
    + exists a, x, i', j'. split; [exact E|]. split; [eapply within_trans; eassumption|]. split; [lia|]. split; [lia|]. auto.
  - destruct (IH arr idx i1 j1) as (a & x & i' & j' & E & W' & Bi & Bj & IJ' & H1 & H2); try lia; auto.
    exists a, x, i', j'. split; [exact E|]. split; [exact W'|]. split; [lia|]. split; [lia|]. auto.
Qed.

Definition descending (arr : list Z) (l r : Z) : Prop := forall a b, l <= a -> a <= b -> b <= r -> get arr b <= get arr a.

(** scheduling.cpp:26-57 *)
Theorem quick_sort_ok : forall fuel arr idx l r, length idx = length arr -> 0 <= l -> l <= r -> r < Z.of_nat (length arr) -> r - l < Z.of_nat fuel ->
  exists arr' idx', QuickSort fuel arr idx l r = Some (arr', idx') /\ within l r arr idx arr' idx' /\ descending arr' l r.
Proof.
  induction fuel as [|fuel IH]; intros arr idx l r LI L0 LR R F; [lia|]. cbn [QuickSort].
  set (m := Z.quot (l + r) 2). assert (M : l <= m <= r).
  { unfold m. rewrite Z.quot_div_nonneg by lia. pose proof (Z.div_mod (l + r) 2 ltac:(lia)). pose proof (Z.mod_pos_bound (l + r) 2 ltac:(lia)). lia. }
  rewrite (rd_get arr m) by lia. cbn [obind]. set (pivot := get arr m).
  (* the first round of the loop exchanges something *)
  assert (P : exists arr' idx' i' j', partition_loop (S (S (length arr))) arr idx pivot l r = Some (arr', idx', i', j') /\ within l r arr idx arr' idx' /\
    l + 1 <= i' <= r + 1 /\ l - 1 <= j' <= r - 1 /\ j' < i' /\ (forall k, l <= k < i' -> pivot <= get arr' k) /\ (forall k, j' < k <= r -> get arr' k <= pivot)).
  { cbn [partition_loop]. destruct (Z.leb_spec l r); [|lia].
    destruct (scan_up_ok arr pivot r R (S (length arr)) l L0 ltac:(exists m; split; [lia|unfold pivot; lia]) ltac:(lia)) as (i1 & E1 & B1 & Q1 & S1 & T1). rewrite E1. cbn [obind].
    destruct (scan_down_ok arr pivot l L0 (S (length arr)) r R ltac:(exists m; split; [lia|unfold pivot; lia]) ltac:(lia)) as (j1 & E2 & B2 & Q2 & S2 & T2). rewrite E2. cbn [obind].
    pose proof (T1 m M ltac:(unfold pivot; lia)) as TT1. pose proof (T2 m M ltac:(unfold pivot; lia)) as TT2. destruct (Z.leb_spec i1 j1) as [IJ1|IJ1]; [|lia].
    destruct (exchange_ok arr i1 j1 ltac:(lia) ltac:(lia)) as (arr1 & X1 & LX & G1). rewrite X1. cbn [obind].
    destruct (exchange_ok idx i1 j1 ltac:(lia) ltac:(lia)) as (idx1 & X2 & LX2 & G2). rewrite X2. cbn [obind].
    assert (W : within l r arr idx arr1 idx1).
    { split; auto; [eapply exchange_perm; eassumption| |].
      - intros k K O. rewrite G1, G2 by exact K. destruct (Z.eqb_spec k j1); [lia|]. destruct (Z.eqb_spec k i1); [lia|]. auto.
      - intros k K. rewrite G1 by lia. destruct (Z.eqb_spec k j1); [exists i1; split; [lia|reflexivity]|]. destruct (Z.eqb_spec k i1); [exists j1; split; [lia|reflexivity]|].
        exists k. auto. }
    destruct (partition_ok pivot l r L0 (S (length arr)) arr1 idx1 (i1 + 1) (j1 - 1)) as (a & x & i' & j' & E & W' & Bi & Bj & IJ' & HA & HB); try lia.
    + intros k K. rewrite G1 by lia. destruct (Z.eqb_spec k j1); [subst k; assert (i1 = j1) by lia; subst; exact S2|]. destruct (Z.eqb_spec k i1); [exact S2|]. apply Q1. lia.
    + intros k K. rewrite G1 by lia. destruct (Z.eqb_spec k j1); [exact S1|]. destruct (Z.eqb_spec k i1); [subst k; assert (i1 = j1) by lia; subst; lia|]. apply Q2. lia.
    + intros H'. split; [exists j1|exists i1]; (split; [lia|]); rewrite G1 by lia.
      * rewrite Z.eqb_refl. exact S1.
      * destruct (Z.eqb_spec i1 j1); [lia|]. rewrite Z.eqb_refl. exact S2.
    + exists a, x, i', j'. split; [exact E|]. split; [eapply within_trans; eassumption|]. split; [lia|]. split; [lia|]. auto. }
  destruct P as (a1 & x1 & i & j & E & W & Bi & Bj & IJ & HI & HJ). rewrite E. cbn [obind].
  assert (LA : length a1 = length arr) by apply (wi_len _ _ _ _ _ _ W). assert (LX : length x1 = length a1) by (rewrite (wi_len' _ _ _ _ _ _ W); lia).
  assert (P2 : exists a2 x2, (if l <? j then QuickSort fuel a1 x1 l j else Some (a1, x1)) = Some (a2, x2) /\ within l j a1 x1 a2 x2 /\ descending a2 l j).
  { destruct (Z.ltb_spec l j) as [LJ|LJ].
    - apply IH; lia.
    - exists a1, x1. split; [reflexivity|]. split; [apply within_refl|]. intros a b A B C. assert (a = b) by lia. subst. lia. }
  destruct P2 as (a2 & x2 & E2 & W2 & D2). rewrite E2. cbn [obind].
  assert (LA2 : length a2 = length arr) by (rewrite (wi_len _ _ _ _ _ _ W2); exact LA). assert (LX2 : length x2 = length a2) by (rewrite (wi_len' _ _ _ _ _ _ W2), LX; lia).
  assert (P3 : exists a3 x3, (if i <? r then QuickSort fuel a2 x2 i r else Some (a2, x2)) = Some (a3, x3) /\ within i r a2 x2 a3 x3 /\ descending a3 i r).
  { destruct (Z.ltb_spec i r) as [LJ|LJ].
    - apply IH; lia.
    - exists a2, x2. split; [reflexivity|]. split; [apply within_refl|]. intros a b A B C. assert (a = b) by lia. subst. lia. }
  destruct P3 as (a3 & x3 & E3 & W3 & D3). exists a3, x3. split; [exact E3|]. split.
  { eapply within_trans; [exact W|]. eapply within_trans; [apply (within_wider l j l r _ _ _ _ L0 ltac:(lia) ltac:(lia) W2)|apply (within_wider i r l r _ _ _ _ L0 ltac:(lia) ltac:(lia) W3)]. }
  (* the three parts *)
  assert (G3 : forall k, l <= k <= j -> pivot <= get a3 k).
  { intros k K. rewrite (proj1 (wi_out _ _ _ _ _ _ W3 k ltac:(lia) ltac:(lia))). destruct (wi_in _ _ _ _ _ _ W2 k K) as (k' & K' & ->). apply HI. lia. }
  assert (L3 : forall k, i <= k <= r -> get a3 k <= pivot).
  { intros k K. destruct (wi_in _ _ _ _ _ _ W3 k K) as (k' & K' & ->). rewrite (proj1 (wi_out _ _ _ _ _ _ W2 k' ltac:(lia) ltac:(lia))). apply HJ. lia. }
  assert (M3 : forall k, j < k < i -> get a3 k = pivot).
  { intros k K. rewrite (proj1 (wi_out _ _ _ _ _ _ W3 k ltac:(lia) ltac:(lia))), (proj1 (wi_out _ _ _ _ _ _ W2 k ltac:(lia) ltac:(lia))).
    pose proof (HI k ltac:(lia)). pose proof (HJ k ltac:(lia)). lia. }
  assert (D2' : descending a3 l j).
  { intros a b A B C. rewrite (proj1 (wi_out _ _ _ _ _ _ W3 a ltac:(lia) ltac:(lia))), (proj1 (wi_out _ _ _ _ _ _ W3 b ltac:(lia) ltac:(lia))). apply D2; lia. }
  intros a b A B C.
  destruct (Z.le_gt_cases b j) as [Q|Q]; [apply D2'; lia|].
  destruct (Z.le_gt_cases i a) as [S|S]; [apply D3; lia|].
  assert (UB : get a3 b <= pivot) by (destruct (Z.le_gt_cases i b); [apply L3; lia|rewrite M3 by lia; lia]).
  assert (LB : pivot <= get a3 a) by (destruct (Z.le_gt_cases a j); [apply G3; lia|rewrite M3 by lia; lia]). lia.
Qed.

(** * Statements about lists *)
Definition non_increasing (l : list Z) : Prop := forall i j x y, (i <= j)%nat -> nth_error l i = Some x -> nth_error l j = Some y -> y <= x.
Lemma get_nth l i x : nth_error l i = Some x -> get l (Z.of_nat i) = x.
Proof. intros H. unfold get. rewrite Nat2Z.id. apply nth_error_nth. exact H. Qed.
Lemma descending_non_increasing l : descending l 0 (Z.of_nat (length l) - 1) -> non_increasing l.
Proof.
  intros D i j x y L X Y. rewrite <- (get_nth _ _ _ X), <- (get_nth _ _ _ Y). pose proof (nth_error_lt _ _ _ Y).
  apply D; lia.
Qed.

(** Sorting an array of at least one element together with the array of indices. *)
Theorem quick_sort_sorts arr idx : arr <> [] -> length idx = length arr -> exists arr' idx',
  QuickSort (S (length arr)) arr idx 0 (Z.of_nat (length arr) - 1) = Some (arr', idx') /\
  length idx' = length arr' /\ Permutation (combine arr' idx') (combine arr idx) /\ non_increasing arr'.
Proof.
  intros NE L. assert (0 < length arr)%nat by (destruct arr; [congruence|cbn; lia]).
  destruct (quick_sort_ok (S (length arr)) arr idx 0 (Z.of_nat (length arr) - 1)) as (a & x & E & W & D); try lia.
  exists a, x. split; [exact E|]. split; [rewrite (wi_len _ _ _ _ _ _ W), (wi_len' _ _ _ _ _ _ W); exact L|].
  split; [symmetry; apply (wi_perm _ _ _ _ _ _ W)|]. apply descending_non_increasing. rewrite (wi_len _ _ _ _ _ _ W). exact D.
Qed.

(** * Levels *)
(** [k] gates, each after the one before it in the list and reading its output, the first
    being gate [i]. *)
Inductive chain (G : list ReadGate) : nat -> nat -> Prop :=
| chain_one i : (i < length G)%nat -> chain G i 1
| chain_more i j g h k : nth_error G i = Some g -> nth_error G j = Some h -> (i < j)%nat ->
    rg_in0 h = rg_out g \/ rg_in1 h = rg_out g -> chain G j k -> chain G i (S k).
Definition level (G : list ReadGate) (i m : nat) : Prop := chain G i m /\ forall k, chain G i k -> (k <= m)%nat.
Lemma level_unique G i a b : level G i a -> level G i b -> a = b.
Proof. intros [A A'] [B B']. apply A' in B. apply B' in A. lia. Qed.

Lemma for_from_inv {S} (P : nat -> S -> Prop) (body : nat -> S -> option S) i0 : forall k s,
  P i0 s -> (forall i s, (i0 <= i < i0 + k)%nat -> P i s -> exists s', body i s = Some s' /\ P (Datatypes.S i) s') ->
  exists s', for_from body i0 k s = Some s' /\ P (i0 + k)%nat s'.
Proof.
  induction k as [|k IH]; intros s H0 HS.
  - exists s. rewrite Nat.add_0_r. auto.
  - destruct (IH s H0) as (s1 & E1 & P1); [intros; apply HS; auto; lia|].
    destruct (HS (i0 + k)%nat s1 ltac:(lia) P1) as (s2 & E2 & P2). exists s2. rewrite for_from_S, E1. cbn [obind]. split; [exact E2|].
    rewrite Nat.add_succ_r. exact P2.
Qed.

Section Levels.
Variable G : list ReadGate.
Notation n := (length G).
Definition feeds (i j : nat) : Prop := exists g h, nth_error G i = Some g /\ nth_error G j = Some h /\ (i < j)%nat /\ (rg_in0 h = rg_out g \/ rg_in1 h = rg_out g).
(** The levels of the gates from [i] on are in [sl]. *)
Definition levels_from (i : nat) (sl : list Z) : Prop :=
  length sl = n /\ forall j, (i <= j < n)%nat -> exists m, nth_error sl j = Some (Z.of_nat m) /\ level G j m.

Lemma chain_pos i k : chain G i k -> (1 <= k)%nat.
Proof. induction 1; lia. Qed.

Lemma level_row_ok k sl : (k < n)%nat -> levels_from (n - k) sl ->
  exists sl', level_row G n k sl = Some sl' /\ levels_from (n - S k) sl'.
Proof.
  intros K [L H]. unfold level_row. cbv zeta. set (i := (n - 1 - k)%nat). assert (I : (i < n)%nat) by lia.
  destruct (rd_ok G (Z.of_nat i)) as [g Eg]; [lia|]. rewrite Eg. cbn [obind]. rewrite rd_nat in Eg.
  destruct (for_from_inv (fun j max => exists mx, max = Z.of_nat mx /\
      (mx = 0%nat \/ exists j', (S i <= j' < j)%nat /\ feeds i j' /\ chain G j' mx) /\
      forall j' m, (S i <= j' < j)%nat -> feeds i j' -> chain G j' m -> (m <= mx)%nat)
    (level_step G (rg_out g) sl) (S i) (n - S i) 0) as (max & E & mx & -> & A & B).
  - exists 0%nat. split; [reflexivity|]. split; [auto|]. intros; lia.
  - intros j max J (mx & -> & A & B). unfold level_step.
    destruct (rd_ok G (Z.of_nat j)) as [h Eh]; [lia|]. rewrite Eh. cbn [obind]. rewrite rd_nat in Eh.
    destruct (H j ltac:(lia)) as (m & Em & LC & LM). rewrite rd_nat, Em. cbn [obind].
    assert (C : rg_in0 h = rg_out g \/ rg_in1 h = rg_out g ->
      exists mx', Z.of_nat (Nat.max mx m) = Z.of_nat mx' /\
      (mx' = 0%nat \/ exists j', (S i <= j' < S j)%nat /\ feeds i j' /\ chain G j' mx') /\
      forall j' m, (S i <= j' < S j)%nat -> feeds i j' -> chain G j' m -> (m <= mx')%nat).
    { intros O. exists (Nat.max mx m). split; [reflexivity|]. split.
      - destruct (Nat.max_spec mx m) as [[_ ->]|[_ ->]].
        + right. exists j. split; [lia|]. split; [exists g, h; repeat split; auto; lia|exact LC].
        + destruct A as [A|(j' & J' & F' & C')]; [auto|]. right. exists j'. split; [lia|auto].
      - intros j' m' J' F' C'. destruct (Nat.eq_dec j' j) as [->|]; [apply LM in C'; lia|]. assert (m' <= mx)%nat by (eapply B; eauto; lia). lia. }
    assert (X : forall x : Z, (if x <? Z.of_nat m then Z.of_nat m else x) = Z.max x (Z.of_nat m)) by (intros x; destruct (Z.ltb_spec x (Z.of_nat m)); lia).
    destruct (Z.eqb_spec (rg_in0 h) (rg_out g)) as [O0|O0]; cbn [obind]; destruct (Z.eqb_spec (rg_in1 h) (rg_out g)) as [O1|O1]; rewrite ?X; eexists; (split; [reflexivity|]).
    + replace (Z.max (Z.max (Z.of_nat mx) (Z.of_nat m)) (Z.of_nat m)) with (Z.of_nat (Nat.max mx m)) by lia. auto.
    + replace (Z.max (Z.of_nat mx) (Z.of_nat m)) with (Z.of_nat (Nat.max mx m)) by lia. auto.
    + replace (Z.max (Z.of_nat mx) (Z.of_nat m)) with (Z.of_nat (Nat.max mx m)) by lia. auto.
    + exists mx. split; [reflexivity|]. split.
      * destruct A as [A|(j' & J' & F' & C')]; [auto|]. right. exists j'. split; [lia|auto].
      * intros j' m' J' F' C'. destruct (Nat.eq_dec j' j) as [->|]; [|eapply B; eauto; lia].
        destruct F' as (g' & h' & Eg' & Eh' & _ & [O|O]); assert (g' = g) by congruence; assert (h' = h) by congruence; subst; congruence.
  - rewrite E. cbn [obind]. destruct (wr_ok sl (Z.of_nat i) (1 + Z.of_nat mx)) as [sl' W]; [lia|]. exists sl'. split; [exact W|].
    split; [rewrite (wr_length _ _ _ _ W); exact L|]. intros j J. rewrite <- rd_nat, (rd_wr _ _ _ _ _ W).
    destruct (Z.eqb_spec (Z.of_nat j) (Z.of_nat i)) as [Q|Q].
    + assert (j = i) by lia. subst j. exists (S mx). split; [f_equal; lia|]. split.
      * destruct A as [->|(j' & J' & (g' & h' & Eg' & Eh' & LT & O) & C')]; [apply chain_one; exact I|]. eapply chain_more; eassumption.
      * intros k' C'. inversion C' as [|? j' g' h' k'' Eg' Eh' LT O C'']; subst; [lia|].
        assert (k'' <= mx)%nat; [|lia]. apply (B j'); [pose proof (nth_error_lt _ _ _ Eh'); lia|exists g', h'; auto|exact C''].
    + rewrite rd_nat. apply H. lia.
Qed.

Lemma levels_ok sl : length sl = n -> exists sl', for_ n (level_row G n) sl = Some sl' /\ levels_from 0 sl'.
Proof.
  intros L. destruct (for_inv (fun k sl => levels_from (n - k) sl) n (level_row G n) sl) as (sl' & E & H).
  - split; [exact L|]. intros; lia.
  - intros k s K J. apply level_row_ok; assumption.
  - exists sl'. rewrite Nat.sub_diag in H. auto.
Qed.

Theorem level_exists i : (i < n)%nat -> exists m, level G i m /\ (1 <= m)%nat.
Proof.
  intros I. destruct (levels_ok (repeat 0 n) (repeat_length _ _)) as (sl & _ & _ & H). destruct (H i ltac:(lia)) as (m & _ & LV).
  exists m. split; [exact LV|]. eapply chain_pos. apply LV.
Qed.

(** TopSort: all gates, those with the longer chains first. *)
Theorem top_sort_ok sl : G <> [] -> length sl = n -> exists index, TopSort G n sl = Some index /\
  Permutation index (map Z.of_nat (seq 0 n)) /\
  forall a b i j mi mj, (a <= b)%nat -> nth_error index a = Some (Z.of_nat i) -> nth_error index b = Some (Z.of_nat j) ->
    level G i mi -> level G j mj -> (mj <= mi)%nat.
Proof.
  intros NE L. unfold TopSort. cbv zeta. destruct (levels_ok sl L) as (sl' & E & LF). rewrite E. cbn [obind]. destruct LF as [L' H].
  destruct (quick_sort_sorts sl' (map Z.of_nat (seq 0 n))) as (a & x & EQ & LX & P & D).
  - destruct sl'; [destruct G; [congruence|discriminate]|discriminate].
  - rewrite map_length, seq_length. auto.
  - rewrite L' in EQ. rewrite L', EQ. cbn [obind]. exists x. split; [reflexivity|].
    assert (SND : forall l m : list Z, length m = length l -> map snd (combine l m) = m).
    { clear. induction l as [|p l IH]; intros [|q m] H; cbn in *; try discriminate; [reflexivity|]. f_equal. apply IH. lia. }
    split.
    + rewrite <- (SND a x LX), <- (SND sl' (map Z.of_nat (seq 0 n))) by (rewrite map_length, seq_length; auto). apply Permutation_map. exact P.
    + assert (Q : forall c i m, nth_error x c = Some (Z.of_nat i) -> level G i m -> nth_error a c = Some (Z.of_nat m)).
      { intros c i m X LV. assert (LC : (c < length a)%nat) by (rewrite <- LX; eapply nth_error_lt; eassumption).
        destruct (nth_error a c) as [v|] eqn:V; [|apply nth_error_None in V; lia].
        assert (IN : In (v, Z.of_nat i) (combine sl' (map Z.of_nat (seq 0 n)))).
        { apply (Permutation_in _ P). clear - V X LX. revert x c LX V X. induction a as [|p a IH]; intros [|q x] [|c] LX V X; cbn in *; try discriminate; [left; congruence|].
          right. eapply IH; eauto. }
        assert (NTH : forall (l : list Z) k v z, In (v, z) (combine l (map Z.of_nat (seq k (length l)))) -> exists j, z = Z.of_nat (k + j) /\ nth_error l j = Some v).
        { clear. induction l as [|p l IH]; intros k v z; cbn; [tauto|]. intros [Q|Q].
          - injection Q as <- <-. exists 0%nat. rewrite Nat.add_0_r. auto.
          - apply IH in Q as (j & -> & Q). exists (S j). split; [f_equal; lia|exact Q]. }
        rewrite <- L' in IN. apply NTH in IN as (j & EJ & EV). cbn in EJ. assert (j = i) by lia. subst j.
        destruct (H i) as (m' & EM & LV'); [pose proof (nth_error_lt _ _ _ EV); lia|]. rewrite (level_unique _ _ _ _ LV LV'). congruence. }
      intros c d i j mi mj CD C1 C2 L1 L2. pose proof (D c d _ _ CD (Q _ _ _ C1 L1) (Q _ _ _ C2 L2)). lia.
Qed.
End Levels.

(** Sorting nothing reads an element that does not exist. *)
Theorem top_sort_empty fuel G : QuickSort (S fuel) [] [] 0 (-1) = None /\ TopSort G 0 [] = None.
Proof. split; reflexivity. Qed.
