(** Basic vocabulary of the model: checked arrays, option monad, counted loops.

    C++ arrays are lists; reading or writing outside of an array is the
    distinct outcome [None] (undefined behaviour). *)
From Coq Require Import ZArith NArith List Bool Lia Arith.
Import ListNotations.
Open Scope Z_scope.

(** Option monad used for undefined behaviour. *)
Definition obind {A B} (x : option A) (f : A -> option B) : option B :=
  match x with Some a => f a | None => None end.
Notation "'do' x <- e ; k" := (obind e (fun x => k))
  (at level 200, x binder, e at level 100, k at level 200, right associativity).
Notation "'do' ' p <- e ; k" := (obind e (fun x => match x with p => k end))
  (at level 200, p pattern, e at level 100, k at level 200, right associativity).

(** [a[i]] *)
Definition rd {A} (l : list A) (i : Z) : option A :=
  if i <? 0 then None else nth_error l (Z.to_nat i).

Fixpoint upd_nat {A} (l : list A) (n : nat) (v : A) : list A :=
  match l, n with
  | [], _ => []
  | _ :: t, O => v :: t
  | x :: t, S m => x :: upd_nat t m v
  end.

(** [a[i] = v] *)
Definition wr {A} (l : list A) (i : Z) (v : A) : option (list A) :=
  if (0 <=? i) && (i <? Z.of_nat (length l))
  then Some (upd_nat l (Z.to_nat i) v) else None.

(** [for (i = i0; i < i0 + k; i++) body] *)
Fixpoint for_from {S} (body : nat -> S -> option S) (i k : nat) (s : S) : option S :=
  match k with
  | O => Some s
  | Datatypes.S k' => do s' <- body i s; for_from body (Datatypes.S i) k' s'
  end.
Definition for_ {S} (n : nat) (body : nat -> S -> option S) (s : S) : option S :=
  for_from body 0 n s.

(** * Lemmas *)

Lemma obind_some {A B} (x : option A) (f : A -> option B) b :
  obind x f = Some b -> exists a, x = Some a /\ f a = Some b.
Proof. destruct x; simpl; intros; eauto; discriminate. Qed.

Lemma upd_nat_length {A} (l : list A) n v : length (upd_nat l n v) = length l.
Proof. revert n; induction l; intros [|n]; simpl; auto. Qed.

Lemma nth_upd_nat {A} (l : list A) n v m :
  (n < length l)%nat ->
  nth_error (upd_nat l n v) m = if Nat.eqb m n then Some v else nth_error l m.
Proof.
  revert n m; induction l; intros [|n] [|m] H; simpl in *; try lia; auto.
  apply IHl; lia.
Qed.

Lemma rd_some_iff {A} (l : list A) i :
  (exists x, rd l i = Some x) <-> 0 <= i < Z.of_nat (length l).
Proof.
  unfold rd. destruct (Z.ltb_spec i 0).
  - split; [intros [x Hx]; discriminate | lia].
  - split.
    + intros [x Hx]. assert (Z.to_nat i < length l)%nat; [|lia].
      apply nth_error_Some; congruence.
    + intros H1. destruct (nth_error l (Z.to_nat i)) eqn:E; eauto.
      apply nth_error_None in E. lia.
Qed.

Lemma rd_bound {A} (l : list A) i x : rd l i = Some x -> 0 <= i < Z.of_nat (length l).
Proof. intros; apply rd_some_iff; eauto. Qed.

Lemma rd_ok {A} (l : list A) i :
  0 <= i < Z.of_nat (length l) -> exists x, rd l i = Some x.
Proof. apply rd_some_iff. Qed.

Lemma rd_nat {A} (l : list A) (n : nat) : rd l (Z.of_nat n) = nth_error l n.
Proof.
  unfold rd. destruct (Z.ltb_spec (Z.of_nat n) 0); [lia|]. now rewrite Nat2Z.id.
Qed.

Lemma wr_ok {A} (l : list A) i v :
  0 <= i < Z.of_nat (length l) -> exists l', wr l i v = Some l'.
Proof.
  intros. unfold wr.
  replace ((0 <=? i) && (i <? Z.of_nat (length l))) with true; eauto.
  symmetry; apply andb_true_iff; split; [apply Z.leb_le | apply Z.ltb_lt]; lia.
Qed.

Lemma wr_bound {A} (l : list A) i v l' :
  wr l i v = Some l' -> 0 <= i < Z.of_nat (length l).
Proof.
  unfold wr. destruct ((0 <=? i) && (i <? Z.of_nat (length l))) eqn:E; [|discriminate].
  intros _. apply andb_true_iff in E as [E1 E2].
  apply Z.leb_le in E1; apply Z.ltb_lt in E2; lia.
Qed.

Lemma wr_length {A} (l : list A) i v l' : wr l i v = Some l' -> length l' = length l.
Proof.
  unfold wr. destruct (_ && _); [|discriminate]. intros [= <-]. apply upd_nat_length.
Qed.

Lemma rd_wr {A} (l : list A) i v l' j :
  wr l i v = Some l' -> rd l' j = if Z.eqb j i then Some v else rd l j.
Proof.
  intros H. pose proof (wr_bound _ _ _ _ H) as B.
  unfold wr in H. destruct (_ && _); [|discriminate]. injection H as <-.
  unfold rd. destruct (Z.ltb_spec j 0).
  - destruct (Z.eqb_spec j i); [lia|auto].
  - rewrite nth_upd_nat by lia.
    destruct (Z.eqb_spec j i).
    + subst; now rewrite Nat.eqb_refl.
    + destruct (Nat.eqb_spec (Z.to_nat j) (Z.to_nat i)); [lia|auto].
Qed.

Lemma rd_wr_same {A} (l : list A) i v l' : wr l i v = Some l' -> rd l' i = Some v.
Proof. intros H; rewrite (rd_wr _ _ _ _ _ H), Z.eqb_refl; auto. Qed.

Lemma rd_wr_other {A} (l : list A) i v l' j :
  wr l i v = Some l' -> j <> i -> rd l' j = rd l j.
Proof. intros H N; rewrite (rd_wr _ _ _ _ _ H). destruct (Z.eqb_spec j i); congruence. Qed.

(** Loops. *)
Lemma for_from_S {S} (body : nat -> S -> option S) i k s :
  for_from body i (Datatypes.S k) s
  = do s' <- for_from body i k s; body (i + k)%nat s'.
Proof.
  revert i s; induction k; intros i s.
  - simpl. rewrite Nat.add_0_r. destruct (body i s); auto.
  - cbn [for_from]. cbn [for_from] in IHk.
    destruct (body i s) as [s'|]; cbn [obind]; auto.
    etransitivity; [apply (IHk (Datatypes.S i) s')|].
    replace (Datatypes.S i + k)%nat with (i + Datatypes.S k)%nat by lia.
    reflexivity.
Qed.

Lemma for_S {S} (body : nat -> S -> option S) k s :
  for_ (Datatypes.S k) body s = do s' <- for_ k body s; body k s'.
Proof. apply for_from_S. Qed.

Lemma for_0 {S} (body : nat -> S -> option S) s : for_ 0 body s = Some s.
Proof. reflexivity. Qed.

(** Loop invariant rule; gives every intermediate state. *)
Lemma for_inv {S} (P : nat -> S -> Prop) n (body : nat -> S -> option S) s :
  P O s ->
  (forall i s, (i < n)%nat -> P i s -> exists s', body i s = Some s' /\ P (Datatypes.S i) s') ->
  exists s', for_ n body s = Some s' /\ P n s'.
Proof.
  intros H0 HS. induction n.
  - exists s; auto.
  - destruct IHn as (s1 & E1 & P1).
    { intros; apply HS; auto. }
    destruct (HS n s1 ltac:(lia) P1) as (s2 & E2 & P2).
    exists s2. rewrite for_S, E1. auto.
Qed.

Lemma for_inv_all {S} (P : nat -> S -> Prop) n (body : nat -> S -> option S) s :
  P O s ->
  (forall i s, (i < n)%nat -> P i s -> exists s', body i s = Some s' /\ P (Datatypes.S i) s') ->
  forall i, (i <= n)%nat -> exists s', for_ i body s = Some s' /\ P i s'.
Proof.
  intros H0 HS i Hi. apply for_inv; auto. intros; apply HS; auto; lia.
Qed.

(** Partial version: only talks about successful runs. *)
Lemma for_inv_partial {S} (P : nat -> S -> Prop) n (body : nat -> S -> option S) s s' :
  P O s ->
  (forall i s s', (i < n)%nat -> P i s -> body i s = Some s' -> P (Datatypes.S i) s') ->
  for_ n body s = Some s' -> P n s'.
Proof.
  revert s'. induction n; intros s' H0 HS E.
  - injection E as <-; auto.
  - rewrite for_S in E. apply obind_some in E as (s1 & E1 & E2).
    eapply HS; eauto.
Qed.

(** Two lists of the same length that read the same everywhere are equal. *)
Lemma list_ext_rd {A} (l1 l2 : list A) :
  (forall i, rd l1 i = rd l2 i) -> l1 = l2.
Proof.
  intros H. assert (forall n, nth_error l1 n = nth_error l2 n).
  { intros n. rewrite <- !rd_nat. auto. }
  clear H. revert l2 H0; induction l1; intros [|b l2] H; auto.
  - specialize (H O); discriminate.
  - specialize (H O); discriminate.
  - f_equal. + specialize (H O); simpl in H; congruence.
    + apply IHl1; intros n; apply (H (Datatypes.S n)).
Qed.

Lemma rd_repeat {A} (x : A) n i y : rd (repeat x n) i = Some y -> y = x.
Proof.
  unfold rd. destruct (i <? 0); [discriminate|]. intros H.
  apply nth_error_In, repeat_spec in H. auto.
Qed.

Lemma rd_app_l {A} (l1 l2 : list A) i : i < Z.of_nat (length l1) -> rd (l1 ++ l2) i = rd l1 i.
Proof.
  intros. unfold rd. destruct (Z.ltb_spec i 0); auto. apply nth_error_app1; lia.
Qed.

Lemma rd_app_r {A} (l1 l2 : list A) i :
  Z.of_nat (length l1) <= i -> rd (l1 ++ l2) i = rd l2 (i - Z.of_nat (length l1)).
Proof.
  intros. unfold rd. destruct (Z.ltb_spec i 0); [lia|].
  destruct (Z.ltb_spec (i - Z.of_nat (length l1)) 0); [lia|].
  rewrite nth_error_app2 by lia. f_equal; lia.
Qed.

Ltac inv H := inversion H; subst; clear H.
Ltac bnd H := apply obind_some in H; destruct H as (? & ? & H).
