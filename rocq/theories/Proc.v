(** Two programs connected by two byte streams.

    A program sends bytes, receives bytes, returns or crashes.  The socket is
    modelled as two unbounded FIFO queues of bytes; one step moves one byte, so
    every fragmentation of a transfer by the network is a sequence of steps
    (tcpip/tcpip.cpp:139-179, see [Tcp]). *)
From Coq Require Import ZArith NArith List Bool Lia.
From Verif Require Import Base.
Import ListNotations.

Definition bytes := list N.

Inductive proc (A : Type) : Type :=
| Ret (a : A)
| Send (bs : bytes) (k : proc A)
| Recv (n : nat) (k : bytes -> proc A)
| Crash.
Arguments Ret {A}. Arguments Send {A}. Arguments Recv {A}. Arguments Crash {A}.

Fixpoint bind {A B} (p : proc A) (f : A -> proc B) : proc B :=
  match p with
  | Ret a => f a
  | Send bs k => Send bs (bind k f)
  | Recv n k => Recv n (fun l => bind (k l) f)
  | Crash => Crash
  end.
(** Lifting a computation that may make an out-of-bounds access. *)
Definition lift {A} (o : option A) : proc A := match o with Some a => Ret a | None => Crash end.

Declare Scope proc_scope.
Delimit Scope proc_scope with proc.
Notation "'let!' x ':=' p 'in' q" := (bind p (fun x => q))
  (at level 200, x pattern, p at level 100, q at level 200, right associativity) : proc_scope.
Notation "'let!' ' x ':=' p 'in' q" := (bind p (fun x => q))
  (at level 200, x pattern, p at level 100, q at level 200, right associativity) : proc_scope.
Open Scope proc_scope.

Definition send (bs : bytes) : proc unit := Send bs (Ret tt).
Definition recv (n : nat) : proc bytes := Recv n (fun l => Ret l).

(** One party's step: [i] is its incoming, [o] its outgoing queue. *)
Definition pstep {A} (p : proc A) (i o : bytes) : option (proc A * bytes * bytes) :=
  match p with
  | Ret _ | Crash => None
  | Send [] k => Some (k, i, o)
  | Send (x :: bs) k => Some (Send bs k, i, o ++ [x])
  | Recv O k => Some (k [], i, o)
  | Recv (S n) k =>
    match i with
    | [] => None
    | x :: i' => Some (Recv n (fun l => k (x :: l)), i', o)
    end
  end.

Record config (A B : Type) := mkCfg { pA : proc A; pB : proc B; qAB : bytes; qBA : bytes }.
Arguments mkCfg {A B}. Arguments pA {A B}. Arguments pB {A B}. Arguments qAB {A B}. Arguments qBA {A B}.

Definition stepA {A B} (c : config A B) : option (config A B) :=
  match pstep (pA c) (qBA c) (qAB c) with
  | Some (p, i, o) => Some (mkCfg p (pB c) o i)
  | None => None
  end.
Definition stepB {A B} (c : config A B) : option (config A B) :=
  match pstep (pB c) (qAB c) (qBA c) with
  | Some (p, i, o) => Some (mkCfg (pA c) p i o)
  | None => None
  end.

(** [reach n c d]: some interleaving of [n] steps leads from [c] to [d]. *)
Inductive reach {A B} : nat -> config A B -> config A B -> Prop :=
| reach_0 c : reach 0 c c
| reach_A n c c' d : stepA c = Some c' -> reach n c' d -> reach (S n) c d
| reach_B n c c' d : stepB c = Some c' -> reach n c' d -> reach (S n) c d.

(** Nobody can move. *)
Definition stuck {A B} (c : config A B) : Prop := stepA c = None /\ stepB c = None.

Definition start_cfg {A B} (p : proc A) (q : proc B) : config A B := mkCfg p q [] [].
Definition done_cfg {A B} (a : A) (b : B) : config A B := mkCfg (Ret a) (Ret b) [] [].

(** The parties, started on empty streams, can both return with nothing left on
    the streams. *)
Definition runs {A B} (p : proc A) (q : proc B) (a : A) (b : B) : Prop :=
  exists n, reach n (start_cfg p q) (done_cfg a b).

(** * Schedule independence *)
Lemma step_diamond {A B} (c c1 c2 : config A B) :
  stepA c = Some c1 -> stepB c = Some c2 -> exists d, stepB c1 = Some d /\ stepA c2 = Some d.
Proof.
  unfold stepA, stepB. destruct c as [p q ab ba]. cbn [pA pB qAB qBA].
  destruct p as [a|[|x bs] k|[|n] k|]; cbn [pstep]; try discriminate;
  destruct q as [b|[|y bs'] k'|[|n'] k'|]; cbn [pstep]; try discriminate;
  try (destruct ba as [|z ba]; try discriminate); try (destruct ab as [|w ab]; try discriminate);
  intros [= <-] [= <-]; cbn [pstep pA pB qAB qBA app]; eexists; split; try reflexivity.
Qed.

Lemma diamond_AB {A B} n (c c1 d : config A B) : stuck d ->
  reach n c d -> (stepA c = Some c1 \/ stepB c = Some c1) -> exists n', n = S n' /\ reach n' c1 d.
Proof.
  intros [SA SB] R. revert c1. induction R as [c|n c c' d S1 R IH|n c c' d S1 R IH]; intros c1 H.
  - destruct H; congruence.
  - destruct H as [H|H].
    + rewrite S1 in H. injection H as <-. exists n. auto.
    + destruct (step_diamond _ _ _ S1 H) as (e & E1 & E2).
      destruct (IH SA SB e (or_intror E1)) as (n' & -> & R'). exists (S n'). split; [auto|].
      eapply reach_A; eauto.
  - destruct H as [H|H].
    + destruct (step_diamond _ _ _ H S1) as (e & E1 & E2).
      destruct (IH SA SB e (or_introl E2)) as (n' & -> & R'). exists (S n'). split; [auto|].
      eapply reach_B; eauto.
    + rewrite S1 in H. injection H as <-. exists n. auto.
Qed.

(** If some interleaving ends in a stuck configuration [d] after [n] steps, every
    interleaving of [m] steps has [m <= n] and can be continued to [d] in exactly
    the remaining number of steps. *)
Theorem schedule_independent {A B} n (c d : config A B) : stuck d -> reach n c d ->
  forall m e, reach m c e -> (m <= n)%nat /\ reach (n - m) e d.
Proof.
  intros SD R m e Re. revert n R. induction Re as [c|m c c' e S1 Re IH|m c c' e S1 Re IH]; intros n R.
  - rewrite Nat.sub_0_r. split; [lia|auto].
  - destruct (diamond_AB n c c' d SD R (or_introl S1)) as (n' & -> & R').
    destruct (IH n' R') as [L R2]. split; [lia|auto].
  - destruct (diamond_AB n c c' d SD R (or_intror S1)) as (n' & -> & R').
    destruct (IH n' R') as [L R2]. split; [lia|auto].
Qed.

Lemma reach_stuck {A B} m (d e : config A B) : stuck d -> reach m d e -> m = O /\ e = d.
Proof. intros [SA SB] R. destruct R; [auto|congruence|congruence]. Qed.

Corollary outcome_unique {A B} n m (c d e : config A B) : stuck d -> stuck e ->
  reach n c d -> reach m c e -> n = m /\ e = d.
Proof.
  intros SD SE R1 R2. destruct (schedule_independent n c d SD R1 m e R2) as [L R].
  destruct (reach_stuck _ _ _ SE R) as [H <-]. split; [lia|auto].
Qed.

Lemma done_stuck {A B} (a : A) (b : B) : stuck (done_cfg a b).
Proof. split; reflexivity. Qed.

(** * Composition *)
Lemma reach_trans {A B} n m (c d e : config A B) : reach n c d -> reach m d e -> reach (n + m) c e.
Proof.
  intros R S. induction R; cbn [Nat.add]; auto.
  - eapply reach_A; eauto.
  - eapply reach_B; eauto.
Qed.

Definition cbind {A B A' B'} (c : config A B) (f : A -> proc A') (g : B -> proc B') : config A' B' :=
  mkCfg (bind (pA c) f) (bind (pB c) g) (qAB c) (qBA c).

Lemma pstep_bind {A A'} (p : proc A) (f : A -> proc A') i o p' i' o' :
  pstep p i o = Some (p', i', o') -> pstep (bind p f) i o = Some (bind p' f, i', o').
Proof.
  destruct p as [a|[|x bs] k|[|n] k|]; cbn [pstep bind]; try discriminate.
  - intros [= <- <- <-]. auto.
  - intros [= <- <- <-]. auto.
  - intros [= <- <- <-]. auto.
  - destruct i as [|x i]; [discriminate|]. intros [= <- <- <-]. auto.
Qed.

Lemma reach_bind {A B A' B'} n (c d : config A B) (f : A -> proc A') (g : B -> proc B') :
  reach n c d -> reach n (cbind c f g) (cbind d f g).
Proof.
  intros R. induction R as [c|n c c' d S1 R IH|n c c' d S1 R IH]; [constructor| |].
  - eapply reach_A; [|exact IH]. unfold stepA in *. cbn [cbind pA pB qAB qBA].
    destruct (pstep (pA c) (qBA c) (qAB c)) as [[[p i] o]|] eqn:E; [|discriminate]. injection S1 as <-.
    rewrite (pstep_bind _ f _ _ _ _ _ E). reflexivity.
  - eapply reach_B; [|exact IH]. unfold stepB in *. cbn [cbind pA pB qAB qBA].
    destruct (pstep (pB c) (qAB c) (qBA c)) as [[[p i] o]|] eqn:E; [|discriminate]. injection S1 as <-.
    rewrite (pstep_bind _ g _ _ _ _ _ E). reflexivity.
Qed.

Theorem runs_bind {A B A' B'} (p : proc A) (q : proc B) a b (f : A -> proc A') (g : B -> proc B') a' b' :
  runs p q a b -> runs (f a) (g b) a' b' -> runs (bind p f) (bind q g) a' b'.
Proof.
  intros [n R] [m S]. exists (n + m)%nat. eapply reach_trans; [|exact S].
  apply (reach_bind n _ _ f g R).
Qed.

(** Only one party goes on. *)
Lemma reach_bind_B {A B B'} n (c d : config A B) (g : B -> proc B') : reach n c d ->
  reach n (mkCfg (pA c) (bind (pB c) g) (qAB c) (qBA c)) (mkCfg (pA d) (bind (pB d) g) (qAB d) (qBA d)).
Proof.
  intros R. induction R as [c|n c c' d S1 R IH|n c c' d S1 R IH]; [constructor| |].
  - eapply reach_A; [|exact IH]. unfold stepA in *. cbn [pA pB qAB qBA].
    destruct (pstep (pA c) (qBA c) (qAB c)) as [[[p i] o]|] eqn:E; [|discriminate]. injection S1 as <-. reflexivity.
  - eapply reach_B; [|exact IH]. unfold stepB in *. cbn [pA pB qAB qBA].
    destruct (pstep (pB c) (qAB c) (qBA c)) as [[[p i] o]|] eqn:E; [|discriminate]. injection S1 as <-.
    rewrite (pstep_bind _ g _ _ _ _ _ E). reflexivity.
Qed.
Lemma reach_bind_A {A B A'} n (c d : config A B) (f : A -> proc A') : reach n c d ->
  reach n (mkCfg (bind (pA c) f) (pB c) (qAB c) (qBA c)) (mkCfg (bind (pA d) f) (pB d) (qAB d) (qBA d)).
Proof.
  intros R. induction R as [c|n c c' d S1 R IH|n c c' d S1 R IH]; [constructor| |].
  - eapply reach_A; [|exact IH]. unfold stepA in *. cbn [pA pB qAB qBA].
    destruct (pstep (pA c) (qBA c) (qAB c)) as [[[p i] o]|] eqn:E; [|discriminate]. injection S1 as <-.
    rewrite (pstep_bind _ f _ _ _ _ _ E). reflexivity.
  - eapply reach_B; [|exact IH]. unfold stepB in *. cbn [pA pB qAB qBA].
    destruct (pstep (pB c) (qAB c) (qBA c)) as [[[p i] o]|] eqn:E; [|discriminate]. injection S1 as <-. reflexivity.
Qed.
Lemma runs_map_B {A B B'} (p : proc A) (q : proc B) a b (g : B -> proc B') b' :
  runs p q a b -> g b = Ret b' -> runs p (bind q g) a b'.
Proof.
  intros [n R] E. exists n. pose proof (reach_bind_B n _ _ g R) as Q. cbn in Q. rewrite E in Q. exact Q.
Qed.
Lemma runs_map_A {A B A'} (p : proc A) (q : proc B) a b (f : A -> proc A') a' :
  runs p q a b -> f a = Ret a' -> runs (bind p f) q a' b.
Proof.
  intros [n R] E. exists n. pose proof (reach_bind_A n _ _ f R) as Q. cbn in Q. rewrite E in Q. exact Q.
Qed.

(** The parties' names do not matter. *)
Lemma reach_swap {A B} n (c d : config A B) : reach n c d ->
  reach n (mkCfg (pB c) (pA c) (qBA c) (qAB c)) (mkCfg (pB d) (pA d) (qBA d) (qAB d)).
Proof.
  intros R. induction R as [c|n c c' d S1 R IH|n c c' d S1 R IH]; [constructor| |].
  - eapply reach_B; [|exact IH]. unfold stepA, stepB in *. cbn [pA pB qAB qBA].
    destruct (pstep (pA c) (qBA c) (qAB c)) as [[[p i] o]|]; [|discriminate]. injection S1 as <-. reflexivity.
  - eapply reach_A; [|exact IH]. unfold stepA, stepB in *. cbn [pA pB qAB qBA].
    destruct (pstep (pB c) (qAB c) (qBA c)) as [[[p i] o]|]; [|discriminate]. injection S1 as <-. reflexivity.
Qed.
Lemma runs_swap {A B} (p : proc A) (q : proc B) a b : runs p q a b -> runs q p b a.
Proof. intros [n R]. exists n. exact (reach_swap n _ _ R). Qed.

Lemma runs_ret {A B} (a : A) (b : B) : runs (Ret a) (Ret b) a b.
Proof. exists O. constructor. Qed.

(** One party alone *)
Lemma runs_bind_l {A B A'} (p : proc A) (q : proc B) a (f : A -> proc A') a' b' :
  runs p (Ret tt) a tt -> runs (f a) q a' b' -> runs (bind p f) q a' b'.
Proof. intros R S. exact (runs_bind p (Ret tt) a tt f (fun _ => q) a' b' R S). Qed.
Lemma runs_bind_r {A B B'} (p : proc A) (q : proc B) b (g : B -> proc B') a' b' :
  runs (Ret tt) q tt b -> runs p (g b) a' b' -> runs p (bind q g) a' b'.
Proof. intros R S. exact (runs_bind (Ret tt) q tt b (fun _ => p) g a' b' R S). Qed.

(** A message from A to B. *)
Lemma send_steps {A B} bs (k : proc A) (q : proc B) ab ba :
  reach (S (length bs)) (mkCfg (Send bs k) q ab ba) (mkCfg k q (ab ++ bs) ba).
Proof.
  revert ab. induction bs as [|x bs IH]; intros ab.
  - rewrite app_nil_r. eapply reach_A; [reflexivity|constructor].
  - eapply reach_A; [reflexivity|]. cbn [pstep pA pB qAB qBA].
    replace (ab ++ x :: bs) with ((ab ++ [x]) ++ bs) by (rewrite <- app_assoc; reflexivity). apply IH.
Qed.
Lemma recv_steps {A B} bs (k : bytes -> proc B) (p : proc A) ab ba :
  reach (S (length bs)) (mkCfg p (Recv (length bs) k) (bs ++ ab) ba) (mkCfg p (k bs) ab ba).
Proof.
  revert k. induction bs as [|x bs IH]; intros k.
  - eapply reach_B; [reflexivity|constructor].
  - cbn [app length]. eapply reach_B; [reflexivity|]. cbn [pstep pA pB qAB qBA]. apply (IH (fun l => k (x :: l))).
Qed.
Lemma send_steps_B {A B} bs (k : proc B) (p : proc A) ab ba :
  reach (S (length bs)) (mkCfg p (Send bs k) ab ba) (mkCfg p k ab (ba ++ bs)).
Proof.
  revert ba. induction bs as [|x bs IH]; intros ba.
  - rewrite app_nil_r. eapply reach_B; [reflexivity|constructor].
  - eapply reach_B; [reflexivity|]. cbn [pstep pA pB qAB qBA].
    replace (ba ++ x :: bs) with ((ba ++ [x]) ++ bs) by (rewrite <- app_assoc; reflexivity). apply IH.
Qed.
Lemma recv_steps_A {A B} bs (k : bytes -> proc A) (q : proc B) ab ba :
  reach (S (length bs)) (mkCfg (Recv (length bs) k) q ab (bs ++ ba)) (mkCfg (k bs) q ab ba).
Proof.
  revert k. induction bs as [|x bs IH]; intros k.
  - eapply reach_A; [reflexivity|constructor].
  - cbn [app length]. eapply reach_A; [reflexivity|]. cbn [pstep pA pB qAB qBA]. apply (IH (fun l => k (x :: l))).
Qed.

Lemma runs_msg {A B} bs n (p : proc A) (k : bytes -> proc B) a b :
  n = length bs -> runs p (k bs) a b -> runs (Send bs p) (Recv n k) a b.
Proof.
  intros -> [m R]. eexists. eapply reach_trans; [apply send_steps|].
  cbn [app]. pose proof (recv_steps bs k p [] []) as Q. rewrite app_nil_r in Q.
  eapply reach_trans; [exact Q|exact R].
Qed.
Lemma runs_msg_back {A B} bs n (k : bytes -> proc A) (q : proc B) a b :
  n = length bs -> runs (k bs) q a b -> runs (Recv n k) (Send bs q) a b.
Proof.
  intros -> [m R]. eexists. eapply reach_trans; [apply send_steps_B|].
  cbn [app]. pose proof (recv_steps_A bs k q [] []) as Q. rewrite app_nil_r in Q.
  eapply reach_trans; [exact Q|exact R].
Qed.


(** * Loops *)
Fixpoint pfor {S} (body : nat -> S -> proc S) (i k : nat) (s : S) : proc S :=
  match k with
  | O => Ret s
  | Datatypes.S k' => bind (body i s) (fun s' => pfor body (Datatypes.S i) k' s')
  end.

(** Two loops in step. *)
Lemma runs_pfor {S T} (f : nat -> S -> proc S) (g : nat -> T -> proc T)
    (Inv : nat -> S -> T -> Prop) k : forall i s t,
  Inv i s t ->
  (forall j s t, (i <= j < i + k)%nat -> Inv j s t -> exists s' t', runs (f j s) (g j t) s' t' /\ Inv (Datatypes.S j) s' t') ->
  exists s' t', runs (pfor f i k s) (pfor g i k t) s' t' /\ Inv (i + k)%nat s' t'.
Proof.
  induction k as [|k IH]; intros i s t HI HS.
  - exists s, t. rewrite Nat.add_0_r. split; [apply runs_ret|auto].
  - destruct (HS i s t ltac:(lia) HI) as (s1 & t1 & R1 & I1).
    destruct (IH (Datatypes.S i) s1 t1 I1) as (s2 & t2 & R2 & I2).
    { intros j s0 t0 Hj. apply HS. lia. }
    exists s2, t2. rewrite Nat.add_succ_r, <- Nat.add_succ_l. split; [|auto].
    cbn [pfor]. eapply runs_bind; eauto.
Qed.
