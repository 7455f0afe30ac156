(** Numbers as byte strings, and one party's exchange of bytes seen alone. *)
From Coq Require Import ZArith NArith List Bool Lia.
From Verif Require Import Base Proc.
Import ListNotations.
Open Scope N_scope.

(** * Little-endian encodings (the in-memory form of integers and blocks on the
    machines the code targets: x86, util/common.h, crypto/block.h) *)
Fixpoint le (n : nat) (x : N) : bytes :=
  match n with O => [] | S k => x mod 256 :: le k (x / 256) end.
Fixpoint of_le (l : bytes) : N :=
  match l with [] => 0 | b :: t => b + 256 * of_le t end.

Definition is_byte (b : N) : Prop := b < 256.

Lemma le_length n x : length (le n x) = n.
Proof. revert x; induction n; intros x; cbn; auto. Qed.
Lemma le_bytes n x : Forall is_byte (le n x).
Proof. revert x; induction n; intros x; cbn; constructor; auto. apply N.mod_lt; lia. Qed.
Lemma of_le_le n : forall x, of_le (le n x) = x mod 256 ^ N.of_nat n.
Proof.
  induction n as [|n IH]; intros x.
  - cbn. rewrite N.mod_1_r. auto.
  - cbn [le of_le]. rewrite IH. rewrite Nat2N.inj_succ, N.pow_succ_r'.
    rewrite N.mod_mul_r by (try apply N.pow_nonzero; lia). auto.
Qed.
Lemma of_le_small n x : x < 256 ^ N.of_nat n -> of_le (le n x) = x.
Proof. intros H. rewrite of_le_le. apply N.mod_small; auto. Qed.
Lemma of_le_bound l : Forall is_byte l -> of_le l < 256 ^ N.of_nat (length l).
Proof.
  induction 1 as [|b l H HF IH]; [cbn; lia|]. cbn [of_le length]. unfold is_byte in H.
  rewrite Nat2N.inj_succ, N.pow_succ_r'. lia.
Qed.
Lemma le_of_le l : Forall is_byte l -> le (length l) (of_le l) = l.
Proof.
  induction 1 as [|b l H HF IH]; [auto|]. cbn [of_le length le]. unfold is_byte in H.
  rewrite N.mul_comm, N.mod_add, N.div_add, (N.div_small b), N.mod_small by lia.
  rewrite N.add_0_l, IH. auto.
Qed.
Lemma le_inj n x y : x < 256 ^ N.of_nat n -> y < 256 ^ N.of_nat n -> le n x = le n y -> x = y.
Proof. intros H1 H2 E. rewrite <- (of_le_small n x H1), <- (of_le_small n y H2), E. auto. Qed.

(** * What one party does with the bytes of the other
    [does p i o a]: fed with the byte string [i], [p] consumes all of it, sends
    [o] and returns [a]. *)
Inductive does {A} : proc A -> bytes -> bytes -> A -> Prop :=
| does_ret a : does (Ret a) [] [] a
| does_send bs k i o a : does k i o a -> does (Send bs k) i (bs ++ o) a
| does_recv bs n k i o a : n = length bs -> does (k bs) i o a -> does (Recv n k) (bs ++ i) o a.

Lemma does_bind {A B} (p : proc A) (f : A -> proc B) i o a i' o' b :
  does p i o a -> does (f a) i' o' b -> does (bind p f) (i ++ i') (o ++ o') b.
Proof.
  intros H K. induction H as [a|bs k i o a H IH|bs n k i o a E H IH].
  - exact K.
  - cbn [bind]. rewrite <- app_assoc. constructor. auto.
  - cbn [bind]. rewrite <- app_assoc. constructor; auto.
Qed.

Lemma does_reach_A {A B} (p : proc A) i o a : does p i o a ->
  forall (q : proc B) ab ba, exists n, reach n (mkCfg p q ab (i ++ ba)) (mkCfg (Ret a) q (ab ++ o) ba).
Proof.
  induction 1 as [a|bs k i o a H IH|bs n k i o a E H IH]; intros q ab ba.
  - exists O. rewrite app_nil_r. constructor.
  - destruct (IH q (ab ++ bs) ba) as [m R]. eexists. eapply reach_trans; [apply send_steps|].
    rewrite app_assoc. exact R.
  - subst n. destruct (IH q ab ba) as [m R]. eexists. rewrite <- app_assoc.
    eapply reach_trans; [apply recv_steps_A|]. exact R.
Qed.
Lemma does_reach_B {A B} (p : proc B) i o b : does p i o b ->
  forall (q : proc A) ab ba, exists n, reach n (mkCfg q p (i ++ ab) ba) (mkCfg q (Ret b) ab (ba ++ o)).
Proof.
  induction 1 as [a|bs k i o a H IH|bs n k i o a E H IH]; intros q ab ba.
  - exists O. rewrite app_nil_r. constructor.
  - destruct (IH q ab (ba ++ bs)) as [m R]. eexists. eapply reach_trans; [apply send_steps_B|].
    rewrite app_assoc. exact R.
  - subst n. destruct (IH q ab ba) as [m R]. eexists. rewrite <- app_assoc.
    eapply reach_trans; [apply recv_steps|]. exact R.
Qed.

(** A speaks, B listens. *)
Lemma runs_AB {A B} (p : proc A) (q : proc B) s a b : does p [] s a -> does q s [] b -> runs p q a b.
Proof.
  intros HP HQ. destruct (does_reach_A p _ _ _ HP q [] []) as [n R].
  destruct (does_reach_B q _ _ _ HQ (Ret a) [] []) as [m S]. cbn [app] in *. rewrite app_nil_r in *.
  exists (n + m)%nat. eapply reach_trans; eauto.
Qed.
Lemma runs_BA {A B} (p : proc A) (q : proc B) s a b : does p s [] a -> does q [] s b -> runs p q a b.
Proof.
  intros HP HQ. destruct (does_reach_B q _ _ _ HQ p [] []) as [n R].
  destruct (does_reach_A p _ _ _ HP (Ret b) [] []) as [m S]. cbn [app] in *. rewrite app_nil_r in *.
  exists (n + m)%nat. eapply reach_trans; eauto.
Qed.
Lemma does_reach_bind_B {A B B'} (p : proc B) i o b (g : B -> proc B') : does p i o b ->
  forall (q : proc A) ab ba, exists n, reach n (mkCfg q (bind p g) (i ++ ab) ba) (mkCfg q (g b) ab (ba ++ o)).
Proof.
  induction 1 as [a|bs k i o a H IH|bs n k i o a E H IH]; intros q ab ba; cbn [bind].
  - exists O. rewrite app_nil_r. constructor.
  - destruct (IH q ab (ba ++ bs)) as [m R]. eexists. eapply reach_trans; [apply send_steps_B|].
    rewrite app_assoc. exact R.
  - subst n. destruct (IH q ab ba) as [m R]. eexists. rewrite <- app_assoc.
    eapply reach_trans; [apply (recv_steps bs (fun l => bind (k l) g))|]. exact R.
Qed.
(** B speaks, A answers, B listens. *)
Lemma runs_BAB {A B C} (p : proc A) (q1 : proc C) (q2 : C -> proc B) s t a c b :
  does q1 [] s c -> does p s t a -> does (q2 c) t [] b -> runs p (bind q1 q2) a b.
Proof.
  intros H1 H2 H3.
  destruct (does_reach_bind_B q1 _ _ _ q2 H1 p [] []) as [n1 R1]. cbn [app] in R1.
  destruct (does_reach_A p _ _ _ H2 (q2 c) [] []) as [n2 R2]. cbn [app] in R2. rewrite app_nil_r in R2.
  destruct (does_reach_B (q2 c) _ _ _ H3 (Ret a) [] []) as [n3 R3]. cbn [app] in R3. rewrite app_nil_r in R3.
  eexists. eapply reach_trans; [exact R1|]. eapply reach_trans; [exact R2|exact R3].
Qed.

(** Loops *)
Lemma does_pfor {S} (f : nat -> S -> proc S) (gi go : nat -> bytes) (gs : nat -> S) : forall k i,
  (forall j, (i <= j < i + k)%nat -> does (f j (gs j)) (gi j) (go j) (gs (Datatypes.S j))) ->
  does (pfor f i k (gs i)) (concat (map gi (seq i k))) (concat (map go (seq i k))) (gs (i + k)%nat).
Proof.
  induction k as [|k IH]; intros i H; cbn [pfor seq map concat].
  - rewrite Nat.add_0_r. constructor.
  - eapply does_bind; [apply H; lia|]. rewrite <- Nat.add_succ_comm. apply IH. intros j Hj. apply H. lia.
Qed.

Lemma does_send1 bs : does (send bs) [] bs tt.
Proof. rewrite <- (app_nil_r bs) at 2. repeat constructor. Qed.
Lemma does_recv1 n bs : n = length bs -> does (recv n) bs [] bs.
Proof. intros ->. rewrite <- (app_nil_r bs) at 2. constructor; [auto|constructor]. Qed.
