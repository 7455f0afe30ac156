(** Proofs about stable_match_seq. *)
From Coq Require Import ZArith Arith List Bool Lia.
From Verif Require Import RtlBase RtlLib RtlArith RtlSeq RtlSelect RtlMatch.
Import ListNotations.
Open Scope nat_scope.
Local Opaque val.

(** * Lists of preferences *)
Lemma place_spec f b n x : let p := place (map f (seq b n)) x in p <= n /\ (p < n -> f (b + p) = x) /\ (forall i, i < n -> f (b + i) = x -> p <= i).
Proof.
  revert b. induction n as [|n IH]; intros b; cbn [seq map place].
  - split; [lia|]. split; [lia|]. intros i Hi. lia.
  - destruct (Nat.eqb_spec (f b) x) as [E|E].
    + split; [lia|]. split; [intros _; rewrite Nat.add_0_r; exact E|]. intros. lia.
    + destruct (IH (S b)) as (P1 & P2 & P3). split; [lia|]. split.
      * intros H. rewrite Nat.add_succ_r. apply P2. lia.
      * intros [|i] Hi Fi; [rewrite Nat.add_0_r in Fi; contradiction|]. specialize (P3 i ltac:(lia)). replace (S b + i) with (b + S i) in P3 by lia. specialize (P3 Fi). lia.
Qed.
Section Lists.
  Variables (f : nat -> nat) (n : nat).
  Let l := map f (seq 0 n).
  Lemma place_le x : place l x <= n. Proof. exact (proj1 (place_spec f 0 n x)). Qed.
  Lemma place_at x : place l x < n -> f (place l x) = x. Proof. exact (proj1 (proj2 (place_spec f 0 n x))). Qed.
  Lemma place_first x i : i < n -> f i = x -> place l x <= i. Proof. exact (proj2 (proj2 (place_spec f 0 n x)) i). Qed.
  Lemma list_inj : NoDup l -> forall i j, i < n -> j < n -> f i = f j -> i = j.
  Proof.
    intros ND i j Hi Hj E. unfold l in ND. apply (proj1 (NoDup_nth _ 0) ND); [rewrite map_length, seq_length; assumption..|].
    rewrite (nth_indep _ 0 (f 0)), (nth_indep (map f (seq 0 n)) 0 (f 0)) by (rewrite map_length, seq_length; assumption). rewrite !map_nth, !seq_nth by assumption. exact E.
  Qed.
  Lemma place_f i : NoDup l -> i < n -> place l (f i) = i.
  Proof. intros ND Hi. pose proof (place_first (f i) i Hi eq_refl) as LE. apply (list_inj ND); [lia|exact Hi|]. apply place_at. lia. Qed.
  (** A list of n different numbers below n has all of them. *)
  Lemma list_all x : NoDup l -> (forall y, In y l -> y < n) -> x < n -> place l x < n.
  Proof.
    intros ND B Hx. assert (I : incl (seq 0 n) l). { apply NoDup_length_incl; [exact ND|unfold l; rewrite map_length, !seq_length; lia|]. intros y Hy. apply in_seq. specialize (B y Hy). lia. }
    assert (IN : In x l) by (apply I, in_seq; lia). unfold l in IN. apply in_map_iff in IN. destruct IN as (i & E & Hi). apply in_seq in Hi. pose proof (place_first x i ltac:(lia) E). lia.
  Qed.
End Lists.

(** * better *)
Lemma s_or_ok row s1 s2 i : s_or row s1 s2 i = true <-> exists j, j <= i /\ s_xor row s1 s2 j = true.
Proof.
  induction i as [|i IH]; cbn [s_or].
  - split; [intros H; exists 0; split; [lia|exact H]|]. intros (j & Hj & X). replace j with 0 in X by lia. exact X.
  - rewrite orb_true_iff, IH. split.
    + intros [X|(j & Hj & X)]; [exists (S i)|exists j]; (split; [lia|exact X]).
    + intros (j & Hj & X). destruct (Nat.eq_dec j (S i)) as [->|]; [left; exact X|right; exists j; split; [lia|exact X]].
Qed.
Lemma s_and_ok row s1 s2 i : s_and row s1 s2 i = true <-> s_xor row s1 s2 i = true /\ forall j, j < i -> s_xor row s1 s2 j = false.
Proof.
  destruct i as [|i]; unfold s_and.
  - cbn [s_or]. split; [intros H; split; [exact H|lia]|intros (H & _); exact H].
  - rewrite andb_true_iff, negb_true_iff. split.
    + intros (N & X). split; [exact X|]. intros j Hj. destruct (s_xor row s1 s2 j) eqn:E; [|reflexivity]. rewrite (proj2 (s_or_ok row s1 s2 i)) in N; [discriminate N|]. exists j. split; [lia|exact E].
    + intros (X & N). split; [|exact X]. destruct (s_or row s1 s2 i) eqn:E; [|reflexivity]. apply s_or_ok in E. destruct E as (j & Hj & E). rewrite N in E by lia. discriminate E.
Qed.
Lemma better_ok Kr row s1 s2 : better Kr row s1 s2 = (place (map row (seq 0 Kr)) s2 <? place (map row (seq 0 Kr)) s1).
Proof.
  unfold better. apply eq_true_iff_eq. rewrite some_ok, Nat.ltb_lt. set (p1 := place _ s1). set (p2 := place _ s2).
  pose proof (place_le row Kr s1) as L1. pose proof (place_le row Kr s2) as L2. fold p1 in L1. fold p2 in L2.
  assert (X : forall j, s_xor row s1 s2 j = true <-> (s1 = row j /\ s2 <> row j) \/ (s1 <> row j /\ s2 = row j)).
  { intros j. unfold s_xor. destruct (Nat.eqb_spec s1 (row j)), (Nat.eqb_spec s2 (row j)); cbn; intuition congruence. }
  split.
  - intros (i & Hi & H). apply andb_prop in H. destruct H as (A & E). apply Nat.eqb_eq in E. apply s_and_ok in A. destruct A as (A & N). apply X in A. assert (D : s1 <> row i) by intuition.
    pose proof (place_first row Kr s2 i Hi (eq_sym E)) as Q. fold p2 in Q. destruct (Nat.le_gt_cases p1 i) as [C|C]; [|lia]. exfalso.
    destruct (Nat.eq_dec p1 i) as [PE|NE]. { apply D. rewrite <- PE. symmetry. apply place_at. fold p1. lia. }
    assert (R1 : row p1 = s1) by (apply place_at; fold p1; lia). assert (F : s_xor row s1 s2 p1 = true) by (apply X; left; split; [congruence|]; intros E2; pose proof (place_first row Kr s2 p1 ltac:(lia) (eq_sym E2)) as Q2; fold p2 in Q2; assert (row p1 = row i) by congruence; congruence). rewrite N in F by lia. discriminate F.
  - intros C. exists p2. split; [lia|]. assert (R2 : row p2 = s2) by (apply place_at; fold p2; lia). apply andb_true_iff. split; [|apply Nat.eqb_eq; congruence]. apply s_and_ok.
    assert (NO : forall j, j < p1 -> j < Kr -> s1 <> row j) by (intros j Hj Hk E; pose proof (place_first row Kr s1 j Hk (eq_sym E)) as Q; fold p1 in Q; lia).
    split. { apply X. right. split; [apply NO; lia|congruence]. }
    intros j Hj. destruct (s_xor row s1 s2 j) eqn:E; [|reflexivity]. apply X in E. destruct E as [(E & _)|(_ & E)]; [exfalso; apply (NO j); [lia|lia|exact E]|]. pose proof (place_first row Kr s2 j ltac:(lia) (eq_sym E)) as Q. fold p2 in Q. lia.
Qed.

(** * The choice of the next suitor *)
Lemma encoderOR1_ok can i : encoderOR1 can i = true <-> exists j, j <= i /\ can j = true.
Proof.
  induction i as [|i IH]; cbn [encoderOR1].
  - split; [intros H; exists 0; split; [lia|exact H]|]. intros (j & Hj & X). replace j with 0 in X by lia. exact X.
  - rewrite orb_true_iff, IH. split.
    + intros [(j & Hj & X)|X]; [exists j|exists (S i)]; (split; [lia|exact X]).
    + intros (j & Hj & X). destruct (Nat.eq_dec j (S i)) as [->|]; [right; exact X|left; exists j; split; [lia|exact X]].
Qed.
Lemma encoderInput_ok can i : encoderInput can i = true <-> can i = true /\ forall j, j < i -> can j = false.
Proof.
  destruct i as [|i]; unfold encoderInput.
  - cbn [encoderOR1]. split; [intros H; split; [exact H|lia]|intros (H & _); exact H].
  - rewrite andb_true_iff, negb_true_iff. split.
    + intros (N & X). split; [exact X|]. intros j Hj. destruct (can j) eqn:E; [|reflexivity]. rewrite (proj2 (encoderOR1_ok can i)) in N; [discriminate N|]. exists j. split; [lia|exact E].
    + intros (X & N). split; [|exact X]. destruct (encoderOR1 can i) eqn:E; [|reflexivity]. apply encoderOR1_ok in E. destruct E as (j & Hj & E). rewrite N in E by lia. discriminate E.
Qed.
Lemma clog2_ok S_ : 2 <= S_ -> (Z.of_nat S_ < 2 ^ 32)%Z -> 0 < clog2 S_ /\ S_ <= 2 ^ clog2 S_.
Proof. intros H1 H2. unfold clog2. destruct (log2_ok (S_ - 1)) as (A & B); [lia|lia|]. split; [exact A|]. lia. Qed.
(** the encoder gives the first that can propose, and a number that cannot if there is none *)
Lemma next_ok S_ can o : 2 <= S_ -> (Z.of_nat S_ < 2 ^ 32)%Z -> (forall i, S_ <= i -> can i = false) -> encoder_ (clog2 S_) (encoderInput can) o ->
  let e := Z.to_nat (val (clog2 S_) o) in (encoderInput can e = true /\ can e = true) \/ (encoderInput can e = false /\ forall i, can i = false).
Proof.
  intros H1 H2 HC EN e. destruct (clog2_ok S_ H1 H2) as (LP & LS). destruct (some S_ can) eqn:SO.
  - left. assert (M : exists i, can i = true /\ forall j, j < i -> can j = false).
    { apply some_ok in SO. destruct SO as (i & Hi & Ci). clear EN e. revert Ci. induction i as [i IH] using lt_wf_ind. intros Ci. destruct (some i can) eqn:SI.
      - apply some_ok in SI. destruct SI as (j & Hj & Cj). apply (IH j Hj); [lia|exact Cj].
      - exists i. split; [exact Ci|]. intros j Hj. destruct (can j) eqn:E; [|reflexivity]. rewrite (proj2 (some_ok i can)) in SI; [discriminate SI|]. exists j. split; assumption. }
    destruct M as (i & Ci & Ni). assert (Hi : i < S_) by (destruct (Nat.lt_ge_cases i S_) as [D|D]; [exact D|rewrite HC in Ci by exact D; discriminate Ci]).
    assert (ONE : forall j, encoderInput can j = true <-> j = i).
    { intros j. rewrite encoderInput_ok. split; [intros (Cj & Nj)|intros ->; auto]. destruct (Nat.lt_trichotomy i j) as [D|[D|D]]; [rewrite Nj in Ci by exact D; discriminate Ci|congruence|rewrite Ni in Cj by exact D; discriminate Cj]. }
    assert (V : val (clog2 S_) o = Z.of_nat i).
    { rewrite <- (Z.mod_small (Z.of_nat i) (2 ^ Z.of_nat (clog2 S_))) by (rewrite <- pow2_nat; lia). rewrite <- val_of_val. apply val_ext. intros b Hb. unfold of_val. rewrite <- testbit_nat.
      apply eq_true_iff_eq. rewrite (encoder__ok _ _ _ EN b Hb). split; [intros (j & Hj & V & T); apply ONE in V; subst j; exact T|]. intros T. exists i. split; [lia|]. split; [apply ONE; reflexivity|exact T]. }
    unfold e. rewrite V, Nat2Z.id. split; [apply ONE; reflexivity|exact Ci].
  - right. assert (N : forall i, can i = false). { intros i. destruct (can i) eqn:E; [|reflexivity]. destruct (Nat.lt_ge_cases i S_) as [D|D]; [|rewrite HC in E by exact D; discriminate E]. rewrite (proj2 (some_ok S_ can)) in SO; [discriminate SO|]. exists i. split; assumption. }
    split; [|exact N]. destruct (encoderInput can e) eqn:E; [|reflexivity]. apply encoderInput_ok in E. rewrite N in E. destruct E. discriminate.
Qed.
