(** stable_match_seq finds the best stable matching. *)
From Coq Require Import ZArith Arith List Bool Lia.
From Verif Require Import RtlBase RtlLib RtlArith RtlSeq RtlSelect RtlMatch RtlMatchOk.
Import ListNotations.
Open Scope nat_scope.
Local Opaque val.

(** The lists that the inputs stand for *)
Definition prefs (n : nat) (v : vec) (x : nat) : list nat := map (matrix (clog2 n) n v x) (seq 0 n).
(** The list of matches that the output stands for *)
Definition shown (n : nat) (o : vec) (r : nat) : nat := Z.to_nat (val (clog2 n) (part (clog2 n * r) o)).

Fixpoint total (n : nat) (f : nat -> nat) : nat := match n with O => 0 | S k => total k f + f k end.
Lemma total_ext n f g : (forall k, k < n -> f k = g k) -> total n f = total n g.
Proof. induction n as [|n IH]; intros H; cbn [total]; [reflexivity|]. rewrite IH, H by (intros; try apply H; lia). reflexivity. Qed.
Lemma total_dec n f g i : i < n -> 0 < f i -> (forall k, k < n -> g k = if k =? i then f k - 1 else f k) -> total n g + 1 = total n f.
Proof.
  induction n as [|n IH]; intros Hi Hf H; [lia|]. cbn [total]. rewrite (H n) by lia. destruct (Nat.eqb_spec n i) as [->|D].
  - rewrite (total_ext i g f); [lia|]. intros k Hk. rewrite H by lia. destruct (Nat.eqb_spec k i); [lia|reflexivity].
  - rewrite <- (IH ltac:(lia) Hf) by (intros k Hk; apply H; lia). lia.
Qed.
Lemma total_pos n f i : i < n -> 0 < f i -> 0 < total n f.
Proof. induction n as [|n IH]; intros Hi Hf; [lia|]. cbn [total]. destruct (Nat.eq_dec i n) as [->|]; [lia|]. specialize (IH ltac:(lia) Hf). lia. Qed.
Lemma total_const n f c : (forall k, k < n -> f k = c) -> total n f = n * c.
Proof. induction n as [|n IH]; intros H; cbn [total]; [lia|]. rewrite IH, H by (intros; try apply H; lia). lia. Qed.

Lemma NoDup_map_in {A B} (f : A -> B) l : (forall x y, In x l -> In y l -> f x = f y -> x = y) -> NoDup l -> NoDup (map f l).
Proof.
  induction l as [|a l IH]; intros H ND; cbn [map]; [constructor|]. inversion ND as [|? ? NI ND']; subst. constructor.
  - intros I. apply in_map_iff in I. destruct I as (b & E & I). assert (b = a) by (apply H; [right; exact I|left; reflexivity|exact E]). subst b. contradiction.
  - apply IH; [|exact ND']. intros x y I1 I2. apply H; right; assumption.
Qed.
Section Run.
  Variables (n : nat) (rPref sPref : vec).
  Hypothesis N2 : 2 <= n.
  Hypothesis N32 : (Z.of_nat n < 2 ^ 32)%Z.
  Let sf := matrix (clog2 n) n sPref.
  Let rf := matrix (clog2 n) n rPref.
  Let sp := prefs n sPref.
  Let rp := prefs n rPref.
  Hypothesis CO : complete n sp rp.
  Lemma s_nodup x : x < n -> NoDup (map (sf x) (seq 0 n)). Proof. intros H. apply (CO x H). Qed.
  Lemma r_nodup x : x < n -> NoDup (map (rf x) (seq 0 n)). Proof. intros H. apply (CO x H). Qed.
  Lemma s_range x y : x < n -> In y (map (sf x) (seq 0 n)) -> y < n. Proof. intros H. apply (CO x H). Qed.
  Lemma r_range x y : x < n -> In y (map (rf x) (seq 0 n)) -> y < n. Proof. intros H. apply (CO x H). Qed.
  Lemma sf_range x i : x < n -> i < n -> sf x i < n.
  Proof. intros Hx Hi. apply (s_range x _ Hx). apply in_map, in_seq. lia. Qed.
  Lemma sf_inj x i j : x < n -> i < n -> j < n -> sf x i = sf x j -> i = j.
  Proof. intros Hx. apply list_inj, s_nodup, Hx. Qed.
  Lemma sp_place x i : x < n -> i < n -> place (sp x) (sf x i) = i.
  Proof. intros Hx. apply place_f, s_nodup, Hx. Qed.
  Lemma sp_all x r : x < n -> r < n -> exists i, i < n /\ sf x i = r /\ place (sp x) r = i.
  Proof.
    intros Hx Hr. pose proof (list_all (sf x) n r (s_nodup x Hx) (fun y => s_range x y Hx) Hr) as L. exists (place (sp x) r). split; [exact L|]. split; [|reflexivity]. apply place_at. exact L.
  Qed.
  Lemma rp_inj r x y : r < n -> x < n -> y < n -> place (rp r) x = place (rp r) y -> x = y.
  Proof.
    intros Hr Hx Hy E. pose proof (list_all (rf r) n x (r_nodup r Hr) (fun y => r_range r y Hr) Hx) as L. pose proof (place_at (rf r) n x L) as A. pose proof (list_all (rf r) n y (r_nodup r Hr) (fun y => r_range r y Hr) Hy) as L'. pose proof (place_at (rf r) n y L') as A'.
    change (map (rf r) (seq 0 n)) with (rp r) in *. congruence.
  Qed.

  Record inv (q : sm) : Prop := {
    i_cur : s_ q < n;
    i_pc : forall x, x < n -> pc q x <= n;
    i_run : forall x, x < n -> sIsRunning q x = true -> x = s_ q;
    i_held : forall r, r < n -> rIsMatch q r = true -> matchListMatrix q r < n /\ sIsMatch q (matchListMatrix q r) = true /\ pc q (matchListMatrix q r) < n /\ sf (matchListMatrix q r) (n - pc q (matchListMatrix q r) - 1) = r;
    i_has : forall x, x < n -> sIsMatch q x = true -> exists r, r < n /\ rIsMatch q r = true /\ matchListMatrix q r = x;
    i_past : forall x i, x < n -> i < n - pc q x -> rIsMatch q (sf x i) = true /\ place (rp (sf x i)) (matchListMatrix q (sf x i)) <= place (rp (sf x i)) x;
    i_best : forall x i m, x < n -> i < n - pc q x -> matchListMatrix q (sf x i) <> x -> stable n sp rp m -> m (sf x i) <> x
  }.
  Lemma init_inv q : stable_match_init n n n q -> inv q.
  Proof.
    intros (I1 & I2 & I3 & I4). split.
    - lia.
    - intros x Hx. rewrite (proj1 (I4 x Hx)). lia.
    - intros x Hx H. rewrite I2 in H by exact Hx. apply Nat.eqb_eq in H. lia.
    - intros r Hr H. rewrite (proj1 (I3 r Hr)) in H. discriminate H.
    - intros x Hx H. rewrite (proj2 (I4 x Hx)) in H. discriminate H.
    - intros x i Hx Hi. rewrite (proj1 (I4 x Hx)) in Hi. lia.
    - intros x i m Hx Hi. rewrite (proj1 (I4 x Hx)) in Hi. lia.
  Qed.

  (** One cycle, as far as the matching is concerned *)
  Inductive move (q q' : sm) : Prop :=
  | Idle : pc q (s_ q) = 0 \/ sIsMatch q (s_ q) = true -> (forall x, x < n -> pc q' x = pc q x) -> (forall x, x < n -> sIsMatch q' x = sIsMatch q x) ->
      (forall r, r < n -> rIsMatch q' r = rIsMatch q r) -> (forall r, r < n -> matchListMatrix q' r = matchListMatrix q r) -> move q q'
  | Moved (r : nat) (old : bool) (won : bool) : 0 < pc q (s_ q) -> sIsMatch q (s_ q) = false -> r = sf (s_ q) (n - pc q (s_ q)) -> old = rIsMatch q r ->
      won = (negb old || (place (rp r) (s_ q) <? place (rp r) (matchListMatrix q r))) ->
      (forall x, x < n -> pc q' x = if x =? s_ q then pc q x - 1 else pc q x) ->
      (forall x, x < n -> sIsMatch q' x = if won && old && (x =? matchListMatrix q r) then false else if won && (x =? s_ q) then true else sIsMatch q x) ->
      (forall k, k < n -> rIsMatch q' k = if k =? r then true else rIsMatch q k) ->
      (forall k, k < n -> matchListMatrix q' k = if won && (k =? r) then s_ q else matchListMatrix q k) -> move q q'.
  Lemma step_move q o q' : s_ q < n -> (forall x, x < n -> pc q x <= n) -> stable_match_step n n n n (rPref, sPref) q o q' -> move q q'.
  Proof.
    intros HS HP (r & s1 & rm & row & eo & R1 & R2 & R3 & R4 & EN & P & M & RM & ML & _).
    destruct (negb (pc q (s_ q) =? 0) && negb (sIsMatch q (s_ q))) eqn:PR.
    - apply andb_prop in PR. destruct PR as (P1 & P2). apply negb_true_iff in P1, P2. apply Nat.eqb_neq in P1. specialize (HP _ HS). specialize (R1 HS ltac:(lia)). change (matrix (clog2 n) n sPref (s_ q) (n - pc q (s_ q))) with (sf (s_ q) (n - pc q (s_ q))) in R1.
      assert (HR : r < n) by (rewrite R1; apply sf_range; lia). specialize (R2 HR). specialize (R3 HR). specialize (R4 HR).
      assert (B : better n row s1 (s_ q) = (place (rp r) (s_ q) <? place (rp r) s1)).
      { rewrite better_ok. replace (map row (seq 0 n)) with (rp r); [reflexivity|]. unfold rp, prefs. apply map_ext_in. intros j Hj. apply in_seq in Hj. symmetry. apply R4. lia. }
      cbn [andb] in *. rewrite B in *. subst s1. apply (Moved q q' r rm (negb rm || (place (rp r) (s_ q) <? place (rp r) (matchListMatrix q r)))); auto; try lia.
      + intros x Hx. rewrite M by exact Hx. destruct rm; cbn [negb orb andb]; [|reflexivity]. rewrite andb_true_r. reflexivity.
      + intros k Hk. rewrite RM by exact Hk. destruct (Nat.eqb_spec k r) as [->|D]; [|rewrite andb_false_r; reflexivity]. rewrite andb_true_r. destruct rm; cbn [negb]; congruence.
      + intros k Hk. rewrite ML by exact Hk. destruct rm; cbn [negb orb andb]; reflexivity.
    - cbn [andb orb] in *. apply Idle; auto. apply andb_false_iff in PR. destruct PR as [PR|PR]; apply negb_false_iff in PR; [left; apply Nat.eqb_eq, PR|right; exact PR].
  Qed.
  Lemma step_cur q o q' : inv q -> stable_match_step n n n n (rPref, sPref) q o q' ->
    s_ q' < n /\ (forall x, x < n -> sIsRunning q' x = true -> x = s_ q') /\
    ((exists x, x < n /\ x <> s_ q /\ 0 < pc q x /\ sIsMatch q x = false) -> 0 < pc q (s_ q') /\ sIsMatch q (s_ q') = false).
  Proof.
    intros IV (r & s1 & rm & row & eo & R1 & R2 & R3 & R4 & EN & P & M & RM & ML & RN & NX & _).
    assert (OUT : forall i, n <= i -> canPropose n q i = false) by (intros i Hi; unfold canPropose; destruct (Nat.ltb_spec i n); [lia|reflexivity]).
    pose proof (next_ok n (canPropose n q) eo N2 N32 OUT EN) as NE. cbv zeta in NE. set (e := Z.to_nat (val (clog2 n) eo)) in *. destruct NE as [(E & C)|(E & C)]; rewrite E in *; cbn [andb] in *.
    - assert (He : e < n) by (destruct (Nat.lt_ge_cases e n) as [D|D]; [exact D|rewrite OUT in C by exact D; discriminate C]).
      rewrite NX. split; [exact He|]. split.
      + intros x Hx. rewrite RN by exact Hx. destruct (Nat.eqb_spec x e) as [->|D]; [reflexivity|]. destruct (Nat.eqb_spec x (s_ q)) as [->|D2]; [discriminate|]. intros RT. apply (i_run q IV x Hx) in RT. contradiction.
      + intros _. unfold canPropose in C. apply andb_prop in C. destruct C as (_ & C). apply andb_prop in C. destruct C as (C & _). apply andb_prop in C. destruct C as (C1 & C2). apply negb_true_iff in C1, C2. apply Nat.eqb_neq in C1. split; [lia|exact C2].
    - rewrite NX. split; [apply (i_cur q IV)|]. split.
      + intros x Hx. rewrite RN by exact Hx. destruct (Nat.eqb_spec x (s_ q)) as [->|D2]; [discriminate|]. apply (i_run q IV x Hx).
      + intros (x & Hx & NS & PX & MX). specialize (C x). unfold canPropose in C. destruct (Nat.ltb_spec x n); [|lia]. destruct (Nat.eqb_spec (pc q x) 0); [lia|]. rewrite MX in C. cbn [andb negb] in C. apply negb_false_iff in C. apply (i_run q IV x Hx) in C. contradiction.
  Qed.
  Lemma move_inv q q' : inv q -> move q q' -> s_ q' < n -> (forall x, x < n -> sIsRunning q' x = true -> x = s_ q') -> inv q'.
  Proof.
    intros IV MV HS HR. destruct MV as [_ P M RM ML | r old won PP MX RE OE WE P M RM ML].
    - assert (SF : forall x i, x < n -> i < n - pc q x -> sf x i < n) by (intros; apply sf_range; lia). split; [exact HS| |exact HR| | | |].
      + intros x Hx. rewrite P by exact Hx. apply (i_pc q IV x Hx).
      + intros r Hr H. rewrite RM in H by exact Hr. destruct (i_held q IV r Hr H) as (A & B & C & D). rewrite !ML, M, !P by (rewrite ?ML; assumption). auto.
      + intros x Hx H. rewrite M in H by exact Hx. destruct (i_has q IV x Hx H) as (r & A & B & C). exists r. rewrite RM, ML by exact A. auto.
      + intros x i Hx Hi. rewrite P in Hi by exact Hx. rewrite RM, ML by (apply SF; assumption). apply (i_past q IV x i Hx Hi).
      + intros x i m Hx Hi. rewrite P in Hi by exact Hx. rewrite ML by (apply SF; assumption). apply (i_best q IV x i m Hx Hi).
    - set (x0 := s_ q) in *. pose proof (i_cur q IV) as H0. fold x0 in H0. pose proof (i_pc q IV x0 H0) as HP. set (j := n - pc q x0) in *.
      assert (Hj : j < n) by (unfold j; lia). assert (Hr : r < n) by (rewrite RE; apply sf_range; assumption).
      assert (NOX : forall k, k < n -> rIsMatch q k = true -> matchListMatrix q k <> x0) by (intros k Hk H E; destruct (i_held q IV k Hk H) as (_ & B & _); rewrite E, MX in B; discriminate B).
      (* which pairs (x, i) are old *)
      assert (OLD : forall x i, x < n -> i < n - pc q' x -> (x = x0 /\ i = j) \/ (i < n - pc q x /\ ~ (x = x0 /\ i = j))).
      { intros x i Hx Hi. rewrite P in Hi by exact Hx. destruct (Nat.eqb_spec x x0) as [->|D]; [|right; split; [exact Hi|tauto]]. destruct (Nat.eq_dec i j) as [->|D]; [left; auto|]. right. unfold j in *. split; [lia|tauto]. }
      assert (RT : rIsMatch q' r = true) by (rewrite RM, Nat.eqb_refl by exact Hr; reflexivity).
      split; [exact HS| |exact HR| | | |].
      + intros x Hx. rewrite P by exact Hx. pose proof (i_pc q IV x Hx). destruct (x =? x0); lia.
      + intros k Hk H. rewrite ML by exact Hk. destruct (Nat.eqb_spec k r) as [->|D].
        * rewrite andb_true_r. destruct won eqn:W.
          -- assert (Q : (if true && old && (x0 =? matchListMatrix q r) then false else if true && (x0 =? x0) then true else sIsMatch q x0) = true).
             { rewrite Nat.eqb_refl. cbn [andb]. destruct old eqn:O; cbn [andb]; [|reflexivity]. destruct (Nat.eqb_spec x0 (matchListMatrix q r)) as [E|E]; [|reflexivity]. exfalso. apply (NOX r Hr); congruence. }
             rewrite M, Q, P, Nat.eqb_refl by exact H0. split; [exact H0|]. split; [reflexivity|]. split; [lia|]. rewrite RE. f_equal. unfold j. lia.
          -- assert (O : old = true) by (destruct old; [reflexivity|discriminate WE]). rewrite O in OE. destruct (i_held q IV r Hr (eq_sym OE)) as (A & B & C & D). pose proof (NOX r Hr (eq_sym OE)) as NE. rewrite M, P by exact A. cbn [andb].
             destruct (Nat.eqb_spec (matchListMatrix q r) x0); [contradiction|]. auto.
        * rewrite RM in H by exact Hk. destruct (Nat.eqb_spec k r) as [|_]; [contradiction|]. rewrite andb_false_r. destruct (i_held q IV k Hk H) as (A & B & C & E). pose proof (NOX k Hk H) as NE. rewrite M, P by exact A.
          destruct (Nat.eqb_spec (matchListMatrix q k) x0); [contradiction|]. rewrite andb_false_r. destruct (Nat.eqb_spec (matchListMatrix q k) (matchListMatrix q r)) as [Q|Q]; [|rewrite andb_false_r; auto].
          destruct (won && old) eqn:WO; cbn [andb]; [|auto]. apply andb_prop in WO. destruct WO as (_ & O). rewrite O in OE. destruct (i_held q IV r Hr (eq_sym OE)) as (_ & _ & _ & E'). rewrite <- Q in E'. congruence.
      + intros x Hx H. rewrite M in H by exact Hx. destruct (won && old && (x =? matchListMatrix q r)) eqn:L; [discriminate H|]. destruct (Nat.eq_dec x x0) as [->|D].
        * rewrite Nat.eqb_refl, andb_true_r in H. destruct won eqn:W; [|congruence]. exists r. split; [exact Hr|]. split; [exact RT|]. rewrite ML, Nat.eqb_refl by exact Hr. reflexivity.
        * destruct (Nat.eqb_spec x x0) as [|_]; [contradiction|]. rewrite andb_false_r in H. destruct (i_has q IV x Hx H) as (k & A & B & C). exists k. split; [exact A|]. rewrite RM, ML by exact A. destruct (Nat.eqb_spec k r) as [->|D2].
          -- split; [reflexivity|]. rewrite andb_true_r. destruct won eqn:W; [|exact C]. assert (O : old = true) by congruence. rewrite O, C, Nat.eqb_refl in L. discriminate L.
          -- rewrite andb_false_r. auto.
      + intros x i Hx Hi. destruct (OLD x i Hx Hi) as [(-> & ->)|(Hi' & NN)].
        * rewrite <- RE. split; [exact RT|]. rewrite ML, Nat.eqb_refl, andb_true_r by exact Hr. destruct won eqn:W; [lia|]. symmetry in WE. apply orb_false_iff in WE. destruct WE as (_ & WE). apply Nat.ltb_ge in WE. exact WE.
        * destruct (i_past q IV x i Hx Hi') as (A & B). assert (Hk : sf x i < n) by (apply sf_range; lia). rewrite RM, ML by exact Hk. destruct (Nat.eqb_spec (sf x i) r) as [E|E]; [|rewrite andb_false_r; auto]. split; [reflexivity|]. rewrite andb_true_r. destruct won eqn:W; [|exact B].
          rewrite E in *. assert (O : old = true) by congruence. rewrite O in WE. cbn [negb orb] in WE. symmetry in WE. apply Nat.ltb_lt in WE. lia.
      + intros x i m Hx Hi NE ST. destruct (OLD x i Hx Hi) as [(-> & ->)|(Hi' & NN)].
        * rewrite <- RE in *. rewrite ML, Nat.eqb_refl, andb_true_r in NE by exact Hr. destruct won eqn:W; [congruence|]. assert (O : old = true) by (destruct old; [reflexivity|discriminate WE]). rewrite O in *. cbn [negb orb] in WE. symmetry in WE. apply Nat.ltb_ge in WE.
          destruct (i_held q IV r Hr (eq_sym OE)) as (A & B & C & D). set (y := matchListMatrix q r) in *. intros MR. destruct ST as ((MA & MI & MS) & BL). destruct (MS y A) as (r2 & R2 & MY). assert (DR : r2 <> r) by (intros ->; congruence).
          destruct (sp_all y r2 A R2) as (i2 & I2 & S2 & P2). assert (PR : place (sp y) r = n - pc q y - 1) by (rewrite <- D at 1; apply sp_place; [exact A|lia]).
          assert (LT : n - pc q y - 1 < i2).
          { destruct (Nat.lt_trichotomy i2 (n - pc q y - 1)) as [Q|[Q|Q]]; [|subst i2; congruence|exact Q]. exfalso. apply (i_best q IV y i2 m A); [lia| |split; [split; [exact MA|split; assumption]|exact BL]|rewrite S2; exact MY].
            rewrite S2. intros QE. destruct (i_past q IV y i2 A ltac:(lia)) as (RR & _). rewrite S2 in RR. destruct (i_held q IV r2 R2 RR) as (_ & _ & _ & D'). rewrite QE in D'. congruence. }
          apply (BL r2 r R2 Hr). rewrite MY, MR, P2, PR. split; [exact LT|]. assert (place (rp r) y <> place (rp r) x0) by (intros Q; apply rp_inj in Q; congruence). lia.
        * assert (Hk : sf x i < n) by (apply sf_range; lia). rewrite ML in NE by exact Hk. destruct (Nat.eqb_spec (sf x i) r) as [E|E]; [|rewrite andb_false_r in NE; apply (i_best q IV x i m Hx Hi' NE ST)]. rewrite andb_true_r in NE. destruct won eqn:W; [|apply (i_best q IV x i m Hx Hi' NE ST)].
          destruct (Nat.eq_dec (matchListMatrix q (sf x i)) x) as [Q|Q]; [|apply (i_best q IV x i m Hx Hi' Q ST)].
          destruct (i_past q IV x i Hx Hi') as (RR & _). rewrite E in *. assert (O : old = true) by congruence. rewrite O, Q in WE. cbn [negb orb] in WE. symmetry in WE. apply Nat.ltb_lt in WE. intros MR.
          pose proof ST as ((MA & MI & MS) & BL). destruct (MS x0 H0) as (r2 & R2 & MY). assert (DR : r2 <> r) by (intros ->; congruence).
          destruct (sp_all x0 r2 H0 R2) as (i2 & I2 & S2 & P2). assert (PR : place (sp x0) r = j) by (rewrite RE at 1; apply sp_place; assumption).
          assert (LT : j < i2).
          { destruct (Nat.lt_trichotomy i2 j) as [Q'|[Q'|Q']]; [|subst i2; congruence|exact Q']. exfalso. apply (i_best q IV x0 i2 m H0); [exact Q'| |exact ST|rewrite S2; exact MY].
            destruct (i_past q IV x0 i2 H0 Q') as (RR2 & _). apply NOX; [rewrite S2; exact R2|exact RR2]. }
          apply (BL r2 r R2 Hr). rewrite MY, MR, P2, PR. split; [exact LT|exact WE].
  Qed.
  Lemma step_inv q o q' : inv q -> stable_match_step n n n n (rPref, sPref) q o q' -> inv q'.
  Proof.
    intros IV ST. destruct (step_cur q o q' IV ST) as (A & B & _). apply (move_inv q q' IV); [|exact A|exact B]. apply (step_move q o q'); [apply (i_cur q IV)|apply (i_pc q IV)|exact ST].
  Qed.

  (** * Nobody proposes for ever *)
  Definition active (q : sm) : Prop := exists x, x < n /\ 0 < pc q x /\ sIsMatch q x = false.
  Lemma move_total q q' : inv q -> move q q' -> total n (pc q') <= total n (pc q) /\ (0 < pc q (s_ q) -> sIsMatch q (s_ q) = false -> total n (pc q') < total n (pc q)).
  Proof.
    intros IV [D P _ _ _|r old won PP MX _ _ _ P _ _ _].
    - rewrite (total_ext n (pc q') (pc q) P). split; [lia|]. intros A B. destruct D as [D|D]; [lia|congruence].
    - pose proof (total_dec n (pc q) (pc q') (s_ q) (i_cur q IV) PP P). lia.
  Qed.
  Lemma progress q o q1 o1 q2 : inv q -> active q -> stable_match_step n n n n (rPref, sPref) q o q1 -> stable_match_step n n n n (rPref, sPref) q1 o1 q2 -> total n (pc q2) < total n (pc q).
  Proof.
    intros IV (x & Hx & PX & MX) S1 S2. pose proof (step_inv q o q1 IV S1) as IV1. assert (M1 : move q q1) by (apply (step_move q o q1); [apply (i_cur q IV)|apply (i_pc q IV)|exact S1]). assert (M2 : move q1 q2) by (apply (step_move q1 o1 q2); [apply (i_cur q1 IV1)|apply (i_pc q1 IV1)|exact S2]).
    destruct (move_total q q1 IV M1) as (T1 & T1'). destruct (move_total q1 q2 IV1 M2) as (T2 & T2'). destruct M1 as [D P M RM ML|r old won PP MX' _ _ _ _ _ _ _].
    - destruct (step_cur q o q1 IV S1) as (A & _ & C). assert (NS : x <> s_ q) by (intros ->; destruct D as [D|D]; [lia|congruence]). destruct C as (C1 & C2); [exists x; auto|]. rewrite <- P in C1 by exact A. rewrite <- M in C2 by exact A. specialize (T2' C1 C2). lia.
    - specialize (T1' PP MX'). lia.
  Qed.
  Lemma rest q o q' : inv q -> ~ active q -> stable_match_step n n n n (rPref, sPref) q o q' -> ~ active q'.
  Proof.
    intros IV NA ST. assert (MV : move q q') by (apply (step_move q o q'); [apply (i_cur q IV)|apply (i_pc q IV)|exact ST]). destruct MV as [_ P M _ _|r old won PP MX _ _ _ _ _ _ _].
    - intros (x & Hx & PX & MX). apply NA. exists x. rewrite P in PX by exact Hx. rewrite M in MX by exact Hx. auto.
    - exfalso. apply NA. exists (s_ q). split; [apply (i_cur q IV)|auto].
  Qed.
  Lemma active_dec q : active q \/ ~ active q.
  Proof.
    destruct (some n (fun x => negb (pc q x =? 0) && negb (sIsMatch q x))) eqn:E.
    - left. apply some_ok in E. destruct E as (x & Hx & E). apply andb_prop in E. destruct E as (E1 & E2). apply negb_true_iff in E1, E2. apply Nat.eqb_neq in E1. exists x. split; [exact Hx|]. split; [lia|exact E2].
    - right. intros (x & Hx & PX & MX). rewrite (proj2 (some_ok n _)) in E; [discriminate E|]. exists x. split; [exact Hx|]. rewrite MX. destruct (Nat.eqb_spec (pc q x) 0); [lia|reflexivity].
  Qed.
  (** When nobody can propose, everybody is matched. *)
  Lemma all_matched q : inv q -> ~ active q -> forall x, x < n -> sIsMatch q x = true.
  Proof.
    intros IV NA x Hx. destruct (sIsMatch q x) eqn:MX; [reflexivity|]. exfalso. assert (P0 : pc q x = 0) by (destruct (pc q x) eqn:E; [reflexivity|exfalso; apply NA; exists x; split; [exact Hx|]; split; [lia|exact MX]]).
    assert (H : forall r, r < n -> rIsMatch q r = true). { intros r Hr. destruct (sp_all x r Hx Hr) as (i & Hi & E & _). destruct (i_past q IV x i Hx ltac:(lia)) as (A & _). rewrite E in A. exact A. }
    assert (ND : NoDup (map (matchListMatrix q) (seq 0 n))).
    { apply NoDup_map_in; [|apply seq_NoDup]. intros r r' I1 I2 E. apply in_seq in I1, I2. destruct (i_held q IV r ltac:(lia) (H r ltac:(lia))) as (_ & _ & _ & D1). destruct (i_held q IV r' ltac:(lia) (H r' ltac:(lia))) as (_ & _ & _ & D2). congruence. }
    assert (IN : incl (x :: map (matchListMatrix q) (seq 0 n)) (seq 0 n)).
    { intros y [<-|Y]; [apply in_seq; lia|]. apply in_map_iff in Y. destruct Y as (r & E & I). apply in_seq in I. destruct (i_held q IV r ltac:(lia) (H r ltac:(lia))) as (A & _). apply in_seq. lia. }
    assert (ND2 : NoDup (x :: map (matchListMatrix q) (seq 0 n))).
    { constructor; [|exact ND]. intros Y. apply in_map_iff in Y. destruct Y as (r & E & I). apply in_seq in I. destruct (i_held q IV r ltac:(lia) (H r ltac:(lia))) as (_ & B & _). rewrite E in B. congruence. }
    pose proof (NoDup_incl_length ND2 IN) as L. cbn [length] in L. rewrite map_length, !seq_length in L. lia.
  Qed.
  Lemma all_held q : inv q -> ~ active q -> forall r, r < n -> rIsMatch q r = true.
  Proof.
    intros IV NA r Hr. destruct (rIsMatch q r) eqn:MR; [reflexivity|]. exfalso. set (L := filter (rIsMatch q) (seq 0 n)).
    assert (I1 : incl (seq 0 n) (map (matchListMatrix q) L)). { intros x Hx. apply in_seq in Hx. destruct (i_has q IV x ltac:(lia) (all_matched q IV NA x ltac:(lia))) as (k & A & B & C). apply in_map_iff. exists k. split; [exact C|]. apply filter_In. split; [apply in_seq; lia|exact B]. }
    pose proof (NoDup_incl_length (seq_NoDup n 0) I1) as L1. rewrite map_length, seq_length in L1.
    assert (ND : NoDup (r :: L)) by (constructor; [intros H; apply filter_In in H; destruct H; congruence|apply NoDup_filter, seq_NoDup]).
    assert (I2 : incl (r :: L) (seq 0 n)) by (intros y [<-|Y]; [apply in_seq; lia|apply filter_In in Y; apply Y]).
    pose proof (NoDup_incl_length ND I2) as L2. cbn [length] in L2. rewrite seq_length in L2. lia.
  Qed.
  Lemma final q : inv q -> ~ active q -> stable n sp rp (matchListMatrix q) /\ best n sp rp (matchListMatrix q).
  Proof.
    intros IV NA. pose proof (all_held q IV NA) as AH.
    assert (INJ : forall r r', r < n -> r' < n -> matchListMatrix q r = matchListMatrix q r' -> r = r').
    { intros r r' H1 H2 E. destruct (i_held q IV r H1 (AH r H1)) as (_ & _ & _ & D1). destruct (i_held q IV r' H2 (AH r' H2)) as (_ & _ & _ & D2). congruence. }
    assert (LAST : forall r r', r < n -> r' < n -> place (sp (matchListMatrix q r)) r' < place (sp (matchListMatrix q r)) r ->
      exists i, i < n - pc q (matchListMatrix q r) /\ sf (matchListMatrix q r) i = r').
    { intros r r' H1 H2 LT. destruct (i_held q IV r H1 (AH r H1)) as (A & _ & C & D). destruct (sp_all _ r' A H2) as (i & Hi & E & P). exists i. split; [|exact E].
      assert (PR : place (sp (matchListMatrix q r)) r = n - pc q (matchListMatrix q r) - 1) by (rewrite <- D at 2; apply sp_place; [exact A|lia]). lia. }
    split; [split; [split; [|split]|]|].
    - intros r Hr. apply (i_held q IV r Hr (AH r Hr)).
    - exact INJ.
    - intros x Hx. destruct (i_has q IV x Hx (all_matched q IV NA x Hx)) as (r & A & _ & B). exists r. auto.
    - intros r r' H1 H2 (LT & B). destruct (LAST r r' H1 H2 LT) as (i & Hi & E). destruct (i_held q IV r H1 (AH r H1)) as (A & _). destruct (i_past q IV _ i A Hi) as (_ & P). rewrite E in P. lia.
    - intros m r r' ST H1 H2 E. destruct (Nat.le_gt_cases (place (sp (matchListMatrix q r)) r) (place (sp (matchListMatrix q r)) r')) as [C|C]; [exact C|]. exfalso. destruct (LAST r r' H1 H2 C) as (i & Hi & SE). destruct (i_held q IV r H1 (AH r H1)) as (A & _).
      apply (i_best q IV _ i m A Hi); [|exact ST|rewrite SE; congruence]. rewrite SE. intros Q. apply INJ in Q; [|assumption..]. rewrite Q in C. lia.
  Qed.
  Lemma stable_ext m m' : (forall r, r < n -> m r = m' r) -> stable n sp rp m -> stable n sp rp m'.
  Proof.
    intros E ((A & B & C) & D). split; [split; [|split]|].
    - intros r Hr. rewrite <- E by exact Hr. apply A, Hr.
    - intros r r' H1 H2. rewrite <- !E by assumption. apply B; assumption.
    - intros x Hx. destruct (C x Hx) as (r & Hr & H). exists r. rewrite <- E by exact Hr. auto.
    - intros r r' H1 H2. rewrite <- !E by assumption. apply D; assumption.
  Qed.
  Lemma runs c o q : (forall t, t < c -> stable_match_step n n n n (rPref, sPref) (q t) (o t) (q (S t))) -> stable_match_init n n n (q 0) -> forall t, t <= c -> inv (q t).
  Proof. intros ST I. induction t as [|t IH]; intros Ht; [apply init_inv, I|]. apply (step_inv (q t) (o t)); [apply IH; lia|apply ST; lia]. Qed.
  Lemma settles c o q : (forall t, t < c -> stable_match_step n n n n (rPref, sPref) (q t) (o t) (q (S t))) -> stable_match_init n n n (q 0) -> forall t, 2 * n * n <= t <= c -> ~ active (q t).
  Proof.
    intros ST I. pose proof (runs c o q ST I) as RI.
    assert (H : forall k, 2 * k <= c -> ~ active (q (2 * k)) \/ total n (pc (q (2 * k))) + k <= n * n).
    { induction k as [|k IH]; intros Hk.
      - right. destruct I as (_ & _ & _ & I4). change (2 * 0) with 0. rewrite (total_const n (pc (q 0)) n) by (intros x Hx; apply (I4 x Hx)). lia.
      - replace (2 * S k) with (S (S (2 * k))) by lia. pose proof (ST (2 * k) ltac:(lia)) as S1. pose proof (ST (S (2 * k)) ltac:(lia)) as S2. destruct (active_dec (q (2 * k))) as [A|A].
        + right. destruct (IH ltac:(lia)) as [N|T]; [contradiction|]. pose proof (progress _ _ _ _ _ (RI (2 * k) ltac:(lia)) A S1 S2). lia.
        + left. apply (rest _ _ _ (RI (S (2 * k)) ltac:(lia))) with (2 := S2). apply (rest _ _ _ (RI (2 * k) ltac:(lia)) A S1). }
    intros t (H1 & H2). replace t with (2 * n * n + (t - 2 * n * n)) in * by lia. induction (t - 2 * n * n) as [|d IH].
    - rewrite Nat.add_0_r in *. replace (2 * n * n) with (2 * (n * n)) in * by lia. destruct (H (n * n) H2) as [N|T]; [exact N|]. intros (x & Hx & PX & _). pose proof (total_pos n (pc (q (2 * (n * n)))) x Hx PX). lia.
    - rewrite Nat.add_succ_r in *. apply (rest _ _ _ (RI (2 * n * n + d) ltac:(lia))) with (2 := ST (2 * n * n + d) ltac:(lia)). apply IH; lia.
  Qed.
  Theorem stable_match_ok c i o t : stable_match_seq n n n n c i o -> (forall u, u < c -> i u = (rPref, sPref)) -> 2 * n * n <= t < c ->
    stable n sp rp (shown n (fst (fst (o t)))) /\ best n sp rp (shown n (fst (fst (o t)))) /\ forall x, x < n -> snd (o t) x = true.
  Proof.
    intros (q & I & ST) HI Ht. assert (ST' : forall u, u < c -> stable_match_step n n n n (rPref, sPref) (q u) (o u) (q (S u))) by (intros u Hu; rewrite <- (HI u Hu); apply ST, Hu).
    pose proof (runs c o q ST' I t ltac:(lia)) as IV. pose proof (settles c o q ST' I t ltac:(lia)) as NA. destruct (final (q t) IV NA) as (SB & BE).
    destruct (ST' t ltac:(lia)) as (r & s1 & rm & row & eo & _ & _ & _ & _ & _ & _ & _ & _ & _ & _ & _ & OM & _ & OS).
    assert (E : forall k, k < n -> matchListMatrix (q t) k = shown n (fst (fst (o t))) k).
    { intros k Hk. unfold shown. rewrite (val_ext _ _ _ (OM k Hk)), val_of_val. destruct SB as ((A & _) & _). specialize (A k Hk). destruct (clog2_ok n N2 N32) as (_ & L). rewrite Z.mod_small by (rewrite <- pow2_nat; lia). symmetry. apply Nat2Z.id. }
    split; [apply (stable_ext _ _ E SB)|]. split.
    - intros m r0 r' SM H1 H2 Q. rewrite <- E in * by assumption. apply (BE m r0 r' SM H1 H2 Q).
    - intros x Hx. rewrite OS by exact Hx. apply (all_matched (q t) IV NA x Hx).
  Qed.
End Run.
(** After 2 n n cycles the output is the stable matching best for the suitors. *)
Theorem stable_matching n rPref sPref c i o t : 2 <= n -> (Z.of_nat n < 2 ^ 32)%Z -> complete n (prefs n sPref) (prefs n rPref) ->
  stable_match_seq n n n n c i o -> (forall u, u < c -> i u = (rPref, sPref)) -> 2 * n * n <= t < c ->
  let m := shown n (fst (fst (o t))) in
  stable n (prefs n sPref) (prefs n rPref) m /\ best n (prefs n sPref) (prefs n rPref) m /\ forall x, x < n -> snd (o t) x = true.
Proof. intros N2 N32 CO. exact (stable_match_ok n rPref sPref N2 N32 CO c i o t). Qed.

(** finish is never set, whatever the sizes and inputs. *)
Theorem never_finished Kr Ks S_ R c i o t : stable_match_seq Kr Ks S_ R c i o -> t < c -> snd (fst (o t)) = false.
Proof.
  intros (q & _ & ST) Ht. specialize (ST t Ht). destruct (i t) as (rPref, sPref). destruct ST as (r & s1 & rm & row & eo & _ & _ & _ & _ & _ & _ & _ & _ & _ & _ & _ & _ & F & _). rewrite F. clear. generalize (seq 0 S_). intros l.
  induction l as [|k l IH]; [reflexivity|exact IH].
Qed.
Theorem stable_match_total Kr Ks S_ R c i : 2 <= S_ -> (Z.of_nat S_ < 2 ^ 32)%Z -> exists o, stable_match_seq Kr Ks S_ R c i o.
Proof.
  intros H1 H2. apply clocked_total.
  - exists (Sm (fun _ => Ks) (fun _ => false) (fun k => k =? 0) (fun _ => false) 0 (fun _ => 0)). repeat split; reflexivity.
  - intros (rPref, sPref) q. set (s := s_ q). set (r := matrix (clog2 R) Ks sPref s (Ks - pc q s)).
    assert (EN : exists eo, encoder_ (clog2 S_) (encoderInput (canPropose S_ q)) eo).
    { destruct (clog2_ok S_ H1 H2) as (L & _). generalize (encoderInput (canPropose S_ q)). induction (clog2 S_) as [|l IH]; [lia|]. intros inp. destruct l as [|l]; [exists (bit (inp 1)); intros b _; reflexivity|].
      destruct (IH ltac:(lia) inp) as (o0 & E0). destruct (IH ltac:(lia) (part (2 ^ S l) inp)) as (o1 & E1). eexists. exists o0, o1. split; [exact E0|]. split; [exact E1|]. intros b _. reflexivity. }
    destruct EN as (eo & EN). destruct (joined_exists (clog2 S_) R (fun k => of_val (Z.of_nat (matchListMatrix q k)))) as (ml & ML).
    eexists (ml, _, _), (Sm _ _ _ _ _ _), r, (matchListMatrix q r), (rIsMatch q r), (matrix (clog2 S_) Kr rPref r), eo. cbv zeta. split; [intros; reflexivity|]. split; [intros; reflexivity|]. split; [intros; reflexivity|]. split; [intros; reflexivity|]. split; [exact EN|].
    split; [intros k _; reflexivity|]. split; [intros k _; reflexivity|]. split; [intros k _; reflexivity|]. split; [intros k _; reflexivity|]. split; [intros k _; reflexivity|]. split; [reflexivity|].
    split; [intros k Hk; cbn [fst]; rewrite Nat.mul_comm; apply ML, Hk|]. split; [reflexivity|intros k _; reflexivity].
Qed.
(** Both suitors want reviewer 0, who prefers suitor 1. *)
Example match_case : exists o, stable_match_seq 2 2 2 2 9 (fun _ => (of_val 0x9, of_val 0xa)) o /\ complete 2 (prefs 2 (of_val 0xa)) (prefs 2 (of_val 0x9)) /\ shown 2 (fst (fst (o 8))) 0 = 1 /\ shown 2 (fst (fst (o 8))) 1 = 0.
Proof.
  destruct (stable_match_total 2 2 2 2 9 (fun _ => (of_val 0x9, of_val 0xa)) ltac:(lia) ltac:(reflexivity)) as (o & C). exists o. split; [exact C|].
  assert (S0 : prefs 2 (of_val 0xa) 0 = [0; 1]) by (vm_compute; reflexivity). assert (S1 : prefs 2 (of_val 0xa) 1 = [0; 1]) by (vm_compute; reflexivity). assert (R0 : prefs 2 (of_val 0x9) 0 = [1; 0]) by (vm_compute; reflexivity). assert (R1 : prefs 2 (of_val 0x9) 1 = [0; 1]) by (vm_compute; reflexivity).
  assert (CO : complete 2 (prefs 2 (of_val 0xa)) (prefs 2 (of_val 0x9))).
  { intros [|[|x]] Hx; [| |lia]; rewrite ?S0, ?S1, ?R0, ?R1; (split; (split; [reflexivity|]; split; [repeat constructor; cbn; intuition lia|]; intros y; cbn; intuition lia)). }
  split; [exact CO|]. destruct (stable_match_ok 2 (of_val 0x9) (of_val 0xa) ltac:(lia) ltac:(reflexivity) CO 9 _ o 8 C ltac:(reflexivity) ltac:(lia)) as (((A & B & _) & D) & _ & _).
  set (m := shown 2 (fst (fst (o 8)))) in *. pose proof (A 0 ltac:(lia)) as A0. pose proof (A 1 ltac:(lia)) as A1. pose proof (B 0 1 ltac:(lia) ltac:(lia)) as B01. pose proof (D 1 0 ltac:(lia) ltac:(lia)) as D10.
  destruct (m 0) as [|[|?]] eqn:M0; destruct (m 1) as [|[|?]] eqn:M1; try lia. exfalso. apply D10. rewrite S1, R0. cbn. lia.
Qed.
