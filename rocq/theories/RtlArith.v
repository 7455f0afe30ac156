(** circuit_synthesis/syn_lib: multiplication, division, population count, shifts,
    square root. *)
From Coq Require Import ZArith List Bool Lia.
From Verif Require Import RtlBase RtlLib.
Import ListNotations.
Open Scope Z_scope.

(** * Model *)

(** MULT, syn_lib/MULT.v:3-40 *)
Definition MULT (N M : nat) (A B O : vec) : Prop :=
  exists (w AA : nat -> vec) (B_ : vec),
    veq (N + M) (w 0%nat) (if A 0%nat then B_ else rep false) /\
    veq (N + M) B_ (cat (rep false) M B) /\
    veq (N + M) O (w (N - 1)%nat) /\
    forall g, (1 <= g)%nat -> (g < N)%nat ->
      MUX (N + M) (rep false) (cat B_ g (rep false)) (A g) (AA g) /\
      exists co, ADD (N + M) (N + M) (AA g) (w (g - 1)%nat) false co (w g).
(** MULT_, syn_lib/MULT_.v:3-55 *)
Definition MULT_ (N M : nat) (A B O : vec) : Prop :=
  exists A_ A__ B_ B__ O_ O__ : vec,
    TwosComplement N A A_ /\ MUX N A A_ (A (N - 1)%nat) A__ /\
    TwosComplement M B B_ /\ MUX M B B_ (B (M - 1)%nat) B__ /\
    MULT N M A__ B__ O_ /\
    TwosComplement (N + M) O_ O__ /\ MUX (N + M) O_ O__ (xorb (A (N - 1)%nat) (B (M - 1)%nat)) O.
(** DIV, syn_lib/DIV.v:3-44 *)
Definition DIV (N M : nat) (A B O : vec) : Prop :=
  exists A_ D : nat -> vec,
    veq (N + M) (A_ N) (cat (rep false) N A) /\
    forall g, (g < N)%nat ->
      (if (0 <? g)%nat
       then ADD (N + M) (N + M) (A_ (g + 1)%nat) (cat (cat (rep true) M (vnot B)) g (rep true)) true (O g) (D g)
       else ADD (N + M) (N + M) (A_ (g + 1)%nat) (cat (rep true) M (vnot B)) true (O g) (D g)) /\
      MUX (N + M) (A_ (g + 1)%nat) (D g) (O g) (A_ g).
(** DIV_, syn_lib/DIV_.v:3-55 *)
Definition DIV_ (N M : nat) (A B O : vec) : Prop :=
  exists A_ A__ B_ B__ O_ O__ : vec,
    TwosComplement N A A_ /\ MUX N A A_ (A (N - 1)%nat) A__ /\
    TwosComplement M B B_ /\ MUX M B B_ (B (M - 1)%nat) B__ /\
    DIV N M A__ B__ O_ /\
    TwosComplement N O_ O__ /\ MUX N O_ O__ (xorb (A (N - 1)%nat) (B (M - 1)%nat)) O.

(** The function log2 of syn_lib/COUNT.v:12-20 and hamming/hamming.v:23-31; its
    argument and variable have 32 bits, so the loop ends after 32 rounds at the latest. *)
Fixpoint log2_loop (fuel temp : nat) : nat :=
  match fuel with
  | O => O
  | S fuel => if (0 <? temp)%nat then S (log2_loop fuel (temp / 2)) else O
  end.
Definition log2 (value : nat) : nat := log2_loop 32 value.
(** COUNT, syn_lib/COUNT.v:3-110, by the branches of its generate blocks (34-42 and
    45-109) *)
Inductive COUNT : nat -> vec -> vec -> Prop :=
| COUNT_g4 A S : S 0%nat = A 0%nat -> COUNT 1 A S
| COUNT_g5 A S : ADD 1 1 (part 1 A) (rep false) (A 0%nat) (S 1%nat) S -> COUNT 2 A S
| COUNT_g6 A S : ADD 1 1 (part 1 A) (part 2 A) (A 0%nat) (S 1%nat) S -> COUNT 3 A S
| COUNT_g7 N A S S1 S2 S2pad : (3 < N)%nat ->
    let K := log2 N in let K2 := log2 (N - 2 ^ (K - 1)) in
    (if (K2 =? 0)%nat then veq (K - 1) S2pad (rep false)
     else if (0 <? K - K2 - 1)%nat then veq (K - 1) S2pad (cat (rep false) K2 S2) else veq (K - 1) S2pad S2) ->
    COUNT (2 ^ (K - 1) - 1) (part (N - 2 ^ (K - 1) + 1) A) S1 ->
    ((0 < N - 2 ^ (K - 1))%nat -> COUNT (N - 2 ^ (K - 1)) (part 1 A) S2) ->
    ADD (K - 1) (K - 1) S1 S2pad (A 0%nat) (S (K - 1)%nat) S -> COUNT N A S.

(** a >> k and a << k, for vectors of width [n] *)
Definition vshr (n : nat) (a : vec) (k : nat) : vec := fun i => if (i + k <? n)%nat then a (i + k)%nat else false.
Definition vshl (a : vec) (k : nat) : vec := fun i => if (i <? k)%nat then false else a (i - k)%nat.
(** SHIFT_LEFT, syn_lib/SHIFT_LEFT.v:4-34; [LOG_N] is $clog2(N) *)
Definition SHIFT_LEFT (N LOG_N : nat) (a shift_amount o : vec) : Prop :=
  exists ai : nat -> vec, veq N (ai 0%nat) a /\
    (forall i, (i < LOG_N + 1)%nat -> veq N (ai (i + 1)%nat) (if shift_amount i then vshr N (ai i) (2 ^ i) else ai i)) /\
    veq N o (ai (LOG_N + 1)%nat).
(** SHIFT_RIGHT, syn_lib/SHIFT_RIGHT.v:4-34 *)
Definition SHIFT_RIGHT (N LOG_N : nat) (a shift_amount o : vec) : Prop :=
  exists ai : nat -> vec, veq N (ai 0%nat) a /\
    (forall i, (i < LOG_N + 1)%nat -> veq N (ai (i + 1)%nat) (if shift_amount i then vshl (ai i) (2 ^ i) else ai i)) /\
    veq N o (ai (LOG_N + 1)%nat).

(** squar_root_unit, syn_lib/square_root_comb.v:34-58 *)
Definition squar_root_unit (N : nat) (x y_in y0_in y y0 : vec) : Prop :=
  exists (t temp0 temp1 : bool) (y_min_y0 y_mid y_sqr : vec),
    MULT (N / 2) (N / 2) y_in y_in y_sqr /\
    COMP N N x y_sqr t /\
    SUB_ (N / 2) (N / 2) y_in y0_in (cat (bit temp0) (N / 2) y_min_y0) /\
    MUX (N / 2) y_min_y0 y_in t y_mid /\
    veq (N / 2) y0 (vshr (N / 2) y0_in 1) /\
    ADD_ (N / 2) (N / 2) y_mid y0 (cat (bit temp1) (N / 2) y).
(** square_root_comb, syn_lib/square_root_comb.v:3-31 *)
Definition square_root_comb (N M : nat) (A O : vec) : Prop :=
  exists Y Y0 : nat -> vec,
    veq (N / 2) (Y 0%nat) (cat (bit true) (N / 2 - 1) (rep false)) /\
    veq (N / 2) (Y0 0%nat) (cat (bit true) (N / 2 - 1) (rep false)) /\
    veq (N / 2) O (Y M) /\
    forall gv, (gv < M)%nat -> squar_root_unit N A (Y gv) (Y0 gv) (Y (gv + 1)%nat) (Y0 (gv + 1)%nat).

(** * Specification *)
(** The number of ones among the first [n] *)
Fixpoint ones (n : nat) (A : vec) : Z := match n with O => 0 | S k => ones k A + Z.b2z (A k) end.

(** * Multiplication *)
Lemma shl_val n g v : (g <= n)%nat -> val n (cat v g (rep false)) = (2 ^ Z.of_nat g * val n v) mod 2 ^ Z.of_nat n.
Proof.
  intros H. replace n with (g + (n - g))%nat at 1 by lia. rewrite val_cat, val_rep_false. rewrite (val_mod (n - g) n v) by lia.
  replace (2 ^ Z.of_nat n) with (2 ^ Z.of_nat g * 2 ^ Z.of_nat (n - g)). 2:{ rewrite <- pow2_add. f_equal. lia. }
  rewrite Z.mul_mod_distr_l; [lia|pose proof (pow2_pos (n - g)); lia|pose proof (pow2_pos g); lia].
Qed.
Lemma val_0 n : val n (fun _ => false) = 0.
Proof. apply (val_rep_false n). Qed.
Theorem MULT_ok N M A B O : (0 < N)%nat -> MULT N M A B O -> val (N + M) O = val N A * val M B.
Proof.
  intros HN (w & AA & B_ & W0 & BE & OE & G). assert (BV : val (N + M) B_ = val M B) by (rewrite (val_ext _ _ _ BE); apply val_zext; lia).
  pose proof (val_bound M B) as BB.
  assert (I : forall g, (g < N)%nat -> val (N + M) (w g) = val (S g) A * val M B).
  { induction g as [|g IH]; intros Hg.
    - rewrite (val_ext _ _ _ W0). rewrite val_1. destruct (A 0%nat); cbn [Z.b2z]; [rewrite BV|rewrite val_rep_false]; lia.
    - destruct (G (S g) ltac:(lia) Hg) as (MX & co & AD). destruct (ADD_sum _ _ _ _ _ _ _ (le_n _) AD) as [E _]. rewrite E. replace (S g - 1)%nat with g by lia. rewrite IH by lia.
      apply MUX_val in MX. rewrite MX. rewrite val_rep_false, shl_val, BV by lia. cbn [Z.b2z]. rewrite Z.add_0_r.
      pose proof (val_bound (S (S g)) A) as BA. assert (P : 2 ^ Z.of_nat (S (S g)) * 2 ^ Z.of_nat M <= 2 ^ Z.of_nat (N + M)).
      { rewrite <- pow2_add. apply Z.pow_le_mono_r; lia. }
      assert (U : 0 <= val (S (S g)) A * val M B < 2 ^ Z.of_nat (N + M)) by nia.
      change (val (S (S g)) A) with (val (S g) A + Z.b2z (A (S g)) * 2 ^ Z.of_nat (S g)) in *. pose proof (val_bound (S g) A).
      destruct (A (S g)); cbn [Z.b2z] in *.
      + rewrite (Z.mod_small (2 ^ Z.of_nat (S g) * val M B)) by nia. rewrite Z.mod_small by nia. nia.
      + rewrite Z.mod_small by nia. nia. }
  rewrite (val_ext _ _ _ OE), I by lia. replace (S (N - 1)) with N by lia. reflexivity.
Qed.
(** Wires can be given values that fit: [f k] computes the next from the last. *)
Lemma iterate {A} (x0 : A) (R : nat -> A -> A -> Prop) : (forall k x, exists y, R k x y) -> forall n, exists w : nat -> A, w 0%nat = x0 /\ forall k, (k < n)%nat -> R k (w k) (w (S k)).
Proof.
  intros T. induction n as [|n (w & W0 & W)]; [exists (fun _ => x0); split; [reflexivity|intros; lia]|].
  destruct (T n (w n)) as (y & Y). exists (fun i => if (i <=? n)%nat then w i else y). split; [exact W0|]. intros k Hk.
  destruct (Nat.leb_spec k n); [|lia]. destruct (Nat.leb_spec (S k) n); [apply W; lia|]. replace k with n by lia. exact Y.
Qed.
Lemma MUX_total N A B S : exists O, MUX N A B S O.
Proof. exists (if S then B else A). apply MUX_ok. intros i _. reflexivity. Qed.
Theorem MULT_total N M A B : exists O, MULT N M A B O.
Proof.
  set (B_ := cat (rep false) M B).
  set (AA := fun g => if A g then cat B_ g (rep false) else rep false).
  destruct (iterate (if A 0%nat then B_ else rep false) (fun g x y => exists co, ADD (N + M) (N + M) (AA (S g)) x false co y)) with (n := N) as (w & W0 & W).
  { intros k x. destruct (ADD_total (N + M) (N + M) (AA (S k)) x false) as (co & y & H). exists y, co. exact H. }
  exists (w (N - 1)%nat), w, AA, B_. split; [rewrite W0; intros i _; reflexivity|]. split; [intros i _; reflexivity|]. split; [intros i _; reflexivity|].
  intros g H1 H2. split. { apply MUX_ok. unfold AA. destruct (A g); intros i _; reflexivity. }
  destruct (W (g - 1)%nat ltac:(lia)) as (co & H). replace (S (g - 1)) with g in H by lia. exists co. exact H.
Qed.

(** The magnitude of a number with a sign *)
Lemma magnitude N A A_ A__ : (0 < N)%nat -> TwosComplement N A A_ -> MUX N A A_ (A (N - 1)%nat) A__ -> val N A__ = Z.abs (sval N A).
Proof.
  intros H T X. apply MUX_val in X. apply TwosComplement_ok in T. rewrite X, T. unfold sval. pose proof (val_bound N A) as B. pose proof (sign_val N A H) as SG.
  destruct (A (N - 1)%nat); [|lia]. symmetry in SG. apply Z.leb_le in SG. pose proof (pow2_pos (N - 1)).
  replace (- val N A) with (2 ^ Z.of_nat N - val N A + (-1) * 2 ^ Z.of_nat N) by lia. rewrite Z.mod_add by lia. rewrite Z.mod_small by lia. lia.
Qed.
Lemma negated n O_ O__ O (s : bool) : TwosComplement n O_ O__ -> MUX n O_ O__ s O -> val n O = ((if s then -1 else 1) * val n O_) mod 2 ^ Z.of_nat n.
Proof.
  intros T X. apply MUX_val in X. apply TwosComplement_ok in T. rewrite X, T. destruct s; [f_equal; lia|]. rewrite Z.mul_1_l, Z.mod_small; [reflexivity|apply val_bound].
Qed.
Lemma signs N M A B : (0 < N)%nat -> (0 < M)%nat ->
  (if xorb (A (N - 1)%nat) (B (M - 1)%nat) then -1 else 1) * (Z.abs (sval N A) * Z.abs (sval M B)) = sval N A * sval M B.
Proof.
  intros HN HM. pose proof (val_bound N A). pose proof (val_bound M B). unfold sval.
  destruct (A (N - 1)%nat), (B (M - 1)%nat); cbn [xorb]; repeat first [rewrite Z.abs_neq by lia|rewrite Z.abs_eq by lia]; ring.
Qed.
Theorem MULT__ok N M A B O : (0 < N)%nat -> (0 < M)%nat -> MULT_ N M A B O -> sval (N + M) O = sval N A * sval M B.
Proof.
  intros HN HM (A_ & A__ & B_ & B__ & O_ & O__ & TA & XA & TB & XB & MU & TO & XO).
  pose proof (MULT_ok _ _ _ _ _ HN MU) as E. rewrite (magnitude _ _ _ _ HN TA XA), (magnitude _ _ _ _ HM TB XB) in E.
  pose proof (negated _ _ _ _ _ TO XO) as V. rewrite E, signs in V by auto. apply sval_unique; [lia| |exact V].
  pose proof (sval_bound N A HN). pose proof (sval_bound M B HM). pose proof (pow2_pos (N - 1)). pose proof (pow2_pos (M - 1)).
  assert (P : 2 ^ Z.of_nat (N + M - 1) = 2 * (2 ^ Z.of_nat (N - 1) * 2 ^ Z.of_nat (M - 1))).
  { rewrite <- pow2_add, <- pow2_S. f_equal. lia. }
  rewrite P. nia.
Qed.
Theorem MULT__total N M A B : exists O, MULT_ N M A B O.
Proof.
  destruct (TwosComplement_total N A) as (A_ & TA). destruct (MUX_total N A A_ (A (N - 1)%nat)) as (A__ & XA).
  destruct (TwosComplement_total M B) as (B_ & TB). destruct (MUX_total M B B_ (B (M - 1)%nat)) as (B__ & XB).
  destruct (MULT_total N M A__ B__) as (O_ & MU). destruct (TwosComplement_total (N + M) O_) as (O__ & TO).
  destruct (MUX_total (N + M) O_ O__ (xorb (A (N - 1)%nat) (B (M - 1)%nat))) as (O & XO). exists O. unfold MULT_. eauto 15.
Qed.

(** * Division *)
Lemma div_sub N M B g (v : vec) : (g < N)%nat ->
  v = (if (0 <? g)%nat then cat (cat (rep true) M (vnot B)) g (rep true) else cat (rep true) M (vnot B)) ->
  val (N + M) v = 2 ^ Z.of_nat (N + M) - 1 - 2 ^ Z.of_nat g * val M B.
Proof.
  intros Hg ->. assert (E : val (N + M) (cat (cat (rep true) M (vnot B)) g (rep true)) = 2 ^ Z.of_nat (N + M) - 1 - 2 ^ Z.of_nat g * val M B).
  { replace (N + M)%nat with (g + (M + (N - g)))%nat by lia. rewrite !val_cat, !val_rep_true, val_not, !pow2_add. ring. }
  destruct (Nat.ltb_spec 0 g); [exact E|]. replace g with 0%nat in * by lia.
  rewrite <- E. apply val_ext. intros i _. unfold cat at 2. cbn [Nat.ltb Nat.leb]. rewrite Nat.sub_0_r. reflexivity.
Qed.
Theorem DIV_ok N M A B O : DIV N M A B O -> val N O = if val M B =? 0 then 2 ^ Z.of_nat N - 1 else val N A / val M B.
Proof.
  intros (A_ & D & AN & G). assert (AV : val (N + M) (A_ N) = val N A) by (rewrite (val_ext _ _ _ AN); apply val_zext; lia).
  set (b := val M B) in *. set (a := val N A) in *. pose proof (val_bound M B) as BB. pose proof (val_bound N A) as BA. fold a in BA. fold b in BB.
  (* one step *)
  assert (ST : forall g, (g < N)%nat -> O g = (2 ^ Z.of_nat g * b <=? val (N + M) (A_ (S g))) /\
     val (N + M) (A_ g) = val (N + M) (A_ (S g)) - Z.b2z (O g) * (2 ^ Z.of_nat g * b)).
  { intros g Hg. destruct (G g Hg) as (AD & MX). rewrite Nat.add_1_r in *. apply MUX_val in MX.
    assert (SUM : exists v, val (N + M) v = 2 ^ Z.of_nat (N + M) - 1 - 2 ^ Z.of_nat g * b /\ ADD (N + M) (N + M) (A_ (S g)) v true (O g) (D g)).
    { eexists. split; [apply (div_sub N M B g _ Hg eq_refl)|]. destruct (Nat.ltb_spec 0 g); exact AD. }
    destruct SUM as (v & V & AD'). pose proof (ADD_ok _ _ _ _ _ _ _ (le_n _) AD') as E. rewrite V in E. cbn [Z.b2z] in E.
    pose proof (val_bound (N + M) (A_ (S g))) as B1. pose proof (val_bound (N + M) (D g)) as B2.
    split.
    - symmetry. destruct (O g); cbn [Z.b2z] in E; [apply Z.leb_le|apply Z.leb_gt]; lia.
    - rewrite MX. destruct (O g); cbn [Z.b2z] in *; lia. }
  destruct (Z.eqb_spec b 0) as [B0|B0].
  - assert (T : veq N O (rep true)).
    { intros g Hg. destruct (ST g Hg) as [E _]. rewrite E, B0, Z.mul_0_r. apply Z.leb_le. apply val_bound. }
    rewrite (val_ext _ _ _ T), val_rep_true. reflexivity.
  - (* the remainder and the quotient so far *)
    assert (I : forall k, (k <= N)%nat -> let g := (N - k)%nat in
       a = val (N + M) (A_ g) + b * (2 ^ Z.of_nat g * val k (part g O)) /\ 0 <= val (N + M) (A_ g) < 2 ^ Z.of_nat g * b).
    { induction k as [|k IH]; intros Hk g.
      - unfold g. rewrite Nat.sub_0_r, AV. cbn [val]. split; [lia|]. pose proof (pow2_pos N). nia.
      - destruct (IH ltac:(lia)) as [I1 I2]. replace (N - k)%nat with (S g) in * by (unfold g; lia). destruct (ST g ltac:(unfold g; lia)) as [E1 E2].
        replace (S k) with (1 + k)%nat by lia. rewrite (val_split 1 k), val_1. change (2 ^ Z.of_nat 1) with 2. unfold part at 1. rewrite Nat.add_0_r.
        assert (PE : val k (part 1 (part g O)) = val k (part (S g) O)). { apply val_ext. intros i _. unfold part. f_equal. lia. }
        rewrite PE. rewrite pow2_S in *. rewrite E2. destruct (O g) eqn:OG; cbn [Z.b2z] in *.
        + symmetry in E1. apply Z.leb_le in E1. split; [rewrite I1 at 1; ring|lia].
        + symmetry in E1. apply Z.leb_gt in E1. split; [rewrite I1 at 1; ring|lia]. }
    destruct (I N ltac:(lia)) as [I1 I2]. rewrite Nat.sub_diag in *. change (2 ^ Z.of_nat 0) with 1 in *.
    assert (PE : val N (part 0 O) = val N O) by (apply val_ext; intros i _; reflexivity). rewrite PE in I1.
    apply (Z.div_unique_pos _ _ _ (val (N + M) (A_ 0%nat))); lia.
Qed.
Theorem DIV_total N M A B : exists O, DIV N M A B O.
Proof.
  set (v := fun g => if (0 <? g)%nat then cat (cat (rep true) M (vnot B)) g (rep true) else cat (rep true) M (vnot B)).
  destruct (iterate (cat (rep false) N A, false, rep false) (fun k x y => ADD (N + M) (N + M) (fst (fst x)) (v (N - 1 - k)%nat) true (snd (fst y)) (snd y) /\
     MUX (N + M) (fst (fst x)) (snd y) (snd (fst y)) (fst (fst y)))) with (n := N) as (w & W0 & W).
  { intros k x. destruct (ADD_total (N + M) (N + M) (fst (fst x)) (v (N - 1 - k)%nat) true) as (co & d & AD). destruct (MUX_total (N + M) (fst (fst x)) d co) as (o & MX).
    exists (o, co, d). cbn [fst snd]. auto. }
  exists (fun g => snd (fst (w (N - g)%nat))), (fun g => fst (fst (w (N - g)%nat))), (fun g => snd (w (N - g)%nat)). split.
  - rewrite Nat.sub_diag, W0. intros i _. reflexivity.
  - intros g Hg. destruct (W (N - g - 1)%nat ltac:(lia)) as [AD MX]. replace (S (N - g - 1)) with (N - g)%nat in * by lia. replace (N - g - 1)%nat with (N - (g + 1))%nat in * by lia.
    replace (N - 1 - (N - (g + 1)))%nat with g in AD by lia. split; [|exact MX]. unfold v in AD. destruct (0 <? g)%nat; exact AD.
Qed.
(** Rounded towards zero; the quotient of the smallest number by -1 does not fit and
    is the smallest number. *)
Theorem DIV__ok N M A B O : (0 < N)%nat -> (0 < M)%nat -> DIV_ N M A B O -> sval M B <> 0 ->
  val N O = (Z.quot (sval N A) (sval M B)) mod 2 ^ Z.of_nat N /\
  (sval N A <> - 2 ^ Z.of_nat (N - 1) \/ sval M B <> -1 -> sval N O = Z.quot (sval N A) (sval M B)).
Proof.
  intros HN HM (A_ & A__ & B_ & B__ & O_ & O__ & TA & XA & TB & XB & DV & TO & XO) B0.
  pose proof (DIV_ok _ _ _ _ _ DV) as E. rewrite (magnitude _ _ _ _ HN TA XA), (magnitude _ _ _ _ HM TB XB) in E.
  destruct (Z.eqb_spec (Z.abs (sval M B)) 0); [lia|].
  pose proof (negated _ _ _ _ _ TO XO) as V. rewrite E in V.
  assert (Q : (if xorb (A (N - 1)%nat) (B (M - 1)%nat) then -1 else 1) * (Z.abs (sval N A) / Z.abs (sval M B)) = Z.quot (sval N A) (sval M B)).
  { pose proof (val_bound N A) as BA. pose proof (val_bound M B) as BB. unfold sval in *.
    destruct (A (N - 1)%nat), (B (M - 1)%nat); cbn [xorb]; repeat first [rewrite Z.abs_neq by lia|rewrite Z.abs_eq by lia].
    - rewrite <- Z.quot_div_nonneg by lia. rewrite Z.quot_opp_opp by lia. lia.
    - rewrite <- Z.quot_div_nonneg by lia. rewrite Z.quot_opp_l by lia. lia.
    - rewrite <- Z.quot_div_nonneg by lia. rewrite Z.quot_opp_r by lia. lia.
    - rewrite <- Z.quot_div_nonneg by lia. lia. }
  rewrite Q in V. split; [exact V|]. intros NE. apply sval_unique; [exact HN| |exact V].
  pose proof (sval_bound N A HN) as SA. rewrite <- Q.
  assert (D : 0 <= Z.abs (sval N A) / Z.abs (sval M B) <= Z.abs (sval N A)). { split; [apply Z.div_pos; lia|]. apply Z.div_le_upper_bound; nia. }
  destruct (Z.eq_dec (sval N A) (- 2 ^ Z.of_nat (N - 1))) as [EA|]; [|destruct (xorb _ _); lia].
  destruct (xorb (A (N - 1)%nat) (B (M - 1)%nat)) eqn:X; [lia|]. split; [lia|].
  (* both are negative *)
  assert (AN : A (N - 1)%nat = true). { unfold sval in EA. pose proof (val_bound N A). pose proof (pow2_pos (N - 1)). destruct (A (N - 1)%nat); [reflexivity|lia]. }
  rewrite AN in X. assert (BN : B (M - 1)%nat = true) by (destruct (B (M - 1)%nat); [reflexivity|discriminate]).
  assert (NB : sval M B < 0). { unfold sval. rewrite BN. pose proof (val_bound M B). lia. }
  assert (2 <= Z.abs (sval M B)) by (destruct NE as [NE|NE]; [contradiction|lia]).
  rewrite Z.mul_1_l. apply Z.div_lt_upper_bound; [lia|]. pose proof (pow2_pos (N - 1)). nia.
Qed.
Theorem DIV__by_zero N M A B O : (0 < N)%nat -> (0 < M)%nat -> DIV_ N M A B O -> sval M B = 0 ->
  val N O = (if A (N - 1)%nat then 1 else 2 ^ Z.of_nat N - 1).
Proof.
  intros HN HM (A_ & A__ & B_ & B__ & O_ & O__ & TA & XA & TB & XB & DV & TO & XO) B0.
  pose proof (DIV_ok _ _ _ _ _ DV) as E. rewrite (magnitude _ _ _ _ HM TB XB), B0 in E. cbn [Z.abs Z.eqb] in E.
  pose proof (negated _ _ _ _ _ TO XO) as V. rewrite E in V.
  assert (BN : B (M - 1)%nat = false). { unfold sval in B0. pose proof (val_bound M B). destruct (B (M - 1)%nat); [lia|reflexivity]. }
  rewrite BN, xorb_false_r in V. rewrite V. assert (P : 2 ^ Z.of_nat N = 2 * 2 ^ Z.of_nat (N - 1)) by (rewrite <- pow2_S; f_equal; lia). pose proof (pow2_pos (N - 1)).
  destruct (A (N - 1)%nat).
  - replace (-1 * (2 ^ Z.of_nat N - 1)) with (1 + (-1) * 2 ^ Z.of_nat N) by lia. rewrite Z.mod_add by lia. apply Z.mod_small. lia.
  - rewrite Z.mul_1_l. apply Z.mod_small. lia.
Qed.
Theorem DIV__total N M A B : exists O, DIV_ N M A B O.
Proof.
  destruct (TwosComplement_total N A) as (A_ & TA). destruct (MUX_total N A A_ (A (N - 1)%nat)) as (A__ & XA).
  destruct (TwosComplement_total M B) as (B_ & TB). destruct (MUX_total M B B_ (B (M - 1)%nat)) as (B__ & XB).
  destruct (DIV_total N M A__ B__) as (O_ & MU). destruct (TwosComplement_total N O_) as (O__ & TO).
  destruct (MUX_total N O_ O__ (xorb (A (N - 1)%nat) (B (M - 1)%nat))) as (O & XO). exists O. unfold DIV_. eauto 15.
Qed.

(** * Population count *)
Lemma log2_loop_ok fuel : forall t, Z.of_nat t < 2 ^ Z.of_nat fuel -> (0 < t)%nat ->
  (0 < log2_loop fuel t)%nat /\ (2 ^ (log2_loop fuel t - 1) <= t < 2 ^ log2_loop fuel t)%nat.
Proof.
  induction fuel as [|fuel IH]; intros t B P; [cbn in B; lia|]. cbn [log2_loop]. apply Nat.ltb_lt in P. rewrite P. apply Nat.ltb_lt in P. rewrite pow2_S in B.
  split; [lia|]. replace (S (log2_loop fuel (t / 2)) - 1)%nat with (log2_loop fuel (t / 2)) by lia.
  pose proof (Nat.div_mod t 2 ltac:(lia)) as DM. pose proof (Nat.mod_upper_bound t 2 ltac:(lia)) as MB.
  destruct (Nat.eq_dec (t / 2) 0) as [Z0|NZ].
  - assert (t = 1)%nat by lia. subst t. replace (log2_loop fuel (1 / 2)) with 0%nat by (destruct fuel; reflexivity). cbn. lia.
  - destruct (IH (t / 2)%nat) as [I0 I1]; [lia|lia|]. set (k := log2_loop fuel (t / 2)) in *. rewrite Nat.pow_succ_r'. destruct k as [|k]; [lia|]. replace (S k - 1)%nat with k in I1 by lia. rewrite Nat.pow_succ_r' in *. lia.
Qed.
Lemma log2_0 : log2 0 = 0%nat.
Proof. reflexivity. Qed.
Lemma log2_ok t : Z.of_nat t < 2 ^ 32 -> (0 < t)%nat -> (0 < log2 t)%nat /\ (2 ^ (log2 t - 1) <= t < 2 ^ log2 t)%nat.
Proof. apply (log2_loop_ok 32). Qed.
Lemma log2_unique t k : Z.of_nat t < 2 ^ 32 -> (0 < k)%nat -> (2 ^ (k - 1) <= t < 2 ^ k)%nat -> log2 t = k.
Proof.
  intros B K H. destruct (log2_ok t B) as [P L]. { pose proof (Nat.pow_nonzero 2 (k - 1) ltac:(lia)). lia. }
  destruct (Nat.lt_trichotomy (log2 t) k) as [C|[C|C]]; [|exact C|].
  - pose proof (Nat.pow_le_mono_r 2 (log2 t) (k - 1) ltac:(lia) ltac:(lia)). lia.
  - pose proof (Nat.pow_le_mono_r 2 k (log2 t - 1) ltac:(lia) ltac:(lia)). lia.
Qed.
Lemma ones_split n m A : ones (n + m) A = ones n A + ones m (part n A).
Proof. induction m as [|m IH]; [rewrite Nat.add_0_r; cbn; lia|]. rewrite Nat.add_succ_r. cbn [ones]. rewrite IH. unfold part at 3. lia. Qed.
Lemma ones_ext n A B : veq n A B -> ones n A = ones n B.
Proof. induction n as [|n IH]; intros H; [reflexivity|]. cbn [ones]. rewrite IH by (intros i Hi; apply H; lia). rewrite (H n) by lia. reflexivity. Qed.
Lemma ones_bound n A : 0 <= ones n A <= Z.of_nat n.
Proof. induction n as [|n IH]; [cbn; lia|]. cbn [ones]. pose proof (b2z_bound (A n)). lia. Qed.
Lemma pow2_nat k : Z.of_nat (2 ^ k) = 2 ^ Z.of_nat k.
Proof. rewrite Nat2Z.inj_pow. reflexivity. Qed.
Theorem COUNT_ok N A S : COUNT N A S -> Z.of_nat N < 2 ^ 32 -> val (log2 N) S = ones N A.
Proof.
  induction 1 as [A S H|A S H|A S H|N A S S1 S2 S2pad H3 K K2 P C1 IH1 C2 IH2 AD]; intros B.
  - change (log2 1) with 1%nat. rewrite val_1, H. cbn. lia.
  - change (log2 2) with 2%nat. pose proof (ADD_ok _ _ _ _ _ _ _ (le_n _) H) as E. cbn [val ones] in *. unfold part, rep in E. cbn [Nat.add] in E. change (2 ^ Z.of_nat 1) with 2 in *. change (2 ^ Z.of_nat 0) with 1 in *. cbn [Z.b2z] in E. lia.
  - change (log2 3) with 2%nat. pose proof (ADD_ok _ _ _ _ _ _ _ (le_n _) H) as E. cbn [val ones] in *. unfold part in E. cbn [Nat.add] in E. change (2 ^ Z.of_nat 1) with 2 in *. change (2 ^ Z.of_nat 0) with 1 in *. lia.
  - destruct (log2_ok N B ltac:(lia)) as [K0 KB]. fold K in K0, KB.
    assert (K3 : (3 <= K)%nat). { destruct (Nat.le_gt_cases 3 K); [auto|]. pose proof (Nat.pow_le_mono_r 2 K 2 ltac:(lia) ltac:(lia)) as Q. change (2 ^ 2)%nat with 4%nat in Q. lia. }
    set (p := (2 ^ (K - 1))%nat) in *. assert (PP : p = (2 * 2 ^ (K - 2))%nat). { unfold p. replace (K - 1)%nat with (Datatypes.S (K - 2)) by lia. apply Nat.pow_succ_r'. }
    assert (P2 : (2 ^ K = 2 * p)%nat). { unfold p. replace K with (Datatypes.S (K - 1)) at 1 by lia. apply Nat.pow_succ_r'. }
    assert (Q1 : (1 < 2 ^ (K - 2))%nat). { pose proof (Nat.pow_le_mono_r 2 1 (K - 2) ltac:(lia) ltac:(lia)) as Q. change (2 ^ 1)%nat with 2%nat in Q. lia. }
    assert (L1 : log2 (p - 1) = (K - 1)%nat). { apply log2_unique; [lia|lia|]. replace (K - 1 - 1)%nat with (K - 2)%nat by lia. fold p. lia. }
    specialize (IH1 ltac:(lia)). rewrite L1 in IH1.
    assert (S2V : val (K - 1) S2pad = ones (N - p) (part 1 A)).
    { destruct (Nat.eq_dec (N - p) 0) as [Z0|NZ].
      - assert (K20 : K2 = 0%nat) by (unfold K2; fold K; fold p; rewrite Z0; reflexivity). rewrite K20 in P. cbn [Nat.eqb] in P. rewrite (val_ext _ _ _ P), val_rep_false, Z0. reflexivity.
      - specialize (IH2 ltac:(lia) ltac:(lia)). destruct (log2_ok (N - p) ltac:(lia) ltac:(lia)) as [K20 K2B]. change (log2 (N - p)) with K2 in K20, K2B, IH2.
        assert (K2 <= K - 1)%nat. { destruct (Nat.le_gt_cases K2 (K - 1)); [auto|]. pose proof (Nat.pow_le_mono_r 2 (K - 1) (K2 - 1) ltac:(lia) ltac:(lia)). fold p in H0. lia. }
        destruct (Nat.eqb_spec K2 0); [lia|]. rewrite <- IH2. destruct (Nat.ltb_spec 0 (K - K2 - 1)).
        + rewrite (val_ext _ _ _ P). apply val_zext. lia.
        + rewrite (val_ext _ _ _ P). f_equal. lia. }
    pose proof (ADD_ok _ _ _ _ _ _ _ (le_n _) AD) as E. rewrite IH1, S2V in E.
    change (log2 N) with K. destruct K as [|k] eqn:EK; [lia|]. cbn [val]. replace (Datatypes.S k - 1)%nat with k in * by lia. rewrite Z.mul_comm, E.
    transitivity (ones (1 + ((N - p) + (p - 1))) A); [|f_equal; lia]. rewrite !ones_split. cbn [ones].
    assert (PE : ones (p - 1) (part (N - p) (part 1 A)) = ones (p - 1) (part (N - p + 1) A)). { apply ones_ext. intros i _. unfold part. f_equal. lia. }
    rewrite PE. lia.
Qed.
Theorem COUNT_total N A : (0 < N)%nat -> Z.of_nat N < 2 ^ 32 -> exists S, COUNT N A S.
Proof.
  revert A. induction N as [N IH] using lt_wf_ind. intros A H B.
  assert (AT : forall k X Y ci, exists S, ADD k k X Y ci (S k) S).
  { intros k X Y ci. destruct (ADD_total k k X Y ci) as (co & s & AD). destruct (top_total k s co) as (S & E & T). exists S. rewrite T. eapply ADD_ext; [|exact AD]. intros i Hi. symmetry. apply E, Hi. }
  destruct (Nat.eq_dec N 1) as [->|]; [exists A; constructor; reflexivity|].
  destruct (Nat.eq_dec N 2) as [->|]. { destruct (AT 1%nat (part 1 A) (rep false) (A 0%nat)) as (S & AD). exists S. constructor. exact AD. }
  destruct (Nat.eq_dec N 3) as [->|]. { destruct (AT 1%nat (part 1 A) (part 2 A) (A 0%nat)) as (S & AD). exists S. constructor. exact AD. }
  destruct (log2_ok N B H) as [K0 KB]. set (K := log2 N) in *.
  assert (K3 : (3 <= K)%nat). { destruct (Nat.le_gt_cases 3 K); [auto|]. pose proof (Nat.pow_le_mono_r 2 K 2 ltac:(lia) ltac:(lia)) as Q. change (2 ^ 2)%nat with 4%nat in Q. lia. }
  assert (P4 : (4 <= 2 ^ (K - 1))%nat) by (apply (Nat.pow_le_mono_r 2 2 (K - 1)); lia).
  destruct (IH (2 ^ (K - 1) - 1)%nat ltac:(lia) (part (N - 2 ^ (K - 1) + 1) A) ltac:(lia) ltac:(lia)) as (S1 & C1).
  assert (C2 : exists S2, (0 < N - 2 ^ (K - 1))%nat -> COUNT (N - 2 ^ (K - 1)) (part 1 A) S2).
  { destruct (Nat.eq_dec (N - 2 ^ (K - 1)) 0) as [->|]; [exists A; lia|]. destruct (IH (N - 2 ^ (K - 1))%nat ltac:(lia) (part 1 A) ltac:(lia) ltac:(lia)) as (S2 & C2). eauto. }
  destruct C2 as (S2 & C2). set (K2 := log2 (N - 2 ^ (K - 1))).
  destruct (AT (K - 1)%nat S1 (if (K2 =? 0)%nat then rep false else if (0 <? K - K2 - 1)%nat then cat (rep false) K2 S2 else S2) (A 0%nat)) as (S & AD).
  exists S. eapply COUNT_g7; [lia| |exact C1|exact C2|exact AD]. fold K. fold K2. destruct (K2 =? 0)%nat; [intros i _; reflexivity|]. destruct (0 <? K - K2 - 1)%nat; intros i _; reflexivity.
Qed.

(** * Shifts *)
Lemma vshr_val n a k : val n (vshr n a k) = val n a / 2 ^ Z.of_nat k.
Proof.
  destruct (Nat.le_gt_cases k n) as [H|H].
  - assert (E : veq n (vshr n a k) (cat (rep false) (n - k) (part k a))).
    { intros i Hi. unfold vshr, cat, part, rep. destruct (Nat.ltb_spec (i + k) n), (Nat.ltb_spec i (n - k)); try lia; try reflexivity; f_equal; lia. }
    rewrite (val_ext _ _ _ E), val_zext by lia. rewrite val_part. replace (k + (n - k))%nat with n by lia. reflexivity.
  - assert (E : veq n (vshr n a k) (rep false)). { intros i Hi. unfold vshr, rep. destruct (Nat.ltb_spec (i + k) n); [lia|reflexivity]. }
    rewrite (val_ext _ _ _ E), val_rep_false. symmetry. apply Z.div_small. pose proof (val_bound n a). assert (2 ^ Z.of_nat n <= 2 ^ Z.of_nat k) by (apply Z.pow_le_mono_r; lia). lia.
Qed.
Lemma vshl_val n a k : val n (vshl a k) = (val n a * 2 ^ Z.of_nat k) mod 2 ^ Z.of_nat n.
Proof.
  assert (E : forall m, veq m (vshl a k) (cat a k (rep false))) by (intros m i _; unfold vshl, cat, rep; destruct (i <? k)%nat; reflexivity).
  rewrite (val_ext _ _ _ (E n)). destruct (Nat.le_gt_cases k n) as [H|H]; [rewrite shl_val by exact H; f_equal; lia|].
  replace (val n (cat a k (rep false))) with 0.
  - replace k with (n + (k - n))%nat by lia. rewrite pow2_add, Z.mul_assoc, Z.mul_shuffle0. symmetry. apply Z.mod_mul. pose proof (pow2_pos n). lia.
  - rewrite <- (val_rep_false n). apply val_ext. intros i Hi. unfold cat, rep. destruct (Nat.ltb_spec i k); [reflexivity|lia].
Qed.
Theorem SHIFT_LEFT_ok N L a sh o : SHIFT_LEFT N L a sh o -> val N o = val N a / 2 ^ val (L + 1) sh.
Proof.
  intros (ai & A0 & ST & OE). rewrite (val_ext _ _ _ OE). set (n := (L + 1)%nat) in *. assert (H : forall k, (k <= n)%nat -> val N (ai k) = val N a / 2 ^ val k sh).
  { induction k as [|k IH]; intros Hk. { rewrite (val_ext _ _ _ A0). cbn [val]. change (2 ^ 0) with 1. rewrite Z.div_1_r. reflexivity. }
    specialize (ST k Hk). rewrite Nat.add_1_r in ST. rewrite (val_ext _ _ _ ST). cbn [val]. pose proof (val_bound k sh) as VB. destruct (sh k); cbn [Z.b2z].
    - rewrite vshr_val, IH by lia. rewrite pow2_nat. rewrite Z.pow_add_r, Z.mul_1_l by lia. rewrite Z.div_div; [reflexivity| |].
      + pose proof (Z.pow_pos_nonneg 2 (val k sh) ltac:(lia) ltac:(lia)). lia.
      + apply Z.pow_pos_nonneg; lia.
    - rewrite IH by lia. rewrite Z.mul_0_l, Z.add_0_r. reflexivity. }
  apply H. lia.
Qed.
Theorem SHIFT_RIGHT_ok N L a sh o : SHIFT_RIGHT N L a sh o -> val N o = (val N a * 2 ^ val (L + 1) sh) mod 2 ^ Z.of_nat N.
Proof.
  intros (ai & A0 & ST & OE). rewrite (val_ext _ _ _ OE). set (n := (L + 1)%nat) in *. pose proof (pow2_pos N) as PN.
  assert (H : forall k, (k <= n)%nat -> val N (ai k) = (val N a * 2 ^ val k sh) mod 2 ^ Z.of_nat N).
  { induction k as [|k IH]; intros Hk. { rewrite (val_ext _ _ _ A0). cbn [val]. change (2 ^ 0) with 1. rewrite Z.mul_1_r, Z.mod_small by apply val_bound. reflexivity. }
    specialize (ST k Hk). rewrite Nat.add_1_r in ST. rewrite (val_ext _ _ _ ST). cbn [val]. pose proof (val_bound k sh) as VB. destruct (sh k); cbn [Z.b2z].
    - rewrite vshl_val, IH by lia. rewrite pow2_nat. rewrite Z.pow_add_r, Z.mul_1_l by lia. rewrite Z.mul_mod_idemp_l by lia. f_equal. ring.
    - rewrite IH by lia. rewrite Z.mul_0_l, Z.add_0_r. reflexivity. }
  apply H. lia.
Qed.
Theorem SHIFT_LEFT_total N L a sh : exists o, SHIFT_LEFT N L a sh o.
Proof.
  destruct (iterate a (fun i x y => veq N y (if sh i then vshr N x (2 ^ i) else x))) with (n := (L + 1)%nat) as (w & W0 & W).
  { intros k x. eexists. intros i _. reflexivity. }
  exists (w (L + 1)%nat), w. split; [rewrite W0; intros i _; reflexivity|]. split; [|intros i _; reflexivity]. intros i Hi. rewrite Nat.add_1_r. apply W, Hi.
Qed.
Theorem SHIFT_RIGHT_total N L a sh : exists o, SHIFT_RIGHT N L a sh o.
Proof.
  destruct (iterate a (fun i x y => veq N y (if sh i then vshl x (2 ^ i) else x))) with (n := (L + 1)%nat) as (w & W0 & W).
  { intros k x. eexists. intros i _. reflexivity. }
  exists (w (L + 1)%nat), w. split; [rewrite W0; intros i _; reflexivity|]. split; [|intros i _; reflexivity]. intros i Hi. rewrite Nat.add_1_r. apply W, Hi.
Qed.

(** * Square root *)
Lemma low_cat n t v : val n (cat t n v) = val n v.
Proof. apply val_ext. intros i Hi. unfold cat. destruct (Nat.ltb_spec i n); [reflexivity|lia]. Qed.
Lemma ADD__low n A B O : (0 < n)%nat -> ADD_ n n A B O -> val n O = (val n A + val n B) mod 2 ^ Z.of_nat n.
Proof.
  intros H (BB & CO & P & _ & AD). destruct (ADD_sum _ _ _ _ _ _ _ (le_n n) AD) as [E _]. rewrite Nat.ltb_irrefl in P. rewrite E, (val_ext _ _ _ P). cbn [Z.b2z]. f_equal. lia.
Qed.
Lemma SUB__low n A B O : (0 < n)%nat -> SUB_ n n A B O -> val n O = (val n A - val n B) mod 2 ^ Z.of_nat n.
Proof.
  intros H (BB & CO & P & _ & AD). destruct (ADD_sum _ _ _ _ _ _ _ (le_n n) AD) as [E _]. rewrite Nat.ltb_irrefl in P. rewrite E, val_not, (val_ext _ _ _ P). cbn [Z.b2z].
  replace (val n A + (2 ^ Z.of_nat n - 1 - val n B) + 1) with (val n A - val n B + 1 * 2 ^ Z.of_nat n) by lia. apply Z.mod_add. pose proof (pow2_pos n). lia.
Qed.
Lemma unit_ok n x y_in y0_in y y0 : (0 < n)%nat -> squar_root_unit (2 * n) x y_in y0_in y y0 ->
  let X := val (2 * n) x in let Y := val n y_in in let D := val n y0_in in
  D <= Y -> (if Y * Y <=? X then Y else Y - D) + D / 2 < 2 ^ Z.of_nat n ->
  val n y0 = D / 2 /\ val n y = (if Y * Y <=? X then Y else Y - D) + D / 2.
Proof.
  intros H (t & t0 & t1 & ymin & ymid & ysq & MU & CP & SB & MX & Y0E & AD) X Y D DY LT.
  replace (2 * n / 2)%nat with n in * by (rewrite Nat.mul_comm, Nat.div_mul by lia; reflexivity).
  pose proof (MULT_ok _ _ _ _ _ H MU) as SQ. replace (n + n)%nat with (2 * n)%nat in SQ by lia. apply COMP_ok in CP; [|lia]. rewrite SQ in CP. fold Y in CP. fold X in CP.
  apply SUB__low in SB; [|exact H]. rewrite low_cat in SB. fold Y in SB. fold D in SB. apply MUX_val in MX. apply ADD__low in AD; [|exact H]. rewrite low_cat in AD.
  assert (V0 : val n y0 = D / 2). { rewrite (val_ext _ _ _ Y0E), vshr_val. reflexivity. }
  split; [exact V0|]. pose proof (val_bound n y_in) as BY. pose proof (val_bound n y0_in) as BD. fold Y in BY. fold D in BD.
  rewrite Z.mod_small in SB by lia. rewrite AD, V0, MX, CP, SB. fold Y.
  assert (0 <= D / 2) by (apply Z.div_pos; lia). destruct (Y * Y <=? X); apply Z.mod_small; lia.
Qed.
(** The floor of the square root, if there are at least as many units as result bits. *)
Theorem square_root_ok n M A O : (0 < n)%nat -> (n <= M)%nat -> square_root_comb (2 * n) M A O -> val n O = Z.sqrt (val (2 * n) A).
Proof.
  intros H HM (Y & Y0 & YI & Y0I & OE & G). replace (2 * n / 2)%nat with n in * by (rewrite Nat.mul_comm, Nat.div_mul by lia; reflexivity).
  set (X := val (2 * n) A) in *.
  assert (START : forall v, veq n v (cat (bit true) (n - 1) (rep false)) -> val n v = 2 ^ Z.of_nat (n - 1)).
  { intros v E. rewrite (val_ext _ _ _ E). replace n with ((n - 1) + 1)%nat at 1 by lia. rewrite val_cat, val_rep_false, val_bit. cbn [Z.b2z]. lia. }
  pose proof (val_bound (2 * n) A) as BX. fold X in BX.
  (* while there are bits to find *)
  assert (I : forall k, (k <= n)%nat -> exists r, 0 <= r /\ r * r <= X < (r + 2 ^ Z.of_nat (n - k)) * (r + 2 ^ Z.of_nat (n - k)) /\ r + 2 ^ Z.of_nat (n - k) <= 2 ^ Z.of_nat n /\
     val n (Y0 k) = (if (k <? n)%nat then 2 ^ Z.of_nat (n - k - 1) else 0) /\ val n (Y k) = r + val n (Y0 k)).
  { induction k as [|k IH]; intros Hk.
    - exists 0. rewrite (START _ YI), (START _ Y0I), Nat.sub_0_r. split; [lia|]. split; [|split; [lia|]].
      + rewrite Z.add_0_l, <- pow2_add. replace (n + n)%nat with (2 * n)%nat by lia. lia.
      + destruct (Nat.ltb_spec 0 n); [|lia]. split; lia.
    - destruct (IH ltac:(lia)) as (r & R0 & RX & RB & Y0V & YV). destruct (Nat.ltb_spec k n); [|lia]. specialize (G k ltac:(lia)). rewrite Nat.add_1_r in G.
      set (d := 2 ^ Z.of_nat (n - k - 1)) in *. assert (D1 : 1 <= d) by (pose proof (pow2_pos (n - k - 1)); unfold d; lia).
      assert (D2 : 2 ^ Z.of_nat (n - k) = 2 * d). { unfold d. rewrite <- pow2_S. f_equal. lia. }
      assert (DH : d / 2 = if (S k <? n)%nat then 2 ^ Z.of_nat (n - S k - 1) else 0).
      { unfold d. destruct (Nat.ltb_spec (S k) n).
        - replace (n - k - 1)%nat with (S (n - S k - 1)) by lia. rewrite pow2_S, Z.mul_comm, Z.div_mul by lia. reflexivity.
        - replace (n - k - 1)%nat with 0%nat by lia. reflexivity. }
      assert (DL : 0 <= d / 2 <= d - (if (S k <? n)%nat then 1 else 1)).
      { split; [apply Z.div_pos; lia|]. assert (d / 2 < d) by (apply Z.div_lt; lia). destruct (S k <? n)%nat; lia. }
      destruct (unit_ok n A (Y k) (Y0 k) (Y (S k)) (Y0 (S k)) H G) as [U0 U1].
      { rewrite YV, Y0V. lia. }
      { fold X. rewrite YV, Y0V. destruct (_ <=? _), (S k <? n)%nat; lia. }
      fold X in U1. rewrite YV, Y0V in *. rewrite U0, U1. replace (n - k)%nat with (S (n - S k)) in * by lia.
      assert (DS : 2 ^ Z.of_nat (n - S k) = d) by (unfold d; f_equal; lia). rewrite DS.
      destruct (Z.leb_spec ((r + d) * (r + d)) X) as [C|C].
      + exists (r + d). split; [lia|]. split; [split; [exact C|]|]. { rewrite D2 in RX. replace (r + d + d) with (r + 2 * d) by lia. lia. } split; [lia|]. split; [exact DH|]. lia.
      + exists r. split; [lia|]. split; [split; [lia|exact C]|]. split; [lia|]. split; [exact DH|]. lia. }
  destruct (I n (le_n n)) as (r & R0 & RX & RB & Y0V & YV). rewrite Nat.ltb_irrefl in Y0V. rewrite Nat.sub_diag in *. change (2 ^ Z.of_nat 0) with 1 in *.
  assert (SQ : Z.sqrt X = r) by (apply Z.sqrt_unique; lia).
  (* further units change nothing *)
  assert (J : forall k, (n + k <= M)%nat -> val n (Y0 (n + k)%nat) = 0 /\ val n (Y (n + k)%nat) = r).
  { induction k as [|k IH]; intros Hk; [rewrite Nat.add_0_r; lia|]. destruct (IH ltac:(lia)) as [J0 J1]. specialize (G (n + k)%nat ltac:(lia)). rewrite Nat.add_1_r in G. rewrite Nat.add_succ_r.
    destruct (unit_ok n A _ _ _ _ H G) as [U0 U1].
    { rewrite J0. apply val_bound. }
    { rewrite J0, J1. change (0 / 2) with 0. destruct (_ <=? _); lia. }
    rewrite J0 in U0; rewrite J0, J1 in U1. change (0 / 2) with 0 in U0, U1. split; [exact U0|]. rewrite U1. replace (r * r <=? val (2 * n) A) with true; [lia|]. symmetry. apply Z.leb_le. fold X. lia. }
  destruct (J (M - n)%nat ltac:(lia)) as [_ J1]. replace (n + (M - n))%nat with M in J1 by lia. rewrite (val_ext _ _ _ OE), J1. symmetry. exact SQ.
Qed.
Theorem square_root_total n M A : (0 < n)%nat -> exists O, square_root_comb (2 * n) M A O.
Proof.
  intros H. unfold square_root_comb, squar_root_unit. replace (2 * n / 2)%nat with n by (rewrite Nat.mul_comm, Nat.div_mul by lia; reflexivity).
  set (s := cat (bit true) (n - 1) (rep false)).
  assert (SE : forall (R : vec -> Prop) o, (forall o', veq (n + 1) o' o -> R o -> R o') -> R o -> exists t v, R (cat (bit t) n v)).
  { intros R o X RO. exists (o n), o. apply (X _); [|exact RO]. intros i Hi; unfold cat, bit; destruct (Nat.ltb_spec i n); [reflexivity|f_equal; lia]. }
  destruct (iterate (s, s) (fun _ a b => squar_root_unit (2 * n) A (fst a) (snd a) (fst b) (snd b))) with (n := M) as (w & W0 & W).
  - intros _ (yi, y0i). cbn [fst snd]. unfold squar_root_unit. replace (2 * n / 2)%nat with n by (rewrite Nat.mul_comm, Nat.div_mul by lia; reflexivity).
    destruct (MULT_total n n yi yi) as (sq & MU). destruct (COMP_total (2 * n) (2 * n) A sq) as (t & CP).
    destruct (SUB__total n n yi y0i H) as (o & SB). destruct (SE (SUB_ n n yi y0i) o) as (t0 & ymin & SB'); [|exact SB|].
    { intros o' E (BB & CO & P & MX & AD). exists BB, CO. split; [exact P|]. split.
      - apply MUX_ok. apply MUX_ok in MX. intros i Hi. specialize (MX i Hi). unfold bit in *. rewrite !E by lia. exact MX.
      - eapply ADD_ext; [|exact AD]. intros i Hi. symmetry. apply E. lia. }
    destruct (MUX_total n ymin yi t) as (ymid & MX). set (y0 := vshr n y0i 1). destruct (ADD__total n n ymid y0 H) as (o2 & AD).
    destruct (SE (ADD_ n n ymid y0) o2) as (t1 & y & AD'); [|exact AD|].
    { intros o' E (BB & CO & P & MX' & AD''). exists BB, CO. split; [exact P|]. split.
      - apply MUX_ok. apply MUX_ok in MX'. intros i Hi. specialize (MX' i Hi). unfold bit in *. rewrite !E by lia. exact MX'.
      - eapply ADD_ext; [|exact AD'']. intros i Hi. symmetry. apply E. lia. }
    exists (y, y0). cbn [fst snd]. exists t, t0, t1, ymin, ymid, sq. do 4 (split; [assumption|]). split; [intros i _; reflexivity|exact AD'].
  - exists (fst (w M)), (fun k => fst (w k)), (fun k => snd (w k)). split; [rewrite W0; intros i _; reflexivity|]. split; [rewrite W0; intros i _; reflexivity|]. split; [intros i _; reflexivity|].
    intros gv Hg. specialize (W gv Hg). rewrite Nat.add_1_r. unfold squar_root_unit in W. replace (2 * n / 2)%nat with n in W by (rewrite Nat.mul_comm, Nat.div_mul by lia; reflexivity). exact W.
Qed.

(** * Summaries and cases *)
Lemma lib_total N M A B CI :
  (exists CO S, ADD N M A B CI CO S) /\ (exists CO S, SUB N M A B CO S) /\ (exists O, COMP N M A B O) /\
  (exists O, TwosComplement N A O) /\ ((0 < N)%nat -> (exists O, ADD_ N M A B O) /\ (exists O, SUB_ N M A B O)).
Proof.
  split; [apply ADD_total|]. split; [apply SUB_total|]. split; [apply COMP_total|]. split; [apply TwosComplement_total|].
  intros H. split; [apply ADD__total, H|apply SUB__total, H].
Qed.
Lemma lib_case : (exists CO S, ADD 600 8 (of_val (2 ^ 600 - 1)) (of_val 2) true CO S /\ val 600 S = 2 /\ CO = true) /\
  (exists O, SUB_ 8 4 (of_val 128) (of_val 7) O /\ sval 9 O = -135).
Proof.
  split.
  - destruct (ADD_total 600 8 (of_val (2 ^ 600 - 1)) (of_val 2) true) as (CO & S & AD). exists CO, S. split; [exact AD|].
    apply ADD_ok in AD; [|lia]. rewrite !val_of_val in AD. pose proof (val_bound 600 S) as SB. change (Z.of_nat 600) with 600 in *. change (Z.of_nat 8) with 8 in *.
    rewrite (Z.mod_small (2 ^ 600 - 1)) in AD by lia. change (2 mod 2 ^ 8) with 2 in AD. cbn [Z.b2z] in AD. destruct CO; cbn [Z.b2z] in AD; lia.
  - destruct (SUB__total 8 4 (of_val 128) (of_val 7) ltac:(lia)) as (O & SB). exists O. split; [exact SB|]. apply SUB__ok in SB; [|lia]. exact SB.
Qed.
Lemma mult_total N M A B : (exists O, MULT N M A B O) /\ (exists O, MULT_ N M A B O).
Proof. split; [apply MULT_total|apply MULT__total]. Qed.
Lemma mult_case : exists O, MULT_ 8 5 (of_val (-128)) (of_val (-16)) O /\ sval 13 O = 2048.
Proof. destruct (MULT__total 8 5 (of_val (-128)) (of_val (-16))) as (O & H). exists O. split; [exact H|]. apply MULT__ok in H; [exact H|lia|lia]. Qed.
Lemma div_total N M A B : (exists O, DIV N M A B O) /\ (exists O, DIV_ N M A B O).
Proof. split; [apply DIV_total|apply DIV__total]. Qed.
Lemma div_case : exists O, DIV_ 8 5 (of_val (-100)) (of_val 7) O /\ sval 8 O = -14.
Proof.
  destruct (DIV__total 8 5 (of_val (-100)) (of_val 7)) as (O & H). exists O. split; [exact H|]. apply DIV__ok in H; [|lia|lia|vm_compute; discriminate]. destruct H as [_ H]. apply H. left. vm_compute. discriminate.
Qed.
Lemma count_case : exists S, COUNT 14 (of_val 0x2fb7) S /\ val 4 S = 11.
Proof. destruct (COUNT_total 14 (of_val 0x2fb7)) as (S & H); [lia|lia|]. exists S. split; [exact H|]. apply COUNT_ok in H; [exact H|lia]. Qed.
Lemma shift_total N L a sh : (exists o, SHIFT_LEFT N L a sh o) /\ (exists o, SHIFT_RIGHT N L a sh o).
Proof. split; [apply SHIFT_LEFT_total|apply SHIFT_RIGHT_total]. Qed.
Lemma shift_names :
  ~ (forall N L a sh o, SHIFT_LEFT N L a sh o -> val N o = (val N a * 2 ^ val (L + 1) sh) mod 2 ^ Z.of_nat N) /\
  ~ (forall N L a sh o, SHIFT_RIGHT N L a sh o -> val N o = val N a / 2 ^ val (L + 1) sh).
Proof.
  split; intros H.
  - destruct (SHIFT_LEFT_total 8 3 (of_val 12) (of_val 2)) as (o & X). pose proof (H _ _ _ _ _ X) as Y. apply SHIFT_LEFT_ok in X. rewrite X in Y. vm_compute in Y. discriminate Y.
  - destruct (SHIFT_RIGHT_total 8 3 (of_val 12) (of_val 2)) as (o & X). pose proof (H _ _ _ _ _ X) as Y. apply SHIFT_RIGHT_ok in X. rewrite X in Y. vm_compute in Y. discriminate Y.
Qed.
Lemma shift_case : exists o, SHIFT_RIGHT 16 4 (of_val 0x8421) (of_val 7) o /\ val 16 o = 0x1080.
Proof. destruct (SHIFT_RIGHT_total 16 4 (of_val 0x8421) (of_val 7)) as (o & X). exists o. split; [exact X|]. apply SHIFT_RIGHT_ok in X. rewrite X. vm_compute. reflexivity. Qed.
Lemma square_root_case : exists O, square_root_comb 16 8 (of_val 65024) O /\ val 8 O = 254.
Proof. destruct (square_root_total 8 8 (of_val 65024) ltac:(lia)) as (O & X). exists O. split; [exact X|]. apply square_root_ok in X; [|lia|lia]. rewrite X. vm_compute. reflexivity. Qed.
