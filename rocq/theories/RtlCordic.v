(** CORDIC, written in Verilog (circuit_synthesis/cordic). *)
From Coq Require Import ZArith List Bool Lia.
From Verif Require Import RtlBase RtlLib RtlArith RtlSeq.
Import ListNotations.
Open Scope Z_scope.

(** * Model

    With the parameters that cordic/cordic.v:7-10 gives, DEC = 2 and FRAC = 14, so that L = 16,
    ITER = 15 and LOG_ITER = 4; the table of other sizes is not modelled. *)

(** alpha_table, cordic/alpha_table.v:5-89; MOD is 1 for MOD_CIR, 0 for MOD_LIN and -1 for MOD_HYP *)
Definition alpha (MOD : Z) (iter : nat) : Z :=
  nth iter
    (if MOD =? 1 then [12868; 7596; 4014; 2037; 1023; 512; 256; 128; 64; 32; 16; 8; 4; 2; 1]
     else if MOD =? 0 then [16384; 8192; 4096; 2048; 1024; 512; 256; 128; 64; 32; 16; 8; 4; 2; 1]
     else [9000; 4185; 2059; 1025; 512; 256; 128; 64; 32; 16; 8; 4; 2; 1; 1]) 0.
(** barrel_shifter_left, cordic/barrel_shifter_left.v:5-35, is SHIFT_LEFT of RtlArith.

    cordic, cordic/cordic.v:5-196; DIR is 0 for DIR_ROT and 1 for DIR_VEC; iter is represented by
    the number it holds. *)
Definition neg (v : vec) : vec := of_val (- val 16 v).
Definition cordic_step (MOD DIR : Z) (_ : unit) (s : vec * vec * vec * nat) (o : vec * bool) (s' : vec * vec * vec * nat) : Prop :=
  let '(xi, yi, zi, iter) := s in let '(xi', yi', zi', iter') := s' in
  exists (xs ys xd yd zd xi_next yi_next zi_next : vec) (c1 c2 c3 : bool),
    let alphai := of_val (alpha MOD iter) in
    let di := if DIR =? 0 then zi 15%nat else xi 15%nat && yi 15%nat in
    SHIFT_LEFT 16 4 xi (of_val (Z.of_nat iter)) xs /\ SHIFT_LEFT 16 4 yi (of_val (Z.of_nat iter)) ys /\
    veq 16 yd (if di then neg xs else xs) /\ veq 16 zd (if di then alphai else neg alphai) /\
    veq 16 xd (if MOD =? -1 then (if di then neg ys else ys) else if MOD =? 0 then rep false else if di then ys else neg ys) /\
    ADD 16 16 xi xd false c1 xi_next /\ ADD 16 16 yi yd false c2 yi_next /\ ADD 16 16 zi zd false c3 zi_next /\
    (if (iter <? 15)%nat then veq 16 xi' xi_next /\ veq 16 yi' yi_next /\ veq 16 zi' zi_next /\ iter' = S iter
     else veq 16 xi' xi /\ veq 16 yi' yi /\ veq 16 zi' zi /\ iter' = iter) /\
    veq 48 (fst o) (cat xi 32 (cat yi 16 zi)) /\ snd o = (iter =? 15)%nat.
Definition cordic_init (g_init e_init : vec) (s : vec * vec * vec * nat) : Prop :=
  let '(xi, yi, zi, iter) := s in veq 16 xi (part 16 g_init) /\ veq 16 yi g_init /\ veq 16 zi e_init /\ iter = 0%nat.
Definition cordic (MOD DIR : Z) (g_init e_init : vec) := clocked (cordic_init g_init e_init) (cordic_step MOD DIR).

(** * Specification: rotations by the angles of the table, with numbers of any size *)
Definition rotation (mu : Z) (k : nat) (s : Z * Z * Z) : Z * Z * Z :=
  let '(x, y, z) := s in let d := if z <? 0 then -1 else 1 in
  (x - mu * d * (y / 2 ^ Z.of_nat k), y + d * (x / 2 ^ Z.of_nat k), z - d * alpha mu k).
Fixpoint rotations (mu : Z) (k : nat) (s : Z * Z * Z) : Z * Z * Z := match k with O => s | S j => rotation mu j (rotations mu j s) end.
(** The number that a word of 16 bits stands for *)
Definition s16 (x : Z) : Z := if x <? 2 ^ 15 then x else x - 2 ^ 16.

(** * Proofs *)
(** One cycle, in numbers *)
Definition turn (MOD DIR : Z) (k : nat) (s : Z * Z * Z) : Z * Z * Z :=
  let '(x, y, z) := s in let d := if DIR =? 0 then 2 ^ 15 <=? z else (2 ^ 15 <=? x) && (2 ^ 15 <=? y) in
  let xs := x / 2 ^ Z.of_nat k in let ys := y / 2 ^ Z.of_nat k in
  let xd := if MOD =? -1 then (if d then - ys else ys) else if MOD =? 0 then 0 else if d then ys else - ys in
  ((x + xd) mod 2 ^ 16, (y + (if d then - xs else xs)) mod 2 ^ 16, (z + (if d then alpha MOD k else - alpha MOD k)) mod 2 ^ 16).
Fixpoint turns (MOD DIR : Z) (k : nat) (s : Z * Z * Z) : Z * Z * Z := match k with O => s | S j => turn MOD DIR j (turns MOD DIR j s) end.
Definition vals (s : vec * vec * vec * nat) : Z * Z * Z := let '(x, y, z, _) := s in (val 16 x, val 16 y, val 16 z).
Lemma val_next n v : val (S n) v = val n v + Z.b2z (v n) * 2 ^ Z.of_nat n.
Proof. reflexivity. Qed.
Local Opaque val.
Lemma top v : v 15%nat = (2 ^ 15 <=? val 16 v).
Proof.
  pose proof (val_next 15 v) as E. pose proof (val_bound 15 v) as B. change (Z.of_nat 15) with 15 in *. rewrite E.
  destruct (v 15%nat); cbn [Z.b2z]; symmetry; [apply Z.leb_le | apply Z.leb_gt]; lia.
Qed.
Lemma val_neg v : val 16 (neg v) = (- val 16 v) mod 2 ^ 16.
Proof. unfold neg. rewrite val_of_val. reflexivity. Qed.
Lemma add16 A B c S : ADD 16 16 A B false c S -> val 16 S = (val 16 A + val 16 B) mod 2 ^ 16.
Proof.
  intros H. apply ADD_ok in H; [|lia]. pose proof (val_bound 16 S) as B1. change (Z.of_nat 16) with 16 in *. cbn [Z.b2z] in H.
  rewrite <- (Z.mod_small (val 16 S) (2 ^ 16)) by exact B1. replace (val 16 S) with (val 16 A + val 16 B + (- Z.b2z c) * 2 ^ 16) by lia. apply Z.mod_add. lia.
Qed.
Lemma shift16 a k o : (k < 32)%nat -> SHIFT_LEFT 16 4 a (of_val (Z.of_nat k)) o -> val 16 o = val 16 a / 2 ^ Z.of_nat k.
Proof.
  intros Hk H. apply SHIFT_LEFT_ok in H. rewrite val_of_val in H. change (Z.of_nat (4 + 1)) with 5 in H. rewrite (Z.mod_small (Z.of_nat k)) in H by lia. exact H.
Qed.
Lemma add_mod x a b : b = a mod 2 ^ 16 -> (x + b) mod 2 ^ 16 = (x + a) mod 2 ^ 16.
Proof. intros ->. apply Zplus_mod_idemp_r. Qed.
Lemma alpha_bound MOD k : 0 <= alpha MOD k < 2 ^ 16.
Proof.
  unfold alpha. destruct (MOD =? 1), (MOD =? 0); do 16 (destruct k as [|k]; [cbn [nth]; lia|]); cbn [nth]; destruct k; lia.
Qed.
Lemma step_vals MOD DIR u s o s' : (snd s <= 15)%nat -> cordic_step MOD DIR u s o s' ->
  (snd s' = if (snd s <? 15)%nat then S (snd s) else snd s) /\ vals s' = (if (snd s <? 15)%nat then turn MOD DIR (snd s) (vals s) else vals s) /\
  snd o = (snd s =? 15)%nat /\ (val 16 (part 32 (fst o)), val 16 (part 16 (fst o)), val 16 (fst o)) = vals s.
Proof.
  destruct s as (((xi, yi), zi), iter), s' as (((xi', yi'), zi'), iter'). cbn [snd vals]. intros Hk.
  intros (xs & ys & xd & yd & zd & xn & yn & zn & c1 & c2 & c3 & SX & SY & YD & ZD & XD & AX & AY & AZ & NX & OV & OT).
  apply shift16 in SX; [|lia]. apply shift16 in SY; [|lia]. apply add16 in AX, AY, AZ. apply val_ext in YD, XD, ZD.
  assert (O3 : (val 16 (part 32 (fst o)), val 16 (part 16 (fst o)), val 16 (fst o)) = (val 16 xi, val 16 yi, val 16 zi)).
  { f_equal; [f_equal|]; apply val_ext; intros b Hb; unfold part; rewrite OV by lia; unfold cat.
    - replace (32 + b <? 32)%nat with false by (symmetry; apply Nat.ltb_ge; lia). f_equal. lia.
    - replace (16 + b <? 32)%nat with true by (symmetry; apply Nat.ltb_lt; lia). replace (16 + b <? 16)%nat with false by (symmetry; apply Nat.ltb_ge; lia). f_equal. lia.
    - replace (b <? 32)%nat with true by (symmetry; apply Nat.ltb_lt; lia). replace (b <? 16)%nat with true by (symmetry; apply Nat.ltb_lt; lia). reflexivity. }
  destruct (Nat.ltb_spec iter 15) as [LT|GE]; destruct NX as (EX & EY & EZ & EI); apply val_ext in EX, EY, EZ; (split; [exact EI|]); (split; [|split; [exact OT|exact O3]]); rewrite EX, EY, EZ; [|reflexivity].
  unfold turn. rewrite AX, AY, AZ. rewrite <- !top. set (d := if DIR =? 0 then zi 15%nat else xi 15%nat && yi 15%nat) in *.
  pose proof (alpha_bound MOD iter) as AB. assert (AV : val 16 (of_val (alpha MOD iter)) = alpha MOD iter) by (rewrite val_of_val; apply Z.mod_small; exact AB).
  f_equal; [f_equal|]; apply add_mod; [rewrite XD|rewrite YD|rewrite ZD].
  - destruct (MOD =? -1), (MOD =? 0), d; rewrite ?val_neg, ?val_rep_false, ?SY; try reflexivity; (rewrite <- SY; symmetry; apply Z.mod_small; apply (val_bound 16)).
  - destruct d; rewrite ?val_neg, SX; [reflexivity|]. rewrite <- SX. symmetry. apply Z.mod_small, (val_bound 16).
  - destruct d; rewrite ?val_neg, AV; [symmetry; apply Z.mod_small; exact AB|reflexivity].
Qed.
(** The whole run *)
Lemma run_vals MOD DIR g e c i o t : cordic MOD DIR g e c i o -> (t < c)%nat ->
  snd (o t) = (15 <=? t)%nat /\
  (val 16 (part 32 (fst (o t))), val 16 (part 16 (fst (o t))), val 16 (fst (o t))) = turns MOD DIR (Nat.min t 15) (val 16 (part 16 g), val 16 g, val 16 e).
Proof.
  intros (s & I0 & ST) Ht. assert (H : forall u, (u <= c)%nat -> snd (s u) = Nat.min u 15 /\ vals (s u) = turns MOD DIR (Nat.min u 15) (val 16 (part 16 g), val 16 g, val 16 e)).
  { induction u as [|u IH]; intros Hu.
    - destruct (s 0%nat) as (((x, y), z), k). destruct I0 as (X & Y & Z & K). apply val_ext in X, Y, Z. split; [exact K|]. cbn [vals Nat.min turns]. rewrite X, Y, Z. reflexivity.
    - destruct (IH ltac:(lia)) as (K & V). destruct (step_vals MOD DIR _ _ _ _ ltac:(rewrite K; lia) (ST u ltac:(lia))) as (K' & V' & _). rewrite K', V', K, V.
      destruct (Nat.ltb_spec (Nat.min u 15) 15) as [L|L].
      + replace (Nat.min (S u) 15) with (S (Nat.min u 15)) by lia. split; reflexivity.
      + replace (Nat.min (S u) 15) with (Nat.min u 15) by lia. split; reflexivity. }
  destruct (H t ltac:(lia)) as (K & V). destruct (step_vals MOD DIR _ _ _ _ ltac:(rewrite K; lia) (ST t Ht)) as (_ & _ & T & O). rewrite T, K, O, V. split; [|reflexivity].
  destruct (Nat.eqb_spec (Nat.min t 15) 15), (Nat.leb_spec 15 t); try reflexivity; lia.
Qed.
(** ** Rotation *)
Definition inside (s : Z * Z * Z) : Prop := let '(x, y, z) := s in 0 <= x < 2 ^ 15 /\ 0 <= y < 2 ^ 15 /\ - 2 ^ 15 <= z < 2 ^ 15.
Definition wrap (s : Z * Z * Z) : Z * Z * Z := let '(x, y, z) := s in (x mod 2 ^ 16, y mod 2 ^ 16, z mod 2 ^ 16).
Lemma three (x y z x' y' z' : Z) : x = x' -> y = y' -> z = z' -> (x, y, z) = (x', y', z').
Proof. intros -> -> ->. reflexivity. Qed.
Lemma turn_rotation MOD k s : MOD = 1 \/ MOD = 0 \/ MOD = -1 -> inside s -> turn MOD 0 k (wrap s) = wrap (rotation MOD k s).
Proof.
  destruct s as ((x, y), z). intros HM (X & Y & Z). unfold wrap at 1. rewrite (Z.mod_small x), (Z.mod_small y) by lia. unfold turn, rotation, wrap. change (0 =? 0) with true. cbv beta iota zeta.
  assert (D : (2 ^ 15 <=? z mod 2 ^ 16) = (z <? 0)).
  { destruct (Z.ltb_spec z 0) as [N|N].
    - rewrite <- (Z.mod_add z 1 (2 ^ 16)) by lia. rewrite Z.mod_small by lia. apply Z.leb_le. lia.
    - rewrite Z.mod_small by lia. apply Z.leb_gt. lia. }
  rewrite D. rewrite Zplus_mod_idemp_l. destruct HM as [->|[->| ->]]; destruct (z <? 0);
    change (1 =? -1) with false; change (1 =? 0) with false; change (0 =? -1) with false; change (0 =? 0) with true; change (-1 =? -1) with true; cbv iota; apply three; f_equal; ring.
Qed.
Theorem cordic_rotates MOD g e c i o t : MOD = 1 \/ MOD = 0 \/ MOD = -1 -> cordic MOD 0 g e c i o -> (t < c)%nat ->
  let s := (val 16 (part 16 g), val 16 g, s16 (val 16 e)) in
  (forall k, (k < Nat.min t 15)%nat -> let '(x, y, z) := rotations MOD k s in 0 <= x < 2 ^ 15 /\ 0 <= y < 2 ^ 15 /\ - 2 ^ 15 <= z < 2 ^ 15) ->
  let '(x, y, z) := rotations MOD (Nat.min t 15) s in
  snd (o t) = (15 <=? t)%nat /\ val 16 (part 32 (fst (o t))) = x mod 2 ^ 16 /\ val 16 (part 16 (fst (o t))) = y mod 2 ^ 16 /\ val 16 (fst (o t)) = z mod 2 ^ 16.
Proof.
  intros HM C Ht s IN. destruct (run_vals MOD 0 g e c i o t C Ht) as (T & V).
  assert (W : (val 16 (part 16 g), val 16 g, val 16 e) = wrap s).
  { unfold s, wrap, s16. pose proof (val_bound 16 e) as B. pose proof (val_bound 16 g) as B1. pose proof (val_bound 16 (part 16 g)) as B2. change (Z.of_nat 16) with 16 in *. rewrite (Z.mod_small (val 16 g)), (Z.mod_small (val 16 (part 16 g))) by assumption. f_equal.
    destruct (val 16 e <? 2 ^ 15); [symmetry; apply Z.mod_small; exact B|]. replace (val 16 e - 2 ^ 16) with (val 16 e + (-1) * 2 ^ 16) by ring. rewrite Z.mod_add by lia. symmetry. apply Z.mod_small; exact B. }
  rewrite W in V. assert (R : forall k, (k <= Nat.min t 15)%nat -> turns MOD 0 k (wrap s) = wrap (rotations MOD k s)).
  { induction k as [|k IH]; intros Hk; [reflexivity|]. cbn [turns rotations]. rewrite IH by lia. apply turn_rotation; [exact HM|]. specialize (IN k ltac:(lia)). unfold inside. destruct (rotations MOD k s) as ((x, y), z). exact IN. }
  rewrite (R _ (le_n _)) in V. destruct (rotations MOD (Nat.min t 15) s) as ((x, y), z). cbn [wrap] in V. injection V as V1 V2 V3. auto.
Qed.

(** The cosine and the sine of the angles from 1258 / 2^14 to 24477 / 2^14 (4.4 to 85.6 degrees) *)
Fixpoint fine (n k : nat) (s : Z * Z * Z) : bool :=
  let '(x, y, z) := s in
  match n with
  | O => (Z.abs (x * x + y * y - 268435456) <=? 148044) && (Z.abs z <=? 1) && (0 <=? x) && (x <? 65536) && (0 <=? y) && (y <? 65536)
  | S m => (0 <=? x) && (x <? 32768) && (0 <=? y) && (y <? 32768) && (-32768 <=? z) && (z <? 32768) && fine m (S k) (rotation 1 k s)
  end.
(** All angles from lo to hi at once: what is done depends on signs only. *)
Fixpoint all_between (n k : nat) (x y lo hi : Z) : bool :=
  (hi <? lo) ||
  match n with
  | O => (Z.abs (x * x + y * y - 268435456) <=? 148044) && (-1 <=? lo) && (hi <=? 1) && (0 <=? x) && (x <? 65536) && (0 <=? y) && (y <? 65536)
  | S m => (0 <=? x) && (x <? 32768) && (0 <=? y) && (y <? 32768) && (-32768 <=? lo) && (hi <? 32768) &&
      let p := 2 ^ Z.of_nat k in let a := alpha 1 k in
      all_between m (S k) (x - y / p) (y + x / p) (Z.max lo 0 - a) (hi - a) && all_between m (S k) (x + y / p) (y - x / p) (lo + a) (Z.min hi (-1) + a)
  end.
Lemma all_between_ok n : forall k x y lo hi z, all_between n k x y lo hi = true -> lo <= z <= hi -> fine n k (x, y, z) = true.
Proof.
  induction n as [|n IH]; intros k x y lo hi z H Hz; cbn [all_between] in H; apply orb_prop in H; (destruct H as [H|H]; [apply Z.ltb_lt in H; lia|]); cbv zeta in H; cbn [fine].
  - rewrite !andb_true_iff, !Z.leb_le, !Z.ltb_lt in *. repeat split; try lia; tauto.
  - rewrite !andb_true_iff, !Z.leb_le, !Z.ltb_lt in *. destruct H as (B & H1 & H2). split; [repeat split; lia|]. unfold rotation. destruct (Z.ltb_spec z 0) as [N|N].
    + replace (x - 1 * -1 * (y / 2 ^ Z.of_nat k)) with (x + y / 2 ^ Z.of_nat k) by ring. replace (y + -1 * (x / 2 ^ Z.of_nat k)) with (y - x / 2 ^ Z.of_nat k) by ring. replace (z - -1 * alpha 1 k) with (z + alpha 1 k) by ring. apply (IH _ _ _ _ _ _ H2). lia.
    + replace (x - 1 * 1 * (y / 2 ^ Z.of_nat k)) with (x - y / 2 ^ Z.of_nat k) by ring. replace (y + 1 * (x / 2 ^ Z.of_nat k)) with (y + x / 2 ^ Z.of_nat k) by ring. replace (z - 1 * alpha 1 k) with (z - alpha 1 k) by ring. apply (IH _ _ _ _ _ _ H1). lia.
Qed.
Lemma all_fine : all_between 15 0 9949 0 1258 24477 = true.
Proof. vm_compute. reflexivity. Qed.
Lemma fine_ok n : forall k s, fine n k (rotations 1 k s) = true ->
  (forall j, (k <= j < k + n)%nat -> let '(x, y, z) := rotations 1 j s in 0 <= x < 2 ^ 15 /\ 0 <= y < 2 ^ 15 /\ - 2 ^ 15 <= z < 2 ^ 15) /\
  let '(x, y, z) := rotations 1 (k + n) s in Z.abs (x * x + y * y - 2 ^ 28) <= 148044 /\ Z.abs z <= 1 /\ 0 <= x < 2 ^ 16 /\ 0 <= y < 2 ^ 16.
Proof.
  induction n as [|n IH]; intros k s H.
  - split; [intros; lia|]. rewrite Nat.add_0_r. destruct (rotations 1 k s) as ((x, y), z). cbn [fine] in H. rewrite !andb_true_iff, !Z.leb_le, !Z.ltb_lt in H. change (2 ^ 28) with 268435456. change (2 ^ 16) with 65536. tauto.
  - cbn [fine] in H. specialize (IH (S k) s). cbn [rotations] in IH. destruct (rotations 1 k s) as ((x, y), z) eqn:R. rewrite !andb_true_iff, !Z.leb_le, !Z.ltb_lt in H. destruct H as (B & H).
    destruct (IH H) as (J & F). rewrite <- plus_n_Sm. split; [|exact F]. intros j Hj. destruct (Nat.eq_dec j k) as [->|D]; [rewrite R; change (2 ^ 15) with 32768; change (- (32768)) with (-32768); tauto|]. apply J. lia.
Qed.
Theorem cordic_unit g e c i o t : cordic 1 0 g e c i o -> (15 <= t < c)%nat ->
  val 16 (part 16 g) = 9949 -> val 16 g = 0 -> 1258 <= val 16 e <= 24477 ->
  let x := val 16 (part 32 (fst (o t))) in let y := val 16 (part 16 (fst (o t))) in
  snd (o t) = true /\ (x, y) = fst (rotations 1 15 (9949, 0, val 16 e)) /\ Z.abs (x * x + y * y - 2 ^ 28) <= 148044 /\ Z.abs (s16 (val 16 (fst (o t)))) <= 1.
Proof.
  intros C Ht HX HY HE. pose proof (all_between_ok _ _ _ _ _ _ (val 16 e) all_fine HE) as F. apply (fine_ok 15 0 (9949, 0, val 16 e)) in F. cbn [Nat.add] in F. destruct F as (J & F).
  pose proof (cordic_rotates 1 g e c i o t (or_introl eq_refl) C ltac:(lia)) as R. cbv zeta in R. rewrite HX, HY in R. replace (Nat.min t 15) with 15%nat in R by lia.
  replace (s16 (val 16 e)) with (val 16 e) in R by (unfold s16; destruct (Z.ltb_spec (val 16 e) (2 ^ 15)); [reflexivity|lia]).
  specialize (R (fun k Hk => J k (conj (Nat.le_0_l k) Hk))). destruct (rotations 1 15 (9949, 0, val 16 e)) as ((x, y), z). destruct R as (T & X & Y & Z). destruct F as (F1 & F2 & F3 & F4). rewrite T, X, Y, Z. rewrite (Z.mod_small x), (Z.mod_small y) by assumption.
  split; [apply Nat.leb_le; lia|]. split; [reflexivity|]. split; [exact F1|].
  assert (C3 : z = -1 \/ z = 0 \/ z = 1) by lia. destruct C3 as [->|[->| ->]]; vm_compute; discriminate.
Qed.
(** ** Multiplication *)
Lemma alpha_lin k : (k < 15)%nat -> alpha 0 k = 2 ^ (14 - Z.of_nat k).
Proof. intros H. do 15 (destruct k as [|k]; [reflexivity|]). lia. Qed.
Lemma turns_lin x y z k : 0 <= x < 2 ^ 15 -> 0 <= y < 2 ^ 16 -> 0 <= z < 2 ^ 16 -> (k <= 15)%nat ->
  exists Y zk, turns 0 0 k (x, y, z) = (x, Y mod 2 ^ 16, zk mod 2 ^ 16) /\ Z.abs zk <= 2 ^ (15 - Z.of_nat k) /\ - 2 ^ 15 <= zk < 2 ^ 15 /\
    Z.abs (2 ^ 14 * (Y - y) - x * (s16 z - zk)) <= Z.of_nat k * 2 ^ 14.
Proof.
  intros HX HY HZ. induction k as [|k IH]; intros Hk.
  - exists y, (s16 z). cbn [turns]. unfold s16. destruct (Z.ltb_spec z (2 ^ 15)).
    + rewrite !Z.mod_small by lia. repeat split; lia.
    + split; [|repeat split; lia]. rewrite (Z.mod_small y) by lia. f_equal. replace (z - 2 ^ 16) with (z + (-1) * 2 ^ 16) by ring. rewrite Z.mod_add by lia. symmetry. apply Z.mod_small. lia.
  - destruct (IH ltac:(lia)) as (Y & zk & TV & ZB & ZR & EB). cbn [turns]. rewrite TV. unfold turn. change (0 =? 0) with true. change (0 =? -1) with false. cbv beta iota zeta.
    assert (D : (2 ^ 15 <=? zk mod 2 ^ 16) = (zk <? 0)).
    { destruct (Z.ltb_spec zk 0) as [N|N].
      - rewrite <- (Z.mod_add zk 1 (2 ^ 16)) by lia. rewrite Z.mod_small by lia. apply Z.leb_le. lia.
      - rewrite Z.mod_small by lia. apply Z.leb_gt. lia. }
    rewrite D, alpha_lin by lia. set (q := x / 2 ^ Z.of_nat k). set (a := 2 ^ (14 - Z.of_nat k)).
    assert (P : 2 ^ (15 - Z.of_nat k) = 2 * a) by (unfold a; rewrite <- Z.pow_succ_r by lia; f_equal; lia).
    assert (P1 : 2 ^ (15 - Z.of_nat (S k)) = a) by (unfold a; f_equal; lia). assert (A0 : 0 < a) by (apply Z.pow_pos_nonneg; lia).
    assert (P2 : 2 ^ Z.of_nat k * a = 2 ^ 14) by (unfold a; rewrite <- Z.pow_add_r by lia; f_equal; lia).
    assert (AL : a <= 2 ^ 14) by (apply Z.pow_le_mono_r; lia).
    assert (Q : - 2 ^ 14 <= 2 ^ 14 * q - x * a <= 0).
    { assert (K0 : 0 < 2 ^ Z.of_nat k) by (apply Z.pow_pos_nonneg; lia). pose proof (Z.mul_div_le x _ K0) as Q1. pose proof (Z.mul_succ_div_gt x _ K0) as Q2. fold q in Q1, Q2. rewrite <- P2. nia. }
    exists (if zk <? 0 then Y - q else Y + q), (if zk <? 0 then zk + a else zk - a). rewrite P1. rewrite P in ZB.
    split. { apply three; [rewrite Z.add_0_r; apply Z.mod_small; lia| |]; rewrite Zplus_mod_idemp_l; f_equal; destruct (zk <? 0); ring. }
    rewrite Nat2Z.inj_succ. destruct (Z.ltb_spec zk 0); (split; [lia|]); (split; [lia|]); nia.
Qed.
Theorem cordic_multiplies g e c i o t : cordic 0 0 g e c i o -> (15 <= t < c)%nat -> let x := val 16 (part 16 g) in x < 2 ^ 15 ->
  snd (o t) = true /\ val 16 (part 32 (fst (o t))) = x /\
  exists Y, val 16 (part 16 (fst (o t))) = Y mod 2 ^ 16 /\ Z.abs (2 ^ 14 * (Y - val 16 g) - x * s16 (val 16 e)) <= 15 * 2 ^ 14 + x.
Proof.
  intros C Ht x HX. destruct (run_vals 0 0 g e c i o t C ltac:(lia)) as (T & V). replace (Nat.min t 15) with 15%nat in V by lia.
  destruct (turns_lin x (val 16 g) (val 16 e) 15 (conj (proj1 (val_bound 16 _)) HX) (val_bound 16 g) (val_bound 16 e) (le_n _)) as (Y & z & TV & ZB & _ & EB). unfold x in TV. rewrite TV in V. injection V as V1 V2 V3.
  split; [rewrite T; apply Nat.leb_le; lia|]. split; [exact V1|]. exists Y. split; [exact V2|]. fold x in EB. change (15 - Z.of_nat 15) with 0 in ZB. change (Z.of_nat 15) with 15 in EB. assert (0 <= x) by apply (val_bound 16). nia.
Qed.
(** ** Where it goes wrong *)
Definition answer (o : vec) : Z * Z * Z := (s16 (val 16 (part 32 o)), s16 (val 16 (part 16 o)), s16 (val 16 o)).
Definition of_xy (x y : Z) : vec := cat (of_val x) 16 (of_val y).
Lemma of_xy_x x y : val 16 (part 16 (of_xy x y)) = x mod 2 ^ 16.
Proof.
  change (2 ^ 16) with (2 ^ Z.of_nat 16). rewrite <- (val_of_val 16 x). apply val_ext. intros b Hb. unfold part, of_xy, cat. replace (16 + b <? 16)%nat with false by (symmetry; apply Nat.ltb_ge; lia). f_equal. lia.
Qed.
Lemma of_xy_y x y : val 16 (of_xy x y) = y mod 2 ^ 16.
Proof. change (2 ^ 16) with (2 ^ Z.of_nat 16). rewrite <- (val_of_val 16 y). apply val_ext. intros b Hb. unfold of_xy, cat. replace (b <? 16)%nat with true by (symmetry; apply Nat.ltb_lt; lia). reflexivity. Qed.
Lemma run_answer MOD DIR x y z c i o t : cordic MOD DIR (of_xy x y) (of_val z) c i o -> (15 <= t < c)%nat ->
  answer (fst (o t)) = let '(a, b, d) := turns MOD DIR 15 (x mod 2 ^ 16, y mod 2 ^ 16, z mod 2 ^ 16) in (s16 a, s16 b, s16 d).
Proof.
  intros C Ht. destruct (run_vals MOD DIR _ _ c i o t C ltac:(lia)) as (_ & V). replace (Nat.min t 15) with 15%nat in V by lia. rewrite of_xy_x, of_xy_y, val_of_val in V. change (2 ^ Z.of_nat 16) with (2 ^ 16) in V. rewrite <- V. reflexivity.
Qed.
(** The angle 0: the cosine should be 16384, the sine 0. *)
Theorem zero_wrong c i o t : cordic 1 0 (of_xy 9949 0) (of_val 0) c i o -> (15 <= t < c)%nat -> fst (fst (answer (fst (o t)))) < 11300.
Proof. intros C Ht. rewrite (run_answer _ _ _ _ _ _ _ _ _ C Ht). vm_compute. reflexivity. Qed.
(** -1 times 1/2 should be -8192. *)
Theorem sign_wrong c i o t : cordic 0 0 (of_xy (-16384) 0) (of_val 8192) c i o -> (15 <= t < c)%nat -> snd (fst (answer (fst (o t)))) = 24579.
Proof. intros C Ht. rewrite (run_answer _ _ _ _ _ _ _ _ _ C Ht). vm_compute. reflexivity. Qed.
(** Vectoring should bring y to 0 and z to 1/2, that is 8192. *)
Theorem vector_wrong c i o t : cordic 0 1 (of_xy 16384 8192) (of_val 0) c i o -> (15 <= t < c)%nat -> answer (fst (o t)) = (16384, -24577, -32767).
Proof. intros C Ht. rewrite (run_answer _ _ _ _ _ _ _ _ _ C Ht). vm_compute. reflexivity. Qed.
(** The hyperbolic cosine and sine of every angle not negative come out equal. *)
Theorem hyperbolic_wrong g e c i o t : cordic (-1) 0 g e c i o -> (1 <= t < c)%nat -> val 16 e < 2 ^ 15 -> val 16 (part 32 (fst (o t))) = val 16 (part 16 (fst (o t))).
Proof.
  intros C Ht HE. destruct (run_vals (-1) 0 g e c i o t C ltac:(lia)) as (_ & V).
  assert (H : forall k, let '(a, b, _) := turns (-1) 0 (S k) (val 16 (part 16 g), val 16 g, val 16 e) in a = b).
  { induction k as [|k IH].
    - cbn [turns]. unfold turn. change (0 =? 0) with true. change (-1 =? -1) with true. cbv beta iota zeta. replace (2 ^ 15 <=? val 16 e) with false by (symmetry; apply Z.leb_gt; exact HE). change (2 ^ Z.of_nat 0) with 1. rewrite !Z.div_1_r, Z.add_comm. reflexivity.
    - change (turns (-1) 0 (S (S k)) (val 16 (part 16 g), val 16 g, val 16 e)) with (turn (-1) 0 (S k) (turns (-1) 0 (S k) (val 16 (part 16 g), val 16 g, val 16 e))).
      destruct (turns (-1) 0 (S k) (val 16 (part 16 g), val 16 g, val 16 e)) as ((a, b), d). subst b. unfold turn. change (0 =? 0) with true. change (-1 =? -1) with true. cbv beta iota zeta. reflexivity. }
  destruct (Nat.min t 15) as [|k] eqn:M; [lia|]. specialize (H k). destruct (turns (-1) 0 (S k) (val 16 (part 16 g), val 16 g, val 16 e)) as ((a, b), d). injection V as -> -> _. exact H.
Qed.
(** ** The equations have a solution. *)
Theorem cordic_total MOD DIR g e c i : exists o, cordic MOD DIR g e c i o.
Proof.
  apply clocked_total.
  - exists (part 16 g, g, e, 0%nat). repeat split; intros b Hb; reflexivity.
  - intros u (((x, y), z), k). destruct (SHIFT_LEFT_total 16 4 x (of_val (Z.of_nat k))) as (xs & SX). destruct (SHIFT_LEFT_total 16 4 y (of_val (Z.of_nat k))) as (ys & SY).
    set (d := if DIR =? 0 then z 15%nat else x 15%nat && y 15%nat). set (al := of_val (alpha MOD k) : vec).
    set (xd := if MOD =? -1 then (if d then neg ys else ys) else if MOD =? 0 then rep false else if d then ys else neg ys). set (yd := if d then neg xs else xs). set (zd := if d then al else neg al).
    destruct (ADD_total 16 16 x xd false) as (c1 & xn & AX). destruct (ADD_total 16 16 y yd false) as (c2 & yn & AY). destruct (ADD_total 16 16 z zd false) as (c3 & zn & AZ).
    exists (cat x 32 (cat y 16 z), (k =? 15)%nat). exists (if (k <? 15)%nat then (xn, yn, zn, S k) else (x, y, z, k)).
    unfold cordic_step. destruct (Nat.ltb_spec k 15); exists xs, ys, xd, yd, zd, xn, yn, zn, c1, c2, c3; fold al; fold d; repeat (split; [first [exact SX|exact SY|exact AX|exact AY|exact AZ|intros b Hb; reflexivity|(split; [intros b Hb; reflexivity|]; split; [intros b Hb; reflexivity|]; split; [intros b Hb; reflexivity|reflexivity])]|]); reflexivity.
Qed.
(** 45 degrees: the cosine and the sine are 11585 / 2^14 up to rounding. *)
Example rotation_case : exists o, cordic 1 0 (of_xy 9949 0) (of_val 12868) 16 (fun _ => tt) o /\ let '(x, y, z) := answer (fst (o 15%nat)) in Z.abs (x - 11585) <= 11 /\ Z.abs (y - 11585) <= 11 /\ snd (o 15%nat) = true.
Proof.
  destruct (cordic_total 1 0 (of_xy 9949 0) (of_val 12868) 16 (fun _ => tt)) as (o & C). exists o. split; [exact C|]. rewrite (run_answer _ _ _ _ _ _ _ _ 15 C ltac:(lia)). destruct (run_vals _ _ _ _ _ _ _ 15 C ltac:(lia)) as (T & _). rewrite T. vm_compute. repeat split; discriminate.
Qed.
(** 0.75 times -0.5 plus 0.25 *)
Example multiply_case : exists o, cordic 0 0 (of_xy 12288 4096) (of_val (-8192)) 16 (fun _ => tt) o /\ let '(x, y, z) := answer (fst (o 15%nat)) in x = 12288 /\ Z.abs (y - -2048) <= 15.
Proof.
  destruct (cordic_total 0 0 (of_xy 12288 4096) (of_val (-8192)) 16 (fun _ => tt)) as (o & C). exists o. split; [exact C|]. rewrite (run_answer _ _ _ _ _ _ _ _ 15 C ltac:(lia)). vm_compute. repeat split; discriminate.
Qed.
