(** What a half-gate table shows: the hash inputs of a run never repeat for one
    label, and a table is a one-time pad encryption under the two hash values the
    evaluator cannot compute. *)
From Coq Require Import ZArith NArith List Bool Lia.
From Verif Require Import Base Gate.
Import ListNotations.
Open Scope N_scope.

(** The tweak used for the first or second input of gate [gid] in cycle [cid]. *)
Definition tweak (second : bool) (cid gid : N) : block := if second then tweak1 cid gid else tweak0 cid gid.
(** The four blocks that are encrypted for a gate. *)
Definition points (in0 in1 : BlockPair) (cid gid : N) : list block :=
  [XorBlock (fst in0) (tweak false cid gid); XorBlock (snd in0) (tweak false cid gid);
   XorBlock (fst in1) (tweak true cid gid); XorBlock (snd in1) (tweak true cid gid)].

Lemma tweak_inj h cid g h' cid' g' : cid < 2 ^ 64 -> cid' < 2 ^ 64 -> g < 2 ^ 63 -> g' < 2 ^ 63 ->
  tweak h cid g = tweak h' cid' g' -> h = h' /\ cid = cid' /\ g = g'.
Proof.
  unfold tweak, tweak0, tweak1, MakeBlock. change (2 ^ 63) with 9223372036854775808. change (2 ^ 64) with 18446744073709551616.
  destruct h, h'; intros; (split; [try reflexivity; lia|lia]).
Qed.
Theorem tweaks_distinct x h cid g h' cid' g' : cid < 2 ^ 64 -> cid' < 2 ^ 64 -> g < 2 ^ 63 -> g' < 2 ^ 63 ->
  XorBlock x (tweak h cid g) = XorBlock x (tweak h' cid' g') -> h = h' /\ cid = cid' /\ g = g'.
Proof.
  intros A B C D E. apply (tweak_inj h cid g h' cid' g'); auto.
  rewrite <- (N.lxor_0_l (tweak h cid g)), <- (N.lxor_nilpotent x), N.lxor_assoc. unfold XorBlock in E. rewrite E.
  rewrite <- N.lxor_assoc, N.lxor_nilpotent, N.lxor_0_l. reflexivity.
Qed.

(** Garbling depends on the cipher only through these four blocks. *)
Theorem garbling_points aes aes' in0 in1 t cid gid R :
  (forall p, In p (points in0 in1 cid gid) -> aes p = aes' p) ->
  HalfGates aes in0 in1 t cid gid R = HalfGates aes' in0 in1 t cid gid R.
Proof.
  intros H. unfold HalfGates, hash. destruct (Type2V t) as [[v0 v1] v2].
  assert (P : forall p, In p (points in0 in1 cid gid) -> aes p = aes' p) by exact H. unfold points, tweak in P. cbn in P.
  destruct v0, v1; rewrite !P by auto; reflexivity.
Qed.

(** The cipher with the values at two blocks replaced. *)
Definition with_two (aes : block -> block) (p u q v : block) (x : block) : block :=
  if x =? p then u else if x =? q then v else aes x.

Lemma lxor_solve a b c : N.lxor a b = c <-> b = N.lxor c a.
Proof.
  split; [intros <-|intros ->].
  - rewrite (N.lxor_comm a b), N.lxor_assoc, N.lxor_nilpotent, N.lxor_0_r. reflexivity.
  - rewrite (N.lxor_comm a), N.lxor_assoc, N.lxor_nilpotent, N.lxor_0_r. reflexivity.
Qed.

(** Whatever labels [A], [B] the evaluator holds and whatever they stand for
    ([a], [b]), every table occurs for exactly one pair of values of the cipher at
    the two blocks it does not know. *)
Theorem table_hides aes in0 in1 t cid gid R (a b : bool) T :
  NoDup (points in0 in1 cid gid) ->
  let p := XorBlock (if a then fst in0 else snd in0) (tweak false cid gid) in
  let q := XorBlock (if b then fst in1 else snd in1) (tweak true cid gid) in
  exists! uv, snd (HalfGates (with_two aes p (fst uv) q (snd uv)) in0 in1 t cid gid R) = T.
Proof.
  intros ND p q. destruct T as [T0 T1]. unfold points in ND.
  repeat match goal with H : NoDup (_ :: _) |- _ => inversion H; clear H; subst end. cbn in *.
  set (a0 := XorBlock (fst in0) (tweak0 cid gid)) in *. set (a1 := XorBlock (snd in0) (tweak0 cid gid)) in *.
  set (b0 := XorBlock (fst in1) (tweak1 cid gid)) in *. set (b1 := XorBlock (snd in1) (tweak1 cid gid)) in *.
  assert (N1 : a0 <> a1) by (intros EQ; symmetry in EQ; tauto). assert (N2 : a0 <> b0) by (intros EQ; symmetry in EQ; tauto). assert (N3 : a0 <> b1) by (intros EQ; symmetry in EQ; tauto).
  assert (N4 : a1 <> b0) by (intros EQ; symmetry in EQ; tauto). assert (N5 : a1 <> b1) by (intros EQ; symmetry in EQ; tauto). assert (N6 : b0 <> b1) by (intros EQ; symmetry in EQ; tauto).
  destruct (Type2V t) as [[v0 v1] v2] eqn:TV.
  set (lab := if v0 then snd in0 else fst in0). set (pb := get_LSB (if v1 then snd in1 else fst in1)).
  (* the hash at the known blocks *)
  set (ka := if a then XorBlock a1 (aes a1) else XorBlock a0 (aes a0)).
  set (kb := if b then XorBlock b1 (aes b1) else XorBlock b0 (aes b0)).
  assert (ROW : forall u v, snd (HalfGates (with_two aes p u q v) in0 in1 t cid gid R) =
    (XorBlock (XorBlock (XorBlock ka p) (if pb then R else 0)) u, XorBlock (XorBlock (XorBlock kb q) lab) v)).
  { intros u v. unfold HalfGates, hash. rewrite TV.
    assert (W : forall z, with_two aes p u q v z = if z =? p then u else if z =? q then v else aes z) by reflexivity.
    assert (E : (with_two aes p u q v a0 = if a then u else aes a0) /\ (with_two aes p u q v a1 = if a then aes a1 else u) /\
                (with_two aes p u q v b0 = if b then v else aes b0) /\ (with_two aes p u q v b1 = if b then aes b1 else v)).
    { unfold p, q, tweak. rewrite !W. unfold p, q, tweak. destruct a, b; fold a0 a1 b0 b1;
      repeat match goal with |- context [N.eqb ?x ?y] => destruct (N.eqb_spec x y); try congruence end; auto. }
    destruct E as (E0 & E1 & E2 & E3). subst lab pb ka kb.
    fold a0 a1 b0 b1. destruct v0, v1, v2; cbn [fst snd];
    repeat match goal with |- context [if get_LSB ?x then _ else _] => destruct (get_LSB x) end; cbn [fst snd];
    fold a0 a1 b0 b1; rewrite E0, E1, E2, E3; subst p q; unfold tweak; destruct a, b; fold a0 a1 b0 b1; unfold XorBlock; f_equal; apply N.bits_inj; intros i; rewrite ?N.lxor_spec, ?N.bits_0;
    repeat match goal with |- context [N.testbit ?x i] => destruct (N.testbit x i) end; reflexivity. }
  exists (N.lxor T0 (XorBlock (XorBlock ka p) (if pb then R else 0)), N.lxor T1 (XorBlock (XorBlock kb q) lab)).
  split.
  - cbn [fst snd]. rewrite ROW. f_equal; apply lxor_solve; reflexivity.
  - intros [u v] E. cbn [fst snd] in E. rewrite ROW in E. injection E as E1 E2.
    f_equal; symmetry; apply lxor_solve; assumption.
Qed.
