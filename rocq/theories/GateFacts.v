(** Facts about single gates: half-gate correctness, and the symbolic gate used
    to relate garbler, evaluator and plaintext. *)
From Coq Require Import ZArith NArith List Bool Lia.
From Verif Require Import Base Gate Circuit Spec.
Import ListNotations.
Open Scope Z_scope.

(** Decide equations between xors of blocks. *)
Ltac xsolve :=
  unfold XorBlock, ZeroBlock; apply N.bits_inj; let m := fresh "m" in intros m;
  rewrite ?N.lxor_spec, ?N.bits_0;
  repeat match goal with |- context [N.testbit ?x m] => destruct (N.testbit x m) end;
  reflexivity.

(** * Gate types *)
Definition valid_type (t : Z) : Prop :=
  t = 8 \/ t = 4 \/ t = 7 \/ t = 11 \/ t = 14 \/ t = 13 \/ t = 1 \/ t = 2 \/
  t = 6 \/ t = 9 \/ t = 12.
Definition nonlinear (t : Z) : Prop :=
  t = 8 \/ t = 4 \/ t = 7 \/ t = 11 \/ t = 14 \/ t = 13 \/ t = 1 \/ t = 2.

Lemma bool_fun_valid t f : bool_fun t = Some f -> valid_type t.
Proof.
  unfold valid_type, bool_fun. intros H.
  destruct t as [|p|p]; try discriminate.
  do 5 (try (destruct p as [p|p|]; try discriminate H; try lia)).
Qed.

Lemma GateOperator_spec t f a b : bool_fun t = Some f -> GateOperator t a b = f a b.
Proof.
  intros H. destruct (bool_fun_valid _ _ H) as [->|[->|[->|[->|[->|[->|[->|[->|[->|[->| ->]]]]]]]]]];
    inv H; destruct a, b; reflexivity.
Qed.

Lemma valid_linear_or t : valid_type t -> nonlinear t \/ t = XORGATE \/ t = XNORGATE \/ t = NOTGATE.
Proof. unfold valid_type, nonlinear, XORGATE, XNORGATE, NOTGATE. tauto. Qed.

Lemma nonlinear_is_nonxor g : nonlinear (type g) -> is_nonxor g = true.
Proof.
  unfold nonlinear, is_nonxor. intros [->|[->|[->|[->|[->|[->|[->| ->]]]]]]]; reflexivity.
Qed.

(** * Half gates *)
Definition mulb (b : bool) (R : block) : block := if b then R else 0%N.

Lemma get_LSB_xor a b : get_LSB (XorBlock a b) = xorb (get_LSB a) (get_LSB b).
Proof. apply N.lxor_spec. Qed.

Lemma half_gates_correct aes t cid gid R A B va vb out T :
  nonlinear t -> get_LSB R = true ->
  HalfGates aes (A, XorBlock A R) (B, XorBlock B R) t cid gid R = (out, T) ->
  EvalHalfGates aes (XorBlock A (mulb va R)) (XorBlock B (mulb vb R)) T cid gid
  = XorBlock (fst out) (mulb (GateOperator t va vb) R)
  /\ snd out = XorBlock (fst out) R.
Proof.
  intros Ht HR H. unfold HalfGates in H.
  destruct (Type2V t) as [[v0 v1] v2] eqn:EV. inv H.
  assert (G : GateOperator t va vb = xorb (andb (xorb va v0) (xorb vb v1)) v2).
  { unfold nonlinear in Ht.
    destruct Ht as [->|[->|[->|[->|[->|[->|[->| ->]]]]]]];
      cbv in EV; inv EV; destruct va, vb; reflexivity. }
  rewrite G. clear G EV Ht.
  assert (HX : forall X, get_LSB (XorBlock X R) = negb (get_LSB X)).
  { intros X. rewrite get_LSB_xor, HR. destruct (get_LSB X); auto. }
  assert (H0 : forall X, XorBlock X 0%N = X) by (intros; apply N.lxor_0_r).
  unfold EvalHalfGates. cbn [fst snd]. unfold mulb.
  split.
  - destruct v0, v1, va, vb; cbn [fst snd]; rewrite ?H0, ?HX;
      destruct (get_LSB A), (get_LSB B); cbn [negb xorb andb];
      destruct v2; cbn [negb xorb andb fst snd];
      repeat match goal with |- context [hash aes ?x ?y] =>
         let h := fresh "h" in set (h := hash aes x y); clearbody h end; xsolve.
  - destruct v2; cbn [fst snd].
    + match goal with |- ?x = XorBlock (XorBlock R ?y) R => generalize y end. intros; xsolve.
    + match goal with |- XorBlock R ?x = _ => generalize x end. intros; xsolve.
Qed.

(** * Symbolic labels: a set of atoms (bit mask) and an inversion bit *)
Definition slab := (N * bool)%type.

Fixpoint xsum (f : nat -> N) (n : nat) (s : N) : N :=
  match n with
  | O => 0%N
  | S m => N.lxor (if N.testbit s (N.of_nat m) then f m else 0%N) (xsum f m s)
  end.

Definition below (n : nat) (s : N) : Prop :=
  forall a, (n <= a)%nat -> N.testbit s (N.of_nat a) = false.

Definition fupd {A} (f : nat -> A) (n : nat) (v : A) : nat -> A :=
  fun a => if Nat.eqb a n then v else f a.

Lemma fupd_same {A} (f : nat -> A) n v : fupd f n v n = v.
Proof. unfold fupd; now rewrite Nat.eqb_refl. Qed.
Lemma fupd_other {A} (f : nat -> A) n v a : a <> n -> fupd f n v a = f a.
Proof. unfold fupd. destruct (Nat.eqb_spec a n); congruence. Qed.

Lemma xsum_ext f g n s : (forall a, (a < n)%nat -> f a = g a) -> xsum f n s = xsum g n s.
Proof. induction n; simpl; intros H; auto. rewrite IHn, (H n) by (auto; lia). auto. Qed.

Lemma xsum_lxor f n s t : xsum f n (N.lxor s t) = N.lxor (xsum f n s) (xsum f n t).
Proof.
  induction n; simpl; auto. rewrite IHn, N.lxor_spec.
  generalize (xsum f n s) (xsum f n t). intros.
  destruct (N.testbit s (N.of_nat n)), (N.testbit t (N.of_nat n)); simpl; xsolve.
Qed.

Lemma xsum_grow f n m s : below n s -> (n <= m)%nat -> xsum f m s = xsum f n s.
Proof.
  intros B. induction m; intros H.
  - assert (n = 0)%nat by lia. now subst.
  - destruct (Nat.eq_dec n (S m)); [now subst|].
    simpl. rewrite (B m) by lia. rewrite IHm by lia. apply N.lxor_0_l.
Qed.

Definition atom (k : nat) : N := (2 ^ N.of_nat k)%N.

Lemma atom_testbit k a : N.testbit (atom k) (N.of_nat a) = Nat.eqb a k.
Proof.
  unfold atom. rewrite N.pow2_bits_eqb.
  destruct (N.eqb_spec (N.of_nat k) (N.of_nat a)), (Nat.eqb_spec a k); auto; lia.
Qed.

Lemma xsum_atom_out f n k : (n <= k)%nat -> xsum f n (atom k) = 0%N.
Proof.
  induction n; simpl; auto. intros H. rewrite atom_testbit.
  destruct (Nat.eqb_spec n k); [lia|]. rewrite IHn by lia. reflexivity.
Qed.

Lemma xsum_atom f n k : (k < n)%nat -> xsum f n (atom k) = f k.
Proof.
  induction n; [lia|]. intros H. simpl. rewrite atom_testbit.
  destruct (Nat.eqb_spec n k).
  - subst. rewrite xsum_atom_out by lia. apply N.lxor_0_r.
  - rewrite IHn by lia. apply N.lxor_0_l.
Qed.

Lemma below_atom n k : (k < n)%nat -> below n (atom k).
Proof. intros H a Ha. rewrite atom_testbit. apply Nat.eqb_neq. lia. Qed.
Lemma below_lxor n s t : below n s -> below n t -> below n (N.lxor s t).
Proof. intros H1 H2 a Ha. rewrite N.lxor_spec, H1, H2; auto. Qed.
Lemma below_mono n m s : below n s -> (n <= m)%nat -> below m s.
Proof. intros H ? a Ha. apply H; lia. Qed.

(** [x] is the interpretation of symbolic label [l] when atom [a] is interpreted
    by [f a] and inversion adds [r]. *)
Definition relX (r : N) (f : nat -> N) (n : nat) (l : slab) (x : N) : Prop :=
  below n (fst l) /\ x = N.lxor (xsum f n (fst l)) (mulb (snd l) r).

Lemma relX_mono r f f' n n' l x :
  relX r f n l x -> (n <= n')%nat -> (forall a, (a < n)%nat -> f' a = f a) -> relX r f' n' l x.
Proof.
  intros [B E] H HF. split; [eapply below_mono; eauto|].
  rewrite (xsum_grow _ _ _ _ B H), (xsum_ext f' f); auto.
Qed.

Lemma relX_same r f n s i j x y :
  relX r f n (s, i) x -> relX r f n (s, j) y -> x = N.lxor y (mulb (xorb i j) r).
Proof.
  intros [_ ->] [_ ->]. simpl. generalize (xsum f n s). intros. destruct i, j; simpl; xsolve.
Qed.

Lemma relX_xor r f n s t i j x y :
  relX r f n (s, i) x -> relX r f n (t, j) y ->
  relX r f n (N.lxor s t, xorb i j) (N.lxor x y).
Proof.
  intros [B1 ->] [B2 ->]. split; [apply below_lxor; auto|]. simpl. rewrite xsum_lxor.
  generalize (xsum f n s) (xsum f n t). intros. destruct i, j; simpl; xsolve.
Qed.

Lemma relX_inv r f n s i x :
  relX r f n (s, i) x -> relX r f n (s, negb i) (N.lxor x r).
Proof.
  intros [B ->]. split; auto. simpl. generalize (xsum f n s); intros. destruct i; simpl; xsolve.
Qed.

Lemma relX_atom r f n v : relX r (fupd f n v) (S n) (atom n, false) v.
Proof.
  split; [apply below_atom; simpl; lia|]. simpl fst; simpl snd.
  rewrite xsum_atom by lia. rewrite fupd_same. simpl. symmetry. apply N.lxor_0_r.
Qed.

(** * The symbolic gate *)
Definition sym_gate (l0 : slab) (v0 : Z) (l1 : slab) (v1 : Z) (t : Z) (g : nat)
    (st : nat * list nat) : option (slab * Z * (nat * list nat)) :=
  let z : slab := (0%N, false) in
  if negb (IsSecret v0) && negb (IsSecret v1) then
    Some (z, b2z (GateOperator t (z2b v0) (z2b v1)), st)
  else if negb (IsSecret v0) then
    let (x0, x1) := half_x t true v0 in
    if Bool.eqb x0 x1 then Some (z, b2z x0, st)
    else if negb x0 && x1 then Some (l1, SECRET, st)
    else Some ((fst l1, negb (snd l1)), SECRET, st)
  else if negb (IsSecret v1) then
    let (x0, x1) := half_x t false v1 in
    if Bool.eqb x0 x1 then Some (z, b2z x0, st)
    else if negb x0 && x1 then Some (l0, SECRET, st)
    else Some ((fst l0, negb (snd l0)), SECRET, st)
  else if negb (t =? NOTGATE) && N.eqb (fst l0) (fst l1) && Bool.eqb (snd l0) (snd l1) then
    match equal_shortcut t with
    | Some (SConst z') => Some (z, z', st)
    | Some SCopy => Some (l0, SECRET, st)
    | Some SInv => Some ((fst l0, negb (snd l0)), SECRET, st)
    | None => Some (z, SECRET, st)
    end
  else if negb (t =? NOTGATE) && N.eqb (fst l0) (fst l1) then
    match inverted_shortcut t with
    | Some (SConst z') => Some (z, z', st)
    | Some SCopy => Some (l0, SECRET, st)
    | Some SInv => Some ((fst l0, negb (snd l0)), SECRET, st)
    | None => Some (z, SECRET, st)
    end
  else if t =? XORGATE then
    Some ((N.lxor (fst l0) (fst l1), xorb (snd l0) (snd l1)), SECRET, st)
  else if t =? XNORGATE then
    Some ((N.lxor (fst l0) (fst l1), negb (xorb (snd l0) (snd l1))), SECRET, st)
  else if t =? NOTGATE then Some ((fst l0, negb (snd l0)), SECRET, st)
  else Some ((atom (fst st), false), SECRET, (S (fst st), snd st ++ [g])).

(** Values used by the symbolic executor and the garbler. *)
Definition vok (v : Z) : Prop := v = -1 \/ v = 0 \/ v = 1.

(** Is gate evaluation going to create a fresh atom (= a table)? *)
Definition fresh_gate (l0 : slab) (v0 : Z) (l1 : slab) (v1 : Z) (t : Z) : Prop :=
  IsSecret v0 = true /\ IsSecret v1 = true /\ nonlinear t /\ fst l0 <> fst l1.

Lemma vok_secret v : vok v -> IsSecret v = true -> v = -1.
Proof. unfold vok, IsSecret. intros [->|[->| ->]]; simpl; auto; discriminate. Qed.
Lemma vok_public v : vok v -> IsSecret v = false -> v = b2z (z2b v).
Proof. unfold vok, IsSecret. intros [->|[->| ->]]; simpl; auto; discriminate. Qed.
Lemma vok_b2z b : vok (b2z b).
Proof. unfold vok. destruct b; simpl; auto. Qed.
Lemma IsSecret_b2z b : IsSecret (b2z b) = false.
Proof. destruct b; reflexivity. Qed.
Lemma z2b_b2z b : z2b (b2z b) = b.
Proof. destruct b; reflexivity. Qed.

Lemma sym_gate_some l0 v0 l1 v1 t g n gl :
  valid_type t -> vok v0 -> vok v1 ->
  exists l v n' gl', sym_gate l0 v0 l1 v1 t g (n, gl) = Some (l, v, (n', gl')) /\ vok v /\
    ((n' = n /\ gl' = gl /\ ~ fresh_gate l0 v0 l1 v1 t) \/
     (fresh_gate l0 v0 l1 v1 t /\ n' = S n /\ gl' = gl ++ [g] /\ l = (atom n, false) /\ v = -1)).
Proof.
  intros Ht V0 V1. unfold sym_gate, fresh_gate.
  destruct (IsSecret v0) eqn:S0, (IsSecret v1) eqn:S1; cbn [negb andb].
  2,3,4: try destruct (half_x _ _ _) as [x0 x1]; try destruct (Bool.eqb x0 x1);
    try destruct (negb x0 && x1);
    do 4 eexists; (split; [reflexivity|]); (split; [first [apply vok_b2z | left; reflexivity]|]);
    left; repeat split; auto; intros (Q & Q' & _); congruence.
  destruct (Z.eqb_spec t NOTGATE) as [->|NN]; cbn [negb andb].
  - do 4 eexists; (split; [reflexivity|]). split; [left; reflexivity|].
    left; repeat split; auto. intros (_ & _ & NL & _). unfold nonlinear, NOTGATE in NL. lia.
  - destruct (N.eqb_spec (fst l0) (fst l1)) as [E|E]; cbn [negb andb].
    + destruct (Bool.eqb (snd l0) (snd l1)); cbn [negb andb].
      * destruct Ht as [->|[->|[->|[->|[->|[->|[->|[->|[->|[->| ->]]]]]]]]]]; cbn;
        do 4 eexists; (split; [reflexivity|]); (split; [unfold vok, SECRET; tauto|]);
        left; repeat split; auto; intros (_ & _ & _ & Q); congruence.
      * destruct Ht as [->|[->|[->|[->|[->|[->|[->|[->|[->|[->| ->]]]]]]]]]]; cbn;
        do 4 eexists; (split; [reflexivity|]); (split; [unfold vok, SECRET; tauto|]);
        left; repeat split; auto; intros (_ & _ & _ & Q); congruence.
    + destruct (Z.eqb_spec t XORGATE) as [->|N1];
        [|destruct (Z.eqb_spec t XNORGATE) as [->|N2]].
      1,2: do 4 eexists; (split; [reflexivity|]); (split; [left; reflexivity|]);
        left; repeat split; auto; intros (_ & _ & NL & _); unfold nonlinear, XORGATE, XNORGATE in NL; lia.
      do 4 eexists; (split; [reflexivity|]). split; [left; reflexivity|].
      right. repeat split; auto. destruct (valid_linear_or t Ht) as [|[|[|]]]; congruence.
Qed.
