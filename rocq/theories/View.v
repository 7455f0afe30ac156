(** Two garblings with the same tables: what the garbler sends does not depend on
    the secret bits, once the coins are renamed. *)
From Coq Require Import ZArith NArith List Bool Lia.
From Verif Require Import Base Gate Circuit Spec Fanout GateFacts GateSim Phase1 Phase2 Phase2E Prefix CycleModel Cycle Run Privacy.
Import ListNotations.
Open Scope Z_scope.

(** * One gate *)

(** The pair in which the two labels are exchanged when [d] holds. *)
Definition flip (R : block) (d : bool) (p : BlockPair) : BlockPair :=
  (XorBlock (fst p) (mulb d R), XorBlock (XorBlock (fst p) (mulb d R)) R).

(** The cipher [aes'] agrees with [aes] at the two blocks that belong to the bits
    [va], [vb] on the gate's inputs, and differs by a multiple of [R] at the other
    two. *)
Definition keeps (aes aes' : block -> block) (R : block) (cid gid : N) (p0 p1 : BlockPair) (va vb da db : bool) : Prop :=
  aes' (XorBlock (XorBlock (fst p0) (mulb va R)) (tweak0 cid gid)) =
    aes (XorBlock (XorBlock (fst p0) (mulb va R)) (tweak0 cid gid)) /\
  aes' (XorBlock (XorBlock (fst p1) (mulb vb R)) (tweak1 cid gid)) =
    aes (XorBlock (XorBlock (fst p1) (mulb vb R)) (tweak1 cid gid)) /\
  aes' (XorBlock (XorBlock (fst p0) (mulb (negb va) R)) (tweak0 cid gid)) =
    XorBlock (aes (XorBlock (XorBlock (fst p0) (mulb (negb va) R)) (tweak0 cid gid))) (mulb db R) /\
  aes' (XorBlock (XorBlock (fst p1) (mulb (negb vb) R)) (tweak1 cid gid)) =
    XorBlock (aes (XorBlock (XorBlock (fst p1) (mulb (negb vb) R)) (tweak1 cid gid))) (mulb da R).

Lemma half_gates_flip aes aes' t cid gid R p0 p1 va vb da db out T :
  nonlinear t -> get_LSB R = true ->
  snd p0 = XorBlock (fst p0) R -> snd p1 = XorBlock (fst p1) R ->
  keeps aes aes' R cid gid p0 p1 va vb da db ->
  HalfGates aes p0 p1 t cid gid R = (out, T) ->
  exists out', HalfGates aes' (flip R da p0) (flip R db p1) t cid gid R = (out', T) /\
    fst out' = XorBlock (fst out) (mulb (xorb (GateOperator t va vb) (GateOperator t (xorb va da) (xorb vb db))) R).
Proof.
  intros NL HR E0 E1 (K0 & K1 & K2 & K3) H.
  destruct p0 as [A A'], p1 as [B B']. unfold flip. cbn [fst snd] in *. subst A' B'.
  destruct (HalfGates aes' (XorBlock A (mulb da R), XorBlock (XorBlock A (mulb da R)) R)
     (XorBlock B (mulb db R), XorBlock (XorBlock B (mulb db R)) R) t cid gid R) as [out' T'] eqn:H'.
  assert (X0 : forall X, XorBlock X 0%N = X) by (intros; apply N.lxor_0_r).
  assert (XX : forall X, XorBlock (XorBlock X R) R = X) by (intros; xsolve).
  assert (HX : forall X, get_LSB (XorBlock X R) = negb (get_LSB X)).
  { intros X. rewrite get_LSB_xor, HR. destruct (get_LSB X); auto. }
  assert (TT : T' = T).
  { unfold HalfGates in H, H'. destruct (Type2V t) as [[v0 v1] v2]. inv H. inv H'. cbn [fst snd].
    unfold hash.
    destruct v0, v1, da, db, va, vb; cbn [fst snd mulb negb] in *; rewrite ?X0, ?XX, ?HX in *;
      rewrite ?K0, ?K1, ?K2, ?K3;
      repeat match goal with |- context [aes ?x] => let h := fresh "h" in set (h := aes x); clearbody h end;
      destruct (get_LSB B); cbn [negb]; f_equal; xsolve. }
  subst T'. exists out'. split; [reflexivity|].
  pose proof (half_gates_correct _ _ _ _ _ _ _ va vb _ _ NL HR H) as [C1 _].
  pose proof (half_gates_correct _ _ _ _ _ _ _ (xorb va da) (xorb vb db) _ _ NL HR H') as [C2 _].
  assert (XA : forall X a d, XorBlock (XorBlock X (mulb d R)) (mulb (xorb a d) R) = XorBlock X (mulb a R)).
  { intros X [] []; cbn [mulb xorb]; rewrite ?X0, ?XX; auto. }
  rewrite !XA in C2.
  assert (EE : EvalHalfGates aes' (XorBlock A (mulb va R)) (XorBlock B (mulb vb R)) T cid gid =
               EvalHalfGates aes (XorBlock A (mulb va R)) (XorBlock B (mulb vb R)) T cid gid).
  { unfold EvalHalfGates, hash. rewrite K0, K1. reflexivity. }
  rewrite EE, C1 in C2. clear - C2.
  destruct (GateOperator t va vb), (GateOperator t (xorb va da) (xorb vb db)); cbn [mulb xorb] in *;
    revert C2; generalize (fst out) (fst out'); intros x y C2.
  - apply (f_equal (fun z => XorBlock z R)) in C2. transitivity (XorBlock (XorBlock y R) R); [xsolve|]. rewrite <- C2. xsolve.
  - transitivity (XorBlock y 0%N); [xsolve|]. rewrite <- C2. xsolve.
  - transitivity (XorBlock (XorBlock y R) R); [xsolve|]. rewrite <- C2. xsolve.
  - transitivity (XorBlock y 0%N); [xsolve|]. rewrite <- C2. xsolve.
Qed.

(** * Labels in the two runs *)
Definition differ (R : block) (n : nat) (baseA valsA baseB valsB : nat -> N) : Prop :=
  forall a, (a < n)%nat -> baseB a = XorBlock (baseA a) (mulb (xorb (N.odd (valsA a)) (N.odd (valsB a))) R).

Lemma xsum_differ R n baseA valsA baseB valsB s :
  differ R n baseA valsA baseB valsB ->
  xsum baseB n s = XorBlock (xsum baseA n s) (mulb (xorb (N.odd (xsum valsA n s)) (N.odd (xsum valsB n s))) R).
Proof.
  unfold differ. induction n; intros H; [reflexivity|]. cbn [xsum].
  rewrite IHn, !odd_lxor by (intros; apply H; lia).
  destruct (N.testbit s (N.of_nat n)).
  - rewrite (H n) by lia.
    generalize (N.odd (valsA n)) (N.odd (valsB n)) (N.odd (xsum valsA n s)) (N.odd (xsum valsB n s)) (baseA n) (xsum baseA n s).
    intros [] [] [] [] u v; cbn [mulb xorb]; xsolve.
  - change (N.odd 0) with false. generalize (N.odd (xsum valsA n s)) (N.odd (xsum valsB n s)) (xsum baseA n s).
    intros [] [] v; cbn [mulb xorb N.odd]; xsolve.
Qed.

Lemma odd_relX vals n l b : relX 1 vals n l (b2N b) -> N.odd (xsum vals n (fst l)) = xorb b (snd l).
Proof.
  intros [_ E].
  assert (xsum vals n (fst l) = N.lxor (b2N b) (mulb (snd l) 1%N)) as ->.
  { rewrite E. generalize (xsum vals n (fst l)) (mulb (snd l) 1%N). intros; xsolve. }
  rewrite odd_lxor, odd_b2N. destruct (snd l); reflexivity.
Qed.

Lemma differ_label R n baseA valsA baseB valsB l pA pB bA bB :
  differ R n baseA valsA baseB valsB ->
  relG R baseA n l pA -> relG R baseB n l pB ->
  relX 1 valsA n l (b2N bA) -> relX 1 valsB n l (b2N bB) ->
  pB = flip R (xorb bA bB) pA.
Proof.
  intros HD [[_ EA] SA] [[_ EB] SB] XA XB.
  assert (F : fst pB = XorBlock (fst pA) (mulb (xorb bA bB) R)).
  { rewrite EA, EB, (xsum_differ _ _ _ _ _ _ _ HD), (odd_relX _ _ _ _ XA), (odd_relX _ _ _ _ XB).
    generalize (xsum baseA n (fst l)). intros u. destruct bA, bB, (snd l); cbn [mulb xorb]; xsolve. }
  destruct pB as [b b']. unfold flip. cbn [fst snd] in *. rewrite SB, F. reflexivity.
Qed.

(** What an evaluator that follows the protocol would hold for an atom. *)
Lemma ideal_label R base vals n l p b :
  relX R base n l p -> relX 1 vals n l (b2N b) ->
  relX 0 (fun a => XorBlock (base a) (mulb (N.odd (vals a)) R)) n l (XorBlock p (mulb b R)).
Proof.
  intros [B E] X. split; [exact B|].
  assert (XS : xsum (fun a => XorBlock (base a) (mulb (N.odd (vals a)) R)) n (fst l) =
               XorBlock (xsum base n (fst l)) (mulb (N.odd (xsum vals n (fst l))) R)).
  { generalize (fst l). intros s. clear. induction n; [reflexivity|]. cbn [xsum]. rewrite IHn, odd_lxor.
    destruct (N.testbit s (N.of_nat n)).
    - generalize (N.odd (vals n)) (N.odd (xsum vals n s)) (base n) (xsum base n s). intros [] [] u v; cbn [mulb xorb]; xsolve.
    - change (N.odd 0) with false. generalize (N.odd (xsum vals n s)) (xsum base n s). intros [] v; cbn [mulb xorb N.odd]; xsolve. }
  rewrite XS, (odd_relX _ _ _ _ X), E. generalize (xsum base n (fst l)). intros u.
  destruct b, (snd l); cbn [mulb xorb]; xsolve.
Qed.

Lemma CmpBlock_flip R a b d e : CmpBlock a b = false -> CmpBlock a (XorBlock b R) = false ->
  CmpBlock (XorBlock a (mulb d R)) (XorBlock b (mulb e R)) = false.
Proof.
  assert (MX : forall x r, (N.modulo (N.lxor x r) (2 ^ 64) = N.lxor (N.modulo x (2 ^ 64)) (N.modulo r (2 ^ 64)))%N).
  { intros. rewrite <- !N.land_ones. apply N.bits_inj. intros k. rewrite !N.land_spec, !N.lxor_spec, !N.land_spec.
    destruct (N.testbit x k), (N.testbit r k), (N.testbit (N.ones 64) k); reflexivity. }
  unfold CmpBlock, XorBlock. rewrite !MX. generalize (a mod 2 ^ 64)%N (b mod 2 ^ 64)%N. intros u v.
  intros H1 H2. apply N.eqb_neq in H1, H2. apply N.eqb_neq. intros E.
  assert (Q : forall x y z : N, N.lxor x z = N.lxor y z -> x = y).
  { intros x y z H. apply (f_equal (fun w => N.lxor w z)) in H. rewrite !N.lxor_assoc, !N.lxor_nilpotent, !N.lxor_0_r in H. exact H. }
  destruct d, e; cbn [mulb] in E; change (0 mod 2 ^ 64)%N with 0%N in E; rewrite ?N.lxor_0_r in E; auto.
  - apply Q in E. auto.
  - apply H2. rewrite <- E. rewrite N.lxor_assoc, N.lxor_nilpotent, N.lxor_0_r. reflexivity.
Qed.

(** * One pass over the gates *)
Section Two.
Variable c : GarbledCircuit.
Hypothesis WF : well_formed c.
Hypothesis SZ : (N.of_nat (length (garbledGates c)) < 2 ^ 32)%N.
Notation gs := (garbledGates c).
Variables VA VB : Z -> bool.
Hypothesis HVA : forall i g, nth_error gs i = Some g ->
  VA (first_gate c + Z.of_nat i) = GateOperator (type g) (operand VA (input0 g)) (operand VA (input1 g)).
Hypothesis HVB : forall i g, nth_error gs i = Some g ->
  VB (first_gate c + Z.of_nat i) = GateOperator (type g) (operand VB (input0 g)) (operand VB (input1 g)).
Variables aesA aesB : block -> block.
Variable R : block.
Hypothesis HR : get_LSB R = true.
Variable cid : N.
Notation gbodyA := (gbody c aesA R cid).
Notation gbodyB := (gbody c aesB R cid).

(** The state of the two garblers after the same gates. *)
Record two (i : nat) (ss : sstate) (gA gB : gstate) (baseA valsA baseB valsB : nat -> N) : Prop := {
  t_A : J c VA R i ss gA baseA valsA;
  t_B : J c VB R i ss gB baseB valsB;
  t_d : differ R (fst (st_s ss)) baseA valsA baseB valsB;
  t_s : st_s gA = st_s gB }.

(** What is asked of the second cipher at gate [i], if a table is made there. *)
Definition gate_keeps (i : nat) (g : GarbledGate) (gA : gstate) : Prop :=
  keeps aesA aesB R cid (N.of_nat i) (i_p0 c g gA) (i_p1 c g gA)
    (operand VA (input0 g)) (operand VA (input1 g))
    (xorb (operand VA (input0 g)) (operand VB (input0 g))) (xorb (operand VA (input1 g)) (operand VB (input1 g))).

Lemma two_inputs i g ss gA gB baseA valsA baseB valsB :
  two i ss gA gB baseA valsA baseB valsB -> (i < length gs)%nat -> nth_error gs i = Some g ->
  0 < fz (st_fan ss) i ->
  (IsSecret (i_v0 c g ss) = true ->
     snd (i_p0 c g gA) = XorBlock (fst (i_p0 c g gA)) R /\
     i_p0 c g gB = flip R (xorb (operand VA (input0 g)) (operand VB (input0 g))) (i_p0 c g gA)) /\
  (IsSecret (i_v1 c g ss) = true -> type g <> NOTGATE ->
     snd (i_p1 c g gA) = XorBlock (fst (i_p1 c g gA)) R /\
     i_p1 c g gB = flip R (xorb (operand VA (input1 g)) (operand VB (input1 g))) (i_p1 c g gA)).
Proof.
  intros [tA tB td ts] Hi Hg Hl.
  pose proof (i_rel0 c WF VA R i g ss gA baseA valsA tA Hi Hg Hl) as A0.
  pose proof (i_rel1 c WF VA R i g ss gA baseA valsA tA Hi Hg Hl) as A1.
  pose proof (i_rel0 c WF VB R i g ss gB baseB valsB tB Hi Hg Hl) as B0.
  pose proof (i_rel1 c WF VB R i g ss gB baseB valsB tB Hi Hg Hl) as B1.
  split.
  - intros S. destruct (A0 S) as [X1 G1], (B0 S) as [X2 G2]. split; [apply G1|].
    eapply differ_label; eauto.
  - intros S NN. destruct (A1 S NN) as [X1 G1], (B1 S NN) as [X2 G2]. split; [apply G1|].
    eapply differ_label; eauto.
Qed.

Lemma two_free i ss gA gB baseA valsA baseB valsB :
  two i ss gA gB baseA valsA baseB valsB -> (i < length gs)%nat ->
  g_free c i ss gA -> g_free c i ss gB.
Proof.
  intros T Hi F g Hg Hl HS S0 S1 NN NE.
  destruct (two_inputs i g ss gA gB _ _ _ _ T Hi Hg Hl) as [I0 I1].
  destruct (I0 S0) as [_ E0], (I1 S1 NN) as [Q1 E1].
  destruct (F g Hg Hl HS S0 S1 NN NE) as [C1 C2]. rewrite Q1 in C2. rewrite E0, E1. unfold flip. cbn [fst snd].
  split; [apply CmpBlock_flip; auto|].
  replace (XorBlock (XorBlock (fst (i_p1 c g gA)) (mulb (xorb (operand VA (input1 g)) (operand VB (input1 g))) R)) R)
    with (XorBlock (fst (i_p1 c g gA)) (mulb (negb (xorb (operand VA (input1 g)) (operand VB (input1 g)))) R)).
  - apply CmpBlock_flip; auto.
  - generalize (fst (i_p1 c g gA)). intros u. destruct (xorb (operand VA (input1 g)) (operand VB (input1 g))); cbn [mulb negb]; xsolve.
Qed.

Lemma two_step i ss gA gB baseA valsA baseB valsB :
  (i < length gs)%nat -> two i ss gA gB baseA valsA baseB valsB -> g_free c i ss gA ->
  (forall g gA', nth_error gs i = Some g -> gbodyA i gA = Some gA' -> snd (st_s gA) < snd (st_s gA') -> gate_keeps i g gA) ->
  exists ss' gA' gB' baseA' valsA' baseB' valsB',
    sbody c i ss = Some ss' /\ gbodyA i gA = Some gA' /\ gbodyB i gB = Some gB' /\
    two (S i) ss' gA' gB' baseA' valsA' baseB' valsB' /\
    (fst (st_s ss) <= fst (st_s ss'))%nat /\
    (forall a, (a < fst (st_s ss))%nat -> baseA' a = baseA a /\ valsA' a = valsA a /\ baseB' a = baseB a /\ valsB' a = valsB a) /\
    (snd (st_s gA) < snd (st_s gA') -> forall g, nth_error gs i = Some g ->
       0 < fz (st_fan ss) i /\ IsSecret (i_v0 c g ss) = true /\ IsSecret (i_v1 c g ss) = true /\ type g <> NOTGATE).
Proof.
  intros Hi HT GF HK.
  pose proof (two_free i ss gA gB _ _ _ _ HT Hi GF) as GFB.
  destruct (step_g c WF VA HVA aesA R HR cid i ss gA baseA valsA Hi (t_A _ _ _ _ _ _ _ _ HT) GF)
    as (ss' & gA' & baseA' & valsA' & SS & SA & JA & NN & BA & _).
  destruct (step_g c WF VB HVB aesB R HR cid i ss gB baseB valsB Hi (t_B _ _ _ _ _ _ _ _ HT) GFB)
    as (ss2 & gB' & baseB' & valsB' & SS2 & SB & JB & _ & BB & _).
  assert (ss2 = ss') by congruence. subst ss2. clear SS2.
  exists ss', gA', gB', baseA', valsA', baseB', valsB'.
  split; [exact SS|]. split; [exact SA|]. split; [exact SB|].
  assert (OLD : forall a, (a < fst (st_s ss))%nat ->
    baseB' a = XorBlock (baseA' a) (mulb (xorb (N.odd (valsA' a)) (N.odd (valsB' a))) R)).
  { intros a Ha. destruct (BA a Ha) as [-> ->], (BB a Ha) as [-> ->]. apply (t_d _ _ _ _ _ _ _ _ HT). exact Ha. }
  enough (DIF : (forall a, (fst (st_s ss) <= a < fst (st_s ss'))%nat ->
    baseB' a = XorBlock (baseA' a) (mulb (xorb (N.odd (valsA' a)) (N.odd (valsB' a))) R)) /\ st_s gA' = st_s gB' /\
    (snd (st_s gA) < snd (st_s gA') -> forall g, nth_error gs i = Some g ->
       0 < fz (st_fan ss) i /\ IsSecret (i_v0 c g ss) = true /\ IsSecret (i_v1 c g ss) = true /\ type g <> NOTGATE)).
  { destruct DIF as (D1 & D2 & D3). split.
    - constructor; auto. intros a Ha. destruct (Nat.lt_ge_cases a (fst (st_s ss))); [apply OLD; auto|apply D1; lia].
    - split; [exact NN|]. split; [|exact D3]. intros a Ha. destruct (BA a Ha), (BB a Ha). auto. }
  destruct (nth_error gs i) as [g|] eqn:Hg; [|apply nth_error_None in Hg; lia].
  specialize (HK g gA' eq_refl SA).
  destruct (wf_gate c WF i g Hg) as (HO & _).
  pose proof (wf_valid_type c WF i g Hg) as VT.
  pose proof (wsz_gate c) as WG. pose proof (first_order c) as FO. pose proof (first_input_nonneg c) as FN.
  pose proof (i_ok0 c WF VA R i g ss gA baseA valsA (t_A _ _ _ _ _ _ _ _ HT) Hi Hg) as [OK0 _].
  pose proof (i_ok1 c WF VA R i g ss gA baseA valsA (t_A _ _ _ _ _ _ _ _ HT) Hi Hg) as [OK1 _].
  pose proof (i_rel0 c WF VA R i g ss gA baseA valsA (t_A _ _ _ _ _ _ _ _ HT) Hi Hg) as RA0.
  pose proof (i_rel1 c WF VA R i g ss gA baseA valsA (t_A _ _ _ _ _ _ _ _ HT) Hi Hg) as RA1.
  pose proof (i_rel0 c WF VB R i g ss gB baseB valsB (t_B _ _ _ _ _ _ _ _ HT) Hi Hg) as RB0.
  pose proof (i_rel1 c WF VB R i g ss gB baseB valsB (t_B _ _ _ _ _ _ _ _ HT) Hi Hg) as RB1.
  pose proof (i_ind c VA R i g ss gA baseA valsA (t_A _ _ _ _ _ _ _ _ HT) Hi Hg) as INDA.
  pose proof (i_ind c VB R i g ss gB baseB valsB (t_B _ _ _ _ _ _ _ _ HT) Hi Hg) as INDB.
  pose proof (two_inputs i g ss gA gB _ _ _ _ HT Hi Hg) as TI.
  specialize (GF g Hg). specialize (GFB g Hg).
  pose proof (t_s _ _ _ _ _ _ _ _ HT) as TS.
  pose proof (j_rel _ _ _ _ _ _ _ _ JA) as RELA. pose proof (j_rel _ _ _ _ _ _ _ _ JB) as RELB.
  destruct HT as [tA tB _ _].
  destruct tA as [a1 a2 a3 a4 a5 a6 _ _ _ _ _ a7 _ _ _]. destruct tB as [_ _ _ b4 b5 b6 _ _ _ _ _ b7 _ _ _].
  destruct ss as [[[sl sv] fan] [n gl]]. destruct gA as [[[wA vA] fA] [tabsA indA]]. destruct gB as [[[wB vB] fB] [tabsB indB]].
  unfold i_v0, i_v1, i_l0, i_l1, i_p0, i_p1, gate_keeps in *.
  unfold i_p0, i_p1 in HK. unfold st_wl, st_wv, st_fan, st_s in *. cbn [fst snd] in *. subst vA fA vB fB.
  injection TS as <- <-.
  unfold sbody, gbody in SS, SA, SB.
  rewrite (secret_body_run c WF _ _ i g) in SS by auto.
  rewrite (secret_body_run c WF _ _ i g) in SA by auto.
  rewrite (secret_body_run c WF _ _ i g) in SB by auto.
  destruct (Z.ltb_spec 0 (fz fan i)) as [fp|fn].
  2:{ inv SS. inv SA. inv SB. cbn [fst snd]. split; [lia|]. split; [auto|]. lia. }
  destruct (IsSecret (vz sv (output g))) eqn:SO.
  2:{ inv SS. inv SA. inv SB. cbn [fst snd]. split; [lia|]. split; [auto|]. lia. }
  specialize (GF fp eq_refl). specialize (GFB fp eq_refl).
  specialize (TI fp). specialize (RA0 fp). specialize (RA1 fp). specialize (RB0 fp). specialize (RB1 fp).
  set (v0 := oval c sv (input0 g)) in *. set (v1 := oval1 c sv (type g) (input1 g)) in *.
  set (l0 := labz zs c sl (input0 g)) in *. set (l1 := labz zs c sl (input1 g)) in *.
  set (pA0 := labz zg c wA (input0 g)) in *. set (pA1 := labz zg c wA (input1 g)) in *.
  set (pB0 := labz zg c wB (input0 g)) in *. set (pB1 := labz zg c wB (input1 g)) in *.
  destruct (sym_gate_some l0 v0 l1 v1 (type g) i n gl VT OK0 OK1) as (l & v & n' & gl' & ES & VK & CS).
  destruct (garble_gate_sim aesA R baseA n gl l0 v0 l1 v1 (type g) cid i pA0 pA1 tabsA indA l v n' gl')
    as (p & tabs' & ind' & _ & EA & _ & _ & TA); auto.
  { intros Q. apply RA0; auto. }
  { intros Q Q'. apply RA1; auto. }
  destruct (garble_gate_sim aesB R baseB n gl l0 v0 l1 v1 (type g) cid i pB0 pB1 tabsA indA l v n' gl')
    as (q & tabs2 & ind2 & _ & EB & _ & _ & TB); auto.
  { intros Q. apply RB0; auto. }
  { intros Q Q'. apply RB1; auto. }
  unfold gfn in SA, SB. rewrite ES in SS. rewrite EA in SA. rewrite EB in SB. cbn [obind] in SS, SA, SB.
  destruct (wr sl (output g) l) as [sl'|] eqn:W1; [|discriminate SS].
  destruct (wr sv (output g) v) as [sv'|] eqn:W2; [|destruct (wr wA _ _); discriminate].
  destruct (wr wA (output g) p) as [wA'|] eqn:W3; [|discriminate SA].
  destruct (wr wB (output g) q) as [wB'|] eqn:W4; [|discriminate SB].
  cbn [obind] in SS, SA, SB.
  destruct CS as [(-> & -> & NF)|(FG & -> & -> & -> & ->)].
  - destruct TA as [(_ & -> & ->)|(Q & _)]; [|contradiction]. destruct TB as [(_ & -> & ->)|(Q & _)]; [|contradiction].
    destruct (negb (IsSecret v)).
    + destruct (drop_uses c g i v0 v1 fan) as [fan'|]; [|discriminate SS]. cbn [obind] in SS, SA, SB.
      inv SS. inv SA. inv SB. cbn [fst snd]. split; [lia|]. split; [auto|]. lia.
    + inv SS. inv SA. inv SB. cbn [fst snd]. split; [lia|]. split; [auto|]. lia.
  - destruct TA as [(Q & _)|(_ & -> & T0 & T1 & HGA & WTA)]; [contradiction|].
    destruct TB as [(Q & _)|(_ & -> & U0 & U1 & HGB & WTB)]; [contradiction|].
    change (negb (IsSecret (-1))) with false in *. cbn iota in SS, SA, SB. inv SS. inv SA. inv SB. cbn [fst snd] in *.
    specialize (HK ltac:(lia)). destruct FG as (S0 & S1 & NL & _).
    assert (NG : type g <> NOTGATE) by (intros Q; rewrite Q in NL; unfold nonlinear, NOTGATE in NL; lia).
    destruct TI as [TI0 TI1]. destruct (TI0 S0) as [Q0 F0]. destruct (TI1 S1 NG) as [Q1 F1].
    set (a := operand VA (input0 g)) in *. set (b := operand VA (input1 g)) in *.
    set (a' := operand VB (input0 g)) in *. set (b' := operand VB (input1 g)) in *.
    destruct (half_gates_flip aesA aesB (type g) cid (N.of_nat i) R pA0 pA1 a b (xorb a a') (xorb b b') p (T0, T1) NL HR Q0 Q1 HK HGA)
      as (out' & HF & FO').
    rewrite <- F0, <- F1, HGB in HF. injection HF as <- -> ->.
    rewrite WTA in WTB. injection WTB as <-.
    split; [|split; [reflexivity|intros _ g' Hg'; injection Hg' as <-; auto]].
    intros k Hk. assert (k = n) as -> by lia.
    assert (LO : 0 <= output g < wsz c) by lia.
    assert (VO : valid c (S i) fan (output g)).
    { right. exists i. split; [lia|]. split; [auto|exact fp]. }
    assert (SOUT : IsSecret (vz sv' (output g)) = true).
    { rewrite (vz_wr _ _ _ _ _ W2) by lia. rewrite Z.eqb_refl. reflexivity. }
    assert (L1 : lz zs sl' (output g) = (atom n, false)) by (rewrite (lz_wr zs _ _ _ _ _ W1), Z.eqb_refl by lia; auto).
    assert (L2 : lz zg wA' (output g) = p) by (rewrite (lz_wr zg _ _ _ _ _ W3), Z.eqb_refl by lia; auto).
    assert (L3 : lz zg wB' (output g) = q) by (rewrite (lz_wr zg _ _ _ _ _ W4), Z.eqb_refl by lia; auto).
    destruct (RELA _ VO SOUT) as [[_ XA] [[_ YA] _]]. destruct (RELB _ VO SOUT) as [[_ XB] [[_ YB] _]].
    rewrite L1 in XA, YA, XB, YB. rewrite L2 in YA. rewrite L3 in YB. cbn [fst snd mulb] in XA, YA, XB, YB.
    rewrite xsum_atom, N.lxor_0_r in XA, YA, XB, YB by lia.
    rewrite <- XA, <- XB, <- YA, <- YB, FO', !odd_b2N. rewrite HO, (HVA i g Hg), (HVB i g Hg). fold a b a' b'.
    replace (xorb a (xorb a a')) with a' by (destruct a, a'; auto).
    replace (xorb b (xorb b b')) with b' by (destruct b, b'; auto). reflexivity.
Qed.

Lemma two_pass ss0 gA0 gB0 baseA valsA baseB valsB :
  two 0 ss0 gA0 gB0 baseA valsA baseB valsB ->
  (forall i ss gA, (i < length gs)%nat -> for_ i (sbody c) ss0 = Some ss -> for_ i gbodyA gA0 = Some gA -> g_free c i ss gA) ->
  (forall i g gA gA', nth_error gs i = Some g -> for_ i gbodyA gA0 = Some gA -> gbodyA i gA = Some gA' ->
     snd (st_s gA) < snd (st_s gA') -> gate_keeps i g gA) ->
  forall n, (n <= length gs)%nat ->
  exists ss gA gB baseA' valsA' baseB' valsB',
    for_ n (sbody c) ss0 = Some ss /\ for_ n gbodyA gA0 = Some gA /\ for_ n gbodyB gB0 = Some gB /\
    two n ss gA gB baseA' valsA' baseB' valsB' /\
    (fst (st_s ss0) <= fst (st_s ss))%nat /\
    (forall a, (a < fst (st_s ss0))%nat -> baseA' a = baseA a /\ valsA' a = valsA a /\ baseB' a = baseB a /\ valsB' a = valsB a).
Proof.
  intros T0 GF HK. induction n; intros Hn.
  - exists ss0, gA0, gB0, baseA, valsA, baseB, valsB. repeat (split; [reflexivity|]). split; [exact T0|]. auto.
  - destruct IHn as (ss & gA & gB & bA & vA & bB & vB & E1 & E2 & E3 & HT & HN & HB); [lia|].
    destruct (two_step n ss gA gB bA vA bB vB) as (ss' & gA' & gB' & bA' & vA' & bB' & vB' & S1 & S2 & S3 & HT' & HN' & HB' & _); auto.
    { intros g gA' Hg S2. apply (HK n g gA gA' Hg E2 S2). }
    exists ss', gA', gB', bA', vA', bB', vB'. rewrite !for_S, E1, E2, E3. cbn [obind].
    repeat (split; [assumption|]). split; [lia|]. intros a Ha.
    destruct (HB a Ha) as (-> & <- & <- & <-) || (destruct (HB a Ha) as (<- & <- & <- & <-)); apply HB'; lia.
Qed.
End Two.
