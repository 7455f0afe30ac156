(** One gate in three worlds: the garbler's, the evaluator's and the plaintext
    result all follow the symbolic gate. *)
From Coq Require Import ZArith NArith List Bool Lia.
From Verif Require Import Base Gate Circuit Spec GateFacts.
Import ListNotations.
Open Scope Z_scope.

(** The garbler's label pair for a symbolic label. *)
Definition relG (R : block) (base : nat -> N) (n : nat) (l : slab) (p : BlockPair) : Prop :=
  relX R base n l (fst p) /\ snd p = XorBlock (fst p) R.

Lemma relG_mono R f f' n n' l x :
  relG R f n l x -> (n <= n')%nat -> (forall a, (a < n)%nat -> f' a = f a) -> relG R f' n' l x.
Proof. intros [H E] ? ?. split; auto. eapply relX_mono; eauto. Qed.

Lemma relG_inv R f n l p : relG R f n l p -> relG R f n (fst l, negb (snd l)) (snd p, fst p).
Proof.
  intros [H E]. destruct l as [s i], p as [p0 p1]. simpl in *. subst. split.
  - simpl. apply relX_inv; auto.
  - simpl. xsolve.
Qed.

Lemma CmpBlock_refl x : CmpBlock x x = true.
Proof. apply N.eqb_refl. Qed.

Lemma CmpBlock_LSB x y : CmpBlock x y = true -> get_LSB x = get_LSB y.
Proof.
  unfold CmpBlock, get_LSB. intros H. apply N.eqb_eq in H.
  rewrite <- (N.mod_pow2_bits_low x 64 0), <- (N.mod_pow2_bits_low y 64 0) by reflexivity.
  now rewrite H.
Qed.

Lemma CmpBlock_offset x R : get_LSB R = true -> CmpBlock x (XorBlock x R) = false.
Proof.
  intros HR. destruct (CmpBlock x (XorBlock x R)) eqn:E; auto.
  apply CmpBlock_LSB in E. rewrite get_LSB_xor, HR in E.
  destruct (get_LSB x); discriminate.
Qed.

(** No accidental collision at a gate: different symbolic labels are seen to
    differ by the garbler's two comparisons. *)
Definition g_cmp_ok (l0 l1 : slab) (v0 v1 t : Z) (in0 in1 : BlockPair) : Prop :=
  IsSecret v0 = true -> IsSecret v1 = true -> t <> NOTGATE -> fst l0 <> fst l1 ->
  CmpBlock (fst in0) (fst in1) = false /\ CmpBlock (fst in0) (snd in1) = false.

Lemma garble_gate_sim aes R base n gl l0 v0 l1 v1 t cid g in0 in1 tabs ind l v n' gl' :
  get_LSB R = true -> valid_type t -> vok v0 -> vok v1 ->
  (IsSecret v0 = true -> relG R base n l0 in0) ->
  (IsSecret v1 = true -> t <> NOTGATE -> relG R base n l1 in1) ->
  g_cmp_ok l0 l1 v0 v1 t in0 in1 ->
  (nonlinear t -> 0 <= ind < Z.of_nat (length tabs)) ->
  sym_gate l0 v0 l1 v1 t g (n, gl) = Some (l, v, (n', gl')) ->
  exists p tabs' ind' base',
    GarbleGate aes in0 v0 in1 v1 t cid (N.of_nat g) R (tabs, ind) = Some (p, v, (tabs', ind')) /\
    (forall a, (a < n)%nat -> base' a = base a) /\
    (IsSecret v = true -> relG R base' n' l p) /\
    ((~ fresh_gate l0 v0 l1 v1 t /\ tabs' = tabs /\ ind' = ind) \/
     (fresh_gate l0 v0 l1 v1 t /\ ind' = ind + 1 /\
      exists T0 T1, HalfGates aes in0 in1 t cid (N.of_nat g) R = (p, (T0, T1)) /\
        wr tabs ind {| row0 := T0; row1 := T1; gid := (N.of_nat g mod 2 ^ 32)%N |} = Some tabs')).
Proof.
  intros HR Ht V0 V1 R0 R1 HC HI HS.
  unfold sym_gate in HS. unfold GarbleGate. unfold g_cmp_ok in HC.
  destruct (IsSecret v0) eqn:S0, (IsSecret v1) eqn:S1; cbn [negb andb] in *.
  4:{ inv HS. exists (ZeroBlock, ZeroBlock), tabs, ind, base.
      split; [auto|]. split; [auto|]. split.
      - intros Q. rewrite IsSecret_b2z in Q. discriminate.
      - left. repeat split; auto. intros (Q & _). congruence. }
  3:{ (* input 0 public *)
      unfold HalfGarbleGate.
      destruct (half_x t true v0) as [x0 x1] eqn:HX.
      assert (NF : ~ fresh_gate l0 v0 l1 v1 t) by (intros (Q & _); congruence).
      destruct (Bool.eqb x0 x1) eqn:EX.
      - inv HS. exists (ZeroBlock, ZeroBlock), tabs, ind, base.
        split; [auto|]. split; [auto|]. split; [|left; auto].
        intros Q. rewrite IsSecret_b2z in Q. discriminate.
      - assert (t <> NOTGATE) as NN.
        { intros ->. unfold half_x in HX. inv HX. rewrite eqb_reflx in EX. discriminate. }
        specialize (R1 eq_refl NN).
        destruct (negb x0 && x1).
        + inv HS. exists in1, tabs, ind, base. destruct in1.
          split; [auto|]. split; [auto|]. split; [|left; auto]. auto.
        + inv HS. exists (snd in1, fst in1), tabs, ind, base.
          split; [auto|]. split; [auto|]. split; [|left; auto].
          intros _. apply relG_inv; auto. }
  2:{ (* input 1 public *)
      unfold HalfGarbleGate.
      destruct (half_x t false v1) as [x0 x1] eqn:HX.
      assert (NF : ~ fresh_gate l0 v0 l1 v1 t) by (intros (_ & Q & _); congruence).
      specialize (R0 eq_refl).
      destruct (Bool.eqb x0 x1) eqn:EX.
      - inv HS. exists (ZeroBlock, ZeroBlock), tabs, ind, base.
        split; [auto|]. split; [auto|]. split; [|left; auto].
        intros Q. rewrite IsSecret_b2z in Q. discriminate.
      - destruct (negb x0 && x1).
        + inv HS. exists in0, tabs, ind, base. destruct in0.
          split; [auto|]. split; [auto|]. split; [|left; auto]. auto.
        + inv HS. exists (snd in0, fst in0), tabs, ind, base.
          split; [auto|]. split; [auto|]. split; [|left; auto].
          intros _. apply relG_inv; auto. }
  (* both secret *)
  specialize (R0 eq_refl). specialize (R1 eq_refl).
  destruct (Z.eqb_spec t NOTGATE) as [->|NN]; cbn [negb andb] in *.
  { inv HS. exists (snd in0, fst in0), tabs, ind, base.
    split; [auto|]. split; [auto|]. split; [intros _; apply relG_inv; auto|].
    left. repeat split; auto. intros (_ & _ & NL & _). unfold nonlinear, NOTGATE in NL. lia. }
  specialize (R1 NN). specialize (HC eq_refl eq_refl NN).
  destruct l0 as [s0 i0], l1 as [s1 i1]. cbn [fst snd] in *.
  destruct (N.eqb_spec s0 s1) as [->|NE]; cbn [andb] in HS.
  - assert (NF : ~ fresh_gate (s1, i0) v0 (s1, i1) v1 t) by (intros (_ & _ & _ & Q); simpl in Q; congruence).
    pose proof (relX_same _ _ _ _ _ _ _ _ (proj1 R0) (proj1 R1)) as EQ.
    destruct (Bool.eqb i0 i1) eqn:EI.
    + apply eqb_prop in EI. subst i1. rewrite xorb_nilpotent in EQ. cbn in EQ.
      rewrite N.lxor_0_r in EQ. rewrite EQ, CmpBlock_refl. cbn [andb].
      destruct (equal_shortcut t) as [[z'| |]|] eqn:ES; inv HS.
      * exists (ZeroBlock, ZeroBlock), tabs, ind, base.
        split; [auto|]. split; [auto|]. split; [|left; auto].
        unfold equal_shortcut in ES.
        destruct Ht as [->|[->|[->|[->|[->|[->|[->|[->|[->|[->| ->]]]]]]]]]]; cbn in ES; inv ES;
          intros Q; discriminate Q.
      * exists in0, tabs, ind, base. destruct in0; cbn [fst snd] in *; subst.
        split; [auto|]. split; [auto|]. split; [|left; auto]. auto.
      * exists (snd in0, fst in0), tabs, ind, base. rewrite EQ.
        split; [auto|]. split; [auto|]. split; [|left; auto]. rewrite <- EQ.
        intros _. exact (relG_inv _ _ _ _ _ R0).
      * destruct Ht as [->|[->|[->|[->|[->|[->|[->|[->|[->|[->| ->]]]]]]]]]]; cbn in ES; try discriminate ES.
        exfalso; apply NN; reflexivity.
    + assert (xorb i0 i1 = true) as X by (destruct i0, i1; auto; discriminate).
      rewrite X in EQ. cbn in EQ. destruct R1 as [R1 E1].
      assert (EQ1 : fst in0 = snd in1) by (rewrite E1; exact EQ).
      assert (C0 : CmpBlock (fst in0) (fst in1) = false).
      { rewrite EQ1, E1.
        replace (fst in1) with (XorBlock (XorBlock (fst in1) R) R) at 2 by xsolve.
        apply CmpBlock_offset; auto. }
      rewrite C0, EQ1, CmpBlock_refl. cbn [andb].
      destruct (inverted_shortcut t) as [[z'| |]|] eqn:ES; inv HS.
      * exists (ZeroBlock, ZeroBlock), tabs, ind, base.
        split; [auto|]. split; [auto|]. split; [|left; auto].
        unfold inverted_shortcut in ES.
        destruct Ht as [->|[->|[->|[->|[->|[->|[->|[->|[->|[->| ->]]]]]]]]]]; cbn in ES; inv ES;
          intros Q; discriminate Q.
      * exists in0, tabs, ind, base. destruct in0; cbn [fst snd] in *. rewrite <- EQ1.
        split; [auto|]. split; [auto|]. split; [|left; auto]. auto.
      * exists (snd in0, fst in0), tabs, ind, base. rewrite <- EQ1.
        split; [auto|]. split; [auto|]. split; [|left; auto].
        intros _. exact (relG_inv _ _ _ _ _ R0).
      * destruct Ht as [->|[->|[->|[->|[->|[->|[->|[->|[->|[->| ->]]]]]]]]]]; cbn in ES; try discriminate ES.
        exfalso; apply NN; reflexivity.
  - destruct (HC NE) as [C0 C1]. rewrite C0, C1. cbn [andb].
    destruct R0 as [R0 E0], R1 as [R1 E1].
    destruct (Z.eqb_spec t XORGATE) as [->|N1]; [|destruct (Z.eqb_spec t XNORGATE) as [->|N2]].
    + inv HS. eexists _, tabs, ind, base. split; [reflexivity|]. split; [auto|]. split.
      * intros _. split; cbn [fst snd]; [apply relX_xor; auto|].
        rewrite E0. generalize (fst in0) (fst in1). intros; xsolve.
      * left. repeat split; auto. intros (_ & _ & NL & _). unfold nonlinear, XORGATE in NL. lia.
    + inv HS. eexists _, tabs, ind, base. split; [reflexivity|]. split; [auto|]. split.
      * intros _. split; cbn [fst snd].
        -- rewrite E0. replace (XorBlock (XorBlock (fst in0) R) (fst in1))
             with (N.lxor (N.lxor (fst in0) (fst in1)) R)
             by (generalize (fst in0) (fst in1); intros; xsolve).
           apply relX_inv, relX_xor; auto.
        -- rewrite E0. generalize (fst in0) (fst in1). intros; xsolve.
      * left. repeat split; auto. intros (_ & _ & NL & _). unfold nonlinear, XNORGATE in NL. lia.
    + inv HS.
      assert (NL : nonlinear t) by (destruct (valid_linear_or t Ht) as [|[|[|]]]; congruence).
      destruct (HalfGates aes in0 in1 t cid (N.of_nat g) R) as [p [T0 T1]] eqn:HG.
      destruct (wr_ok tabs ind {| row0 := T0; row1 := T1; gid := (N.of_nat g mod 2 ^ 32)%N |} (HI NL))
        as [tabs' W].
      cbn [fst snd]. rewrite W. cbn [obind].
      exists p, tabs', (ind + 1), (fupd base n (fst p)).
      split; [auto|]. split; [intros; apply fupd_other; lia|]. split.
      * intros _. split; [apply relX_atom|].
        destruct in0 as [a0 a1], in1 as [b0 b1]. cbn [fst snd] in *. subst.
        apply (half_gates_correct _ _ _ _ _ _ _ false false _ _ NL HR HG).
      * right. split; [split; [auto|split; [auto|split; auto]]|]. split; [auto|]. exists T0, T1. auto.
Qed.

(** * Evaluator *)

(** The evaluator's wire value for a symbolic value and label. *)
Definition evflag (i : bool) : Z := if i then SECRET_INV else SECRET.

Definition e_cmp_ok (l0 l1 : slab) (v0 v1 t : Z) (in0 in1 : block) : Prop :=
  IsSecret v0 = true -> IsSecret v1 = true -> t <> NOTGATE -> fst l0 <> fst l1 ->
  CmpBlock in0 in1 = false.

Lemma InvertSecretValue_flag i : InvertSecretValue (evflag i) = evflag (negb i).
Proof. destruct i; reflexivity. Qed.
Lemma XorSecret_flag i j : XorSecret (evflag i) (evflag j) = evflag (xorb i j).
Proof. destruct i, j; reflexivity. Qed.
Lemma evflag_eqb i j : (evflag i =? evflag j) = Bool.eqb i j.
Proof. destruct i, j; reflexivity. Qed.
Lemma IsSecret_evflag i : IsSecret (evflag i) = true.
Proof. destruct i; reflexivity. Qed.

(** Evaluator value [ev] for symbolic value [v] (label [l] if secret). *)
Definition relV (v ev : Z) : Prop := IsSecret ev = IsSecret v /\ (IsSecret v = false -> ev = v).

Lemma relX0_inv f n s i j x : relX 0 f n (s, i) x -> relX 0 f n (s, j) x.
Proof. intros [B ->]. split; auto. destruct i, j; reflexivity. Qed.

Lemma eval_gate_sim aes rnd eb n gl l0 v0 l1 v1 t cid g in0 ev0 in1 ev1 tabs ind k l v n' gl' :
  valid_type t -> vok v0 -> vok v1 -> relV v0 ev0 -> relV v1 ev1 ->
  (IsSecret v0 = true -> relX 0 eb n l0 in0 /\ ev0 = evflag (snd l0)) ->
  (IsSecret v1 = true -> t <> NOTGATE -> relX 0 eb n l1 in1 /\ ev1 = evflag (snd l1)) ->
  e_cmp_ok l0 l1 v0 v1 t in0 in1 ->
  (nonlinear t -> 0 <= ind < Z.of_nat (length tabs)) ->
  sym_gate l0 v0 l1 v1 t g (n, gl) = Some (l, v, (n', gl')) ->
  exists x ev ind' k' eb',
    EvalGate aes rnd in0 ev0 in1 ev1 t cid (N.of_nat g) (tabs, ind, k) = Some (x, ev, (tabs, ind', k')) /\
    relV v ev /\
    (forall a, (a < n)%nat -> eb' a = eb a) /\
    (IsSecret v = true -> relX 0 eb' n' l x /\ ev = evflag (snd l)) /\
    ((~ fresh_gate l0 v0 l1 v1 t /\ ind' = ind) \/
     (fresh_gate l0 v0 l1 v1 t /\ exists tb, rd tabs ind = Some tb /\
       ((gid tb = N.of_nat g /\ ind' = ind + 1 /\
         x = EvalHalfGates aes in0 in1 (row0 tb, row1 tb) cid (N.of_nat g)) \/
        (gid tb <> N.of_nat g /\ ind' = ind)))).
Proof.
  intros Ht V0 V1 [Q0 P0] [Q1 P1] R0 R1 HC HI HS.
  unfold sym_gate in HS. unfold EvalGate. unfold e_cmp_ok in HC.
  rewrite Q0, Q1.
  destruct (IsSecret v0) eqn:S0, (IsSecret v1) eqn:S1; cbn [negb andb] in *.
  4:{ rewrite (P0 eq_refl), (P1 eq_refl). inv HS.
      eexists _, _, ind, k, eb. split; [reflexivity|].
      split; [split; auto|]. split; [auto|]. split; [rewrite IsSecret_b2z; discriminate|].
      left; split; auto. intros (Q & _); congruence. }
  3:{ rewrite (P0 eq_refl) in *. unfold HalfEvalGate.
      assert (NF : ~ fresh_gate l0 v0 l1 v1 t) by (intros (Q & _); congruence).
      destruct (half_x t true v0) as [x0 x1] eqn:HX.
      destruct (Bool.eqb x0 x1) eqn:EX.
      - inv HS. eexists _, _, ind, k, eb. split; [reflexivity|].
        split; [split; auto|]. split; [auto|]. split; [rewrite IsSecret_b2z; discriminate|].
        left; auto.
      - assert (t <> NOTGATE) as NN.
        { intros ->. unfold half_x in HX. inv HX. rewrite eqb_reflx in EX. discriminate. }
        destruct (R1 eq_refl NN) as [R1' ->].
        destruct (negb x0 && x1); inv HS; eexists _, _, ind, k, eb; (split; [reflexivity|]).
        + split; [split; [apply IsSecret_evflag|discriminate]|]. auto.
        + rewrite InvertSecretValue_flag.
          split; [split; [apply IsSecret_evflag|discriminate]|]. split; [auto|].
          split; [|auto]. destruct l1. split; [|auto]. eapply relX0_inv; exact R1'. }
  2:{ rewrite (P1 eq_refl) in *. unfold HalfEvalGate.
      assert (NF : ~ fresh_gate l0 v0 l1 v1 t) by (intros (_ & Q & _); congruence).
      destruct (half_x t false v1) as [x0 x1] eqn:HX.
      destruct (R0 eq_refl) as [R0' ->].
      destruct (Bool.eqb x0 x1) eqn:EX.
      - inv HS. eexists _, _, ind, k, eb. split; [reflexivity|].
        split; [split; auto|]. split; [auto|]. split; [rewrite IsSecret_b2z; discriminate|].
        left; auto.
      - destruct (negb x0 && x1); inv HS; eexists _, _, ind, k, eb; (split; [reflexivity|]).
        + split; [split; [apply IsSecret_evflag|discriminate]|]. auto.
        + rewrite InvertSecretValue_flag.
          split; [split; [apply IsSecret_evflag|discriminate]|]. split; [auto|].
          split; [|auto]. destruct l0. split; [|auto]. eapply relX0_inv; exact R0'. }
  destruct (R0 eq_refl) as [R0' ->]. specialize (R1 eq_refl).
  destruct (Z.eqb_spec t NOTGATE) as [->|NN]; cbn [negb andb] in *.
  { inv HS. cbn -[InvertSecretValue evflag]. rewrite InvertSecretValue_flag.
    eexists _, _, ind, k, eb. split; [reflexivity|].
    split; [split; [apply IsSecret_evflag|discriminate]|]. split; [auto|].
    split; [intros _; split; [destruct l0; eapply relX0_inv; exact R0'|auto]|].
    left. split; auto. intros (_ & _ & NL & _). unfold nonlinear, NOTGATE in NL. lia. }
  destruct (R1 NN) as [R1' ->]. specialize (HC eq_refl eq_refl NN). rewrite evflag_eqb.
  destruct l0 as [s0 i0], l1 as [s1 i1]. cbn [fst snd] in *.
  destruct (N.eqb_spec s0 s1) as [->|NE]; cbn [andb] in HS.
  - assert (NF : ~ fresh_gate (s1, i0) v0 (s1, i1) v1 t) by (intros (_ & _ & _ & Q); simpl in Q; congruence).
    pose proof (relX_same _ _ _ _ _ _ _ _ R0' R1') as EQ.
    replace (mulb (xorb i0 i1) 0%N) with 0%N in EQ by (destruct (xorb i0 i1); auto).
    rewrite N.lxor_0_r in EQ. subst in0. rewrite CmpBlock_refl. cbn [andb].
    destruct (Bool.eqb i0 i1) eqn:EI; cbn [negb].
    + destruct (equal_shortcut t) as [[z'| |]|] eqn:ES; inv HS.
      * eexists _, _, ind, k, eb. split; [reflexivity|].
        split; [split; auto|]. split; [auto|].
        split; [|left; auto].
        destruct Ht as [->|[->|[->|[->|[->|[->|[->|[->|[->|[->| ->]]]]]]]]]]; cbn in ES; inv ES;
          intros Q; discriminate Q.
      * eexists _, _, ind, k, eb. split; [reflexivity|].
        split; [split; [apply IsSecret_evflag|discriminate]|]. auto.
      * eexists _, _, ind, k, eb. split; [reflexivity|]. rewrite InvertSecretValue_flag.
        split; [split; [apply IsSecret_evflag|discriminate]|]. split; [auto|].
        split; [|auto]. intros _. split; [eapply relX0_inv; eauto|auto].
      * destruct Ht as [->|[->|[->|[->|[->|[->|[->|[->|[->|[->| ->]]]]]]]]]]; cbn in ES; try discriminate ES.
        exfalso; apply NN; reflexivity.
    + destruct (inverted_shortcut t) as [[z'| |]|] eqn:ES; inv HS.
      * eexists _, _, ind, k, eb. split; [reflexivity|].
        split; [split; auto|]. split; [auto|].
        split; [|left; auto].
        destruct Ht as [->|[->|[->|[->|[->|[->|[->|[->|[->|[->| ->]]]]]]]]]]; cbn in ES; inv ES;
          intros Q; discriminate Q.
      * eexists _, _, ind, k, eb. split; [reflexivity|].
        split; [split; [apply IsSecret_evflag|discriminate]|]. auto.
      * eexists _, _, ind, k, eb. split; [reflexivity|]. rewrite InvertSecretValue_flag.
        split; [split; [apply IsSecret_evflag|discriminate]|]. split; [auto|].
        split; [|auto]. intros _. split; [eapply relX0_inv; eauto|auto].
      * destruct Ht as [->|[->|[->|[->|[->|[->|[->|[->|[->|[->| ->]]]]]]]]]]; cbn in ES; try discriminate ES.
        exfalso; apply NN; reflexivity.
  - rewrite (HC NE). cbn [andb].
    destruct (Z.eqb_spec t XORGATE) as [->|N1]; [|destruct (Z.eqb_spec t XNORGATE) as [->|N2]].
    + inv HS. eexists _, _, ind, k, eb. split; [reflexivity|]. rewrite XorSecret_flag.
      split; [split; [apply IsSecret_evflag|discriminate]|]. split; [auto|]. split.
      * intros _. split; [|auto]. apply relX_xor; auto.
      * left. split; auto. intros (_ & _ & NL & _). unfold nonlinear, XORGATE in NL. lia.
    + inv HS. eexists _, _, ind, k, eb. split; [reflexivity|].
      rewrite XorSecret_flag, InvertSecretValue_flag.
      split; [split; [apply IsSecret_evflag|discriminate]|]. split; [auto|]. split.
      * intros _. split; [|auto]. eapply relX0_inv. apply relX_xor; eauto.
      * left. split; auto. intros (_ & _ & NL & _). unfold nonlinear, XNORGATE in NL. lia.
    + inv HS.
      assert (NL : nonlinear t) by (destruct (valid_linear_or t Ht) as [|[|[|]]]; congruence).
      destruct (rd_ok tabs ind (HI NL)) as [tb Htb]. rewrite Htb. cbn [obind].
      assert (FG : fresh_gate (s0, i0) v0 (s1, i1) v1 t) by (split; [|split; [|split]]; auto).
      destruct (N.eqb_spec (gid tb) (N.of_nat g)) as [EG|EG].
      * eexists _, _, _, _, (fupd eb n _). split; [reflexivity|].
        split; [split; auto|]. split; [intros; apply fupd_other; lia|].
        split; [intros _; split; [apply relX_atom|reflexivity]|].
        right. split; auto. exists tb. auto.
      * eexists _, _, _, _, (fupd eb n _). split; [reflexivity|].
        split; [split; auto|]. split; [intros; apply fupd_other; lia|].
        split; [intros _; split; [apply relX_atom|reflexivity]|].
        right. split; auto. exists tb. auto.
Qed.

(** * Plaintext *)
Definition b2N (b : bool) : N := if b then 1%N else 0%N.

Lemma b2N_xor a b : N.lxor (b2N a) (b2N b) = b2N (xorb a b).
Proof. destruct a, b; reflexivity. Qed.
Lemma b2N_inj a b : b2N a = b2N b -> a = b.
Proof. destruct a, b; simpl; auto; discriminate. Qed.
Lemma mulb_1 b : mulb b 1%N = b2N b.
Proof. reflexivity. Qed.

Lemma plain_gate_sim vals n gl l0 v0 l1 v1 t g b0 b1 l v n' gl' :
  valid_type t -> vok v0 -> vok v1 ->
  (IsSecret v0 = false -> v0 = b2z b0) ->
  (IsSecret v1 = false -> t <> NOTGATE -> v1 = b2z b1) ->
  (IsSecret v0 = true -> relX 1 vals n l0 (b2N b0)) ->
  (IsSecret v1 = true -> t <> NOTGATE -> relX 1 vals n l1 (b2N b1)) ->
  sym_gate l0 v0 l1 v1 t g (n, gl) = Some (l, v, (n', gl')) ->
  exists vals',
    (forall a, (a < n)%nat -> vals' a = vals a) /\
    (IsSecret v = false -> v = b2z (GateOperator t b0 b1)) /\
    (IsSecret v = true -> relX 1 vals' n' l (b2N (GateOperator t b0 b1))).
Proof.
  intros Ht V0 V1 P0 P1 R0 R1 HS. unfold sym_gate in HS.
  assert (NOTeq : forall a b b', GateOperator NOTGATE a b = GateOperator NOTGATE a b') by reflexivity.
  destruct (IsSecret v0) eqn:S0, (IsSecret v1) eqn:S1; cbn [negb andb] in *.
  4:{ inv HS. exists vals. split; [auto|]. split; [|rewrite IsSecret_b2z; discriminate].
      intros _. rewrite (P0 eq_refl), z2b_b2z.
      destruct (Z.eq_dec t NOTGATE) as [->|NN]; [rewrite (NOTeq _ _ b1); auto|].
      rewrite (P1 eq_refl NN), z2b_b2z. auto. }
  3:{ unfold half_x in HS. rewrite (P0 eq_refl), z2b_b2z in HS.
      destruct (Bool.eqb (GateOperator t b0 false) (GateOperator t b0 true)) eqn:EX.
      - inv HS. exists vals. split; [auto|]. split; [|rewrite IsSecret_b2z; discriminate].
        apply eqb_prop in EX. intros _. f_equal. destruct b1; congruence.
      - assert (t <> NOTGATE) as NN.
        { intros ->. cbv in EX. destruct b0; discriminate. }
        specialize (R1 eq_refl NN). exists vals. destruct l1 as [s1 i1].
        destruct (negb (GateOperator t b0 false) && GateOperator t b0 true) eqn:EY; inv HS.
        + split; [auto|]. split; [discriminate|]. intros _.
          replace (GateOperator t b0 b1) with b1; auto.
          apply andb_true_iff in EY as [Y1 Y2]. apply negb_true_iff in Y1.
          destruct b1; congruence.
        + split; [auto|]. split; [discriminate|]. intros _.
          replace (GateOperator t b0 b1) with (negb b1).
          2:{ destruct (GateOperator t b0 false) eqn:G0, (GateOperator t b0 true) eqn:G1;
                try discriminate. destruct b1; simpl; congruence. }
          replace (b2N (negb b1)) with (N.lxor (b2N b1) 1) by (destruct b1; auto).
          apply relX_inv; auto. }
  2:{ unfold half_x in HS.
      destruct (Z.eq_dec t NOTGATE) as [->|NN].
      { cbn in HS. inv HS. exists vals. split; [auto|]. split; [discriminate|].
        intros _. destruct l0 as [s0 i0]. cbn.
        replace (b2N (negb b0)) with (N.lxor (b2N b0) 1) by (destruct b0; auto).
        apply relX_inv; auto. }
      rewrite (P1 eq_refl NN), z2b_b2z in HS.
      destruct (Bool.eqb (GateOperator t false b1) (GateOperator t true b1)) eqn:EX.
      - inv HS. exists vals. split; [auto|]. split; [|rewrite IsSecret_b2z; discriminate].
        apply eqb_prop in EX. intros _. f_equal. destruct b0; congruence.
      - specialize (R0 eq_refl). exists vals. destruct l0 as [s0 i0].
        destruct (negb (GateOperator t false b1) && GateOperator t true b1) eqn:EY; inv HS.
        + split; [auto|]. split; [discriminate|]. intros _.
          replace (GateOperator t b0 b1) with b0; auto.
          apply andb_true_iff in EY as [Y1 Y2]. apply negb_true_iff in Y1.
          destruct b0; congruence.
        + split; [auto|]. split; [discriminate|]. intros _.
          replace (GateOperator t b0 b1) with (negb b0).
          2:{ destruct (GateOperator t false b1) eqn:G0, (GateOperator t true b1) eqn:G1;
                try discriminate. destruct b0; simpl; congruence. }
          replace (b2N (negb b0)) with (N.lxor (b2N b0) 1) by (destruct b0; auto).
          apply relX_inv; auto. }
  specialize (R0 eq_refl).
  destruct (Z.eqb_spec t NOTGATE) as [->|NN]; cbn [negb andb] in *.
  { inv HS. exists vals. split; [auto|]. split; [discriminate|]. intros _. cbn.
    destruct l0 as [s0 i0]. replace (b2N (negb b0)) with (N.lxor (b2N b0) 1) by (destruct b0; auto).
    apply relX_inv; auto. }
  specialize (R1 eq_refl NN). destruct l0 as [s0 i0], l1 as [s1 i1]. cbn [fst snd] in *.
  destruct (N.eqb_spec s0 s1) as [->|NE]; cbn [andb] in HS.
  - pose proof (relX_same _ _ _ _ _ _ _ _ R0 R1) as EQ. rewrite mulb_1, b2N_xor in EQ.
    apply b2N_inj in EQ. exists vals.
    assert (RI : relX 1 vals n (s1, negb i0) (b2N (negb b0))).
    { replace (b2N (negb b0)) with (N.lxor (b2N b0) 1) by (destruct b0; auto).
      apply relX_inv; auto. }
    destruct (Bool.eqb i0 i1) eqn:EI.
    + apply eqb_prop in EI. subst i1. rewrite xorb_nilpotent, xorb_false_r in EQ. subst b1.
      split; [destruct (equal_shortcut t) as [[z'| |]|]; inv HS; auto|].
      destruct Ht as [->|[->|[->|[->|[->|[->|[->|[->|[->|[->| ->]]]]]]]]]]; try (exfalso; apply NN; reflexivity); cbn in HS; inv HS;
        (split; intros Q; try discriminate Q); try (destruct b0; reflexivity);
        first [exact R0 | exact RI | congruence | idtac];
        try (match goal with |- relX _ _ _ _ ?x =>
          first [replace x with (b2N b0) by (destruct b0; reflexivity); exact R0
                |replace x with (b2N (negb b0)) by (destruct b0; reflexivity); exact RI] end).
    + assert (xorb i0 i1 = true) as X by (destruct i0, i1; auto; discriminate).
      rewrite X in EQ. assert (b1 = negb b0) as -> by (destruct b0, b1; auto).
      split; [destruct (inverted_shortcut t) as [[z'| |]|]; inv HS; auto|].
      destruct Ht as [->|[->|[->|[->|[->|[->|[->|[->|[->|[->| ->]]]]]]]]]]; try (exfalso; apply NN; reflexivity); cbn in HS; inv HS;
        (split; intros Q; try discriminate Q); try (destruct b0; reflexivity);
        first [exact R0 | exact RI | congruence | idtac];
        try (match goal with |- relX _ _ _ _ ?x =>
          first [replace x with (b2N b0) by (destruct b0; reflexivity); exact R0
                |replace x with (b2N (negb b0)) by (destruct b0; reflexivity); exact RI] end).
  - destruct (Z.eqb_spec t XORGATE) as [->|N1]; [|destruct (Z.eqb_spec t XNORGATE) as [->|N2]].
    + inv HS. exists vals. split; [auto|]. split; [discriminate|]. intros _.
      replace (GateOperator XORGATE b0 b1) with (xorb b0 b1) by (destruct b0, b1; auto).
      rewrite <- b2N_xor. apply relX_xor; auto.
    + inv HS. exists vals. split; [auto|]. split; [discriminate|]. intros _.
      replace (b2N (GateOperator XNORGATE b0 b1)) with (N.lxor (N.lxor (b2N b0) (b2N b1)) 1)
        by (destruct b0, b1; auto).
      apply relX_inv, relX_xor; auto.
    + inv HS. exists (fupd vals n (b2N (GateOperator t b0 b1))).
      split; [intros; apply fupd_other; lia|]. split; [discriminate|].
      intros _. apply relX_atom.
Qed.
