(** Second pass of a clock cycle: garbler to the end, then the evaluator. *)
From Coq Require Import ZArith NArith List Bool Lia.
From Verif Require Import Base Gate Circuit Spec Fanout GateFacts GateSim Phase1 Phase2.
Import ListNotations.
Open Scope Z_scope.

(** * Error of the evaluator's atoms *)
Definition err (R : N) (eb base vals : nat -> N) (a : nat) : N :=
  N.lxor (N.lxor (eb a) (base a)) (mulb (N.odd (vals a)) R).

Lemma odd_lxor a b : N.odd (N.lxor a b) = xorb (N.odd a) (N.odd b).
Proof. rewrite <- !N.bit0_odd. apply N.lxor_spec. Qed.
Lemma odd_b2N b : N.odd (b2N b) = b.
Proof. destruct b; reflexivity. Qed.

Lemma xsum_err R eb base vals n s :
  xsum (err R eb base vals) n s =
  N.lxor (N.lxor (xsum eb n s) (xsum base n s)) (mulb (N.odd (xsum vals n s)) R).
Proof.
  induction n; [reflexivity|]. simpl. rewrite IHn.
  unfold err. rewrite odd_lxor.
  destruct (N.testbit s (N.of_nat n)).
  - generalize (xsum eb n s) (xsum base n s) (N.odd (xsum vals n s)) (N.odd (vals n)) (eb n) (base n).
    intros a b [] [] x y; simpl; xsolve.
  - generalize (xsum eb n s) (xsum base n s) (N.odd (xsum vals n s)).
    intros a b []; simpl; xsolve.
Qed.

Lemma good_iff R eb base vals n l e p b :
  relX 0 eb n l e -> relX R base n l p -> relX 1 vals n l (b2N b) ->
  (e = XorBlock p (mulb b R) <-> xsum (err R eb base vals) n (fst l) = 0%N).
Proof.
  intros [_ E1] [_ E2] [_ E3]. rewrite xsum_err.
  assert (OB : N.odd (xsum vals n (fst l)) = xorb b (snd l)).
  { assert (xsum vals n (fst l) = N.lxor (b2N b) (mulb (snd l) 1%N)) as ->.
    { rewrite E3. generalize (xsum vals n (fst l)) (mulb (snd l) 1%N). intros; xsolve. }
    rewrite odd_lxor, odd_b2N. destruct (snd l); reflexivity. }
  rewrite OB. subst e p.
  generalize (xsum eb n (fst l)) (xsum base n (fst l)). intros a d. unfold XorBlock.
  assert (Q : forall x y z : N, x = N.lxor y z <-> N.lxor x (N.lxor y z) = 0%N).
  { intros. split; [intros ->; apply N.lxor_nilpotent|apply N.lxor_eq]. }
  rewrite Q. 
  replace (N.lxor (N.lxor a (mulb (snd l) 0%N)) (N.lxor (N.lxor d (mulb (snd l) R)) (mulb b R)))
    with (N.lxor (N.lxor a d) (mulb (xorb b (snd l)) R)); [tauto|].
  destruct (snd l), b; simpl; xsolve.
Qed.

Lemma operand_wireE V idx : 0 <= idx -> operand V idx = V idx.
Proof.
  intros. unfold operand. destruct (Z.eqb_spec idx (-3)); [lia|].
  destruct (Z.ltb_spec idx 0); [lia|auto].
Qed.

(** * Lists of tables *)
Lemma Forall2_app_split {A B} (P : A -> B -> Prop) l m1 m2 :
  Forall2 P l (m1 ++ m2) -> exists l1 l2, l = l1 ++ l2 /\ Forall2 P l1 m1 /\ Forall2 P l2 m2.
Proof.
  revert l; induction m1; simpl; intros l H.
  - exists [], l; auto.
  - inv H. destruct (IHm1 _ H4) as (l1 & l2 & -> & A1 & A2). exists (x :: l1), l2. auto.
Qed.

Lemma Forall2_len {A B} (P : A -> B -> Prop) l m : Forall2 P l m -> length l = length m.
Proof. induction 1; simpl; congruence. Qed.

Lemma filter_len_le {A} f (l : list A) : (length (filter f l) <= length l)%nat.
Proof. induction l; simpl; [lia|]. destruct (f a); simpl; lia. Qed.

Lemma filter_length_rel {A B} (P : A -> B -> Prop) f g l m :
  Forall2 P l m -> (forall x y, P x y -> f x = g y) ->
  length (filter f l) = length (filter g m).
Proof.
  intros H HP. induction H; auto. simpl. rewrite (HP _ _ H). destruct (g y); simpl; auto.
Qed.

(** Shields an equation from [subst]. *)
Definition prot (P : Prop) : Prop := P.

Section Phase2E.
Variable c : GarbledCircuit.
Hypothesis WF : well_formed c.
Notation gs := (garbledGates c).
Notation bias := (get_gate_lo_index c).
Hypothesis SZ : (N.of_nat (length gs) < 2 ^ 32)%N.
Variable V : Z -> bool.
Hypothesis HV : forall i g, nth_error gs i = Some g ->
  V (first_gate c + Z.of_nat i) = GateOperator (type g) (operand V (input0 g)) (operand V (input1 g)).
Variable aes : block -> block.
Variable R : block.
Hypothesis HR : get_LSB R = true.
Variable cid : N.

Notation sbody := (sbody c).
Notation gbody := (gbody c aes R cid).
Notation J := (J c V R).

(** * The garbler's whole pass *)
Section Garble.
Variables (ss0 : sstate) (gt0 : gstate) (base0 vals0 : nat -> N).
Hypothesis J0 : J 0 ss0 gt0 base0 vals0.
Hypothesis GL0 : snd (st_s ss0) = [].
Hypothesis GF : forall i ss gt, (i < length gs)%nat ->
  for_ i sbody ss0 = Some ss -> for_ i gbody gt0 = Some gt -> g_free c i ss gt.

Lemma pass_g n : (n <= length gs)%nat ->
  exists ss gt base vals,
    for_ n sbody ss0 = Some ss /\ for_ n gbody gt0 = Some gt /\ J n ss gt base vals /\
    (fst (st_s ss0) <= fst (st_s ss))%nat /\
    (forall a, (a < fst (st_s ss0))%nat -> base a = base0 a /\ vals a = vals0 a) /\
    (forall g, In g (snd (st_s ss)) -> (g < n)%nat) /\
    (forall i ssi gti, (i <= n)%nat -> for_ i sbody ss0 = Some ssi -> for_ i gbody gt0 = Some gti ->
       exists suf, snd (st_s ss) = snd (st_s ssi) ++ suf /\
         (forall g, In g suf -> (i <= g < n)%nat) /\
         (forall j, (j < length (snd (st_s ssi)))%nat ->
            nth_error (fst (st_s gt)) j = nth_error (fst (st_s gti)) j)).
Proof.
  induction n; intros Hn.
  - exists ss0, gt0, base0, vals0. split; [reflexivity|]. split; [reflexivity|].
    split; [auto|]. split; [lia|]. split; [auto|]. rewrite GL0. split; [intros g []|].
    intros i ssi gti Hi E1 E2. assert (i = 0)%nat by lia. subst.
    rewrite for_0 in E1. rewrite for_0 in E2. inv E1. inv E2. exists []. rewrite GL0. split; [auto|].
    split; [intros g []|]. simpl. lia.
  - destruct IHn as (ss & gt & base & vals & E1 & E2 & HJ & HN & HB & HG & HP); [lia|].
    destruct (step_g c WF V HV aes R HR cid n ss gt base vals) as
      (ss' & gt' & base' & vals' & S1 & S2 & HJ' & HN' & HB' & TB); auto; try lia.
    assert (TB' : exists s1, snd (st_s ss') = snd (st_s ss) ++ s1 /\ (s1 = [] \/ s1 = [n]) /\
      forall j, (j < length (snd (st_s ss)))%nat ->
        nth_error (fst (st_s gt')) j = nth_error (fst (st_s gt)) j).
    { destruct TB as [[-> ->]|(-> & tb & W)].
      - exists []. rewrite app_nil_r. auto.
      - exists [n]. split; [auto|]. split; [auto|]. intros j Hj.
        rewrite <- !rd_nat. eapply rd_wr_other; eauto.
        rewrite (j_ind _ _ _ _ _ _ _ _ HJ). lia. }
    destruct TB' as (s1 & G1 & G2 & G3).
    exists ss', gt', base', vals'. rewrite !for_S, E1, E2. cbn [obind].
    split; [auto|]. split; [auto|]. split; [auto|]. split; [lia|]. split.
    { intros a Ha. destruct (HB' a ltac:(lia)) as [-> ->]. apply HB; auto. }
    split.
    { intros g Hg. rewrite G1 in Hg. apply in_app_or in Hg as [Hg|Hg].
      - specialize (HG g Hg). lia.
      - destruct G2 as [-> | ->]; simpl in Hg; [contradiction|lia]. }
    intros i ssi gti Hi Ei1 Ei2. destruct (Nat.eq_dec i (S n)) as [->|NE].
    + rewrite for_S, E1 in Ei1. rewrite for_S, E2 in Ei2. cbn [obind] in *.
      assert (ssi = ss') as -> by congruence. assert (gti = gt') as -> by congruence.
      exists []. rewrite app_nil_r. split; [auto|]. split; [intros g []|auto].
    + destruct (HP i ssi gti ltac:(lia) Ei1 Ei2) as (suf & Q1 & Q2 & Q3).
      exists (suf ++ s1). rewrite G1, Q1, app_assoc. split; [auto|]. split.
      * intros g Hg. apply in_app_or in Hg as [Hg|Hg].
        -- specialize (Q2 g Hg). lia.
        -- destruct G2 as [-> | ->]; simpl in Hg; [contradiction|lia].
      * intros j Hj. rewrite G3; auto. rewrite Q1, app_length. lia.
Qed.
End Garble.

(** * The evaluator *)
Variable rnd : nat -> block.
Definition ze : block := ZeroBlock.
Definition efn (l0 : block) v0 l1 v1 t (g : nat) st :=
  EvalGate aes rnd l0 v0 l1 v1 t cid (N.of_nat g) st.
Definition ebody := secret_body ze c efn.
Definition estate := @p2state block (list GarbledTable * Z * nat).

(** No accidental collision when the evaluator processes gate [i]. *)
Definition e_free (i : nat) (ss : sstate) (es : estate) : Prop :=
  forall g, nth_error gs i = Some g -> 0 < fz (st_fan ss) i ->
    IsSecret (vz (st_wv ss) (output g)) = true ->
    e_cmp_ok (i_l0 c g ss) (i_l1 c g ss) (i_v0 c g ss) (i_v1 c g ss) (type g)
      (labz ze c (st_wl es) (input0 g)) (labz ze c (st_wl es) (input1 g)).

Section Evaluate.
Variables (F : list Z) (et : list GarbledTable).
Definition used (g : nat) : bool := 0 <? fz F g.

Record E (i : nat) (ss : sstate) (gt : gstate) (es : estate) (eb : nat -> N) : Prop := {
  e_l : Z.of_nat (length (st_wl es)) = wsz c;
  e_v : Z.of_nat (length (st_wv es)) = wsz c;
  e_f : st_fan es = st_fan ss;
  e_rv : forall w, first_input c <= w < wsz c -> relV (vz (st_wv ss) w) (vz (st_wv es) w);
  e_rel : forall w, valid c i (st_fan ss) w -> IsSecret (vz (st_wv ss) w) = true ->
    relX 0 eb (fst (st_s ss)) (lz zs (st_wl ss) w) (lz ze (st_wl es) w) /\
    vz (st_wv es) w = evflag (snd (lz zs (st_wl ss) w));
  e_good : forall w, valid c i F w -> IsSecret (vz (st_wv ss) w) = true ->
    lz ze (st_wl es) w = XorBlock (fst (lz zg (st_wl gt) w)) (mulb (V w) R);
  e_tabs : fst (fst (st_s es)) = et;
  e_ind : snd (fst (st_s es)) = Z.of_nat (length (filter used (snd (st_s ss)))) }.

(** What the evaluator's table array must contain. *)
Definition table_rel (tb : GarbledTable) (g : nat) : Prop := gid tb = N.of_nat g.

Lemma lookup (Tn junk : list GarbledTable) gl1 gl2 :
  Forall2 table_rel Tn (gl1 ++ gl2) ->
  (forall g, In g (gl1 ++ gl2) -> (g < length gs)%nat) ->
  et = filter (fun tb => 0 <? fz F (N.to_nat (gid tb))) Tn ++ junk ->
  exists T1 T2, Tn = T1 ++ T2 /\ length T1 = length gl1 /\ Forall2 table_rel T2 gl2 /\
    rd et (Z.of_nat (length (filter used gl1))) =
    nth_error (filter (fun tb => 0 <? fz F (N.to_nat (gid tb))) T2 ++ junk) 0.
Proof.
  intros H1 H2 ->. apply Forall2_app_split in H1 as (T1 & T2 & -> & A1 & A2).
  exists T1, T2. split; [auto|]. split; [eapply Forall2_len; eauto|]. split; [auto|].
  rewrite filter_app, <- app_assoc, rd_nat.
  rewrite <- (filter_length_rel table_rel (fun tb => 0 <? fz F (N.to_nat (gid tb))) used T1 gl1 A1).
  - rewrite nth_error_app2, Nat.sub_diag by lia. auto.
  - intros tb g Q. unfold used. rewrite Q, Nat2N.id. auto.
Qed.

Variables (Tn junk : list GarbledTable) (ssn : sstate).
Hypothesis ETlen : length et = NumOfNonXor c.
Hypothesis ETeq : et = filter (fun tb => 0 <? fz F (N.to_nat (gid tb))) Tn ++ junk.
Hypothesis JK : forall tb k, In tb junk -> (k < length gs)%nat -> gid tb <> N.of_nat k.
Hypothesis TnG : Forall2 table_rel Tn (snd (st_s ssn)).
Hypothesis GLn : forall g, In g (snd (st_s ssn)) -> (g < length gs)%nat.
Hypothesis FIn : FI gs bias (length gs) (pub c (st_wv ssn)) (ext c) F (fun _ => 0).

Lemma step_e i ss gt base vals ss' gt' base' vals' es eb suf' :
  (i < length gs)%nat -> J i ss gt base vals -> g_free c i ss gt ->
  sbody i ss = Some ss' -> gbody i gt = Some gt' -> J (S i) ss' gt' base' vals' ->
  (fst (st_s ss) <= fst (st_s ss'))%nat ->
  (forall a, (a < fst (st_s ss))%nat -> base' a = base a /\ vals' a = vals a) ->
  E i ss gt es eb -> e_free i ss es ->
  (* what is known about the end of the pass *)
  (forall k, fz F k <= fz (st_fan ss') k) ->
  (forall w, w < first_gate c + Z.of_nat (S i) -> rd (st_wv ssn) w = rd (st_wv ss') w) ->
  snd (st_s ssn) = snd (st_s ss') ++ suf' ->
  (forall g, In g suf' -> (S i <= g)%nat) ->
  (forall j, (j < length (snd (st_s ss')))%nat ->
     nth_error Tn j = nth_error (fst (st_s gt')) j) ->
  exists es' eb', ebody i es = Some es' /\ E (S i) ss' gt' es' eb' /\
    (forall a, (a < fst (st_s ss))%nat -> eb' a = eb a).
Proof.
  intros Hi HJ GC SB GB HJ' HN HBX HE EC FM WVn GLs SUF TBn.
  destruct (nth_error gs i) as [g|] eqn:Hg; [|apply nth_error_None in Hg; lia].
  destruct (wf_gate c WF i g Hg) as (HO & [f HT] & R0 & R1).
  pose proof (wf_valid_type c WF i g Hg) as VT.
  pose proof (wsz_gate c) as WG. pose proof (first_order c) as FO.
  pose proof (first_input_nonneg c) as FN. pose proof (bias_first_gate c) as BG.
  specialize (GC g Hg). specialize (EC g Hg).
  pose proof (i_ok0 c WF V R i g ss gt base vals HJ Hi Hg) as [OK0 OP0].
  pose proof (i_ok1 c WF V R i g ss gt base vals HJ Hi Hg) as [OK1 OP1].
  pose proof (i_rel0 c WF V R i g ss gt base vals HJ Hi Hg) as RL0.
  pose proof (i_rel1 c WF V R i g ss gt base vals HJ Hi Hg) as RL1.
  pose proof (secret_wire0 c WF V R i g ss gt base vals HJ Hi Hg) as SW0.
  pose proof (secret_wire1 c WF V R i g ss gt base vals HJ Hi Hg) as SW1.
  pose proof (i_ind c V R i g ss gt base vals HJ Hi Hg) as IND.
  pose proof (j_sl _ _ _ _ _ _ _ _ HJ) as a1. pose proof (j_sv _ _ _ _ _ _ _ _ HJ) as a2.
  pose proof (j_fan _ _ _ _ _ _ _ _ HJ) as a3. pose proof (j_gl _ _ _ _ _ _ _ _ HJ) as a4.
  pose proof (j_gv _ _ _ _ _ _ _ _ HJ) as a5. pose proof (j_gf _ _ _ _ _ _ _ _ HJ) as a6.
  pose proof (j_PZ _ _ _ _ _ _ _ _ HJ) as pz. pose proof (j_pos _ _ _ _ _ _ _ _ HJ) as pos.
  pose proof (j_cnt _ _ _ _ _ _ _ _ HJ) as cnt.
  pose proof (j_tl _ _ _ _ _ _ _ _ HJ) as tl.
  pose proof (j_ind _ _ _ _ _ _ _ _ HJ) as jind.
  pose proof (j_rel _ _ _ _ _ _ _ _ HJ') as rel'.
  destruct HE as [el ev ef erv erel egood etabs eind].
  destruct ss as [[[sl sv] fan] [n gl]]. destruct gt as [[[gw gv] gfan] [tabs ind]].
  destruct es as [[[ew evv] efan] [[tb0 eindx] dr]].
  unfold i_v0, i_v1, i_l0, i_l1, i_p0, i_p1 in *.
  unfold st_wl, st_wv, st_fan, st_s in *. cbn [fst snd] in *. subst gv gfan efan tb0.
  change (prot (eindx = Z.of_nat (length (filter used gl)))) in eind.
  change (prot (ind = Z.of_nat (length gl))) in jind.
  unfold Phase2.sbody, Phase2.gbody in SB, GB.
  rewrite !(secret_body_run c WF _ _ i g) in SB by auto.
  rewrite !(secret_body_run c WF _ _ i g) in GB by auto.
  unfold ebody. rewrite !(secret_body_run c WF _ _ i g) by auto.
  (* evaluator's input values *)
  assert (RV : forall w, first_input c <= w < first_gate c -> relV (vz sv w) (vz evv w))
    by (intros; apply erv; lia).
  assert (RVO0 : relV (oval c sv (input0 g)) (oval c evv (input0 g))).
  { destruct R0 as [A [B|B]].
    - rewrite !(oval_neg c _ _ V) by auto. apply relV_refl.
    - rewrite !oval_wire by lia. apply erv; lia. }
  assert (RVO1 : relV (oval1 c sv (type g) (input1 g)) (oval1 c evv (type g) (input1 g))).
  { destruct R1 as [A [B|B]].
    - rewrite (oval1_neg_same c sv evv) by auto. apply relV_refl.
    - rewrite !oval1_wire by lia. apply erv; lia. }
  destruct (Z.ltb_spec 0 (fz fan i)) as [fp|fn].
  2:{ inv SB. inv GB. eexists _, eb. split; [reflexivity|]. split; [|auto].
      split; unfold st_wl, st_wv, st_fan, st_s; cbn [fst snd]; auto.
      - intros w [Hw|(k & Hk & Ew & Fk)] HS.
        + apply erel; auto. left; auto.
        + apply erel; auto. right. exists k. split; [|auto].
          destruct (Nat.eq_dec k i); [subst; cbn [fst snd] in *; lia|lia].
      - intros w [Hw|(k & Hk & Ew & Fk)] HS.
        + apply egood; auto. left; auto.
        + apply egood; auto. right. exists k. split; [|auto].
          destruct (Nat.eq_dec k i); [subst; specialize (FM i); cbn [fst snd] in *; lia|lia]. }
  destruct (IsSecret (vz sv (output g))) eqn:SO.
  2:{ assert (fz fan i = 0); [|lia]. apply pz; auto. unfold pub. rewrite BG, <- HO, SO. auto. }
  assert (SOe : IsSecret (vz evv (output g)) = true).
  { rewrite <- SO. apply erv. lia. }
  rewrite SOe.
  specialize (GC fp eq_refl). specialize (EC fp eq_refl).
  specialize (RL0 fp). specialize (RL1 fp). specialize (SW0 fp). specialize (SW1 fp).
  set (v0 := oval c sv (input0 g)) in *. set (v1 := oval1 c sv (type g) (input1 g)) in *.
  set (e0 := oval c evv (input0 g)) in *. set (e1 := oval1 c evv (type g) (input1 g)) in *.
  set (l0 := labz zs c sl (input0 g)) in *. set (l1 := labz zs c sl (input1 g)) in *.
  set (p0 := labz zg c gw (input0 g)) in *. set (p1 := labz zg c gw (input1 g)) in *.
  set (x0 := labz ze c ew (input0 g)) in *. set (x1 := labz ze c ew (input1 g)) in *.
  bnd SB. destruct x as [[l v] [n' gl']]. rename H into ES.
  bnd GB. destruct x as [[p vg] [tabs' ind']]. rename H into EG.
  destruct (garble_gate_sim aes R base n gl l0 v0 l1 v1 (type g) cid i p0 p1 tabs ind l v n' gl')
    as (p' & tabs'' & ind2 & base'' & EG' & _ & _ & TB); auto.
  { intros Q. apply RL0; auto. }
  { intros Q Q'. apply RL1; auto. }
  unfold gfn in EG. rewrite EG in EG'. inv EG'. rename p' into p, tabs'' into tabs', ind2 into ind', v into vg.
  destruct (sym_gate_some l0 v0 l1 v1 (type g) i n gl VT OK0 OK1)
    as (l_ & v_ & n_ & gl_ & ES_ & VK & CS).
  rewrite ES in ES_. inv ES_. rename l_ into l, v_ into v, n_ into n', gl_ into gl'.
  assert (XR0 : IsSecret v0 = true -> relX 0 eb n l0 x0 /\ e0 = evflag (snd l0)).
  { intros Q. destruct (SW0 Q) as (A & B & C). unfold l0, x0, e0.
    rewrite !labz_wire, oval_wire by lia. apply erel; auto. }
  assert (XR1 : IsSecret v1 = true -> type g <> NOTGATE -> relX 0 eb n l1 x1 /\ e1 = evflag (snd l1)).
  { intros Q Q'. destruct (SW1 Q Q') as (A & B & C). unfold l1, x1, e1.
    rewrite !labz_wire, oval1_wire by lia. apply erel; auto. }
  assert (CNT : (length (filter used gl) <= length gl)%nat) by apply filter_len_le.
  destruct (eval_gate_sim aes rnd eb n gl l0 v0 l1 v1 (type g) cid i x0 e0 x1 e1 et eindx dr l v n' gl')
    as (x & exv & eind' & dr' & eb' & EE & RVX & EBX & EX & ET); auto.
  { intros NL. specialize (IND NL). rewrite ETlen. red in eind, jind. lia. }
  unfold efn. rewrite EE. cbn [obind].
  bnd SB. rename x2 into sl', H into WS. bnd SB. rename x2 into sv', H into WV.
  bnd GB. rename x2 into gw', H into WG'. bnd GB. assert (x2 = sv') by congruence. subst x2. clear H.
  destruct (wr_ok ew (output g) x) as [ew' WE]; [lia|].
  destruct (wr_ok evv (output g) exv) as [evv' WEV]; [lia|].
  rewrite WE, WEV. cbn [obind].
  pose proof (wr_length _ _ _ _ WE) as LE. pose proof (wr_length _ _ _ _ WEV) as LEV.
  assert (vzz : forall w, 0 <= w -> vz sv' w = if w =? output g then v else vz sv w)
    by (intros; eapply vz_wr; eauto).
  assert (vze : forall w, 0 <= w -> vz evv' w = if w =? output g then exv else vz evv w)
    by (intros; eapply vz_wr; eauto).
  assert (NN' : (n <= n')%nat) by (destruct CS as [(-> & _)|(_ & -> & _)]; lia).
  (* same fan-outs *)
  assert (DU : drop_uses c g i e0 e1 fan = drop_uses c g i v0 v1 fan).
  { unfold drop_uses. destruct RVO0 as [-> _], RVO1 as [-> _]. auto. }
  destruct RVX as [RX1 RX2].
  assert (FIN : exists fan', ss' = (sl', sv', fan', (n', gl')) /\ gt' = (gw', sv', fan', (tabs', ind')) /\
     (if negb (IsSecret exv)
      then do fan'0 <- drop_uses c g i e0 e1 fan; Some (ew', evv', fan'0, (et, eind', dr'))
      else Some (ew', evv', fan, (et, eind', dr'))) = Some (ew', evv', fan', (et, eind', dr')) /\
     (forall k, fz fan' k <= fz fan k)).
  { rewrite RX1. destruct (IsSecret v); cbn [negb] in *.
    - inv SB. inv GB. exists fan. repeat split; auto. lia.
    - rewrite DU. bnd SB. bnd GB. inv SB. inv GB. assert (x3 = x2) by congruence. subst x3.
      exists x2. rewrite H. repeat split; auto.
      destruct (drop_uses_total c g i v0 v1 fan a3 Hi (pos i)) as (fan' & ED & _ & MF & _).
      assert (fan' = x2) by congruence. subst; auto. }
  destruct FIN as (fan' & -> & -> & EB & MF). rewrite EB.
  unfold st_wl, st_wv, st_fan, st_s in rel', WVn, GLs, TBn, FM. cbn [fst snd] in rel', WVn, GLs, TBn, FM.
  (* table index *)
  assert (LK : fresh_gate l0 v0 l1 v1 (type g) ->
    (used i = true -> exists T0 T1, HalfGates aes p0 p1 (type g) cid (N.of_nat i) R = (p, (T0, T1)) /\
       rd et eindx = Some {| row0 := T0; row1 := T1; gid := N.of_nat i |}) /\
    (used i = false -> forall tb, rd et eindx = Some tb -> gid tb <> N.of_nat i)).
  { intros FG. destruct TB as [(NF & _)|(_ & -> & T0 & T1 & HG & WT)]; [contradiction|].
    destruct CS as [(_ & _ & NF)|(_ & _ & -> & _)]; [contradiction|].
    assert (GL2 : snd (snd ssn) = gl ++ i :: suf') by (rewrite GLs, <- app_assoc; reflexivity).
    rewrite GL2 in *.
    destruct (lookup Tn junk gl (i :: suf') TnG GLn ETeq) as (T1' & T2' & ET1 & LT1 & FT2 & RD).
    red in eind. rewrite <- eind in RD. inversion FT2 as [|tbi i_ Tsuf suf_ H1 H3 QA QB]. subst i_ suf_ T2'. clear FT2. rewrite ET1 in TBn.
    unfold table_rel in H1.
    assert (TBI : nth_error (T1' ++ tbi :: Tsuf) (length gl) = Some tbi).
    { rewrite nth_error_app2, LT1, Nat.sub_diag by lia. auto. }
    rewrite TBn in TBI by (rewrite app_length; simpl; lia).
    rewrite <- rd_nat, <- (jind : ind = Z.of_nat (length gl)), (rd_wr_same _ _ _ _ WT) in TBI. injection TBI as <-.
    cbn [filter] in RD. cbn [gid] in RD, H1. rewrite H1, Nat2N.id in RD. fold (used i) in RD.
    split.
    - intros U. exists T0, T1. split; auto. rewrite RD, U. cbn [app nth_error]. rewrite <- H1. auto.
    - intros U tb Rt. rewrite RD, U in Rt.
      assert (IN : In tb (filter (fun tb => 0 <? fz F (N.to_nat (gid tb))) Tsuf ++ junk)).
      { eapply nth_error_In; eauto. }
      apply in_app_or in IN as [IN|IN].
      + apply filter_In in IN as [IN _].
        clear - IN H3 SUF. induction H3; [destruct IN|]. destruct IN as [->|IN].
        * unfold table_rel in H. specialize (SUF y (or_introl eq_refl)). lia.
        * apply IHForall2; auto. intros; apply SUF; right; auto.
      + apply (JK tb i IN Hi). }
  exists (ew', evv', fan', (et, eind', dr')), eb'. split; [auto|]. split; [|auto].
  split; unfold st_wl, st_wv, st_fan, st_s; cbn [fst snd]; auto; try lia.
  - (* e_rv *)
    intros w Hw. rewrite vzz, vze by lia. destruct (Z.eqb_spec w (output g)); [split; auto|].
    apply erv; auto.
  - (* e_rel *)
    intros w Hw HS.
    assert (RW : first_input c <= w < wsz c) by (destruct Hw as [Hw|(k & Hk & Ew & Fk)]; lia).
    rewrite vzz in HS by lia. rewrite vze by lia.
    rewrite (lz_wr zs sl (output g) l sl' w), (lz_wr ze ew (output g) x ew' w) by (auto; lia).
    destruct (Z.eqb_spec w (output g)) as [->|NE].
    + apply EX; auto.
    + assert (VW : valid c i fan w).
      { destruct Hw as [Hw|(k & Hk & Ew & Fk)]; [left; auto|right]. exists k.
        split; [|split; auto; specialize (MF k); lia].
        destruct (Nat.eq_dec k i); [subst; congruence|lia]. }
      destruct (erel w VW HS) as [Q1 Q2]. split; auto. eapply relX_mono; eauto.
  - (* e_good *)
    intros w Hw HS.
    assert (RW : first_input c <= w < wsz c) by (destruct Hw as [Hw|(k & Hk & Ew & Fk)]; lia).
    assert (Hw' : valid c (S i) fan' w).
    { destruct Hw as [Hw|(k & Hk & Ew & Fk)]; [left; auto|right]. exists k.
      split; [auto|split; auto; specialize (FM k); lia]. }
    destruct (rel' w Hw' HS) as [RP RG].
    rewrite vzz in HS by lia.
    rewrite (lz_wr zs sl (output g) l sl' w) in RP, RG by (auto; lia).
    rewrite (lz_wr zg gw (output g) p gw' w) in RG |- * by (auto; lia).
    rewrite (lz_wr ze ew (output g) x ew' w) by (auto; lia).
    destruct (Z.eqb_spec w (output g)) as [->|NE].
    2:{ apply egood; auto. destruct Hw as [Hw|(k & Hk & Ew & Fk)]; [left; auto|right]. exists k.
        split; [|auto]. destruct (Nat.eq_dec k i); [subst; congruence|lia]. }
    assert (Ui : used i = true).
    { destruct Hw as [Hw|(k & Hk & Ew & Fk)]; [lia|]. assert (k = i) by lia. subst.
      apply Z.ltb_lt; auto. }
    assert (Fi : 0 < fz F i) by (apply Z.ltb_lt; exact Ui).
    (* inputs stay valid at the end *)
    assert (VF : forall idx, (idx = input0 g \/ idx = input1 g) -> first_input c <= idx < wsz c ->
       IsSecret (vz sv idx) = true -> valid c i F idx).
    { intros idx HI Ri Si.
      assert (idx < first_gate c + Z.of_nat i) by (destruct R0, R1, HI; subst; lia).
      eapply (live_input_valid c WF i F (st_wv ssn) idx g); eauto; try lia.
      unfold st_wv. specialize (WVn idx ltac:(lia)).
      assert (rd sv' idx = Some (vz sv idx)) as Q.
      { rewrite (rd_wr_other _ _ _ _ _ WV) by lia. apply rd_vz; lia. }
      rewrite Q in WVn. apply rd_vz_inv in WVn. rewrite WVn. auto. }
    assert (G0 : IsSecret v0 = true -> x0 = XorBlock (fst p0) (mulb (operand V (input0 g)) R)).
    { intros Q. destruct (SW0 Q) as (A & B & C). unfold x0, p0.
      rewrite !labz_wire, operand_wireE by lia. apply egood; auto. }
    assert (G1 : IsSecret v1 = true -> type g <> NOTGATE ->
       x1 = XorBlock (fst p1) (mulb (operand V (input1 g)) R)).
    { intros Q Q'. destruct (SW1 Q Q') as (A & B & C). unfold x1, p1.
      rewrite !labz_wire, operand_wireE by lia. apply egood; auto. }
    destruct ET as [(NF & _)|(FG & tb & Rt & [(Gt & _ & Xt)|(Gt & _)])].
    + (* linear *)
      apply (good_iff R eb' base' vals' n' l); auto; [apply EX; auto|apply RG|].
      assert (Z0 : IsSecret v0 = true -> xsum (err R eb' base' vals') n' (fst l0) = 0%N).
      { intros Q. destruct (RL0 Q) as [B1 B2]. destruct (XR0 Q) as [B3 _].
        eapply (good_iff R eb' base' vals' n' l0).
        - eapply relX_mono; [exact B3| |]; auto.
        - eapply relX_mono; [exact (proj1 B2)| |]; auto. intros; apply HBX; auto.
        - eapply relX_mono; [exact B1| |]; auto. intros; apply HBX; auto.
        - auto. }
      assert (Z1 : IsSecret v1 = true -> type g <> NOTGATE ->
        xsum (err R eb' base' vals') n' (fst l1) = 0%N).
      { intros Q Q'. destruct (RL1 Q Q') as [B1 B2]. destruct (XR1 Q Q') as [B3 _].
        eapply (good_iff R eb' base' vals' n' l1).
        - eapply relX_mono; [exact B3| |]; auto.
        - eapply relX_mono; [exact (proj1 B2)| |]; auto. intros; apply HBX; auto.
        - eapply relX_mono; [exact B1| |]; auto. intros; apply HBX; auto.
        - auto. }
      destruct (sym_gate_set l0 v0 l1 v1 (type g) i n gl l v n' gl' VT OK0 OK1 ES HS NF)
        as [(Q & ->)|[(Q & Q' & ->)|(Q & Q2 & Q' & ->)]]; auto.
      rewrite xsum_lxor, Z0, Z1 by auto. reflexivity.
    + destruct (LK FG) as [LK1 _]. destruct (LK1 Ui) as (T0 & T1 & HG & RD).
      rewrite RD in Rt. inv Rt. cbn [row0 row1].
      destruct FG as (Q0 & Q1 & NL & _).
      assert (type g <> NOTGATE) as NN by (intros QQ; rewrite QQ in NL; unfold nonlinear, NOTGATE in NL; lia).
      rewrite (G0 Q0), (G1 Q1 NN).
      destruct (RL0 Q0) as [_ [_ P0]]. destruct (RL1 Q1 NN) as [_ [_ P1]].
      rewrite HO, (HV i g Hg).
      destruct p0 as [pa0 pa1], p1 as [pb0 pb1]. cbn [fst snd] in *. subst pa1 pb1.
      apply (half_gates_correct _ _ _ _ _ _ _ (operand V (input0 g)) (operand V (input1 g)) _ _ NL HR HG).
    + destruct (LK FG) as [LK1 _]. destruct (LK1 Ui) as (T0 & T1 & HG & RD).
      rewrite RD in Rt. inv Rt. cbn [gid] in Gt. congruence.
  - (* e_ind *)
    red in eind.
    destruct ET as [(NF & ->)|(FG & tb & Rt & ET)].
    + destruct CS as [(_ & -> & _)|(FG & _)]; [auto|contradiction].
    + destruct CS as [(_ & _ & NF)|(_ & _ & -> & _)]; [contradiction|].
      destruct (LK FG) as [LK1 LK2]. rewrite filter_app, app_length. cbn [filter].
      destruct (used i) eqn:Ui; cbn [length].
      * destruct (LK1 eq_refl) as (T0 & T1 & HG & RD). rewrite RD in Rt. inv Rt. cbn [gid] in ET.
        destruct ET as [(_ & -> & _)|(Q & _)]; [lia|congruence].
      * specialize (LK2 eq_refl tb Rt). destruct ET as [(Q & _)|(_ & ->)]; [congruence|]. rewrite Nat.add_0_r; exact eind.
Qed.
End Evaluate.

(** Table list that the garbler sends: the tables of gates whose fan-out is
    still positive after the pass. *)
Definition sent_tables (F : list Z) (tabs : list GarbledTable) (k : nat) : list GarbledTable :=
  filter (fun tb => 0 <? fz F (N.to_nat (gid tb))) (firstn k tabs).

Lemma pass_e ss0 gt0 base0 vals0 es0 eb0 junk :
  J 0 ss0 gt0 base0 vals0 -> snd (st_s ss0) = [] ->
  (forall i ss gt, (i < length gs)%nat ->
     for_ i sbody ss0 = Some ss -> for_ i gbody gt0 = Some gt -> g_free c i ss gt) ->
  (forall i ss es, (i < length gs)%nat ->
     for_ i sbody ss0 = Some ss -> for_ i ebody es0 = Some es -> e_free i ss es) ->
  forall ssn gtn, for_ (length gs) sbody ss0 = Some ssn -> for_ (length gs) gbody gt0 = Some gtn ->
  let F := st_fan ssn in
  let et := sent_tables F (fst (st_s gtn)) (length (snd (st_s ssn))) ++ junk in
  length et = NumOfNonXor c ->
  (forall tb k, In tb junk -> (k < length gs)%nat -> gid tb <> N.of_nat k) ->
  E F et 0 ss0 gt0 es0 eb0 ->
  exists esn eb, for_ (length gs) ebody es0 = Some esn /\ E F et (length gs) ssn gtn esn eb /\
    length (sent_tables F (fst (st_s gtn)) (length (snd (st_s ssn)))) =
    length (filter (used F) (snd (st_s ssn))) /\
    (forall a, (a < fst (st_s ss0))%nat -> eb a = eb0 a).
Proof.
  intros HJ0 GL0 GF EF ssn gtn ESn EGn F et LET JK HE0.
  destruct (pass_g ss0 gt0 base0 vals0 HJ0 GL0 GF (length gs) ltac:(lia))
    as (ssn_ & gtn_ & basen & valsn & A1 & A2 & HJn & _ & _ & GLB & SUFF).
  rewrite ESn in A1. rewrite EGn in A2. injection A1 as <-. injection A2 as <-.
  set (Tn := firstn (length (snd (st_s ssn))) (fst (st_s gtn))).
  assert (LTn : (length (snd (st_s ssn)) <= length (fst (st_s gtn)))%nat).
  { rewrite (j_tl _ _ _ _ _ _ _ _ HJn), <- nnx_total. apply (j_cnt _ _ _ _ _ _ _ _ HJn). }
  assert (TnG : Forall2 table_rel Tn (snd (st_s ssn))).
  { assert (G : forall l (m : list GarbledTable), (length l <= length m)%nat ->
      (forall j g, nth_error l j = Some g -> exists tb, nth_error m j = Some tb /\ table_rel tb g) ->
      Forall2 table_rel (firstn (length l) m) l).
    { induction l as [|g l IH]; intros m Hl Q; [constructor|].
      destruct m as [|tb m]; [simpl in Hl; lia|]. simpl. constructor.
      - destruct (Q 0%nat g eq_refl) as (tb' & E1 & E2). inv E1. auto.
      - apply IH; [simpl in Hl; lia|]. intros j g' Hj. apply (Q (S j) g' Hj). }
    apply G; auto. intros j g Hj.
    destruct (j_gid _ _ _ _ _ _ _ _ HJn j g Hj) as (tb & E1 & E2).
    exists tb. split; auto. red. rewrite E2. apply N.mod_small.
    assert (g < length gs)%nat by (apply GLB; eapply nth_error_In; eauto). lia. }
  pose proof (j_FI _ _ _ _ _ _ _ _ HJn) as FIn. fold F in FIn.
  assert (LOOP : forall n, (n <= length gs)%nat -> exists es eb,
     for_ n ebody es0 = Some es /\ forall ss gt, for_ n sbody ss0 = Some ss ->
       for_ n gbody gt0 = Some gt -> E F et n ss gt es eb /\
         (forall a, (a < fst (st_s ss0))%nat -> eb a = eb0 a)).
  { induction n; intros Hn.
    - exists es0, eb0. split; [reflexivity|]. intros ss gt Q1 Q2.
      rewrite for_0 in Q1. rewrite for_0 in Q2. inv Q1. inv Q2. auto.
    - destruct IHn as (es & eb & EE & IH); [lia|].
      destruct (pass_g ss0 gt0 base0 vals0 HJ0 GL0 GF n ltac:(lia))
        as (ss & gt & base & vals & S1 & S2 & HJ & HNN & _).
      destruct (IH ss gt S1 S2) as [IH1 IH2]. clear IH. rename IH1 into IH.
      destruct (step_g c WF V HV aes R HR cid n ss gt base vals) as
        (ss' & gt' & base' & vals' & S1' & S2' & HJ' & HN' & HB' & _); auto; try lia.
      assert (F1 : for_ (S n) sbody ss0 = Some ss') by (rewrite for_S, S1; auto).
      assert (F2 : for_ (S n) gbody gt0 = Some gt') by (rewrite for_S, S2; auto).
      destruct (SUFF (S n) ss' gt' Hn F1 F2) as (suf' & G1 & G2 & G3).
      destruct (secret_frame_loop zs c sym_gate WF (S n) (length gs) ss0 ss' ssn) as (_ & _ & _ & _ & FR2 & FR3); auto.
      { apply (j_fan _ _ _ _ _ _ _ _ HJ'). }
      destruct (step_e F et Tn junk ssn LET eq_refl JK TnG GLB FIn n ss gt base vals ss' gt' base' vals' es eb suf')
        as (es' & eb' & B1 & B2 & B3); auto; try lia.
      + intros g Hg. specialize (G2 g Hg). lia.
      + intros j Hj. unfold Tn. rewrite <- G3 by auto.
        assert (j < length (snd (st_s ssn)))%nat by (rewrite G1, app_length; lia).
        rewrite <- (firstn_skipn (length (snd (st_s ssn))) (fst (st_s gtn))) at 2.
        rewrite nth_error_app1; auto. rewrite firstn_length. lia.
      + exists es', eb'. rewrite for_S, EE. split; [auto|]. intros ss2 gt2 Q1 Q2.
        rewrite F1 in Q1. rewrite F2 in Q2. inv Q1. inv Q2. split; [auto|].
        intros a Ha. rewrite B3 by lia. auto. }
  destruct (LOOP (length gs) (le_n _)) as (esn & eb & B1 & B2).
  destruct (B2 ssn gtn ESn EGn) as [B3 B4].
  exists esn, eb. split; [auto|]. split; [auto|]. split; [|auto].
  unfold sent_tables. eapply filter_length_rel; [exact TnG|].
  intros tb g Q. unfold used. rewrite Q, Nat2N.id. auto.
Qed.
End Phase2E.
