(** Two runs of the garbler side by side. *)
From Coq Require Import ZArith NArith List Bool Lia.
From Verif Require Import Base Gate Circuit Spec Fanout GateFacts GateSim Phase1 Phase2 Phase2E Prefix CycleModel Cycle Run Privacy View ViewCycle.
Import ListNotations.
Open Scope Z_scope.

Definition bit0 (V : nat -> Z -> bool) (e : event) : bool := operand (V (ev_cid e)) (input0 (ev_g e)).
Definition bit1 (V : nat -> Z -> bool) (e : event) : bool := operand (V (ev_cid e)) (input1 (ev_g e)).

Definition event_keeps (aes aes' : block -> block) (R : block) (V V' : nat -> Z -> bool) (e : event) : Prop :=
  keeps aes aes' R (N.of_nat (ev_cid e)) (N.of_nat (ev_id e)) (ev_p0 e) (ev_p1 e) (bit0 V e) (bit1 V e)
    (xorb (bit0 V e) (bit0 V' e)) (xorb (bit1 V e) (bit1 V' e)).

(** The same table in the two runs. *)
Record event_flip (R : block) (V V' : nat -> Z -> bool) (e e' : event) : Prop := {
  ef_cid : ev_cid e' = ev_cid e; ef_id : ev_id e' = ev_id e; ef_g : ev_g e' = ev_g e;
  ef_R0 : snd (ev_p0 e) = XorBlock (fst (ev_p0 e)) R; ef_R1 : snd (ev_p1 e) = XorBlock (fst (ev_p1 e)) R;
  ef_0 : ev_p0 e' = flip R (xorb (bit0 V e) (bit0 V' e)) (ev_p0 e);
  ef_1 : ev_p1 e' = flip R (xorb (bit1 V e) (bit1 V' e)) (ev_p1 e) }.

(** The same output in the two runs, carrying the bits [b] and [b']. *)
Definition out_flip (R : block) (b b' : bool) (g g' : BlockPair * Z) : Prop :=
  snd g' = snd g /\
  (IsSecret (snd g) = false -> snd g = b2z b /\ b' = b) /\
  (IsSecret (snd g) = true -> snd (fst g) = XorBlock (fst (fst g)) R /\ fst g' = flip R (xorb b b') (fst g)).

Lemma flat_map_F2 {A B C} (P : B -> C -> Prop) (f : A -> list B) (g : A -> list C) l :
  (forall a, In a l -> Forall2 P (f a) (g a)) -> Forall2 P (flat_map f l) (flat_map g l).
Proof.
  induction l as [|a l IH]; intros H; cbn [flat_map]; [constructor|].
  apply Forall2_app; [apply H; left; auto|apply IH; intros; apply H; right; auto].
Qed.

Section TwoRuns.
Variable c : GarbledCircuit.
Variable fan0 : list Z.
Variable reset : bool.
Variables p_init p_input : N.
Variable R : block.
Notation gs := (garbledGates c).
Notation ns := (get_secret_input_size c).
Hypothesis WF : well_formed c.
Hypothesis SZ : (N.of_nat (length gs) < 2 ^ 32)%N.
Hypothesis HR : get_LSB R = true.
Hypothesis F0len : length fan0 = length gs.
Hypothesis F0 : forall k, (k < length gs)%nat -> fz fan0 k = total_uses c k.

Variables aesA aesB : block -> block.
Variables giA eiA gnA enA giB eiB gnB enB : N.
Notation xA := (mkInputs p_init giA eiA p_input gnA enA).
Notation xB := (mkInputs p_init giB eiB p_input gnB enB).
Variables VA VB : nat -> Z -> bool.
Hypothesis CVA : consistent c xA VA.
Hypothesis CVB : consistent c xB VB.
Variables ginitA ginitB : Z -> option BlockPair.
Variables ginA ginB : nat -> nat -> option BlockPair.
Notation ibitA := (ibit c giA eiA). Notation ibitB := (ibit c giB eiB).
Notation nbitA := (nbit c p_init p_input giA eiA gnA enA). Notation nbitB := (nbit c p_init p_input giB eiB gnB enB).
Hypothesis LIA : forall k, (k < get_secret_init_size c)%nat -> exists a, ginitA (Z.of_nat k) = Some (a, XorBlock a R).
Hypothesis LNA : forall cy i, (i < ns)%nat -> exists a, ginA cy i = Some (a, XorBlock a R).
Hypothesis FI : forall k, (k < get_secret_init_size c)%nat ->
  ginitB (Z.of_nat k) = option_map (flip R (xorb (ibitA k) (ibitB k))) (ginitA (Z.of_nat k)).
Hypothesis FN : forall cy i, (i < ns)%nat -> ginB cy i = option_map (flip R (xorb (nbitA cy i) (nbitB cy i))) (ginA cy i).

Lemma LIB k : (k < get_secret_init_size c)%nat -> exists a, ginitB (Z.of_nat k) = Some (a, XorBlock a R).
Proof. intros H. destruct (LIA k H) as (a & E). rewrite (FI k H), E. unfold flip. cbn. eauto. Qed.
Lemma LNB cy i : (i < ns)%nat -> exists a, ginB cy i = Some (a, XorBlock a R).
Proof. intros H. destruct (LNA cy i H) as (a & E). rewrite (FN cy i H), E. unfold flip. cbn. eauto. Qed.

Notation stepA := (garble_step c fan0 reset p_init p_input R aesA ginitA ginA).
Notation stepB := (garble_step c fan0 reset p_init p_input R aesB ginitB ginB).
Notation GIA := (GI c R ginitA giA eiA VA).
Notation GIB := (GI c R ginitB giB eiB VB).
Notation eventsA := (cycle_events c fan0 reset p_init p_input R aesA ginitA ginA).
Notation eventsB := (cycle_events c fan0 reset p_init p_input R aesB ginitB ginB).
Notation gfreeA := (gfree c fan0 reset p_init p_input R aesA ginitA ginA).
Notation gfreeB := (gfree c fan0 reset p_init p_input R aesB ginitB ginB).

Record pair_inv (cid n : nat) (s : cstate slab) (mA mB : gmem) (baseA valsA baseB valsB : nat -> N) : Prop := {
  pi_A : GIA cid n s mA baseA valsA;
  pi_B : GIB cid n s mB baseB valsB;
  pi_d : differ R n baseA valsA baseB valsB;
  pi_tmp : gm_tmp mA = gm_tmp mB;
  pi_tabs : gm_tabs mA = gm_tabs mB }.

Lemma cycle_two cid n s mA mB baseA valsA baseB valsB :
  pair_inv cid n s mA mB baseA valsA baseB valsB ->
  gfreeA cid n s mA ->
  (forall e, In e (eventsA cid mA) -> event_keeps aesA aesB R VA VB e) ->
  exists n' s' gl souts sterm mA' mB' oA oB baseA' valsA' baseB' valsB',
    sym_cycle c fan0 p_init p_input cid n s = Some (s', (n', gl), souts, sterm) /\
    stepA cid mA = Some (mA', oA) /\ stepB cid mB = Some (mB', oB) /\
    pair_inv (S cid) n' s' mA' mB' baseA' valsA' baseB' valsB' /\
    gfreeB cid n s mB /\
    Forall2 (event_flip R VA VB) (eventsA cid mA) (eventsB cid mB) /\
    go_sent oB = go_sent oA /\
    length (go_outs oA) = output_size c /\ length (go_outs oB) = output_size c /\
    (forall i u, nth_error (outputs c) i = Some u -> exists g g',
       nth_error (go_outs oA) i = Some g /\ nth_error (go_outs oB) i = Some g' /\ out_flip R (VA cid u) (VB cid u) g g') /\
    (if terminate_id c >? 0 then exists g g', go_term oA = Some g /\ go_term oB = Some g' /\
        out_flip R (VA cid (terminate_id c)) (VB cid (terminate_id c)) g g'
     else go_term oA = None /\ go_term oB = None).
Proof.
  intros [HA HB HD TMP TABS] GF EK.
  destruct (gprefix c fan0 reset p_init p_input R WF SZ F0len F0 ginitA ginA giA eiA gnA enA VA CVA LIA LNA
    cid n s mA baseA valsA HA) as
    (bA1 & vA1 & sl & sv & glA & sll & slv & gllA & glvA & fan & PS & PGA & q1 & q2 & qA3 & qA4 & EXA & JA0 & SIN & NEWA).
  destruct (gprefix c fan0 reset p_init p_input R WF SZ F0len F0 ginitB ginB giB eiB gnB enB VB CVB LIB LNB
    cid n s mB baseB valsB HB) as
    (bB1 & vB1 & sl_ & sv_ & glB & sll_ & slv_ & gllB & glvB & fan_ & PS_ & PGB & _ & _ & qB3 & qB4 & EXB & JB0 & _ & NEWB).
  rewrite PS in PS_. injection PS_ as <- <- <- <- <-.
  rewrite <- TMP in JB0.
  set (ss0 := (sl, sv, fan, ((n + ns)%nat, [])) : sstate) in *.
  set (gA0 := (glA, sv, fan, (gm_tmp mA, 0)) : gstate) in *.
  set (gB0 := (glB, sv, fan, (gm_tmp mA, 0)) : gstate) in *.
  assert (T0 : two c (VA cid) (VB cid) R 0 ss0 gA0 gB0 bA1 vA1 bB1 vB1).
  { constructor; [exact JA0|exact JB0| |reflexivity].
    intros a Ha. cbn [fst snd st_s ss0] in Ha. unfold st_s, ss0 in Ha. cbn [fst snd] in Ha.
    destruct (Nat.lt_ge_cases a n) as [LT|GE].
    - destruct (EXA a LT) as [-> ->], (EXB a LT) as [-> ->]. apply HD. exact LT.
    - replace a with (n + (a - n))%nat by lia. set (i := (a - n)%nat).
      assert (Hi : (i < ns)%nat) by (unfold i; lia).
      destruct (NEWA i Hi) as (p & E1 & E2 & E3 & _), (NEWB i Hi) as (q & E4 & E5 & E6 & _).
      rewrite E2, E3, E5, E6, !odd_b2N. rewrite (FN cid i Hi), E1 in E4. injection E4 as <-. reflexivity. }
  assert (GFA : forall i ss gt, (i < length gs)%nat -> for_ i (sbody c) ss0 = Some ss ->
    for_ i (gbody c aesA R (N.of_nat cid)) gA0 = Some gt -> g_free c i ss gt).
  { intros i ss gt. apply (GF _ _ _ _ _ _ _ _ _ _ PS PGA). }
  assert (EVA : eventsA cid mA = flat_map (gate_event c R aesA cid gA0) (seq 0 (length gs))).
  { unfold cycle_events. rewrite PGA. reflexivity. }
  assert (EVB : eventsB cid mB = flat_map (gate_event c R aesB cid gB0) (seq 0 (length gs))).
  { unfold cycle_events. rewrite PGB, <- TMP. reflexivity. }
  assert (HK : forall i g gA gA', nth_error gs i = Some g -> for_ i (gbody c aesA R (N.of_nat cid)) gA0 = Some gA ->
     gbody c aesA R (N.of_nat cid) i gA = Some gA' -> snd (st_s gA) < snd (st_s gA') ->
     gate_keeps c (VA cid) (VB cid) aesA aesB R (N.of_nat cid) i g gA).
  { intros i g gA gA' Hg E1 E2 LT.
    assert (Hi : (i < length gs)%nat) by (apply nth_error_Some; congruence).
    apply (EK (mkEv cid i g (i_p0 c g gA) (i_p1 c g gA))). rewrite EVA. apply in_flat_map. exists i.
    split; [apply in_seq; lia|]. unfold gate_event. rewrite for_S, E1. cbn [obind]. rewrite E2, Hg.
    destruct (Z.ltb_spec (snd (st_s gA)) (snd (st_s gA'))); [left; reflexivity|lia]. }
  assert (HVA : forall i g, nth_error gs i = Some g ->
    VA cid (first_gate c + Z.of_nat i) = GateOperator (type g) (operand (VA cid) (input0 g)) (operand (VA cid) (input1 g))).
  { intros i g Hg. destruct (wf_gate c WF i g Hg) as (_ & [f HT] & _).
    rewrite (cons_gate _ _ _ CVA cid i g f Hg HT), (GateOperator_spec _ _ _ _ HT). auto. }
  assert (HVB : forall i g, nth_error gs i = Some g ->
    VB cid (first_gate c + Z.of_nat i) = GateOperator (type g) (operand (VB cid) (input0 g)) (operand (VB cid) (input1 g))).
  { intros i g Hg. destruct (wf_gate c WF i g Hg) as (_ & [f HT] & _).
    rewrite (cons_gate _ _ _ CVB cid i g f Hg HT), (GateOperator_spec _ _ _ _ HT). auto. }
  pose proof (two_pass c WF SZ (VA cid) (VB cid) HVA HVB aesA aesB R HR (N.of_nat cid) ss0 gA0 gB0 bA1 vA1 bB1 vB1 T0 GFA HK) as PASS.
  (* gates of the second run *)
  assert (GFB : forall i ss gt, (i < length gs)%nat -> for_ i (sbody c) ss0 = Some ss ->
    for_ i (gbody c aesB R (N.of_nat cid)) gB0 = Some gt -> g_free c i ss gt).
  { intros i ss gt Hi E1 E2.
    destruct (PASS i ltac:(lia)) as (ss' & gA & gB & b1 & v1 & b2 & v2 & Q1 & Q2 & Q3 & HT & _).
    assert (ss' = ss) by congruence. assert (gB = gt) by congruence. subst.
    eapply two_free; eauto. }
  assert (EVS : Forall2 (event_flip R VA VB) (eventsA cid mA) (eventsB cid mB)).
  { rewrite EVA, EVB. apply flat_map_F2. intros i Hi. apply in_seq in Hi.
    destruct (PASS i ltac:(lia)) as (ss & gA & gB & b1 & v1 & b2 & v2 & Q1 & Q2 & Q3 & HT & _).
    destruct (nth_error gs i) as [g|] eqn:Hg; [|apply nth_error_None in Hg; lia].
    destruct (two_step c WF SZ (VA cid) (VB cid) HVA HVB aesA aesB R HR (N.of_nat cid) i ss gA gB b1 v1 b2 v2) as
      (ss' & gA' & gB' & b1' & v1' & b2' & v2' & S1 & S2 & S3 & HT' & _ & _ & MADE); auto; [lia|apply GFA; auto; lia| |].
    { intros g' gA' Hg' E. apply (HK i g' gA gA' Hg' Q2 E). }
    unfold gate_event. rewrite !for_S, Q2, Q3. cbn [obind]. rewrite S2, S3, Hg.
    rewrite <- (t_s _ _ _ _ _ _ _ _ _ _ _ _ HT), <- (t_s _ _ _ _ _ _ _ _ _ _ _ _ HT').
    destruct (Z.ltb_spec (snd (st_s gA)) (snd (st_s gA'))) as [LT|]; [|constructor].
    destruct (MADE LT g Hg) as (M1 & M2 & M3 & M4).
    destruct (two_inputs c WF (VA cid) (VB cid) R i g ss gA gB b1 v1 b2 v2 HT ltac:(lia) Hg M1) as [I0 I1].
    destruct (I0 M2) as [X0 Y0], (I1 M3 M4) as [X1 Y1].
    constructor; [|constructor]. constructor; cbn [ev_cid ev_id ev_g ev_p0 ev_p1]; auto. }
  destruct (PASS (length gs) (le_n _)) as (ssn & gAn & gBn & bAn & vAn & bBn & vBn & SN & GNA & GNB & HT & HN & HBn).
  unfold st_s, ss0 in HN, HBn. cbn [fst snd] in HN, HBn. fold (st_s ssn) in HN.
  pose proof (t_A _ _ _ _ _ _ _ _ _ _ _ _ HT) as JAn. pose proof (t_B _ _ _ _ _ _ _ _ _ _ _ _ HT) as JBn.
  pose proof (t_s _ _ _ _ _ _ _ _ _ _ _ _ HT) as TSn. pose proof (t_d _ _ _ _ _ _ _ _ _ _ _ _ HT) as TDn.
  destruct (gend c fan0 reset p_init p_input R WF SZ HR F0len aesA ginitA ginA giA eiA gnA enA VA CVA
    cid n s mA baseA valsA bA1 vA1 sl sv glA sll slv gllA glvA fan bAn vAn ssn gAn HA PS PGA q1 q2 qA3 qA4 EXA JA0 SIN)
    as (SYM & STA & GIA' & OA & PA); auto.
  { intros i Hi. destruct (NEWA i Hi) as (p & _ & _ & _ & Q). exact Q. }
  { intros a Ha. destruct (HBn a Ha) as (? & ? & _). auto. }
  destruct (gend c fan0 reset p_init p_input R WF SZ HR F0len aesB ginitB ginB giB eiB gnB enB VB CVB
    cid n s mB baseB valsB bB1 vB1 sl sv glB sll slv gllB glvB fan bBn vBn ssn gBn HB PS PGB q1 q2 qB3 qB4 EXB)
    as (_ & STB & GIB' & OB & PB); auto; try rewrite <- TMP; auto.
  { intros i Hi. destruct (NEWB i Hi) as (p & _ & _ & _ & Q). exact Q. }
  { intros a Ha. destruct (HBn a Ha) as (_ & _ & ? & ?). auto. }
  cbv zeta in *. rewrite <- TSn, <- TABS in STB, GIB'.
  assert (OUT : forall u, In u (outputs c) \/ (0 < terminate_id c /\ u = terminate_id c) ->
    out_flip R (VA cid u) (VB cid u) (lz zg (st_wl gAn) u, vz (st_wv ssn) u) (lz zg (st_wl gBn) u, vz (st_wv ssn) u)).
  { intros u Hu. split; [reflexivity|]. cbn [fst snd]. split; intros HS.
    - split; [apply PA; auto|]. pose proof (PA u Hu HS) as E1. pose proof (PB u Hu HS) as E2. rewrite E1 in E2.
      destruct (VA cid u), (VB cid u); auto; discriminate.
    - destruct (OA u Hu HS) as [A1 A2], (OB u Hu HS) as [B1 B2]. split; [apply A2|].
      eapply differ_label; eauto. }
  destruct ssn as [[[sln svn] fann] [nn gln]] eqn:Essn.
  eexists nn, _, gln, _, _, _, _, _, _, bAn, vAn, bBn, vBn.
  split; [exact SYM|]. split; [exact STA|]. split; [exact STB|].
  split; [constructor; [exact GIA'|exact GIB'|exact TDn|reflexivity|reflexivity]|].
  split.
  { intros sl2 sv2 sll2 slv2 sf2 gl2 gv2 gll2 glv2 gf2 E1 E2.
    cbn [w_n w_s w_g w_tmp w_tabs] in *. rewrite PS in E1. rewrite PGB in E2. injection E1 as <- <- <- <- <-. injection E2 as <- <- <- <- <-.
    rewrite <- TMP. exact GFB. }
  split; [exact EVS|]. split; [reflexivity|]. cbn [go_outs go_term].
  split; [apply map_length|]. split; [apply map_length|]. split.
  - intros i u Hu. exists (lz zg (st_wl gAn) u, vz svn u), (lz zg (st_wl gBn) u, vz svn u).
    split; [apply (map_nth_error (fun u => (lz zg (st_wl gAn) u, vz svn u)) i _ Hu)|].
    split; [apply (map_nth_error (fun u => (lz zg (st_wl gBn) u, vz svn u)) i _ Hu)|].
    apply OUT. left. eapply nth_error_In; eauto.
  - pose proof (Zgt_cases (terminate_id c) 0) as TC. destruct (terminate_id c >? 0); [|auto].
    eexists _, _. split; [reflexivity|]. split; [reflexivity|]. apply OUT. right. auto with zarith.
Qed.

(** * All cycles *)
Notation runA := (garble_run c fan0 reset p_init p_input R aesA ginitA ginA).
Notation runB := (garble_run c fan0 reset p_init p_input R aesB ginitB ginB).
Notation revsA := (run_events c fan0 reset p_init p_input R aesA ginitA ginA).
Notation revsB := (run_events c fan0 reset p_init p_input R aesB ginitB ginB).
Notation freeA := (garbler_free c fan0 reset p_init p_input R aesA ginitA ginA).
Notation freeB := (garbler_free c fan0 reset p_init p_input R aesB ginitB ginB).

(** The results of a cycle in the two runs. *)
Record cycle_same (cid : nat) (oA oB : gout) : Prop := {
  cs_sent : go_sent oB = go_sent oA;
  cs_lenA : length (go_outs oA) = output_size c; cs_lenB : length (go_outs oB) = output_size c;
  cs_out : forall i u, nth_error (outputs c) i = Some u -> exists g g',
     nth_error (go_outs oA) i = Some g /\ nth_error (go_outs oB) i = Some g' /\ out_flip R (VA cid u) (VB cid u) g g';
  cs_term : if terminate_id c >? 0 then exists g g', go_term oA = Some g /\ go_term oB = Some g' /\
        out_flip R (VA cid (terminate_id c)) (VB cid (terminate_id c)) g g'
     else go_term oA = None /\ go_term oB = None }.

(** Memory before the first cycle. *)
Record fresh_gmem (m : gmem) : Prop := {
  fg_c : cwf c (gm_c m);
  fg_v : wires_val (gm_c m) = repeat SECRET (get_wire_size c);
  fg_tmp : length (gm_tmp m) = NumOfNonXor c;
  fg_tabs : length (gm_tabs m) = NumOfNonXor c }.

Theorem run_two s0 m0 n :
  cwf c s0 -> wires_val s0 = repeat SECRET (get_wire_size c) -> fresh_gmem m0 ->
  freeA n s0 m0 ->
  (forall e, In e (revsA n m0) -> event_keeps aesA aesB R VA VB e) ->
  freeB n s0 m0 /\ Forall2 (event_flip R VA VB) (revsA n m0) (revsB n m0) /\
  exists mA mB osA osB, runA n m0 = Some (mA, osA) /\ runB n m0 = Some (mB, osB) /\
    length osA = n /\ length osB = n /\
    forall cid oA oB, nth_error osA cid = Some oA -> nth_error osB cid = Some oB -> cycle_same cid oA oB.
Proof.
  intros CW SV0 FM FA EK.
  (* the state before each cycle *)
  assert (INV : forall k, (k <= n)%nat -> exists n' s tr mA mB osA osB bA vA bB vB,
    sym_run c fan0 p_init p_input k s0 = Some (n', s, tr) /\ runA k m0 = Some (mA, osA) /\ runB k m0 = Some (mB, osB) /\
    pair_inv k n' s mA mB bA vA bB vB /\ length osA = k /\ length osB = k /\
    (forall cid oA oB, nth_error osA cid = Some oA -> nth_error osB cid = Some oB -> cycle_same cid oA oB)).
  { induction k; intros Hk.
    - destruct FM as [fc fv ft fb].
      pose proof (dff_eq c). pose proof (gate_eq c). pose proof (wsz_gate c). pose proof (first_input_nonneg c). unfold wsz in *.
      set (junk := {| row0 := 0%N; row1 := 0%N; gid := (2 ^ 32 - 1)%N |}).
      set (e0 := mkC (repeat 0%N (get_wire_size c)) (repeat SECRET (get_wire_size c)) (repeat 0%N (dff_size c)) (repeat 0 (dff_size c)) (repeat 0 (length gs))).
      assert (CE : cwf c e0).
      { unfold cwf, e0, wsz. cbn [wires wires_val dff_latch dff_latch_val fanout]. rewrite !repeat_length. auto. }
      assert (FW : fresh_world c (mkWorld (get_secret_init_size c) s0 (gm_c m0) (gm_tmp m0) (gm_tabs m0) e0 (repeat junk (NumOfNonXor c)) 0)).
      { constructor; cbn [w_n w_s w_g w_tmp w_tabs w_e w_et w_dr]; auto.
        - apply repeat_length.
        - intros tb j Hin Hj. apply repeat_spec in Hin. subst tb. cbn [gid junk].
          assert (N.of_nat j < 2 ^ 32 - 1)%N by lia. lia. }
      exists (get_secret_init_size c), s0, [], m0, m0, [], [],
        (fun k => match ginitA (Z.of_nat k) with Some p => fst p | None => 0%N end), (fun k => b2N (ibitA k)),
        (fun k => match ginitB (Z.of_nat k) with Some p => fst p | None => 0%N end), (fun k => b2N (ibitB k)).
      split; [reflexivity|]. split; [reflexivity|]. split; [reflexivity|]. split; [|split; [reflexivity|split; [reflexivity|intros [|?] ? ? E; discriminate E]]].
      assert (BASE : forall gi ei (gini : Z -> option BlockPair) V,
        (forall k, (k < get_secret_init_size c)%nat -> exists a, gini (Z.of_nat k) = Some (a, XorBlock a R)) ->
        GI c R gini gi ei V 0 (get_secret_init_size c) s0 m0
          (fun k => match gini (Z.of_nat k) with Some p => fst p | None => 0%N end) (fun k => b2N (ibit c gi ei k))).
      { intros gi ei gini V L. destruct FW as [s g e sv gv ev n0 tmp tabs et jk].
        exists e0, (repeat junk (NumOfNonXor c)),
          (fun k => match act_init c R gini gi ei (Z.of_nat k) with Some p => p | None => 0%N end).
        cbn [w_n w_s w_g w_tmp w_tabs w_e w_et w_dr] in *.
        constructor; cbn [w_n w_s w_g w_tmp w_tabs w_e w_et w_dr]; auto.
        - intros k Hk'. destruct (L k Hk') as (a & E). unfold act_init. rewrite E. cbn [option_map fst]. rewrite Nat2Z.id. auto.
        - intros. rewrite sv, gv. auto.
        - intros. rewrite gv. apply (vz_repeat c fan0); lia.
        - intros. rewrite ev. apply (vz_repeat c fan0); lia.
        - discriminate.
        - discriminate. }
      constructor; [apply BASE; exact LIA|apply BASE; exact LIB| |reflexivity|reflexivity].
      intros a Ha. rewrite (FI a Ha). destruct (LIA a Ha) as (y & ->). cbn [option_map flip fst]. rewrite !odd_b2N. reflexivity.
    - destruct IHk as (n' & s & tr & mA & mB & osA & osB & bA & vA & bB & vB & E1 & E2 & E3 & PI & L1 & L2 & CS); [lia|].
      destruct (cycle_two k n' s mA mB bA vA bB vB PI) as
        (n2 & s2 & gl & so & st & mA2 & mB2 & oA & oB & bA2 & vA2 & bB2 & vB2 & Y1 & Y2 & Y3 & PI2 & _ & _ & Z1 & Z2 & Z3 & Z4 & Z5).
      { apply (FA k n' s tr mA osA); auto. }
      { intros e He. apply EK. unfold run_events. apply in_flat_map. exists k. split; [apply in_seq; lia|]. rewrite E2. exact He. }
      eexists n2, s2, _, mA2, mB2, (osA ++ [oA]), (osB ++ [oB]), bA2, vA2, bB2, vB2.
      cbn [sym_run garble_run]. rewrite E1, E2, E3. cbn [obind]. rewrite Y1, Y2, Y3. cbn [obind].
      split; [reflexivity|]. split; [reflexivity|]. split; [reflexivity|]. split; [exact PI2|].
      split; [rewrite app_length; simpl; lia|]. split; [rewrite app_length; simpl; lia|].
      intros cid a b Ha Hb. destruct (Nat.lt_ge_cases cid k) as [LT|GE].
      + rewrite nth_error_app1 in Ha, Hb by lia. eauto.
      + rewrite nth_error_app2 in Ha, Hb by lia. rewrite L1 in Ha. rewrite L2 in Hb.
        destruct (cid - k)%nat as [|[|?]] eqn:EQ; try discriminate. injection Ha as <-. injection Hb as <-.
        assert (cid = k) as -> by lia. constructor; auto. }
  assert (STEP : forall k, (k < n)%nat -> exists n' s tr mA mB osA osB,
    sym_run c fan0 p_init p_input k s0 = Some (n', s, tr) /\ runA k m0 = Some (mA, osA) /\ runB k m0 = Some (mB, osB) /\
    gfreeB k n' s mB /\ Forall2 (event_flip R VA VB) (eventsA k mA) (eventsB k mB)).
  { intros k Hk. destruct (INV k ltac:(lia)) as (n' & s & tr & mA & mB & osA & osB & bA & vA & bB & vB & E1 & E2 & E3 & PI & _).
    destruct (cycle_two k n' s mA mB bA vA bB vB PI) as
        (n2 & s2 & gl & so & st & mA2 & mB2 & oA & oB & bA2 & vA2 & bB2 & vB2 & Y1 & Y2 & Y3 & PI2 & Y4 & Y5 & _).
    { apply (FA k n' s tr mA osA); auto. }
    { intros e He. apply EK. unfold run_events. apply in_flat_map. exists k. split; [apply in_seq; lia|]. rewrite E2. exact He. }
    exists n', s, tr, mA, mB, osA, osB. auto. }
  split.
  { intros cid k s tr m os Hc E1 E2.
    destruct (STEP cid Hc) as (n' & s' & tr' & mA & mB & osA & osB & Q1 & Q2 & Q3 & Q4 & _).
    rewrite Q1 in E1. rewrite Q3 in E2. injection E1 as <- <- <-. injection E2 as <- <-. exact Q4. }
  split.
  { apply flat_map_F2. intros k Hk. apply in_seq in Hk.
    destruct (STEP k ltac:(lia)) as (n' & s' & tr' & mA & mB & osA & osB & Q1 & Q2 & Q3 & Q4 & Q5).
    rewrite Q2, Q3. exact Q5. }
  destruct (INV n (le_n _)) as (n' & s & tr & mA & mB & osA & osB & bA & vA & bB & vB & E1 & E2 & E3 & PI & L1 & L2 & CS).
  exists mA, mB, osA, osB. auto.
Qed.
End TwoRuns.
