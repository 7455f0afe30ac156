(** The garbler alone, cycle by cycle. *)
From Coq Require Import ZArith NArith List Bool Lia.
From Verif Require Import Base Gate Circuit Spec Fanout GateFacts GateSim Phase1 Phase2 Phase2E Prefix CycleModel Cycle Run Privacy View.
Import ListNotations.
Open Scope Z_scope.

(** The garbler's memory between two cycles, and what a cycle yields: the tables
    it sends, the label pairs of the outputs and of the terminate signal. *)
Record gmem := mkG { gm_c : cstate BlockPair; gm_tmp : list GarbledTable; gm_tabs : list GarbledTable }.
Record gout := mkGout { go_sent : list GarbledTable; go_outs : list (BlockPair * Z); go_term : option (BlockPair * Z) }.

(** A table that was made: cycle, gate, and the label pairs of the gate's inputs. *)
Record event := mkEv { ev_cid : nat; ev_id : nat; ev_g : GarbledGate; ev_p0 : BlockPair; ev_p1 : BlockPair }.

Definition tab {A} (f : Z -> A) (n : nat) : list A := map (fun k => f (Z.of_nat k)) (seq 0 n).
Lemma tab_length {A} (f : Z -> A) n : length (tab f n) = n.
Proof. unfold tab. rewrite map_length, seq_length. reflexivity. Qed.
Lemma tab_nth {A} (f : Z -> A) n k : (k < n)%nat -> nth_error (tab f n) k = Some (f (Z.of_nat k)).
Proof.
  intros H. unfold tab. apply (map_nth_error (fun k => f (Z.of_nat k))).
  rewrite (nth_error_nth' _ 0%nat) by (rewrite seq_length; exact H). rewrite seq_nth by exact H. reflexivity.
Qed.
Lemma lz_tab {A} (d : A) f n u : 0 <= u < Z.of_nat n -> lz d (tab f n) u = f u.
Proof.
  intros H. unfold lz. apply nth_error_nth. rewrite tab_nth by lia. do 2 f_equal. lia.
Qed.

Section Garbler.
Variable c : GarbledCircuit.
Variable fan0 : list Z.
Variable reset : bool.
Variables p_init p_input : N.
Variable R : block.
Notation gs := (garbledGates c).
Notation ns := (get_secret_input_size c).

Section Model.
Variable aes : block -> block.
Variable ginit : Z -> option BlockPair.
Variable gin : nat -> nat -> option BlockPair.

(** One cycle and the cycle loop of the garbler (low_mem.cpp:113-146, the part
    that does not wait for the evaluator). *)
Definition garble_step (cid : nat) (m : gmem) : option (gmem * gout) :=
  do '(g', tmp', tabs', ind, gouts, gterm) <-
    GarbleCycle aes c fan0 R reset p_init p_input ginit (gin cid) cid (gm_c m) (gm_tmp m) (gm_tabs m);
  Some (mkG g' tmp' tabs', mkGout (firstn (Z.to_nat ind) tabs') gouts gterm).
Fixpoint garble_run (n : nat) (m0 : gmem) : option (gmem * list gout) :=
  match n with
  | O => Some (m0, [])
  | S k => do '(m, os) <- garble_run k m0;
           do '(m', o) <- garble_step k m;
           Some (m', os ++ [o])
  end.

(** The tables made in a cycle: the gates at which the table index moves. *)
Definition gate_event (cid : nat) (st0 : gstate) (i : nat) : list event :=
  match for_ i (gbody c aes R (N.of_nat cid)) st0, for_ (S i) (gbody c aes R (N.of_nat cid)) st0, nth_error gs i with
  | Some a, Some b, Some g =>
      if snd (st_s a) <? snd (st_s b) then [mkEv cid i g (i_p0 c g a) (i_p1 c g a)] else []
  | _, _, _ => []
  end.
Definition cycle_events (cid : nat) (m : gmem) : list event :=
  match cycle_prefix c fan0 reset cid p_init p_input ginit (gin cid) (gm_c m) with
  | Some (gl, gv, _, _, gf) => flat_map (gate_event cid (gl, gv, gf, (gm_tmp m, 0))) (seq 0 (length gs))
  | None => []
  end.
Definition run_events (n : nat) (m0 : gmem) : list event :=
  flat_map (fun cid => match garble_run cid m0 with Some (m, _) => cycle_events cid m | None => [] end) (seq 0 n).

(** No accidental label collision, for the garbler alone. *)
Definition wjunk : cstate block := mkC [] [] [] [] [].
Definition garbler_free (n : nat) (s0 : cstate slab) (m0 : gmem) : Prop :=
  forall cid k s tr m os, (cid < n)%nat -> sym_run c fan0 p_init p_input cid s0 = Some (k, s, tr) ->
    garble_run cid m0 = Some (m, os) ->
    cycle_gfree c fan0 aes R reset p_init p_input ginit gin cid (mkWorld k s (gm_c m) (gm_tmp m) (gm_tabs m) wjunk [] 0).
End Model.

Hypothesis WF : well_formed c.
Hypothesis SZ : (N.of_nat (length gs) < 2 ^ 32)%N.
Hypothesis HR : get_LSB R = true.
Hypothesis F0len : length fan0 = length gs.
Hypothesis F0 : forall k, (k < length gs)%nat -> fz fan0 k = total_uses c k.

Section One.
Variable aes : block -> block.
Variable ginit : Z -> option BlockPair.
Variable gin : nat -> nat -> option BlockPair.
Variables g_init e_init g_input e_input : N.
Notation x := (mkInputs p_init g_init e_init p_input g_input e_input).
Variable V : nat -> Z -> bool.
Hypothesis CV : consistent c x V.
Notation ibit := (ibit c g_init e_init).
Notation nbit := (nbit c p_init p_input g_init e_init g_input e_input).
Hypothesis LI : forall k, (k < get_secret_init_size c)%nat -> exists a, ginit (Z.of_nat k) = Some (a, XorBlock a R).
Hypothesis LN : forall cy i, (i < ns)%nat -> exists a, gin cy i = Some (a, XorBlock a R).

(** The labels an evaluator would be given. *)
Definition act_init (k : Z) : option block :=
  option_map (fun p : BlockPair => XorBlock (fst p) (mulb (ibit (Z.to_nat k)) R)) (ginit k).
Definition act_in (cy i : nat) : option block :=
  option_map (fun p : BlockPair => XorBlock (fst p) (mulb (nbit cy i) R)) (gin cy i).

Lemma act_init_ok k : (k < get_secret_init_size c)%nat -> label_ok R (ibit k) (ginit (Z.of_nat k)) (act_init (Z.of_nat k)).
Proof. intros H. destruct (LI k H) as (a & E). exists a. unfold act_init. rewrite E, Nat2Z.id. auto. Qed.
Lemma act_in_ok cy i : (i < ns)%nat -> label_ok R (nbit cy i) (gin cy i) (act_in cy i).
Proof. intros H. destruct (LN cy i H) as (a & E). exists a. unfold act_in. rewrite E. auto. Qed.

(** The invariant of [Cycle], with an imaginary evaluator. *)
Definition GI (cid n : nat) (s : cstate slab) (m : gmem) (base vals : nat -> N) : Prop :=
  exists e et eb, CI c R ginit act_init g_init e_init V cid
    (mkWorld n s (gm_c m) (gm_tmp m) (gm_tabs m) e et 0) base vals eb.

Definition gfree (cid n : nat) (s : cstate slab) (m : gmem) : Prop :=
  cycle_gfree c fan0 aes R reset p_init p_input ginit gin cid (mkWorld n s (gm_c m) (gm_tmp m) (gm_tabs m) wjunk [] 0).

Lemma gprefix cid n s m base vals : GI cid n s m base vals ->
  exists base' vals' sl sv gl sll slv gll glv fan,
    cycle_prefix c fan0 true cid p_init p_input sinit (sin n) s = Some (sl, sv, sll, slv, fan) /\
    cycle_prefix c fan0 reset cid p_init p_input ginit (gin cid) (gm_c m) = Some (gl, sv, gll, glv, fan) /\
    length sll = dff_size c /\ length slv = dff_size c /\ length gll = dff_size c /\ length glv = dff_size c /\
    (forall a, (a < n)%nat -> base' a = base a /\ vals' a = vals a) /\
    J c (V cid) R 0 (sl, sv, fan, ((n + ns)%nat, [])) (gl, sv, fan, (gm_tmp m, 0)) base' vals' /\
    (forall i, (i < ns)%nat -> vz sv (first_input c + Z.of_nat (p_input_size c) + Z.of_nat i) = SECRET) /\
    (forall i, (i < ns)%nat -> exists p, gin cid i = Some p /\ base' (n + i)%nat = fst p /\
       vals' (n + i)%nat = b2N (nbit cid i) /\
       lz zs sl (first_input c + Z.of_nat (p_input_size c) + Z.of_nat i) = (atom (n + i), false)).
Proof.
  intros (e & et & eb & HC).
  destruct (prefix_rel c fan0 R reset p_init p_input ginit gin act_init act_in WF SZ F0len F0 g_init e_init g_input e_input V
    CV act_init_ok act_in_ok cid _ base vals eb HC) as
    (base1 & vals1 & eb1 & sl & sv & gl & gv & el & ev & sll & slv & gll & glv & ell & elv & fan &
     PS & PG & PE & q1 & q2 & q3 & q4 & q5 & q6 & EXT & _ & JE & SIN & NEW).
  cbn [w_n w_s w_g w_tmp w_tabs w_e w_et w_dr] in *.
  exists base1, vals1, sl, sv, gl, sll, slv, gll, glv, fan.
  split; [exact PS|]. split; [exact PG|]. do 4 (split; [assumption|]).
  split; [intros a Ha; destruct (EXT a Ha) as (? & ? & _); auto|].
  split; [apply (JE (gm_tmp m) [] 0%nat); apply (ci_tmp _ _ _ _ _ _ _ _ _ _ _ _ HC)|].
  split; [intros i Hi; apply SIN; exact Hi|exact NEW].
Qed.

(** The end of a cycle, from the state after the gates. *)
Lemma gend cid n s m base vals base1 vals1 sl sv gl sll slv gll glv fan basen valsn ssn gtn :
  GI cid n s m base vals ->
  cycle_prefix c fan0 true cid p_init p_input sinit (sin n) s = Some (sl, sv, sll, slv, fan) ->
  cycle_prefix c fan0 reset cid p_init p_input ginit (gin cid) (gm_c m) = Some (gl, sv, gll, glv, fan) ->
  length sll = dff_size c -> length slv = dff_size c -> length gll = dff_size c -> length glv = dff_size c ->
  (forall a, (a < n)%nat -> base1 a = base a /\ vals1 a = vals a) ->
  J c (V cid) R 0 (sl, sv, fan, ((n + ns)%nat, [])) (gl, sv, fan, (gm_tmp m, 0)) base1 vals1 ->
  (forall i, (i < ns)%nat -> vz sv (first_input c + Z.of_nat (p_input_size c) + Z.of_nat i) = SECRET) ->
  (forall i, (i < ns)%nat -> lz zs sl (first_input c + Z.of_nat (p_input_size c) + Z.of_nat i) = (atom (n + i), false)) ->
  for_ (length gs) (sbody c) (sl, sv, fan, ((n + ns)%nat, [])) = Some ssn ->
  for_ (length gs) (gbody c aes R (N.of_nat cid)) (gl, sv, fan, (gm_tmp m, 0)) = Some gtn ->
  (forall i ss gt, (i < length gs)%nat -> for_ i (sbody c) (sl, sv, fan, ((n + ns)%nat, [])) = Some ss ->
    for_ i (gbody c aes R (N.of_nat cid)) (gl, sv, fan, (gm_tmp m, 0)) = Some gt -> g_free c i ss gt) ->
  J c (V cid) R (length gs) ssn gtn basen valsn ->
  (n + ns <= fst (st_s ssn))%nat ->
  (forall a, (a < n + ns)%nat -> basen a = base1 a /\ valsn a = vals1 a) ->
  let sent := sent_tables (st_fan ssn) (fst (st_s gtn)) (length (snd (st_s ssn))) in
  let s' := mkC (st_wl ssn) (st_wv ssn) sll slv (st_fan ssn) in
  let m' := mkG (mkC (st_wl gtn) (st_wv ssn) gll glv (st_fan ssn)) (fst (st_s gtn))
                (sent ++ skipn (length sent) (gm_tabs m)) in
  sym_cycle c fan0 p_init p_input cid n s = Some (s', st_s ssn,
     map (fun u => (lz zs (st_wl ssn) u, vz (st_wv ssn) u)) (outputs c),
     if terminate_id c >? 0 then Some (lz zs (st_wl ssn) (terminate_id c), vz (st_wv ssn) (terminate_id c)) else None) /\
  garble_step aes ginit gin cid m = Some (m', mkGout sent
     (map (fun u => (lz zg (st_wl gtn) u, vz (st_wv ssn) u)) (outputs c))
     (if terminate_id c >? 0 then Some (lz zg (st_wl gtn) (terminate_id c), vz (st_wv ssn) (terminate_id c)) else None)) /\
  GI (S cid) (fst (st_s ssn)) s' m' basen valsn /\
  (forall u, In u (outputs c) \/ (0 < terminate_id c /\ u = terminate_id c) -> IsSecret (vz (st_wv ssn) u) = true ->
     relX 1 valsn (fst (st_s ssn)) (lz zs (st_wl ssn) u) (b2N (V cid u)) /\
     relG R basen (fst (st_s ssn)) (lz zs (st_wl ssn) u) (lz zg (st_wl gtn) u)) /\
  (forall u, In u (outputs c) \/ (0 < terminate_id c /\ u = terminate_id c) -> IsSecret (vz (st_wv ssn) u) = false ->
     vz (st_wv ssn) u = b2z (V cid u)).
Proof.
  intros HG PS PG q1 q2 q3 q4 EXT HJ0 SIN LIN SN GN GF' HJn HNn HBn.
  pose proof (wsz_gate c) as WG. pose proof (first_order c) as FO. pose proof (wsz_last c) as WLs.
  pose proof (first_input_nonneg c) as FN. pose proof (bias_first_gate c) as BG.
  pose proof (dff_eq c) as DE. pose proof (gate_eq c) as GE.
  destruct HG as (e & et & eb & HC).
  destruct HC as [cs cg ce cn cinit clow cgin cein cD ctmp ctabs cet cjunk cend].
  cbn [w_n w_s w_g w_tmp w_tabs w_e w_et w_dr] in *.
  assert (HVg : forall i g, nth_error gs i = Some g ->
    V cid (first_gate c + Z.of_nat i) = GateOperator (type g) (operand (V cid) (input0 g)) (operand (V cid) (input1 g))).
  { intros i g Hg. destruct (wf_gate c WF i g Hg) as (_ & [f HT] & _).
    rewrite (cons_gate _ _ _ CV cid i g f Hg HT), (GateOperator_spec _ _ _ _ HT). auto. }
  set (ss0 := (sl, sv, fan, ((n + ns)%nat, [])) : sstate) in *.
  set (gt0 := (gl, sv, fan, (gm_tmp m, 0)) : gstate) in *.
  destruct (pass_g c WF SZ (V cid) HVg aes R HR (N.of_nat cid) ss0 gt0 base1 vals1 HJ0 eq_refl GF' (length gs) (le_n _))
    as (ssn_ & gtn_ & _ & _ & SN_ & GN_ & _ & _ & _ & GLB & _).
  rewrite SN in SN_. rewrite GN in GN_. injection SN_ as <-. injection GN_ as <-.
  set (F := st_fan ssn).
  set (k := length (snd (st_s ssn))).
  set (sent := sent_tables F (fst (st_s gtn)) k).
  assert (LTMP : length (fst (st_s gtn)) = NumOfNonXor c) by apply (j_tl _ _ _ _ _ _ _ _ HJn).
  assert (KLE : (k <= NumOfNonXor c)%nat).
  { unfold k. rewrite <- nnx_total. apply (j_cnt _ _ _ _ _ _ _ _ HJn). }
  assert (GIDS : forall tb, In tb (firstn k (fst (st_s gtn))) -> (N.to_nat (gid tb) < length F)%nat).
  { intros tb Htb. apply In_nth_error in Htb as [j Hj].
    assert (Hjk : (j < k)%nat).
    { assert (j < length (firstn k (fst (st_s gtn))))%nat by (apply nth_error_Some; congruence).
      rewrite firstn_length in H. lia. }
    destruct (nth_error (snd (st_s ssn)) j) as [g|] eqn:EG; [|apply nth_error_None in EG; unfold k in Hjk; lia].
    destruct (j_gid _ _ _ _ _ _ _ _ HJn j g EG) as (tb' & E1 & E2).
    assert (nth_error (firstn k (fst (st_s gtn))) j = nth_error (fst (st_s gtn)) j).
    { rewrite <- (firstn_skipn k (fst (st_s gtn))) at 2. rewrite nth_error_app1; auto.
      rewrite firstn_length. lia. }
    assert (tb' = tb) by congruence. subst tb'.
    assert (g < length gs)%nat by (apply GLB; eapply nth_error_In; eauto).
    unfold F. rewrite (j_fan _ _ _ _ _ _ _ _ HJn), E2, N.mod_small by lia. lia. }
  pose proof (select_spec F (fst (st_s gtn)) (gm_tabs m) k ltac:(lia) GIDS ltac:(lia)) as SEL.
  fold sent in SEL. cbv zeta in SEL.
  assert (LSENT : (length sent <= k)%nat).
  { unfold sent, sent_tables. etransitivity; [apply filter_len_le|apply firstn_le_length]. }
  set (tabs' := sent ++ skipn (length sent) (gm_tabs m)) in *.
  destruct ssn as [[[sln svn] fann] [nn gln]] eqn:Essn.
  destruct gtn as [[[gln' gvn] gfn'] [tmpn indn]] eqn:Egtn.
  unfold st_wl, st_wv, st_fan, st_s in *. cbn [fst snd] in *.
  pose proof (j_gv _ _ _ _ _ _ _ _ HJn) as GVN. pose proof (j_gf _ _ _ _ _ _ _ _ HJn) as GFN.
  pose proof (j_ind _ _ _ _ _ _ _ _ HJn) as INDN.
  pose proof (j_sl _ _ _ _ _ _ _ _ HJn) as SLN. pose proof (j_sv _ _ _ _ _ _ _ _ HJn) as SVN.
  pose proof (j_gl _ _ _ _ _ _ _ _ HJn) as GLN. pose proof (j_fan _ _ _ _ _ _ _ _ HJn) as FANN.
  pose proof (j_ok _ _ _ _ _ _ _ _ HJn) as OKN. pose proof (j_FI _ _ _ _ _ _ _ _ HJn) as FIN.
  pose proof (j_rel _ _ _ _ _ _ _ _ HJn) as RELN.
  unfold st_wl, st_wv, st_fan, st_s in GVN, GFN, INDN, SLN, SVN, GLN, FANN, OKN, FIN, RELN.
  cbn [fst snd] in GVN, GFN, INDN, SLN, SVN, GLN, FANN, OKN, FIN, RELN.
  subst gvn gfn'.
  assert (OUTR : forall u, In u (outputs c) -> 0 <= u < wsz c).
  { intros u Hu. apply In_nth_error in Hu as [j Hj]. pose proof (wf_out _ WF j u Hj). lia. }
  cbv zeta. split.
  { unfold sym_cycle, run_cycle. rewrite PS. cbn [obind].
    change (secret_body zs c sym_gate) with (sbody c). unfold gate_size.
    unfold ss0 in SN. rewrite SN. cbn [obind].
    rewrite (mapM_read c fan0 SZ F0len zs) by auto. cbn [obind]. rewrite (term_read c fan0 WF SZ F0len zs) by auto. reflexivity. }
  split.
  { unfold garble_step, GarbleCycle, run_cycle. rewrite PG. cbn [obind].
    change (secret_body zeroPair c (fun l0 v0 l1 v1 t g s => GarbleGate aes l0 v0 l1 v1 t (N.of_nat cid) (N.of_nat g) R s))
      with (gbody c aes R (N.of_nat cid)). unfold gate_size.
    unfold gt0 in GN. rewrite GN. cbn [obind].
    rewrite (mapM_read c fan0 SZ F0len zg) by auto. cbn [obind]. rewrite (term_read c fan0 WF SZ F0len zg) by auto. cbn [obind fanout].
    rewrite INDN, Nat2Z.id. fold k. fold F. rewrite SEL. cbn [obind].
    assert (FST : firstn (Z.to_nat (Z.of_nat (length sent))) tabs' = sent).
    { rewrite Nat2Z.id. unfold tabs'. rewrite firstn_app, Nat.sub_diag, firstn_all, firstn_O, app_nil_r. auto. }
    rewrite FST. reflexivity. }
  assert (FRS : forall u, u < first_gate c -> rd svn u = rd sv u /\ rd sln u = rd sl u).
  { destruct (secret_frame_loop zs c sym_gate WF 0 (length gs) ss0 ss0 (sln, svn, fann, (nn, gln))) as (_ & _ & _ & FR1 & FR2 & _);
      auto; [lia|unfold ss0, st_fan; cbn [fst snd]; apply (j_fan _ _ _ _ _ _ _ _ HJ0)|].
    intros u Hu. unfold st_wl, st_wv, ss0 in FR1, FR2. cbn [fst snd] in FR1, FR2.
    split; [apply FR2|apply FR1]; lia. }
  (* the imaginary evaluator *)
  set (eval := fun u => if IsSecret (vz svn u) then evflag (snd (lz zs sln u)) else vz svn u).
  set (elab := fun u => XorBlock (fst (lz zg gln' u)) (mulb (V cid u) R)).
  set (W := Z.to_nat (wsz c)).
  set (evn := tab eval W). set (eln := tab elab W).
  assert (EV : forall u, 0 <= u < wsz c -> vz evn u = eval u).
  { intros u Hu. rewrite vz_lz. unfold evn. apply lz_tab. unfold W. lia. }
  assert (EL : forall u, 0 <= u < wsz c -> lz ze eln u = elab u).
  { intros u Hu. unfold eln. apply lz_tab. unfold W. lia. }
  set (ebn := fun a => XorBlock (basen a) (mulb (N.odd (valsn a)) R)).
  assert (RV : forall u, first_input c <= u < wsz c -> relV (vz svn u) (vz evn u)).
  { intros u Hu. rewrite EV by lia. unfold eval. destruct (IsSecret (vz svn u)) eqn:S.
    - split; [rewrite IsSecret_evflag; auto|congruence].
    - split; auto. }
  assert (FINALV : forall u, first_input c <= u < wsz c -> valid c (length gs) fann u ->
    wrel R basen valsn ebn nn (V cid u) (lz zs sln u) (vz svn u) (lz zg gln' u) (vz svn u) (lz ze eln u) (vz evn u)).
  { intros u Hu VU. destruct (OKN u Hu) as [O1 O2].
    split; [auto|]. split; [auto|]. split; [auto|]. split; [auto|].
    intros HS. destruct (RELN u VU HS) as [Q1 Q2]. split; [auto|]. split; [auto|].
    rewrite EL, EV by lia. unfold elab, eval. rewrite HS. split; [apply ideal_label; [apply Q2|exact Q1]|]. auto. }
  assert (LIVE : forall u, first_input c <= u < wsz c -> IsSecret (vz svn u) = true ->
    (first_gate c <= u -> 1 <= ext_uses c (Z.to_nat (u - first_gate c))) -> valid c (length gs) fann u).
  { intros u Hu HS HX. destruct (Z_lt_le_dec u (first_gate c)) as [LT|GE']; [left; lia|right].
    exists (Z.to_nat (u - first_gate c)). split; [lia|]. split; [lia|].
    set (j := Z.to_nat (u - first_gate c)) in *. specialize (HX GE').
    assert (P : pub c svn j = false).
    { unfold pub. replace (get_gate_lo_index c + Z.of_nat j) with u by (unfold j; lia). rewrite HS. auto. }
    specialize (FIN j ltac:(lia) P). cbv beta in FIN. unfold ext in FIN.
    assert (0 <= live_uses gs (length gs) fann (get_gate_lo_index c + Z.of_nat j)).
    { unfold live_uses. apply sumf_nonneg. intros k' _. destruct (live _ _ _); [apply juse_nonneg|lia]. }
    lia. }
  assert (FREF : forall u (l : list Z), first_gate c <= u ->
     count_ref l (get_gate_lo_index c + Z.of_nat (Z.to_nat (u - first_gate c))) = count_ref l u).
  { intros u l Hu. f_equal. lia. }
  assert (FOUT : forall u, In u (outputs c) -> first_gate c <= u -> 1 <= ext_uses c (Z.to_nat (u - first_gate c))).
  { intros u Hu HG. apply In_nth_error in Hu as [j Hj]. unfold ext_uses. rewrite !FREF by auto.
    pose proof (count_ref_in _ _ _ Hj). pose proof (count_ref_nonneg (D c) u).
    destruct (terminate_id c >? 0); [pose proof (is_ref_nonneg (terminate_id c) (get_gate_lo_index c + Z.of_nat (Z.to_nat (u - first_gate c))))|]; lia. }
  assert (FD : forall u, In u (D c) -> first_gate c <= u -> 1 <= ext_uses c (Z.to_nat (u - first_gate c))).
  { intros u Hu HG. apply In_nth_error in Hu as [j Hj]. unfold ext_uses. rewrite !FREF by auto.
    pose proof (count_ref_in _ _ _ Hj). pose proof (count_ref_nonneg (outputs c) u).
    destruct (terminate_id c >? 0); [pose proof (is_ref_nonneg (terminate_id c) (get_gate_lo_index c + Z.of_nat (Z.to_nat (u - first_gate c))))|]; lia. }
  assert (FT : 0 < terminate_id c -> first_gate c <= terminate_id c -> 1 <= ext_uses c (Z.to_nat (terminate_id c - first_gate c))).
  { intros HT HG. unfold ext_uses.
    pose proof (count_ref_nonneg (D c) (get_gate_lo_index c + Z.of_nat (Z.to_nat (terminate_id c - first_gate c)))).
    pose proof (count_ref_nonneg (outputs c) (get_gate_lo_index c + Z.of_nat (Z.to_nat (terminate_id c - first_gate c)))).
    pose proof (Zgt_cases (terminate_id c) 0). destruct (terminate_id c >? 0); [|lia].
    replace (get_gate_lo_index c + Z.of_nat (Z.to_nat (terminate_id c - first_gate c))) with (terminate_id c) in * by lia.
    rewrite is_ref_same. lia. }
  split.
  { set (junk := {| row0 := 0%N; row1 := 0%N; gid := (2 ^ 32 - 1)%N |}).
    exists (mkC eln evn (repeat 0%N (dff_size c)) (repeat 0 (dff_size c)) fann), (repeat junk (NumOfNonXor c)), ebn.
    constructor; cbn [gm_c gm_tmp gm_tabs w_n w_s w_g w_tmp w_tabs w_e w_et w_dr wires wires_val dff_latch dff_latch_val fanout].
    - unfold cwf; cbn [wires wires_val dff_latch dff_latch_val fanout]. auto.
    - unfold cwf; cbn [wires wires_val dff_latch dff_latch_val fanout]. auto.
    - unfold cwf; cbn [wires wires_val dff_latch dff_latch_val fanout].
      unfold eln, evn. rewrite !tab_length, !repeat_length. unfold W. rewrite Z2Nat.id by lia. auto.
    - lia.
    - intros k' Hk. destruct (cinit k' Hk) as (I1 & I2 & I3 & I4).
      destruct (EXT k' ltac:(lia)) as (X1 & X2). destruct (HBn k' ltac:(lia)) as (Y1 & Y2).
      unfold ebn. rewrite Y1, Y2, X1, X2, I3, odd_b2N, <- I4. auto.
    - auto.
    - intros i Hi. destruct (FRS (first_input c + Z.of_nat (p_input_size c) + Z.of_nat i) ltac:(lia)) as [Q _].
      rewrite <- (SIN i Hi). rewrite !vz_lz. apply rd_eq_lz; [exact Q|lia].
    - intros i Hi. destruct (FRS (first_input c + Z.of_nat (p_input_size c) + Z.of_nat i) ltac:(lia)) as [Q Q'].
      rewrite EV by lia. unfold eval.
      assert (vz svn (first_input c + Z.of_nat (p_input_size c) + Z.of_nat i) = SECRET) as ->.
      { rewrite <- (SIN i Hi). rewrite !vz_lz. apply rd_eq_lz; [exact Q|lia]. }
      rewrite (rd_eq_lz zs sln sl _ Q') by lia. rewrite (LIN i Hi). reflexivity.
    - intros cid' i w' Hc Hw Hp. injection Hc as <-.
      pose proof (wf_D _ WF i w' Hw) as [D1 D2].
      assert (RW : first_input c <= w' < wsz c) by lia.
      destruct (IsSecret (vz svn w')) eqn:HS.
      + apply FINALV; [exact RW|]. apply LIVE; auto. intros. apply FD; auto. eapply nth_error_In; eauto.
      + destruct (OKN w' RW) as [O1 O2]. split; [auto|]. split; [auto|]. split; [auto|]. split; [auto|]. congruence.
    - auto.
    - unfold tabs'. rewrite app_length, skipn_length. lia.
    - apply repeat_length.
    - intros tb j Hin Hj. apply repeat_spec in Hin. subst tb. cbn [gid junk].
      assert (N.of_nat j < 2 ^ 32 - 1)%N by lia. lia.
    - intros cid' Hc. injection Hc as <-.
      split; [auto|]. split; [auto|]. split; [auto|]. split; [exact FIN|].
      split; [intros; apply (j_pos _ _ _ _ _ _ _ _ HJn)|].
      intros u Hu. split; [apply OKN; auto|]. split; [apply RV; auto|]. intros HVu. apply FINALV; auto. }
  assert (RNG : forall u, In u (outputs c) \/ 0 < terminate_id c /\ u = terminate_id c -> first_input c <= u < wsz c).
  { intros u [Hu|[HT ->]].
    - apply In_nth_error in Hu as [j Hj]. pose proof (wf_out _ WF j u Hj). lia.
    - destruct (wf_term _ WF); lia. }
  split.
  - intros u Hu HS. apply RELN; [|exact HS]. apply LIVE; auto.
    destruct Hu as [Hu|[HT ->]]; [apply FOUT|apply FT]; auto.
  - intros u Hu HS. apply (OKN u (RNG u Hu)). exact HS.
Qed.
End One.
End Garbler.
