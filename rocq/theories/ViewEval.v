(** The evaluator's whole computation in the two garblings. *)
From Coq Require Import ZArith NArith List Bool Lia Permutation.
From Verif Require Import Base Gate Circuit Spec Fanout GateFacts GateSim Phase1 Phase2 Phase2E Prefix CycleModel Cycle Run
  Plain Safe Comm Demo Results Privacy View ViewCycle ViewRun ViewCoins.
Import ListNotations.
Open Scope Z_scope.

(** * What the evaluator encrypts *)

(** The two blocks encrypted by EvalGate (garbled_circuit_util.cpp:337-449): only
    for a non-linear gate with two secret inputs that do not look alike. *)
Definition eval_points (l0 : block) (v0 : Z) (l1 : block) (v1 t : Z) (cid gid : N) : list block :=
  if IsSecret v0 && IsSecret v1 && negb (negb (t =? NOTGATE) && CmpBlock l0 l1) &&
     negb (t =? XORGATE) && negb (t =? XNORGATE) && negb (t =? NOTGATE)
  then [XorBlock l0 (tweak0 cid gid); XorBlock l1 (tweak1 cid gid)] else [].

Lemma EvalGate_points aes aes' rnd l0 v0 l1 v1 t cid gid st :
  (forall q, In q (eval_points l0 v0 l1 v1 t cid gid) -> aes' q = aes q) ->
  EvalGate aes' rnd l0 v0 l1 v1 t cid gid st = EvalGate aes rnd l0 v0 l1 v1 t cid gid st.
Proof.
  unfold EvalGate, eval_points. intros H.
  destruct (IsSecret v0), (IsSecret v1); cbn [negb andb] in *; auto.
  destruct (t =? NOTGATE) eqn:TN; cbn [negb andb] in *.
  { destruct (t =? XORGATE), (t =? XNORGATE); auto. }
  destruct (CmpBlock l0 l1); cbn [negb andb] in *; [destruct (v0 =? v1); auto|].
  destruct (t =? XORGATE), (t =? XNORGATE); cbn [negb andb] in *; auto.
  destruct st as [[tabs ind] k]. destruct (rd tabs ind) as [tb|]; cbn [obind]; auto.
  assert (E : forall T, EvalHalfGates aes' l0 l1 T cid gid = EvalHalfGates aes l0 l1 T cid gid).
  { intros T. unfold EvalHalfGates, hash. rewrite !H by (cbn [In]; auto). reflexivity. }
  rewrite !E. reflexivity.
Qed.

Section Queries.
Variable c : GarbledCircuit.
Variable fan0 : list Z.
Variable rnd : nat -> block.
Variables p_init p_input : N.
Notation gs := (garbledGates c).

(** The blocks encrypted when the evaluator comes to gate [i]. *)
Definition gate_queries (cid : N) (i : nat) (st : estate) : list block :=
  let '(wl, wv, fan, s) := st in
  match rd gs (Z.of_nat i), rd fan (Z.of_nat i) with
  | Some g, Some f =>
    match rd wv (output g), lab ze c wl (input0 g), val0 c wv (input0 g), lab ze c wl (input1 g), val1 c wv (type g) (input1 g) with
    | Some ov, Some l0, Some v0, Some l1, Some v1 =>
      if (0 <? f) && IsSecret ov then eval_points l0 v0 l1 v1 (type g) cid (N.of_nat i) else []
    | _, _, _, _, _ => []
    end
  | _, _ => []
  end.

Lemma ebody_points aes aes' cid i st :
  (forall q, In q (gate_queries cid i st) -> aes' q = aes q) ->
  ebody c aes' cid rnd i st = ebody c aes cid rnd i st.
Proof.
  destruct st as [[[wl wv] fan] s]. unfold gate_queries, ebody, secret_body. intros H.
  destruct (rd gs (Z.of_nat i)) as [g|]; cbn [obind]; [|reflexivity].
  destruct (rd fan (Z.of_nat i)) as [f|]; cbn [obind]; [|reflexivity].
  destruct (0 <? f); cbn [andb] in *; [|reflexivity].
  destruct (rd wv (output g)) as [ov|]; cbn [obind]; [|reflexivity].
  destruct (IsSecret ov); [|reflexivity].
  destruct (lab ze c wl (input0 g)) as [l0|]; cbn [obind]; [|reflexivity].
  destruct (val0 c wv (input0 g)) as [v0|]; cbn [obind]; [|reflexivity].
  destruct (lab ze c wl (input1 g)) as [l1|]; cbn [obind]; [|reflexivity].
  destruct (val1 c wv (type g) (input1 g)) as [v1|]; cbn [obind]; [|reflexivity].
  unfold efn. rewrite (EvalGate_points aes aes') by exact H. reflexivity.
Qed.

Section Aes.
Variable aes : block -> block.
Definition pass_queries (cid : N) (st0 : estate) : list block :=
  flat_map (fun i => match for_ i (ebody c aes cid rnd) st0 with Some st => gate_queries cid i st | None => [] end)
    (seq 0 (length gs)).
(** The blocks encrypted in one cycle, from the memory and the received tables. *)
Definition cycle_queries (einit : Z -> option block) (ein : nat -> option block) (cid : nat)
    (st : cstate block) (tabs : list GarbledTable) (dr : nat) : list block :=
  match cycle_prefix c fan0 false cid p_init p_input einit ein st with
  | Some (el, ev, _, _, ef) => pass_queries (N.of_nat cid) (el, ev, ef, (tabs, 0, dr))
  | None => []
  end.
End Aes.

Lemma pass_points aes aes' cid st0 :
  (forall q, In q (pass_queries aes cid st0) -> aes' q = aes q) ->
  forall n, (n <= length gs)%nat -> for_ n (ebody c aes' cid rnd) st0 = for_ n (ebody c aes cid rnd) st0.
Proof.
  intros H. induction n; intros Hn; [rewrite !for_0; reflexivity|]. rewrite !for_S, IHn by lia.
  destruct (for_ n (ebody c aes cid rnd) st0) as [st|] eqn:E; cbn [obind]; [|reflexivity].
  apply ebody_points. intros q Hq. apply H. unfold pass_queries. apply in_flat_map. exists n.
  split; [apply in_seq; lia|]. rewrite E. exact Hq.
Qed.

Lemma for_ext {S} (f g : nat -> S -> option S) n s : (forall i s, f i s = g i s) -> for_ n f s = for_ n g s.
Proof.
  intros H. induction n; [reflexivity|]. rewrite !for_S, IHn. destruct (for_ n g s); cbn [obind]; auto.
Qed.

(** Nothing else depends on the functions that hand out the labels. *)
Lemma prefix_ext {L} reset cid (gi gi' : Z -> option L) (gn gn' : nat -> option L) st :
  (forall k, gi' k = gi k) -> (forall i, gn' i = gn i) ->
  cycle_prefix c fan0 reset cid p_init p_input gi' gn' st = cycle_prefix c fan0 reset cid p_init p_input gi gn st.
Proof.
  intros HI HN. unfold cycle_prefix.
  rewrite (for_ext (dff_init_body c p_init gi') (dff_init_body c p_init gi)).
  - destruct (match cid with O => _ | Datatypes.S _ => _ end) as [[[[wl1 wv1] ll] lv]|]; cbn [obind]; auto.
    destruct (for_ (p_input_size c) _ wv1) as [wv2|]; cbn [obind]; auto.
    rewrite (for_ext (s_input_body c reset gn') (s_input_body c reset gn)); auto.
    intros i [wl wv]. unfold s_input_body. rewrite HN. reflexivity.
  - intros i [wl wv]. unfold dff_init_body. destruct (rd (I c) (Z.of_nat i)); cbn [obind]; auto.
    rewrite HI. reflexivity.
Qed.

Lemma EvaluateCycle_points aes aes' einit einit' ein ein' cid st tabs dr :
  (forall k, einit' k = einit k) -> (forall i, ein' i = ein i) ->
  (forall q, In q (cycle_queries aes einit ein cid st tabs dr) -> aes' q = aes q) ->
  EvaluateCycle aes' c fan0 rnd p_init p_input einit' ein' cid st tabs dr =
  EvaluateCycle aes c fan0 rnd p_init p_input einit ein cid st tabs dr.
Proof.
  intros HI HN H. unfold EvaluateCycle, run_cycle, cycle_queries in *.
  rewrite (prefix_ext false cid einit einit' ein ein') by auto.
  destruct (cycle_prefix c fan0 false cid p_init p_input einit ein st) as [[[[[el ev] ll] lv] ef]|]; cbn [obind]; [|reflexivity].
  change (secret_body ZeroBlock c (fun l0 v0 l1 v1 t g s => EvalGate aes' rnd l0 v0 l1 v1 t (N.of_nat cid) (N.of_nat g) s))
      with (ebody c aes' (N.of_nat cid) rnd).
  change (secret_body ZeroBlock c (fun l0 v0 l1 v1 t g s => EvalGate aes rnd l0 v0 l1 v1 t (N.of_nat cid) (N.of_nat g) s))
      with (ebody c aes (N.of_nat cid) rnd).
  unfold gate_size. rewrite (pass_points aes aes' (N.of_nat cid) _ H _ (le_n _)). reflexivity.
Qed.
End Queries.

(** * Both parties *)

(** The session in which the garbler draws the coins [co]. *)
Definition coin_session (c : GarbledCircuit) (fan : list Z) (rnd : nat -> block) (reset : bool) (m0 : machine)
    (x : inputs) (co : coins) : session :=
  mkSession c x fan (co_aes co) (co_R co) rnd reset (co_ginit co) (co_gin co)
    (fun k => Some (label_init c x co (Z.to_nat k))) (fun cy i => Some (label_in c x co cy i)) m0.

(** What the evaluator encrypts in the first [n] cycles of a session. *)
Definition session_queries (s : session) (n : nat) : list block :=
  flat_map (fun cid =>
    match run s cid with
    | Some (m, _) =>
      match GarbleCycle (s_aes s) (s_c s) (s_fan s) (s_R s) (s_reset s) (p_init (s_x s)) (p_input (s_x s)) (s_ginit s) (s_gin s cid)
              cid (m_g m) (m_tmp m) (m_tabs m) with
      | Some (_, _, tabs', ind, _, _) =>
        match recv_tables (firstn (Z.to_nat ind) tabs') (m_et m) with
        | Some et => cycle_queries (s_c s) (s_fan s) (s_rnd s) (p_init (s_x s)) (p_input (s_x s)) (s_aes s)
                       (s_einit s) (s_ein s cid) cid (m_e m) et (m_dr m)
        | None => []
        end
      | None => []
      end
    | None => []
    end) (seq 0 n).

Definition garbler_part (m : machine) : gmem := mkG (m_g m) (m_tmp m) (m_tabs m).
Definition garbler_out (o : cycle_out) : gout := mkGout (o_sent o) (o_gouts o) (o_gterm o).

Section Parts.
Variables (c : GarbledCircuit) (fan0 : list Z) (aes : block -> block) (R : block) (rnd : nat -> block) (reset : bool).
Variables p_init p_input : N.
Variable ginit : Z -> option BlockPair.
Variable gin : nat -> nat -> option BlockPair.
Variable einit : Z -> option block.
Variable ein : nat -> nat -> option block.
Notation mstep := (machine_step c fan0 aes R rnd reset p_init p_input ginit gin einit ein).
Notation mrun := (machine_run c fan0 aes R rnd reset p_init p_input ginit gin einit ein).
Notation gstep := (garble_step c fan0 reset p_init p_input R aes ginit gin).
Notation grun := (garble_run c fan0 reset p_init p_input R aes ginit gin).

Lemma machine_step_garbler cid m m' o : mstep cid m = Some (m', o) ->
  gstep cid (garbler_part m) = Some (garbler_part m', garbler_out o).
Proof.
  unfold machine_step, garble_step. cbn [garbler_part gm_c gm_tmp gm_tabs].
  destruct (GarbleCycle _ _ _ _ _ _ _ _ _ _ _ _ _) as [[[[[[g' tmp'] tabs'] ind] go] gt]|]; cbn [obind]; [|discriminate].
  destruct (recv_tables _ _) as [et|]; cbn [obind]; [|discriminate].
  destruct (EvaluateCycle _ _ _ _ _ _ _ _ _ _ _ _) as [[[[[[e' et'] us] dr'] eo] eterm]|]; cbn [obind]; [|discriminate].
  intros E. injection E as <- <-. reflexivity.
Qed.
(** The garbler of [ViewCycle] is the garbler of the two-party run. *)
Lemma machine_run_garbler n : forall m0 m os, mrun n m0 = Some (m, os) ->
  grun n (garbler_part m0) = Some (garbler_part m, map garbler_out os).
Proof.
  induction n; intros m0 m os E.
  - injection E as <- <-. reflexivity.
  - cbn [machine_run] in E. destruct (mrun n m0) as [[m1 os1]|] eqn:E1; cbn [obind] in E; [|discriminate].
    destruct (mstep n m1) as [[m2 o]|] eqn:E2; cbn [obind] in E; [|discriminate]. injection E as <- <-.
    cbn [garble_run]. rewrite (IHn _ _ _ E1). cbn [obind]. rewrite (machine_step_garbler _ _ _ _ E2). cbn [obind].
    rewrite map_app. reflexivity.
Qed.
Lemma garble_run_prefix n m0 m os k : grun n m0 = Some (m, os) -> (k <= n)%nat ->
  exists mk, grun k m0 = Some (mk, firstn k os).
Proof.
  intros H Hk. revert m os H. induction Hk as [|n Hk IH]; intros m os H.
  - exists m. rewrite H. f_equal. f_equal. symmetry. apply firstn_all2.
    assert (L : forall j m1 os1, grun j m0 = Some (m1, os1) -> length os1 = j).
    { clear. induction j; intros m1 os1 E; [injection E as <- <-; reflexivity|].
      cbn [garble_run] in E. destruct (grun j m0) as [[m2 os2]|]; cbn [obind] in E; [|discriminate].
      destruct (gstep j m2) as [[m3 o3]|]; cbn [obind] in E; [|discriminate]. injection E as <- <-.
      rewrite app_length, (IHj _ _ eq_refl). simpl. lia. }
    rewrite (L _ _ _ H). lia.
  - cbn [garble_run] in H. destruct (grun n m0) as [[m1 os1]|] eqn:E1; cbn [obind] in H; [|discriminate].
    destruct (gstep n m1) as [[m2 o2]|]; cbn [obind] in H; [|discriminate]. injection H as <- <-.
    destruct (IH _ _ eq_refl) as (mk & E). exists mk. rewrite E. f_equal. f_equal.
    assert (L : forall j m1 os1, grun j m0 = Some (m1, os1) -> length os1 = j).
    { clear. induction j; intros m1 os1 E; [injection E as <- <-; reflexivity|].
      cbn [garble_run] in E. destruct (grun j m0) as [[m2 os2]|]; cbn [obind] in E; [|discriminate].
      destruct (gstep j m2) as [[m3 o3]|]; cbn [obind] in E; [|discriminate]. injection E as <- <-.
      rewrite app_length, (IHj _ _ eq_refl). simpl. lia. }
    rewrite firstn_app, (L _ _ _ E1), (proj2 (Nat.sub_0_le k n) Hk). cbn [firstn]. rewrite app_nil_r. reflexivity.
Qed.
End Parts.

(** The evaluator's side of a cycle is the same. *)
Record same_view (o o' : cycle_out) : Prop := {
  sv_sent : o_sent o' = o_sent o; sv_used : o_used o' = o_used o;
  sv_eouts : o_eouts o' = o_eouts o; sv_eterm : o_eterm o' = o_eterm o }.

Section Main.
Variable c : GarbledCircuit.
Variable fan : list Z.
Variable rnd : nat -> block.
Variable reset : bool.
Variable m0 : machine.
Hypothesis WF : well_formed c.
Hypothesis SZ : (N.of_nat (length (garbledGates c)) < 2 ^ 32)%N.
Hypothesis FF : exists junk ok, length junk = gate_size c /\ FillFanout c junk = Some (fan, ok).
Hypothesis FM : fresh_machine c m0.
Notation sess := (coin_session c fan rnd reset m0).

Lemma fresh_part : fresh_gmem c (garbler_part m0).
Proof. destruct FM as [[A B C D E] F G H]. constructor; auto. Qed.

Lemma coin_session_honest x co : get_LSB (co_R co) = true -> honest (sess x co).
Proof.
  intros HR. constructor; cbn [coin_session s_c s_x s_fan s_R s_ginit s_gin s_einit s_ein s_m0]; auto.
  - intros k Hk. eexists. split; [reflexivity|]. unfold label_init. rewrite Nat2Z.id. reflexivity.
  - intros cy i Hi. eexists. split; reflexivity.
Qed.

Theorem evaluator_private n x x' V V' co m os :
  p_init x' = p_init x -> p_input x' = p_input x -> consistent c x V -> consistent c x' V' ->
  usable c fan reset n (garbler_part m0) x co ->
  run (sess x co) n = Some (m, os) ->
  (forall q, In q (session_queries (sess x co) n) ->
     ~ In q (inactive (co_R co) V (co_events c fan reset n (garbler_part m0) x co))) ->
  let co' := recode c fan reset n (garbler_part m0) x V x' V' co in
  exists m' os', run (sess x' co') n = Some (m', os') /\
    m_e m' = m_e m /\ m_et m' = m_et m /\ m_dr m' = m_dr m /\ Forall2 same_view os os'.
Proof.
  intros P1 P2 CV CV' US RUN NQ co'.
  destruct (view_private c fan reset WF SZ FF n (garbler_part m0) fresh_part x x' V V' co P1 P2 CV CV' US)
    as (_ & _ & ER & EA & LI & LN & mA & mB & oA & oB & RA & RB & LA & LB & SAME).
  fold co' in ER, EA, LI, LN, RB. unfold co_run in RA, RB.
  assert (INV : forall k m os, (k <= n)%nat -> run (sess x co) k = Some (m, os) ->
     exists m' os' gos, run (sess x' co') k = Some (m', os') /\ m_e m' = m_e m /\ m_et m' = m_et m /\ m_dr m' = m_dr m /\
       Forall2 same_view os os' /\
       garble_run c fan reset (p_init x') (p_input x') (co_R co') (co_aes co') (co_ginit co') (co_gin co') k (garbler_part m0) =
         Some (garbler_part m', gos)).
  2:{ destruct (INV n m os (le_n _) RUN) as (m' & os' & gos & H1 & H2 & H3 & H4 & H5 & _). exists m', os'. auto. }
  induction k; intros m1 os1 Hk E.
  - injection E as <- <-. exists m0, [], []. repeat split; auto. 
  - pose proof E as EF. unfold run in E. cbn [machine_run] in E. unfold run in IHk.
    fold (run (sess x co) k) in E. destruct (run (sess x co) k) as [[m2 os2]|] eqn:E2; cbn [obind] in E; [|discriminate].
    destruct (IHk m2 os2 ltac:(lia) E2) as (m2' & os2' & gos & H1 & H2 & H3 & H4 & H5 & H6).
    cbn [coin_session s_c s_x s_fan s_aes s_R s_rnd s_reset s_ginit s_gin s_einit s_ein s_m0] in E, H1.
    unfold run in E2. cbn [coin_session s_c s_x s_fan s_aes s_R s_rnd s_reset s_ginit s_gin s_einit s_ein s_m0] in E2.
    (* the garbler's step in both *)
    destruct (garble_run_prefix _ _ _ _ _ _ _ _ _ _ _ _ _ (S k) RA ltac:(lia)) as (ga & GA).
    destruct (garble_run_prefix _ _ _ _ _ _ _ _ _ _ _ _ _ (S k) RB ltac:(lia)) as (gb & GB).
    cbn [garble_run] in GA, GB. rewrite (machine_run_garbler _ _ _ _ _ _ _ _ _ _ _ _ _ _ _ _ E2) in GA. rewrite H6 in GB.
    cbn [obind] in GA, GB.
    destruct (garble_step c fan reset (p_init x) (p_input x) (co_R co) (co_aes co) (co_ginit co) (co_gin co) k (garbler_part m2))
      as [[ga1 goa]|] eqn:SA; cbn [obind] in GA; [|discriminate].
    destruct (garble_step c fan reset (p_init x') (p_input x') (co_R co') (co_aes co') (co_ginit co') (co_gin co') k (garbler_part m2'))
      as [[gb1 gob]|] eqn:SB; cbn [obind] in GB; [|discriminate].
    assert (NA : nth_error oA k = Some goa).
    { apply (f_equal (fun r => match r with Some (_, l) => l | None => [] end)) in GA. cbv beta iota in GA. rewrite <- (firstn_skipn (S k) oA), <- GA, <- app_assoc.
      assert (length (map garbler_out os2) = k).
      { assert (Q : length (map garbler_out os2 ++ [goa]) = length (firstn (S k) oA)) by (rewrite GA; reflexivity).
        rewrite app_length, firstn_length in Q. cbn [length] in Q. lia. }
      rewrite nth_error_app2 by lia. replace (k - length (map garbler_out os2))%nat with 0%nat by lia. reflexivity. }
    assert (NB : nth_error oB k = Some gob).
    { apply (f_equal (fun r => match r with Some (_, l) => l | None => [] end)) in GB. cbv beta iota in GB. rewrite <- (firstn_skipn (S k) oB), <- GB, <- app_assoc.
      assert (length gos = k).
      { assert (Q : length (gos ++ [gob]) = length (firstn (S k) oB)) by (rewrite GB; reflexivity).
        rewrite app_length, firstn_length in Q. cbn [length] in Q. lia. }
      rewrite nth_error_app2 by lia. replace (k - length gos)%nat with 0%nat by lia. reflexivity. }
    pose proof (cs_sent _ _ _ _ _ _ _ (SAME k goa gob NA NB)) as SENT.
    (* unfold the steps *)
    unfold run. cbn [machine_run]. cbn [coin_session s_c s_x s_fan s_aes s_R s_rnd s_reset s_ginit s_gin s_einit s_ein s_m0].
    rewrite H1. cbn [obind].
    assert (QK : forall q, In q (match GarbleCycle (co_aes co) c fan (co_R co) reset (p_init x) (p_input x) (co_ginit co) (co_gin co k)
              k (m_g m2) (m_tmp m2) (m_tabs m2) with
      | Some (_, _, tabs', ind, _, _) =>
        match recv_tables (firstn (Z.to_nat ind) tabs') (m_et m2) with
        | Some et => cycle_queries c fan rnd (p_init x) (p_input x) (co_aes co)
                       (fun k => Some (label_init c x co (Z.to_nat k))) (fun i => Some (label_in c x co k i)) k (m_e m2) et (m_dr m2)
        | None => [] end
      | None => [] end) -> co_aes co' q = co_aes co q).
    { intros q Hq. apply EA. apply NQ. unfold session_queries. apply in_flat_map. exists k. split; [apply in_seq; lia|].
      unfold run. cbn [coin_session s_c s_x s_fan s_aes s_R s_rnd s_reset s_ginit s_gin s_einit s_ein s_m0].
      rewrite E2. exact Hq. }
    unfold garble_step in SA, SB. cbn [garbler_part gm_c gm_tmp gm_tabs] in SA, SB.
    unfold machine_step in E |- *.
    destruct (GarbleCycle (co_aes co) c fan (co_R co) reset (p_init x) (p_input x) (co_ginit co) (co_gin co k) k (m_g m2) (m_tmp m2) (m_tabs m2))
      as [[[[[[g' tmp'] tabs'] ind] go] gt]|] eqn:EG; cbn [obind] in SA, E; [|discriminate].
    destruct (GarbleCycle (co_aes co') c fan (co_R co') reset (p_init x') (p_input x') (co_ginit co') (co_gin co' k) k (m_g m2') (m_tmp m2') (m_tabs m2'))
      as [[[[[[g2' tmp2'] tabs2'] ind2] go2] gt2]|] eqn:EG2; cbn [obind] in SB |- *; [|discriminate].
    injection SA as <- <-. injection SB as <- <-. cbn [go_sent] in SENT. rewrite SENT, H3, H2, H4.
    destruct (recv_tables (firstn (Z.to_nat ind) tabs') (m_et m2)) as [et|] eqn:ERC; cbn [obind] in E |- *; [|discriminate].
    rewrite P1, P2.
    rewrite (EvaluateCycle_points c fan rnd (p_init x) (p_input x) (co_aes co) (co_aes co')
      (fun k => Some (label_init c x co (Z.to_nat k))) (fun k => Some (label_init c x' co' (Z.to_nat k)))
      (fun i => Some (label_in c x co k i)) (fun i => Some (label_in c x' co' k i))); [|intros; f_equal; auto|intros; f_equal; auto|exact QK].
    destruct (EvaluateCycle _ _ _ _ _ _ _ _ _ _ _ _) as [[[[[[e' et'] us] dr'] eo] eterm]|]; cbn [obind] in E |- *; [|discriminate].
    injection E as <- <-. eexists _, _, _. split; [reflexivity|]. cbn [m_e m_et m_dr].
    split; [reflexivity|]. split; [reflexivity|]. split; [reflexivity|]. split.
    + apply Forall2_app; [exact H5|]. constructor; [constructor; reflexivity|constructor].
    + cbn [garble_run]. rewrite P1, P2 in H6. rewrite H6. cbn [obind]. unfold garble_step. cbn [garbler_part gm_c gm_tmp gm_tabs].
      rewrite P1, P2 in EG2. rewrite EG2. reflexivity.
Qed.
End Main.
