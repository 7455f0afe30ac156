(** What is sent: at most one table per non-linear gate and cycle, and no table
    at all when every input is public.  Nothing is assumed about labels. *)
From Coq Require Import ZArith NArith List Bool Lia.
From Verif Require Import Base Gate Circuit Spec Fanout GateFacts GateSim Phase1 Phase2 Phase2E Prefix CycleModel Cycle Run Safe.
Import ListNotations.
Open Scope Z_scope.

Lemma firstn_snoc {A} (l : list A) n x : nth_error l n = Some x -> firstn (S n) l = firstn n l ++ [x].
Proof.
  revert n; induction l as [|a l IH]; intros [|n] E; simpl in *; try discriminate.
  - inv E; auto.
  - rewrite IH; auto.
Qed.
Lemma wr_firstn {A} (l l' : list A) n x : wr l (Z.of_nat n) x = Some l' -> firstn n l' = firstn n l.
Proof.
  intros H. pose proof (wr_length _ _ _ _ H) as HL. apply list_ext_rd. intros z.
  unfold rd. destruct (z <? 0); [auto|]. generalize (Z.to_nat z); intros i.
  destruct (Nat.lt_ge_cases i n).
  - assert (G : forall (m : list A), nth_error (firstn n m) i = nth_error m i).
    { clear - H0. intros m. revert i m H0. induction n; intros i m Hi; [lia|].
      destruct m, i; simpl; auto. apply IHn. lia. }
    rewrite !G. rewrite <- !rd_nat. apply (rd_wr_other _ _ _ _ _ H). lia.
  - rewrite !(proj2 (nth_error_None _ _)); auto; rewrite firstn_length; lia.
Qed.
Lemma NoDup_map_filter {A B} (f : A -> B) p l : NoDup (map f l) -> NoDup (map f (filter p l)).
Proof.
  induction l as [|a l IH]; intros H; [constructor|]. cbn [map filter] in *. inv H.
  destruct (p a); [|auto]. cbn [map]. constructor; [|auto].
  intros Hin. apply H2. apply in_map_iff in Hin as (y & E & Hy). apply filter_In in Hy as [Hy _].
  apply in_map_iff. eauto.
Qed.

Section Comm.
Variable c : GarbledCircuit.
Hypothesis SZ : (N.of_nat (length (garbledGates c)) < 2 ^ 32)%N.
Notation gs := (garbledGates c).

(** A table that belongs to a non-linear gate of the circuit. *)
Definition own_table (tb : GarbledTable) : Prop :=
  exists g, nth_error gs (N.to_nat (gid tb)) = Some g /\ is_nonxor g = true.

Definition gQ (i : nat) (s : list GarbledTable * Z) : Prop :=
  gP c i s /\
  (forall tb, In tb (firstn (Z.to_nat (snd s)) (fst s)) -> own_table tb /\ (N.to_nat (gid tb) < i)%nat) /\
  NoDup (map gid (firstn (Z.to_nat (snd s)) (fst s))).

Lemma gQ_fn aes R cid i g l0 v0 l1 v1 s :
  nth_error gs i = Some g -> gQ i s ->
  exists l v s', GarbleGate aes l0 v0 l1 v1 (type g) cid (N.of_nat i) R s = Some (l, v, s') /\ gQ (S i) s'.
Proof.
  intros Hg (HP & Q1 & Q2).
  destruct (gP_fn c aes R cid i g l0 v0 l1 v1 s Hg HP) as (l & v & s' & E & HP').
  exists l, v, s'. split; [auto|]. split; [auto|].
  assert (HI : (i < length gs)%nat) by (apply nth_error_Some; congruence).
  assert (SAME : s' = s -> (forall tb, In tb (firstn (Z.to_nat (snd s')) (fst s')) -> own_table tb /\ (N.to_nat (gid tb) < S i)%nat) /\
     NoDup (map gid (firstn (Z.to_nat (snd s')) (fst s')))).
  { intros ->. split; [|auto]. intros tb Hin. destruct (Q1 tb Hin). split; [auto|lia]. }
  unfold GarbleGate in E.
  destruct (IsSecret v0), (IsSecret v1); cbn [negb andb] in E.
  2,3,4: try destruct (HalfGarbleGate _ _ _ _); apply SAME; congruence.
  destruct (negb (type g =? NOTGATE) && CmpBlock (fst l0) (fst l1)).
  { destruct (equal_shortcut (type g)) as [[| |]|]; apply SAME; congruence. }
  destruct (negb (type g =? NOTGATE) && CmpBlock (fst l0) (snd l1)).
  { destruct (inverted_shortcut (type g)) as [[| |]|]; apply SAME; congruence. }
  destruct (Z.eqb_spec (type g) XORGATE) as [|N1]; [apply SAME; congruence|].
  destruct (Z.eqb_spec (type g) XNORGATE) as [|N2]; [apply SAME; congruence|].
  destruct (Z.eqb_spec (type g) NOTGATE) as [|N3]; [apply SAME; congruence|].
  assert (NX : is_nonxor g = true).
  { destruct (is_nonxor g) eqn:EN; auto. destruct (nonxor_type g EN) as [|[|]]; contradiction. }
  destruct (HalfGates _ _ _ _ _ _ _) as [o [T0 T1]].
  destruct s as [tabs ind]. cbn [fst snd] in *.
  destruct (wr tabs ind _) as [tabs'|] eqn:W; [|discriminate]. cbn [obind] in E. inv E. cbn [fst snd].
  destruct HP as (P1 & P2 & P3). cbn [fst snd] in P1, P2, P3.
  assert (EI : ind = Z.of_nat (Z.to_nat ind)) by lia.
  pose proof (rd_wr_same _ _ _ _ W) as RS. rewrite EI in W, RS. rewrite rd_nat in RS.
  replace (Z.to_nat (ind + 1)) with (S (Z.to_nat ind)) by lia.
  rewrite (firstn_snoc _ _ _ RS), (wr_firstn _ _ _ _ W).
  assert (GI : forall X Y, N.to_nat (gid {| row0 := X; row1 := Y; gid := (N.of_nat i mod 2 ^ 32)%N |}) = i).
  { intros. cbn [gid]. rewrite N.mod_small by lia. lia. }
  split.
  - intros tb Hin. apply in_app_or in Hin as [Hin|[<-|[]]].
    + destruct (Q1 tb Hin). split; [auto|lia].
    + rewrite GI. split; [|lia]. unfold own_table. rewrite GI. eauto.
  - rewrite map_app. cbn [map]. apply NoDup_rev in Q2. rewrite <- (rev_involutive (_ ++ _)).
    apply NoDup_rev. rewrite rev_app_distr. cbn [rev app]. constructor; [|auto].
    rewrite <- in_rev. intros Hin. apply in_map_iff in Hin as (tb & E1 & E2).
    destruct (Q1 tb E2) as [_ HB]. cbn [gid] in E1. rewrite E1, N.mod_small in HB by lia. lia.
Qed.

Hypothesis RR : refs_in_range c.

(** The tables sent in a cycle. *)
Lemma GarbleCycle_sent aes fan0 R reset p_init p_input getinit getinput cid (st : cstate BlockPair) tmp tabs :
  length fan0 = length gs -> cwf c st ->
  (forall k, 0 <= k < Z.of_nat (get_secret_init_size c) -> exists l, getinit k = Some l) ->
  (forall i, (i < get_secret_input_size c)%nat -> exists l, getinput i = Some l) ->
  length tmp = NumOfNonXor c -> length tabs = NumOfNonXor c ->
  forall st' tmp' tabs' ind outs term,
    GarbleCycle aes c fan0 R reset p_init p_input getinit getinput cid st tmp tabs
      = Some (st', tmp', tabs', ind, outs, term) ->
  let sent := firstn (Z.to_nat ind) tabs' in
  (forall tb, In tb sent -> own_table tb) /\ NoDup (map gid sent).
Proof.
  intros HF CW GI GN H1 H2 st' tmp' tabs' ind outs term EG.
  destruct (run_cycle_total c RR zeroPair
    (fun l0 v0 l1 v1 t g s => GarbleGate aes l0 v0 l1 v1 t (N.of_nat cid) (N.of_nat g) R s)
    gQ) with (fan0 := fan0) (reset := reset) (cid := cid) (p_init := p_init) (p_input := p_input)
      (getinit := getinit) (getinput := getinput) (st := st) (s := (tmp, 0))
    as (st1 & [tmp1 ti] & outs1 & term1 & E & CW' & ((Q1 & Q2 & Q3) & Q4 & Q5) & LO); auto.
  - intros. apply gQ_fn; auto.
  - intros i s Hi ((A & B & C) & D & F). split; [split; [auto|]; split; [|auto]|split; [|auto]].
    + pose proof (nnx_le gs i (S i) ltac:(lia)). lia.
    + intros tb Hin. destruct (D tb Hin). split; [auto|lia].
  - split; [split; [auto|]; cbn [fst snd]; split; [lia|]; intros; lia|].
    cbn. split; [intros ? []|constructor].
  - unfold GarbleCycle in EG. rewrite E in EG. cbn [obind fst snd] in *.
    destruct CW' as (W1 & W2 & W3 & W4 & W5). pose proof (nnx_bound c (length gs)). unfold gate_size in W5.
    pose proof (select_spec (fanout st1) tmp1 tabs (Z.to_nat ti) ltac:(lia)) as SEL.
    cbv zeta in SEL. rewrite SEL in EG; [|intros tb Hin; destruct (Q4 tb Hin); lia|lia].
    cbn [obind] in EG. inv EG.
    set (S' := sent_tables (fanout st') tmp' (Z.to_nat ti)).
    rewrite Nat2Z.id, firstn_app, firstn_all, Nat.sub_diag, firstn_O, app_nil_r.
    unfold S', sent_tables. split.
    + intros tb Hin. apply filter_In in Hin as [Hin _]. apply Q4; auto.
    + apply NoDup_map_filter. auto.
Qed.
End Comm.

Theorem sent_linear_free c fan0 aes R rnd reset p_init p_input ginit gin einit ein :
  (N.of_nat (length (garbledGates c)) < 2 ^ 32)%N ->
  refs_in_range c -> length fan0 = length (garbledGates c) ->
  (forall k, 0 <= k < Z.of_nat (get_secret_init_size c) -> exists l, ginit k = Some l) ->
  (forall cy i, (i < get_secret_input_size c)%nat -> exists l, gin cy i = Some l) ->
  (forall k, 0 <= k < Z.of_nat (get_secret_init_size c) -> exists l, einit k = Some l) ->
  (forall cy i, (i < get_secret_input_size c)%nat -> exists l, ein cy i = Some l) ->
  forall n m0, machine_sized c m0 -> forall m os,
  machine_run c fan0 aes R rnd reset p_init p_input ginit gin einit ein n m0 = Some (m, os) ->
  forall o, In o os ->
    (forall tb, In tb (o_sent o) -> own_table c tb) /\ NoDup (map gid (o_sent o)).
Proof.
  intros SZ RR HF G1 G2 E1 E2 n m0 HM. induction n; intros m os E o Ho.
  - cbn in E. inv E. destruct Ho.
  - destruct (machine_run_safe c fan0 aes R rnd reset p_init p_input ginit gin einit ein RR HF G1 G2 E1 E2 n m0 HM)
      as (m1 & os1 & ER & HM1 & _ & _).
    cbn [machine_run] in E. rewrite ER in E. cbn [obind] in E.
    destruct (machine_step _ _ _ _ _ _ _ _ _ _ _ _ n m1) as [[m2 o2]|] eqn:ES; [|discriminate].
    cbn [obind] in E. inv E. apply in_app_or in Ho as [Ho|[<-|[]]]; [eapply IHn; eauto|].
    unfold machine_step in ES. destruct HM1 as [M1 M2 M3 M4 M5].
    destruct (GarbleCycle aes c fan0 R reset p_init p_input ginit (gin n) n (m_g m1) (m_tmp m1) (m_tabs m1))
      as [[[[[[g' tmp'] tabs'] ind] go] gt]|] eqn:EG; [|discriminate].
    cbn [obind] in ES. destruct (recv_tables _ _); [|discriminate]. cbn [obind] in ES.
    destruct (EvaluateCycle _ _ _ _ _ _ _ _ _ _ _ _) as [[[[[[e' et'] used] dr'] eo] eterm]|]; [|discriminate].
    cbn [obind] in ES. inv ES. cbn [o_sent].
    exact (GarbleCycle_sent c SZ RR aes fan0 R reset p_init p_input ginit (gin n) n (m_g m1) (m_tmp m1) (m_tabs m1) HF M1 G1 (G2 n) M3 M4 _ _ _ _ _ _ EG).
Qed.

(** * Circuits without secret inputs *)
Section Public.
Variable c : GarbledCircuit.
Hypothesis WF : well_formed c.
Hypothesis NS : get_secret_init_size c = O.
Hypothesis NI : get_secret_input_size c = O.
Notation gs := (garbledGates c).

Definition all_public (hi : Z) (wv : list Z) : Prop :=
  forall u, first_input c <= u < hi -> 0 <= vz wv u.

Lemma known_public v0 v1 t : 0 <= v0 -> (0 <= v1 \/ t = NOTGATE) -> 0 <= GarbleEvalGateKnownValue v0 v1 t.
Proof.
  intros H0 H1. unfold GarbleEvalGateKnownValue, IsSecret.
  destruct (Z.ltb_spec v0 0); [lia|]. destruct (Z.ltb_spec v1 0); cbn [negb andb].
  - destruct H1 as [?| ->]; [lia|]. unfold HalfGarbleEvalGateKnownValue, half_x. cbn.
    destruct (z2b v0); cbn; lia.
  - destruct (GateOperator _ _ _); cbn; lia.
Qed.

Lemma known_all_public fan0 wv fan : length fan0 = length gs ->
  Z.of_nat (length wv) = wsz c -> length fan = length gs -> all_public (first_gate c) wv ->
  exists wv' fan', for_ (gate_size c) (known_body c fan0) (wv, fan) = Some (wv', fan') /\
    Z.of_nat (length wv') = wsz c /\ length fan' = length gs /\ all_public (wsz c) wv'.
Proof.
  intros H0 H1 H2 H3. pose proof (wsz_gate c) as WG. pose proof (first_order c) as FO.
  pose proof (first_input_nonneg c) as FN.
  destruct (for_inv (fun i (s : list Z * list Z) => Z.of_nat (length (fst s)) = wsz c /\ length (snd s) = length gs /\
      all_public (first_gate c + Z.of_nat i) (fst s))
    (gate_size c) (known_body c fan0) (wv, fan)) as ([wv' fan'] & E & P1 & P2 & P3).
  - cbn [fst snd]. split; [auto|]. split; [auto|]. rewrite Z.add_0_r. auto.
  - intros i [v f] Hi (Q1 & Q2 & Q3). cbn [fst snd] in *. unfold gate_size in Hi.
    unfold known_body.
    destruct (rd_ok fan0 (Z.of_nat i)) as [k ->]; [lia|]. cbn [obind].
    destruct (wr_ok f (Z.of_nat i) k) as [f1 W]; [lia|]. rewrite W. cbn [obind].
    destruct (nth_error gs i) as [g|] eqn:Hg; [|apply nth_error_None in Hg; lia].
    rewrite rd_nat, Hg. cbn [obind].
    rewrite (val0_oval c v _ Q1), (val1_oval c v _ _ Q1). cbn [obind].
    destruct (wf_gate c WF i g Hg) as (HO & _ & [A1 A2] & [B1 B2]).
    assert (PV : 0 <= GarbleEvalGateKnownValue (oval c v (input0 g)) (oval1 c v (type g) (input1 g)) (type g)).
    { apply known_public.
      - destruct (Z_lt_le_dec (input0 g) 0).
        + rewrite (oval_neg c v _ (fun _ => true)) by auto. destruct (operand _ _); cbn; lia.
        + rewrite oval_wire by lia. apply Q3. lia.
      - destruct (Z.eq_dec (type g) NOTGATE); [auto|left].
        destruct (Z_lt_le_dec (input1 g) 0).
        + rewrite (oval1_neg c v _ _ (fun _ => true)) by auto. destruct (operand _ _); cbn; lia.
        + rewrite oval1_wire by lia. apply Q3. lia. }
    set (nv := GarbleEvalGateKnownValue _ _ _) in *.
    destruct (wr_ok v (output g) nv) as [v' W']; [lia|]. rewrite W'. cbn [obind].
    assert (LF : length f1 = length gs) by (rewrite (wr_length _ _ _ _ W); auto).
    assert (LV : Z.of_nat (length v') = wsz c) by (rewrite (wr_length _ _ _ _ W'); auto).
    assert (AP : all_public (first_gate c + Z.of_nat (S i)) v').
    { intros u Hu. rewrite (vz_wr _ _ _ _ _ W') by lia. destruct (Z.eqb_spec u (output g)); [auto|].
      apply Q3. lia. }
    destruct (negb (IsSecret nv)).
    + destruct (drop_uses_total c g i (oval c v (input0 g)) (oval1 c v (type g) (input1 g)) f1 LF Hi) as (f2 & -> & L2).
      cbn [obind]. eauto.
    + eauto.
  - exists wv', fan'. split; [auto|]. split; [auto|]. split; [auto|]. rewrite WG. auto.
Qed.

Lemma secret_noop {L S} (z : L) (fn : L -> Z -> L -> Z -> Z -> nat -> S -> option (L * Z * S)) wl wv fan s :
  Z.of_nat (length wv) = wsz c -> length fan = length gs -> all_public (wsz c) wv ->
  for_ (gate_size c) (secret_body z c fn) (wl, wv, fan, s) = Some (wl, wv, fan, s).
Proof.
  intros H1 H2 H3. pose proof (wsz_gate c) as WG. pose proof (first_order c) as FO.
  pose proof (first_input_nonneg c) as FN.
  destruct (for_inv (fun _ st => st = (wl, wv, fan, s)) (gate_size c) (secret_body z c fn) (wl, wv, fan, s))
    as (st & E & ->); auto.
  intros i st Hi ->. eexists. split; [|reflexivity]. unfold gate_size in Hi. unfold secret_body.
  destruct (nth_error gs i) as [g|] eqn:Hg; [|apply nth_error_None in Hg; lia].
  rewrite rd_nat, Hg. cbn [obind].
  destruct (rd_ok fan (Z.of_nat i)) as [k ->]; [lia|]. cbn [obind].
  destruct (0 <? k); [|auto].
  destruct (wf_gate c WF i g Hg) as (HO & _).
  rewrite (rd_vz wv) by lia. cbn [obind]. unfold IsSecret.
  pose proof (H3 (output g) ltac:(lia)). destruct (Z.ltb_spec (vz wv (output g)) 0); [lia|auto].
Qed.

Lemma reads_fst {L} (wl : list L) wv l outs : mapM (read_wire wl wv) l = Some outs ->
  forall o, In o outs -> exists u, In u l /\ rd wv u = Some (snd o).
Proof.
  revert outs. induction l as [|u l IH]; intros outs E o Ho; cbn [mapM] in E.
  - inv E. destruct Ho.
  - unfold read_wire at 1 in E. destruct (rd wl u) as [x|]; [|discriminate]. cbn [obind] in E.
    destruct (rd wv u) as [v|] eqn:EV; [|discriminate]. cbn [obind] in E.
    destruct (mapM _ l) as [r|] eqn:ER; [|discriminate]. cbn [obind] in E. inv E.
    destruct Ho as [<-|Ho]; [exists u; split; [left; auto|auto]|].
    destruct (IH r eq_refl o Ho) as (u' & A & B). exists u'. split; [right; auto|auto].
Qed.

(** One cycle leaves the table state alone and every output is public. *)
Lemma run_cycle_public {L S} (z : L) (fn : L -> Z -> L -> Z -> Z -> nat -> S -> option (L * Z * S))
    fan0 reset cid p_init p_input getinit getinput (st : cstate L) s :
  length fan0 = length gs -> cwf c st ->
  (cid = O \/ all_public (wsz c) (wires_val st)) ->
  exists st' outs term, run_cycle z c fan0 fn reset cid p_init p_input getinit getinput st s = Some (st', s, outs, term) /\
    cwf c st' /\ all_public (wsz c) (wires_val st') /\ (forall o, In o outs -> 0 <= snd o) /\
    (forall o, term = Some o -> 0 <= snd o).
Proof.
  intros HF CW HPub. pose proof (wsz_gate c) as WG. pose proof (first_order c) as FO.
  pose proof (first_input_nonneg c) as FN. pose proof (gate_eq c) as GE. pose proof (dff_eq c) as DE.
  destruct (prefix_ok z c WF reset cid p_init p_input getinit getinput st CW)
    as (wl3 & wv3 & ll & lv & E & L1 & L2 & L3 & L4 & HD & HP & _ & _).
  { intros k Hk. rewrite NS in Hk. lia. }
  { intros i Hi. rewrite NI in Hi. lia. }
  destruct (known_all_public fan0 wv3 (fanout st) HF L2) as (wv4 & fan4 & EK & K1 & K2 & K3).
  { destruct CW as (_ & _ & _ & _ & X). auto. }
  { intros u Hu. destruct (Z_lt_le_dec u (first_dff c)).
    - replace u with (first_input c + Z.of_nat (Z.to_nat (u - first_input c))) by lia.
      rewrite HP by lia. destruct (BN_is_bit_set _ _); cbn; lia.
    - set (j := Z.to_nat (u - first_dff c)).
      destruct (HD j) as [A _]; [lia|]. replace (first_dff c + Z.of_nat j) with u in A by lia.
      rewrite A. unfold dvals. destruct cid as [|cid'].
      + unfold init_val. destruct (_ =? CONST_ZERO); [lia|]. destruct (_ =? CONST_ONE); [lia|].
        destruct ((0 <=? nthz (I c) j) && (nthz (I c) j <? Z.of_nat (get_init_size c))) eqn:EB; [|lia].
        apply andb_true_iff in EB as [E1 E2]. apply Z.ltb_lt in E2.
        unfold get_p_init_hi_index. unfold get_init_size in E2. unfold get_secret_init_size in NS.
        destruct (Z.ltb_spec (nthz (I c) j) (Z.of_nat (p_init_size c))); [|lia].
        destruct (BN_is_bit_set _ _); cbn; lia.
      + destruct HPub as [?|HPub]; [discriminate|]. unfold latch_val.
        destruct (_ =? CONST_ZERO); [lia|]. destruct (_ =? CONST_ONE); [lia|].
        destruct ((0 <=? nthz (D c) j) && (nthz (D c) j <? wsz c)) eqn:EB; [|lia].
        apply andb_true_iff in EB as [E1 E2]. apply Z.leb_le in E1. apply Z.ltb_lt in E2.
        assert (ND : nth_error (D c) j = Some (nthz (D c) j)).
        { apply nth_error_nth'. unfold j. unfold dff_size in GE. lia. }
        destruct (wf_D _ WF j _ ND) as [_ B]. apply HPub. lia. }
  assert (OUT : forall u, In u (outputs c) -> first_input c <= u < wsz c).
  { intros u Hu. apply In_nth_error in Hu as [i Hi]. pose proof (wf_out _ WF i u Hi).
    rewrite (wsz_last c). auto. }
  destruct (reads_total c (wf_refs c WF) wl3 wv4 L1 K1) as (outs & EO & _).
  unfold run_cycle. rewrite E, EK. cbn [obind].
  rewrite (secret_noop z fn wl3 wv4 fan4 s K1 K2 K3). cbn [obind]. rewrite EO. cbn [obind].
  assert (PO : forall o, In o outs -> 0 <= snd o).
  { intros o Ho. destruct (reads_fst _ _ _ _ EO o Ho) as (u & Hu & RV).
    rewrite <- (rd_vz_inv _ _ _ RV). apply K3. auto. }
  pose proof (wf_term _ WF) as WT. rewrite <- (wsz_last c) in WT.
  pose proof (Zgt_cases (terminate_id c) 0) as TC. destruct (terminate_id c >? 0).
  - unfold read_wire. destruct (rd_ok wl3 (terminate_id c)) as [l ->]; [lia|].
    rewrite (rd_vz wv4) by lia. cbn [obind].
    do 3 eexists. split; [reflexivity|]. split; [unfold cwf; cbn; auto|]. split; [auto|]. split; [auto|].
    intros o [= <-]. cbn [snd]. apply K3. lia.
  - cbn [obind]. do 3 eexists. split; [reflexivity|]. split; [unfold cwf; cbn; auto|]. split; [auto|]. split; [auto|].
    discriminate.
Qed.

Theorem public_run fan0 aes R rnd reset p_init p_input ginit gin einit ein :
  length fan0 = length gs ->
  forall n m0, machine_sized c m0 ->
  exists m os, machine_run c fan0 aes R rnd reset p_init p_input ginit gin einit ein n m0 = Some (m, os) /\
    length os = n /\
    forall o, In o os -> o_sent o = [] /\ o_used o = 0 /\
      (forall y, In y (o_gouts o) -> IsSecret (snd y) = false) /\
      (forall y, In y (o_eouts o) -> IsSecret (snd y) = false).
Proof.
  intros HF n m0 HM.
  assert (G : exists m os, machine_run c fan0 aes R rnd reset p_init p_input ginit gin einit ein n m0 = Some (m, os) /\
    machine_sized c m /\ (n = O \/ (all_public (wsz c) (wires_val (m_g m)) /\ all_public (wsz c) (wires_val (m_e m)))) /\
    length os = n /\
    forall o, In o os -> o_sent o = [] /\ o_used o = 0 /\
      (forall y, In y (o_gouts o) -> IsSecret (snd y) = false) /\
      (forall y, In y (o_eouts o) -> IsSecret (snd y) = false)).
  { induction n.
    - exists m0, []. split; [reflexivity|]. split; [auto|]. split; [auto|]. split; [auto|]. intros o [].
    - destruct IHn as (m & os & E & [M1 M2 M3 M4 M5] & HP & HL & HO).
      cbn [machine_run]. rewrite E. cbn [obind]. unfold machine_step, GarbleCycle, EvaluateCycle.
      destruct (run_cycle_public zeroPair
        (fun l0 v0 l1 v1 t g s => GarbleGate aes l0 v0 l1 v1 t (N.of_nat n) (N.of_nat g) R s)
        fan0 reset n p_init p_input ginit (gin n) (m_g m) (m_tmp m, 0)) as (g' & go & gt & EG & C1 & P1 & O1 & _); auto.
      { tauto. }
      rewrite EG. cbn [obind]. cbn [Z.to_nat]. rewrite for_0. cbn [obind firstn].
      change (Z.to_nat 0) with O. cbn [firstn]. change (recv_tables [] (m_et m)) with (Some (m_et m)). cbn [obind].
      destruct (run_cycle_public ZeroBlock
        (fun l0 v0 l1 v1 t g s => EvalGate aes rnd l0 v0 l1 v1 t (N.of_nat n) (N.of_nat g) s)
        fan0 false n p_init p_input einit (ein n) (m_e m) (m_et m, 0, m_dr m)) as (e' & eo & et & EE & C2 & P2 & O2 & _); auto.
      { tauto. }
      rewrite EE. cbn [obind]. cbn [Z.to_nat]. do 2 eexists. split; [reflexivity|].
      split; [constructor; cbn; auto|]. split; [right; cbn; auto|].
      split; [rewrite app_length; simpl; lia|].
      intros o Ho. apply in_app_or in Ho as [Ho|[<-|[]]]; [auto|]. cbn.
      split; [auto|]. split; [auto|]. unfold IsSecret.
      split; intros y Hy; [specialize (O1 y Hy)|specialize (O2 y Hy)]; destruct (Z.ltb_spec (snd y) 0); auto; lia. }
  destruct G as (m & os & A & _ & _ & B & C). eauto.
Qed.
End Public.
