(** One clock cycle: both parties follow the plaintext. *)
From Coq Require Import ZArith NArith List Bool Lia.
From Verif Require Import Base Gate Circuit Spec Fanout GateFacts GateSim Phase1 Phase2 Phase2E Prefix CycleModel.
Import ListNotations.
Open Scope Z_scope.

Lemma skipn_cons {A} n (l : list A) x r : skipn n l = x :: r -> skipn (n + 1) l = r.
Proof.
  revert l; induction n; intros l H; simpl in *.
  - subst; reflexivity.
  - destruct l; [discriminate|]. apply IHn; auto.
Qed.

(** * Table selection *)
Lemma select_spec fan tmp tabs k :
  (k <= length tmp)%nat ->
  (forall tb, In tb (firstn k tmp) -> (N.to_nat (gid tb) < length fan)%nat) ->
  (k <= length tabs)%nat ->
  let sent := sent_tables fan tmp k in
  for_ k (select_body fan tmp) (tabs, 0) =
    Some (sent ++ skipn (length sent) tabs, Z.of_nat (length sent)).
Proof.
  intros H1 H2 H3.
  destruct (for_inv (fun i st =>
     st = (sent_tables fan tmp i ++ skipn (length (sent_tables fan tmp i)) tabs,
           Z.of_nat (length (sent_tables fan tmp i)))) k (select_body fan tmp) (tabs, 0)) as (s & E & P).
  - reflexivity.
  - intros i s Hi ->. unfold select_body.
    destruct (nth_error tmp i) as [tb|] eqn:ET; [|apply nth_error_None in ET; lia].
    rewrite rd_nat, ET. cbn [obind].
    assert (FS : firstn (S i) tmp = firstn i tmp ++ [tb]).
    { clear - ET. revert i ET; induction tmp as [|a l IH]; intros [|i] ET; simpl in *; try discriminate.
      - inv ET; auto.
      - rewrite IH; auto. }
    assert (IN : In tb (firstn k tmp)).
    { apply nth_error_In with i. rewrite <- (firstn_skipn k tmp) in ET.
      rewrite nth_error_app1 in ET; auto. rewrite firstn_length. lia. }
    specialize (H2 tb IN).
    assert (rd fan (Z.of_N (gid tb)) = Some (fz fan (N.to_nat (gid tb)))) as ->.
    { rewrite rd_fz_Z by lia. do 2 f_equal. lia. }
    cbn [obind]. unfold sent_tables. rewrite FS, filter_app. cbn [filter].
    fold (sent_tables fan tmp i).
    assert (LS : (length (sent_tables fan tmp i) <= i)%nat).
    { unfold sent_tables. etransitivity; [apply filter_len_le|]. apply firstn_le_length. }
    destruct (0 <? fz fan (N.to_nat (gid tb))).
    + set (s := sent_tables fan tmp i) in *.
      destruct (wr_ok (s ++ skipn (length s) tabs) (Z.of_nat (length s)) tb) as [l' W].
      { rewrite app_length, skipn_length. lia. }
      rewrite W. cbn [obind]. eexists. split; [reflexivity|]. rewrite app_length. cbn [length].
      f_equal; [|lia].
      unfold wr in W. destruct (_ && _); [|discriminate]. injection W as <-. rewrite Nat2Z.id.
      destruct (skipn (length s) tabs) as [|x r] eqn:ES.
      { apply (f_equal (@length _)) in ES. rewrite skipn_length in ES. simpl in ES. lia. }
      assert (skipn (length s + 1) tabs = r) as ->
        by (eapply skipn_cons; eauto).
      clear. rewrite <- app_assoc. simpl. induction s; simpl; [auto|]. f_equal; auto.
    + rewrite app_nil_r. eexists. split; [reflexivity|]. reflexivity.
  - simpl. rewrite E, P. auto.
Qed.

(** The gates whose tables are sent. *)
Lemma sent_gids F gl tmp :
  (length gl <= length tmp)%nat ->
  (forall g, In g gl -> (N.of_nat g < 2 ^ 32)%N) ->
  (forall j g, nth_error gl j = Some g ->
     exists tb, nth_error tmp j = Some tb /\ gid tb = (N.of_nat g mod 2 ^ 32)%N) ->
  map gid (sent_tables F tmp (length gl)) = map N.of_nat (filter (used F) gl).
Proof.
  unfold sent_tables. revert tmp. induction gl as [|g gl IH]; intros tmp HL HB HG; [reflexivity|].
  destruct tmp as [|tb tmp]; [simpl in HL; lia|].
  destruct (HG 0%nat g eq_refl) as (tb' & E1 & E2). injection E1 as <-.
  rewrite N.mod_small in E2 by (apply HB; left; auto).
  cbn [length firstn filter]. unfold used at 1. rewrite E2, Nat2N.id.
  assert (IH' := IH tmp ltac:(simpl in HL; lia) ltac:(intros; apply HB; right; auto)
    ltac:(intros j g' Hj; apply (HG (S j) g' Hj))).
  destruct (0 <? fz F g); cbn [map]; rewrite ?IH', ?E2; auto.
Qed.

(** * Runs of cycles *)
Section World.
Variable c : GarbledCircuit.
Variable fan0 : list Z.
Variable aes : block -> block.
Variable R : block.
Variable rnd : nat -> block.
Variable reset : bool.
Variables p_init p_input : N.
Variable ginit : Z -> option BlockPair.
Variable gin : nat -> nat -> option BlockPair.
Variable einit : Z -> option block.
Variable ein : nat -> nat -> option block.

Notation gs := (garbledGates c).
Notation ns := (get_secret_input_size c).

(** The symbolic executor's cycle.  It sees the circuit and the public inputs
    only; every secret input bit is an atom. *)
Definition sinit (k : Z) : option slab := Some (atom (Z.to_nat k), false).
Definition sin (n i : nat) : option slab := Some (atom (n + i), false).
Definition sym_cycle (cid n : nat) (st : cstate slab) :=
  run_cycle zs c fan0 sym_gate true cid p_init p_input sinit (sin n) st ((n + ns)%nat, []).

(** State of both parties (and of the symbolic executor) between two cycles. *)
Record world := mkWorld {
  w_n : nat; w_s : cstate slab;
  w_g : cstate BlockPair; w_tmp : list GarbledTable; w_tabs : list GarbledTable;
  w_e : cstate block; w_et : list GarbledTable; w_dr : nat }.

(** One cycle of both parties, the garbler's tables being handed to the
    evaluator. *)
Definition world_step (cid : nat) (w : world) : option (world * cycle_out) :=
  do '(s', (n', _), _, _) <- sym_cycle cid (w_n w) (w_s w);
  do '(g', tmp', tabs', ind, gouts, gterm) <-
    GarbleCycle aes c fan0 R reset p_init p_input ginit (gin cid) cid (w_g w) (w_tmp w) (w_tabs w);
  let sent := firstn (Z.to_nat ind) tabs' in
  do et <- recv_tables sent (w_et w);
  do '(e', et', used, dr', eouts, eterm) <-
    EvaluateCycle aes c fan0 rnd p_init p_input einit (ein cid) cid (w_e w) et (w_dr w);
  Some (mkWorld n' s' g' tmp' tabs' e' (clear_tables (Z.to_nat used) et') dr',
        mkOut gouts gterm eouts eterm sent used).

(** ** Accidental collisions

    The two parties compare labels (64 bits of them) to discover that two wires
    are equal or opposite.  [prov] labels say which equalities are meant.  A
    cycle is collision free if, at every gate that is processed with two secret
    inputs of different provenance, neither party sees equal labels. *)
Definition cycle_gfree (cid : nat) (w : world) : Prop :=
  forall sl sv sll slv sf gl gv gll glv gf,
  cycle_prefix c fan0 true cid p_init p_input sinit (sin (w_n w)) (w_s w) = Some (sl, sv, sll, slv, sf) ->
  cycle_prefix c fan0 reset cid p_init p_input ginit (gin cid) (w_g w) = Some (gl, gv, gll, glv, gf) ->
  forall i ss gt, (i < length gs)%nat ->
  for_ i (sbody c) (sl, sv, sf, ((w_n w + ns)%nat, [])) = Some ss ->
  for_ i (gbody c aes R (N.of_nat cid)) (gl, gv, gf, (w_tmp w, 0)) = Some gt ->
  g_free c i ss gt.
Definition cycle_efree (cid : nat) (w : world) : Prop :=
  forall g' tmp' tabs' ind gouts gterm et sl sv sll slv sf el ev ell elv ef,
  GarbleCycle aes c fan0 R reset p_init p_input ginit (gin cid) cid (w_g w) (w_tmp w) (w_tabs w)
    = Some (g', tmp', tabs', ind, gouts, gterm) ->
  recv_tables (firstn (Z.to_nat ind) tabs') (w_et w) = Some et ->
  cycle_prefix c fan0 true cid p_init p_input sinit (sin (w_n w)) (w_s w) = Some (sl, sv, sll, slv, sf) ->
  cycle_prefix c fan0 false cid p_init p_input einit (ein cid) (w_e w) = Some (el, ev, ell, elv, ef) ->
  forall i ss es, (i < length gs)%nat ->
  for_ i (sbody c) (sl, sv, sf, ((w_n w + ns)%nat, [])) = Some ss ->
  for_ i (ebody c aes (N.of_nat cid) rnd) (el, ev, ef, (et, 0, w_dr w)) = Some es ->
  e_free c i ss es.

(** * The invariant *)
Hypothesis WF : well_formed c.
Hypothesis SZ : (N.of_nat (length gs) < 2 ^ 32)%N.
Hypothesis HR : get_LSB R = true.
Hypothesis F0len : length fan0 = length gs.
Hypothesis F0 : forall k, (k < length gs)%nat -> fz fan0 k = total_uses c k.
Variables g_init e_init g_input e_input : N.
Notation x := (mkInputs p_init g_init e_init p_input g_input e_input).
Variable V : nat -> Z -> bool.
Hypothesis CV : consistent c x V.

(** The bits carried by secret init and input positions. *)
Definition ibit (k : nat) : bool :=
  if (k <? g_init_size c)%nat then bit g_init k else bit e_init (k - g_init_size c).
Definition nbit (cy i : nat) : bool := input_value c x cy (p_input_size c + i).

(** The labels given to the parties for the secret inputs. *)
Definition label_ok (b : bool) (g : option BlockPair) (e : option block) : Prop :=
  exists a, g = Some (a, XorBlock a R) /\ e = Some (XorBlock a (mulb b R)).
Hypothesis LI : forall k, (k < get_secret_init_size c)%nat ->
  label_ok (ibit k) (ginit (Z.of_nat k)) (einit (Z.of_nat k)).
Hypothesis LN : forall cy i, (i < ns)%nat -> label_ok (nbit cy i) (gin cy i) (ein cy i).

(** One wire in the three worlds. *)
Definition wrel (base vals eb : nat -> N) (n : nat) (b : bool)
    (sl : slab) (sv : Z) (gl : BlockPair) (gv : Z) (el : block) (ev : Z) : Prop :=
  vok sv /\ gv = sv /\ relV sv ev /\ (IsSecret sv = false -> sv = b2z b) /\
  (IsSecret sv = true -> relX 1 vals n sl (b2N b) /\ relG R base n sl gl /\
     relX 0 eb n sl el /\ ev = evflag (snd sl) /\ el = XorBlock (fst gl) (mulb b R)).

Lemma wrel_mono base vals eb n b sl sv gl gv el ev base' vals' eb' n' :
  wrel base vals eb n b sl sv gl gv el ev -> (n <= n')%nat ->
  (forall a, (a < n)%nat -> base' a = base a /\ vals' a = vals a /\ eb' a = eb a) ->
  wrel base' vals' eb' n' b sl sv gl gv el ev.
Proof.
  intros (A & B & C & D & E) H HX. split; [auto|]. split; [auto|]. split; [auto|]. split; [auto|].
  intros S. destruct (E S) as (E1 & E2 & E3 & E4 & E5).
  split; [|split; [|split; [|split; auto]]].
  - eapply relX_mono; eauto. intros; apply HX; auto.
  - eapply relG_mono; eauto. intros; apply HX; auto.
  - eapply relX_mono; eauto. intros; apply HX; auto.
Qed.

Lemma wrel_atom base vals eb n k b p e :
  (k < n)%nat -> base k = fst p -> snd p = XorBlock (fst p) R -> vals k = b2N b -> eb k = e ->
  e = XorBlock (fst p) (mulb b R) ->
  wrel base vals eb n b (atom k, false) SECRET p SECRET e SECRET.
Proof.
  intros Hk Hb Hp Hv He HE. split; [left; auto|]. split; [auto|]. split; [apply relV_refl|].
  split; [discriminate|]. intros _.
  assert (G : forall r f v, f k = v -> relX r f n (atom k, false) v).
  { intros r f v <-. split; [apply below_atom; auto|]. cbn [fst snd mulb].
    rewrite xsum_atom by auto. symmetry; apply N.lxor_0_r. }
  split; [auto|]. split; [split; auto|]. split; [auto|]. split; auto.
Qed.

Lemma wrel_public base vals eb n b sl gl el :
  wrel base vals eb n b sl (b2z b) gl (b2z b) el (b2z b).
Proof.
  split; [apply vok_b2z|]. split; [auto|]. split; [apply relV_refl|]. split; [auto|].
  rewrite IsSecret_b2z; discriminate.
Qed.

Record CI (cid : nat) (w : world) (base vals eb : nat -> N) : Prop := {
  ci_s : cwf c (w_s w); ci_g : cwf c (w_g w); ci_e : cwf c (w_e w);
  ci_n : (get_secret_init_size c <= w_n w)%nat;
  ci_init : forall k, (k < get_secret_init_size c)%nat ->
    ginit (Z.of_nat k) = Some (base k, XorBlock (base k) R) /\
    einit (Z.of_nat k) = Some (eb k) /\ vals k = b2N (ibit k) /\
    eb k = XorBlock (base k) (mulb (ibit k) R);
  ci_low : forall u, u < first_input c -> rd (wires_val (w_s w)) u = rd (wires_val (w_g w)) u;
  ci_gin : forall i, (i < ns)%nat ->
    vz (wires_val (w_g w)) (first_input c + Z.of_nat (p_input_size c) + Z.of_nat i) = SECRET;
  ci_ein : forall i, (i < ns)%nat ->
    vz (wires_val (w_e w)) (first_input c + Z.of_nat (p_input_size c) + Z.of_nat i) = SECRET;
  ci_D : forall cid' i w', cid = S cid' -> nth_error (D c) i = Some w' -> 0 <= w' ->
    wrel base vals eb (w_n w) (V cid' w')
      (lz zs (wires (w_s w)) w') (vz (wires_val (w_s w)) w')
      (lz zg (wires (w_g w)) w') (vz (wires_val (w_g w)) w')
      (lz ze (wires (w_e w)) w') (vz (wires_val (w_e w)) w');
  ci_tmp : length (w_tmp w) = NumOfNonXor c;
  ci_tabs : length (w_tabs w) = NumOfNonXor c;
  ci_et : length (w_et w) = NumOfNonXor c;
  ci_junk : forall tb k, In tb (w_et w) -> (k < length gs)%nat -> gid tb <> N.of_nat k;
  ci_end : forall cid', cid = S cid' ->
    wires_val (w_g w) = wires_val (w_s w) /\
    fanout (w_g w) = fanout (w_s w) /\ fanout (w_e w) = fanout (w_s w) /\
    FI gs (get_gate_lo_index c) (length gs) (pub c (wires_val (w_s w))) (ext c) (fanout (w_s w)) (fun _ => 0) /\
    (forall k, 0 <= fz (fanout (w_s w)) k) /\
    forall u, first_input c <= u < wsz c ->
      okval (V cid') (wires_val (w_s w)) u /\ relV (vz (wires_val (w_s w)) u) (vz (wires_val (w_e w)) u) /\
      (valid c (length gs) (fanout (w_s w)) u ->
       wrel base vals eb (w_n w) (V cid' u)
        (lz zs (wires (w_s w)) u) (vz (wires_val (w_s w)) u)
        (lz zg (wires (w_g w)) u) (vz (wires_val (w_g w)) u)
        (lz ze (wires (w_e w)) u) (vz (wires_val (w_e w)) u)) }.

(** The state when the gates start. *)
Lemma prefix_rel cid w base vals eb :
  CI cid w base vals eb ->
  exists base' vals' eb' sl sv gl gv el ev sll slv gll glv ell elv fan,
    cycle_prefix c fan0 true cid p_init p_input sinit (sin (w_n w)) (w_s w) = Some (sl, sv, sll, slv, fan) /\
    cycle_prefix c fan0 reset cid p_init p_input ginit (gin cid) (w_g w) = Some (gl, sv, gll, glv, fan) /\
    cycle_prefix c fan0 false cid p_init p_input einit (ein cid) (w_e w) = Some (el, ev, ell, elv, fan) /\
    length sll = dff_size c /\ length slv = dff_size c /\ length gll = dff_size c /\
    length glv = dff_size c /\ length ell = dff_size c /\ length elv = dff_size c /\
    (forall a, (a < w_n w)%nat -> base' a = base a /\ vals' a = vals a /\ eb' a = eb a) /\
    gv = sv /\
    (forall tmp et dr, length tmp = NumOfNonXor c ->
       J c (V cid) R 0 (sl, sv, fan, ((w_n w + ns)%nat, [])) (gl, sv, fan, (tmp, 0)) base' vals' /\
       forall F, E c (V cid) R F et 0 (sl, sv, fan, ((w_n w + ns)%nat, [])) (gl, sv, fan, (tmp, 0))
          (el, ev, fan, (et, 0, dr)) eb') /\
    (forall i, (i < ns)%nat ->
       vz sv (first_input c + Z.of_nat (p_input_size c) + Z.of_nat i) = SECRET /\
       vz ev (first_input c + Z.of_nat (p_input_size c) + Z.of_nat i) = SECRET) /\
    (forall i, (i < ns)%nat -> exists p, gin cid i = Some p /\ base' (w_n w + i)%nat = fst p /\
       vals' (w_n w + i)%nat = b2N (nbit cid i) /\
       lz zs sl (first_input c + Z.of_nat (p_input_size c) + Z.of_nat i) = (atom (w_n w + i), false)).
Proof.
  intros HC. pose proof HC as [cs cg ce cn cinit clow cgin cein cD ctmp ctabs cet cjunk cend].
  pose proof (wsz_gate c) as WG. pose proof (first_order c) as FO.
  pose proof (first_input_nonneg c) as FN. pose proof (gate_eq c) as GE. pose proof (dff_eq c) as DE.
  set (n := w_n w) in *.
  destruct (prefix_ok zs c WF true cid p_init p_input sinit (sin n) (w_s w) cs) as
    (sl & sv3 & sll & slv & ES & s1 & s2 & s3 & s4 & sD & sP & sI & sU).
  { intros k _. eexists; reflexivity. }
  { intros i _. eexists; reflexivity. }
  destruct (prefix_ok zg c WF reset cid p_init p_input ginit (gin cid) (w_g w) cg) as
    (gl & gv3 & gll & glv & EG & g1 & g2 & g3 & g4 & gD & gP & gI & gU).
  { intros k Hk. destruct (LI (Z.to_nat k) ltac:(lia)) as (a & Q & _).
    rewrite Z2Nat.id in Q by lia. eauto. }
  { intros i Hi. destruct (LN cid i Hi) as (a & Q & _). eauto. }
  destruct (prefix_ok ze c WF false cid p_init p_input einit (ein cid) (w_e w) ce) as
    (el & ev3 & ell & elv & EE & e1 & e2 & e3 & e4 & eD & eP & eI & eU).
  { intros k Hk. destruct (LI (Z.to_nat k) ltac:(lia)) as (a & _ & Q).
    rewrite Z2Nat.id in Q by lia. eauto. }
  { intros i Hi. destruct (LN cid i Hi) as (a & _ & Q). eauto. }
  set (base' := fun a => if (a <? n)%nat then base a else
     match gin cid (a - n) with Some p => fst p | None => 0%N end).
  set (vals' := fun a => if (a <? n)%nat then vals a else b2N (nbit cid (a - n))).
  set (eb' := fun a => if (a <? n)%nat then eb a else
     match ein cid (a - n) with Some e => e | None => 0%N end).
  assert (EXT : forall a, (a < n)%nat -> base' a = base a /\ vals' a = vals a /\ eb' a = eb a).
  { intros a Ha. unfold base', vals', eb'. destruct (Nat.ltb_spec a n); [auto|lia]. }
  (* every non-gate wire is related *)
  assert (WR : forall u, first_input c <= u < first_gate c ->
    wrel base' vals' eb' (n + ns) (V cid u) (lz zs sl u) (vz sv3 u) (lz zg gl u) (vz gv3 u)
      (lz ze el u) (vz ev3 u)).
  { intros u Hu.
    destruct (Z_lt_le_dec u (first_dff c)) as [Hin|Hdff].
    - destruct (Z_lt_le_dec u (first_input c + Z.of_nat (p_input_size c))) as [Hp|Hs].
      + (* public input *)
        set (i := Z.to_nat (u - first_input c)).
        assert (u = first_input c + Z.of_nat i) by (unfold i; lia).
        assert (i < p_input_size c)%nat by (unfold i; lia).
        rewrite H. rewrite sP, gP, eP by auto.
        rewrite (cons_input _ _ _ CV) by lia.
        unfold input_value. destruct (Nat.ltb_spec i (p_input_size c)); [|lia].
        unfold BN_is_bit_set. destruct (Z.ltb_spec (Z.of_nat (cid * p_input_size c + i)) 0); [lia|].
        unfold bit. cbn [Spec.p_input].
        replace (Z.to_N (Z.of_nat (cid * p_input_size c + i))) with (N.of_nat (cid * p_input_size c + i)) by lia.
        apply wrel_public.
      + (* secret input *)
        set (i := Z.to_nat (u - first_input c - Z.of_nat (p_input_size c))).
        assert (Hu' : u = first_input c + Z.of_nat (p_input_size c) + Z.of_nat i) by (unfold i; lia).
        assert (Hi : (i < ns)%nat) by (unfold i; lia).
        destruct (sI i Hi) as [A1 A2]. destruct (gI i Hi) as [B1 B2]. destruct (eI i Hi) as [C1 C2].
        rewrite <- Hu' in *.
        assert (vz gv3 u = SECRET) as ->.
        { rewrite B2. destruct reset; auto. rewrite Hu'. apply cgin; auto. }
        assert (vz ev3 u = SECRET) as -> by (rewrite C2, Hu'; apply cein; auto).
        rewrite A2. unfold sin in A1. injection A1 as A1. rewrite <- A1.
        assert (V cid u = nbit cid i) as ->.
        { unfold nbit. rewrite <- (cons_input _ _ _ CV) by (unfold get_secret_input_size in Hi; lia).
          f_equal. rewrite Hu'. lia. }
        destruct (LN cid i Hi) as (a & Q1 & Q2).
        assert (lz zg gl u = (a, XorBlock a R)) as -> by congruence.
        assert (lz ze el u = XorBlock a (mulb (nbit cid i) R)) as -> by congruence.
        apply wrel_atom; cbn [fst snd]; auto; try lia.
        * unfold base'. destruct (Nat.ltb_spec (n + i) n); [lia|].
          replace (n + i - n)%nat with i by lia. rewrite Q1. auto.
        * unfold vals'. destruct (Nat.ltb_spec (n + i) n); [lia|].
          replace (n + i - n)%nat with i by lia. auto.
        * unfold eb'. destruct (Nat.ltb_spec (n + i) n); [lia|].
          replace (n + i - n)%nat with i by lia. rewrite Q2. auto.
    - (* register *)
      set (j := Z.to_nat (u - first_dff c)).
      assert (Hu' : u = first_dff c + Z.of_nat j) by (unfold j; lia).
      assert (Hj : (j < dff_size c)%nat) by (unfold j; lia).
      destruct (sD j Hj) as [A1 A2]. destruct (gD j Hj) as [B1 B2]. destruct (eD j Hj) as [C1 C2].
      rewrite <- Hu' in *. rewrite A1, B1, C1.
      destruct cid as [|cid'].
      + (* initial value *)
        unfold dvals, dlab in *.
        assert (NI : nth_error (I c) j = Some (nthz (I c) j)).
        { apply nth_error_nth'. rewrite (wf_I _ WF). exact Hj. }
        set (wi := nthz (I c) j) in *.
        assert (HVu : V 0%nat u = initial_value c x wi).
        { rewrite Hu'. apply (cons_dff0 _ _ _ CV); auto. }
        unfold init_val.
        destruct (Z.eqb_spec wi CONST_ZERO) as [Ew|N1].
        { replace (V 0%nat u) with false; [apply (wrel_public base' vals' eb' _ false)|].
          rewrite HVu, Ew. reflexivity. }
        destruct (Z.eqb_spec wi CONST_ONE) as [Ew|N2].
        { replace (V 0%nat u) with true; [apply (wrel_public base' vals' eb' _ true)|].
          rewrite HVu, Ew. reflexivity. }
        destruct ((0 <=? wi) && (wi <? Z.of_nat (get_init_size c))) eqn:ER.
        * apply andb_true_iff in ER as [R1 R2]. apply Z.leb_le in R1. apply Z.ltb_lt in R2.
          unfold get_init_size in R2.
          unfold get_p_init_hi_index in *.
          destruct (Z.ltb_spec wi (Z.of_nat (p_init_size c))) as [LP|GP].
          -- replace (V 0%nat u) with (BN_is_bit_set p_init wi); [apply wrel_public|].
             rewrite HVu. unfold initial_value, BN_is_bit_set, bit.
             destruct (Z.eqb_spec wi (-3)); [unfold CONST_ONE in N2; lia|].
             destruct (Z.ltb_spec wi 0); [lia|].
             destruct (Z.ltb_spec wi (Z.of_nat (p_init_size c))); [|lia].
             cbn [Spec.p_init]. f_equal. lia.
          -- assert (SI : is_sinit c wi = true).
             { unfold is_sinit, get_init_size. apply andb_true_iff; split; [apply Z.leb_le|apply Z.ltb_lt]; lia. }
             rewrite SI in A2, B2, C2.
             set (k := Z.to_nat (wi - Z.of_nat (p_init_size c))).
             assert (Hk : (k < get_secret_init_size c)%nat) by (unfold k, get_secret_init_size; lia).
             assert (wk : wi - Z.of_nat (p_init_size c) = Z.of_nat k) by (unfold k; lia).
             rewrite wk in A2, B2, C2.
             destruct (cinit k Hk) as (I1 & I2 & I3 & I4).
             specialize (A2 _ eq_refl). rewrite Nat2Z.id in A2. specialize (B2 _ I1). specialize (C2 _ I2).
             rewrite A2, B2, C2.
             destruct (EXT k ltac:(lia)) as (X1 & X2 & X3).
             assert (V 0%nat u = ibit k) as ->.
             { rewrite HVu. unfold initial_value, ibit.
               destruct (Z.eqb_spec wi (-3)); [lia|]. destruct (Z.ltb_spec wi 0); [lia|].
               destruct (Z.ltb_spec wi (Z.of_nat (p_init_size c))); [lia|].
               destruct (Nat.ltb_spec k (g_init_size c)) as [KG|KG].
               - destruct (Z.ltb_spec wi (Z.of_nat (p_init_size c) + Z.of_nat (g_init_size c))); [|lia].
                 cbn [Spec.g_init]. f_equal.
               - destruct (Z.ltb_spec wi (Z.of_nat (p_init_size c) + Z.of_nat (g_init_size c))); [lia|].
                 destruct (Z.ltb_spec wi (Z.of_nat (p_init_size c) + Z.of_nat (g_init_size c) + Z.of_nat (e_init_size c))); [|lia].
                 cbn [Spec.e_init]. f_equal. unfold k. lia. }
             apply wrel_atom; cbn [fst snd]; auto; try lia; congruence.
        * replace (V 0%nat u) with false; [apply (wrel_public base' vals' eb' _ false)|].
          rewrite HVu. unfold initial_value.
          destruct (Z.eqb_spec wi (-3)); [unfold CONST_ONE in N2; lia|].
          destruct (Z.ltb_spec wi 0); [auto|].
          unfold get_init_size in ER.
          destruct (Z.leb_spec 0 wi); [|lia]. cbn [andb] in ER. apply Z.ltb_ge in ER.
          destruct (Z.ltb_spec wi (Z.of_nat (p_init_size c))); [lia|].
          destruct (Z.ltb_spec wi (Z.of_nat (p_init_size c) + Z.of_nat (g_init_size c))); [lia|].
          destruct (Z.ltb_spec wi (Z.of_nat (p_init_size c) + Z.of_nat (g_init_size c) + Z.of_nat (e_init_size c))); [lia|auto].
      + (* latched *)
        unfold dvals, dlab in *.
        assert (ND : nth_error (D c) j = Some (nthz (D c) j)) by (apply nth_error_nth'; exact Hj).
        set (wi := nthz (D c) j) in *.
        assert (HVu : V (S cid') u = operand (V cid') wi).
        { rewrite Hu'. apply (cons_dffS _ _ _ CV); auto. }
        rewrite HVu.
        destruct (wf_D _ WF j wi ND) as [Wlt Wge].
        unfold latch_val.
        destruct (Z.eqb_spec wi CONST_ZERO) as [Ew|N1].
        { rewrite Ew. apply (wrel_public base' vals' eb' _ false). }
        destruct (Z.eqb_spec wi CONST_ONE) as [Ew|N2].
        { rewrite Ew. apply (wrel_public base' vals' eb' _ true). }
        assert (LW : last_wire c = wsz c) by (symmetry; apply wsz_last).
        destruct (Z_lt_le_dec wi 0) as [NG|PG].
        * replace ((0 <=? wi) && (wi <? wsz c)) with false.
          2:{ destruct (Z.leb_spec 0 wi); [lia|auto]. }
          replace (operand (V cid') wi) with false; [apply (wrel_public base' vals' eb' _ false)|].
          unfold operand. destruct (Z.eqb_spec wi (-3)); [unfold CONST_ONE in N2; lia|].
          destruct (Z.ltb_spec wi 0); [auto|lia].
        * replace ((0 <=? wi) && (wi <? wsz c)) with true in *.
          2:{ symmetry. apply andb_true_iff; split; [apply Z.leb_le|apply Z.ltb_lt]; lia. }
          rewrite (A2 _ eq_refl), (B2 _ eq_refl), (C2 _ eq_refl), operand_wireE by lia.
          eapply wrel_mono; [apply (cD cid' j wi eq_refl ND PG)|lia|auto]. }
  assert (HVg : forall i g, nth_error gs i = Some g ->
    V cid (first_gate c + Z.of_nat i) = GateOperator (type g) (operand (V cid) (input0 g)) (operand (V cid) (input1 g))).
  { intros i g Hg. destruct (wf_gate c WF i g Hg) as (_ & [f HT] & _).
    rewrite (cons_gate _ _ _ CV cid i g f Hg HT), (GateOperator_spec _ _ _ _ HT). auto. }
  assert (OKs : forall u, first_input c <= u < first_gate c -> okval (V cid) sv3 u).
  { intros u Hu. destruct (WR u Hu) as (Q1 & _ & _ & Q2 & _). split; auto. }
  destruct cs as (_ & _ & _ & _ & csf). destruct cg as (_ & _ & _ & _ & cgf). destruct ce as (_ & _ & _ & _ & cef).
  destruct (known_pass c WF (V cid) fan0 F0len F0 HVg sv3 gv3 (fanout (w_s w)) (fanout (w_g w)) s2 g2 csf cgf)
    as ([sv sf] & [gv gf] & KS & KG & K1).
  { intros u Hu. destruct (WR u Hu) as (_ & -> & _). apply relV_refl. }
  { auto. }
  destruct (known_pass c WF (V cid) fan0 F0len F0 HVg sv3 ev3 (fanout (w_s w)) (fanout (w_e w)) s2 e2 csf cef)
    as ([sv_ sf_] & [ev ef] & KS_ & KE & K2).
  { intros u Hu. destruct (WR u Hu) as (_ & _ & Q & _). auto. }
  { auto. }
  rewrite KS in KS_. injection KS_ as <- <-.
  destruct K1 as [k1 k2 k3 k4 krel_ keq kok kfan kpos kFI kPZ ku1 ku2]. cbn [fst snd] in *.
  destruct K2 as [j1 j2 j3 j4 jrel jeq jok jfan jpos jFI jPZ ju1 ju2]. cbn [fst snd] in *.
  pose proof (bias_first_gate c) as BG.
  assert (LEN : forall l1 l2 : list Z, length l1 = length gs -> length l2 = length gs ->
    (forall k, (k < length gs)%nat -> fz l1 k = fz l2 k) -> l1 = l2).
  { intros l1 l2 Q1 Q2 Q. apply nth_ext with 0 0; [congruence|]. intros k Hk. apply Q. lia. }
  assert (gf = sf) as -> by (apply LEN; auto; intros; symmetry; auto).
  assert (ef = sf) as -> by (apply LEN; auto; intros; symmetry; auto).
  assert (gv = sv) as ->.
  { apply nth_ext with 0 0; [lia|]. intros k Hk.
    change (fz gv k = fz sv k).
    assert (VZ : forall l : list Z, fz l k = vz l (Z.of_nat k)) by (intros; unfold vz; now rewrite Nat2Z.id).
    rewrite !VZ.
    destruct (Z_lt_le_dec (Z.of_nat k) (first_gate c)) as [LT|GE'].
    - rewrite !vz_lz. apply rd_eq_lz; [|lia]. rewrite ku1, ku2 by auto.
      destruct (Z_lt_le_dec (Z.of_nat k) (first_input c)) as [LI'|GI'].
      + rewrite sU, gU by auto. symmetry. apply clow. auto.
      + rewrite (rd_vz sv3), (rd_vz gv3) by lia. f_equal.
        destruct (WR (Z.of_nat k) ltac:(lia)) as (_ & Q & _). auto.
    - replace (Z.of_nat k) with (get_gate_lo_index c + Z.of_nat (k - Z.to_nat (first_gate c))) by lia.
      symmetry. apply keq. lia. }
  assert (SV3 : forall u, 0 <= u < first_gate c -> vz sv u = vz sv3 u).
  { intros u Hu. rewrite !vz_lz. apply rd_eq_lz; [|lia]. apply ku1. lia. }
  assert (EV3 : forall u, 0 <= u < first_gate c -> vz ev u = vz ev3 u).
  { intros u Hu. rewrite !vz_lz. apply rd_eq_lz; [|lia]. apply ju2. lia. }
  exists base', vals', eb', sl, sv, gl, sv, el, ev, sll, slv, gll, glv, ell, elv, sf.
  split; [rewrite ES, KS; reflexivity|]. split; [rewrite EG, KG; reflexivity|].
  split; [rewrite EE, KE; reflexivity|].
  do 6 (split; [assumption|]). split; [exact EXT|]. split; [reflexivity|].
  assert (RELV : forall u, first_input c <= u < wsz c -> relV (vz sv u) (vz ev u)).
  { intros u Hu. destruct (Z_lt_le_dec u (first_gate c)) as [LT|GE']; [apply jrel; lia|].
    replace u with (get_gate_lo_index c + Z.of_nat (Z.to_nat (u - first_gate c))) by lia.
    rewrite jeq by lia. apply relV_refl. }
  split.
  - intros tmp et dr Ltmp. split.
    + split; unfold st_wl, st_wv, st_fan, st_s; cbn [fst snd]; auto; try lia.
      * intros u Hu. apply kok. lia.
      * intros k. destruct (Nat.lt_ge_cases k (length gs)) as [LT|GE']; [auto|].
        unfold fz. rewrite nth_overflow by lia. lia.
      * intros u [Hu|(k & Hk & _)] HS; [|lia].
        rewrite SV3 in HS by lia. destruct (WR u Hu) as (_ & _ & _ & _ & Q).
        destruct (Q HS) as (Q1 & Q2 & _). auto.
      * intros [|j] g Hg; discriminate.
    + intros F. split; unfold st_wl, st_wv, st_fan, st_s; cbn [fst snd]; auto.
      * intros u [Hu|(k & Hk & _)] HS; [|lia].
        rewrite SV3 in HS by lia. rewrite EV3 by lia. destruct (WR u Hu) as (_ & _ & _ & _ & Q).
        destruct (Q HS) as (_ & _ & Q1 & Q2 & _). auto.
      * intros u [Hu|(k & Hk & _)] HS; [|lia].
        rewrite SV3 in HS by lia. destruct (WR u Hu) as (_ & _ & _ & _ & Q).
        destruct (Q HS) as (_ & _ & _ & _ & Q1). auto.
  - split.
    + intros i Hi. rewrite SV3, EV3 by lia. split.
      * destruct (sI i Hi) as [_ Q]. auto.
      * destruct (eI i Hi) as [_ Q]. rewrite Q. apply cein; auto.
    + intros i Hi. destruct (LN cid i Hi) as (a & Q1 & _). destruct (sI i Hi) as [A1 _].
      eexists. split; [exact Q1|]. unfold base', vals'.
      destruct (Nat.ltb_spec (n + i) n); [lia|]. replace (n + i - n)%nat with i by lia. rewrite Q1.
      split; [reflexivity|]. split; [reflexivity|]. unfold sin in A1. injection A1 as A1. symmetry. exact A1.
Qed.

Lemma mapM_read {L} (d : L) wl wv l :
  Z.of_nat (length wl) = wsz c -> Z.of_nat (length wv) = wsz c ->
  (forall u, In u l -> 0 <= u < wsz c) ->
  mapM (read_wire wl wv) l = Some (map (fun u => (lz d wl u, vz wv u)) l).
Proof.
  intros H1 H2. induction l as [|u l IH]; intros H; [reflexivity|].
  cbn [mapM map]. unfold read_wire at 1.
  pose proof (H u (or_introl eq_refl)).
  rewrite (rd_lz d wl), (rd_vz wv) by lia. cbn [obind].
  rewrite IH by (intros; apply H; right; auto). reflexivity.
Qed.

(** What both parties hold for a wire that carries bit [b]. *)
Definition out_rel (b : bool) (g : BlockPair * Z) (e : block * Z) : Prop :=
  (snd g = b2z b /\ snd e = b2z b) \/
  (snd g = SECRET /\ IsSecret (snd e) = true /\
   snd (fst g) = XorBlock (fst (fst g)) R /\ fst e = XorBlock (fst (fst g)) (mulb b R)).

Lemma wrel_out base vals eb n b sl sv gl gv el ev :
  wrel base vals eb n b sl sv gl gv el ev -> out_rel b (gl, gv) (el, ev).
Proof.
  intros (A & -> & (C1 & C2) & D & E). unfold out_rel. cbn [fst snd].
  destruct (IsSecret sv) eqn:S.
  - right. destruct (E eq_refl) as (_ & [_ E2] & _ & E4 & E5).
    split; [apply vok_secret; auto|]. split; [congruence|]. auto.
  - left. rewrite C2, D by auto. auto.
Qed.

Lemma term_read {L} (d : L) wl wv :
  Z.of_nat (length wl) = wsz c -> Z.of_nat (length wv) = wsz c ->
  (if terminate_id c >? 0
   then do lv' <- read_wire wl wv (terminate_id c); Some (Some lv')
   else Some None) =
  Some (if terminate_id c >? 0 then Some (lz d wl (terminate_id c), vz wv (terminate_id c)) else None).
Proof.
  intros H1 H2. pose proof (Zgt_cases (terminate_id c) 0). destruct (terminate_id c >? 0); [|auto].
  assert (0 <= terminate_id c < wsz c).
  { pose proof (first_input_nonneg c). pose proof (wsz_last c). destruct (wf_term _ WF); lia. }
  unfold read_wire. rewrite (rd_lz d wl), (rd_vz wv) by lia. reflexivity.
Qed.

Theorem cycle_step cid w base vals eb :
  CI cid w base vals eb -> cycle_gfree cid w -> cycle_efree cid w ->
  exists w' o base' vals' eb',
    world_step cid w = Some (w', o) /\ CI (S cid) w' base' vals' eb' /\
    o_used o = Z.of_nat (length (o_sent o)) /\ (length (o_sent o) <= NumOfNonXor c)%nat /\
    length (o_gouts o) = output_size c /\ length (o_eouts o) = output_size c /\
    (forall i u, nth_error (outputs c) i = Some u ->
       exists g e, nth_error (o_gouts o) i = Some g /\ nth_error (o_eouts o) i = Some e /\
         out_rel (V cid u) g e) /\
    (if terminate_id c >? 0 then exists g e, o_gterm o = Some g /\ o_eterm o = Some e /\
         out_rel (V cid (terminate_id c)) g e
     else o_gterm o = None /\ o_eterm o = None) /\
    (* which gates are sent and which values are public is decided by the
       symbolic run, which does not see the secret inputs *)
    (exists gl souts sterm,
       sym_cycle cid (w_n w) (w_s w) = Some (w_s w', (w_n w', gl), souts, sterm) /\
       map gid (o_sent o) = map N.of_nat (filter (used (fanout (w_s w'))) gl) /\
       map snd (o_gouts o) = map snd souts /\
       option_map snd (o_gterm o) = option_map snd sterm).
Proof.
  intros HC GF EF.
  destruct (prefix_rel cid w base vals eb HC) as
    (base1 & vals1 & eb1 & sl & sv & gl & gv & el & ev & sll & slv & gll & glv & ell & elv & fan &
     PS & PG & PE & q1 & q2 & q3 & q4 & q5 & q6 & EXT & _ & JE & SIN & _).
  destruct HC as [cs cg ce cn cinit clow cgin cein cD ctmp ctabs cet cjunk cend].
  pose proof (wsz_gate c) as WG. pose proof (first_order c) as FO. pose proof (wsz_last c) as WLs.
  pose proof (first_input_nonneg c) as FN. pose proof (bias_first_gate c) as BG.
  pose proof (dff_eq c) as DE. pose proof (gate_eq c) as GE.
  assert (HVg : forall i g, nth_error gs i = Some g ->
    V cid (first_gate c + Z.of_nat i) = GateOperator (type g) (operand (V cid) (input0 g)) (operand (V cid) (input1 g))).
  { intros i g Hg. destruct (wf_gate c WF i g Hg) as (_ & [f HT] & _).
    rewrite (cons_gate _ _ _ CV cid i g f Hg HT), (GateOperator_spec _ _ _ _ HT). auto. }
  set (ss0 := (sl, sv, fan, ((w_n w + ns)%nat, [])) : sstate) in *.
  set (gt0 := (gl, sv, fan, (w_tmp w, 0)) : gstate) in *.
  assert (HJ0 : J c (V cid) R 0 ss0 gt0 base1 vals1).
  { apply (JE (w_tmp w) [] 0%nat ctmp). }
  assert (GF' : forall i ss gt, (i < length gs)%nat ->
    for_ i (sbody c) ss0 = Some ss -> for_ i (gbody c aes R (N.of_nat cid)) gt0 = Some gt -> g_free c i ss gt).
  { intros i ss gt. apply (GF _ _ _ _ _ _ _ _ _ _ PS PG). }
  destruct (pass_g c WF SZ (V cid) HVg aes R HR (N.of_nat cid) ss0 gt0 base1 vals1 HJ0 eq_refl GF' (length gs) (le_n _))
    as (ssn & gtn & basen & valsn & SN & GN & HJn & HNn & HBn & GLB & _).
  set (F := st_fan ssn).
  set (k := length (snd (st_s ssn))).
  set (sent := sent_tables F (fst (st_s gtn)) k).
  (* table selection *)
  assert (LTMP : length (fst (st_s gtn)) = NumOfNonXor c) by apply (j_tl _ _ _ _ _ _ _ _ HJn).
  assert (KLE : (k <= NumOfNonXor c)%nat).
  { unfold k. rewrite <- nnx_total. apply (j_cnt _ _ _ _ _ _ _ _ HJn). }
  assert (GIDS : forall tb, In tb (firstn k (fst (st_s gtn))) -> (N.to_nat (gid tb) < length F)%nat).
  { intros tb Htb. apply In_nth_error in Htb as [j Hj].
    assert (Hjk : (j < k)%nat).
    { assert (j < length (firstn k (fst (st_s gtn))))%nat by (apply nth_error_Some; congruence).
      rewrite firstn_length in H. lia. }
    destruct (nth_error (snd (st_s ssn)) j) as [g|] eqn:EG; [|apply nth_error_None in EG; unfold k in Hjk; lia].
    destruct (j_gid _ _ _ _ _ _ _ _ HJn j g EG) as (tb' & E1 & E2).
    assert (nth_error (firstn k (fst (st_s gtn))) j = nth_error (fst (st_s gtn)) j).
    { rewrite <- (firstn_skipn k (fst (st_s gtn))) at 2. rewrite nth_error_app1; auto.
      rewrite firstn_length. lia. }
    assert (tb' = tb) by congruence. subst tb'.
    assert (g < length gs)%nat by (apply GLB; eapply nth_error_In; eauto).
    unfold F. rewrite (j_fan _ _ _ _ _ _ _ _ HJn), E2, N.mod_small by lia. lia. }
  pose proof (select_spec F (fst (st_s gtn)) (w_tabs w) k ltac:(lia) GIDS ltac:(lia)) as SEL.
  fold sent in SEL. cbv zeta in SEL.
  assert (LSENT : (length sent <= k)%nat).
  { unfold sent, sent_tables. etransitivity; [apply filter_len_le|apply firstn_le_length]. }
  set (tabs' := sent ++ skipn (length sent) (w_tabs w)) in *.
  (* garbler's cycle *)
  destruct ssn as [[[sln svn] fann] [nn gln]] eqn:Essn.
  destruct gtn as [[[gln' gvn] gfn'] [tmpn indn]] eqn:Egtn.
  unfold st_wl, st_wv, st_fan, st_s in *. cbn [fst snd] in *.
  pose proof (j_gv _ _ _ _ _ _ _ _ HJn) as GVN. pose proof (j_gf _ _ _ _ _ _ _ _ HJn) as GFN.
  pose proof (j_ind _ _ _ _ _ _ _ _ HJn) as INDN.
  pose proof (j_sl _ _ _ _ _ _ _ _ HJn) as SLN. pose proof (j_sv _ _ _ _ _ _ _ _ HJn) as SVN.
  pose proof (j_gl _ _ _ _ _ _ _ _ HJn) as GLN. pose proof (j_fan _ _ _ _ _ _ _ _ HJn) as FANN.
  pose proof (j_ok _ _ _ _ _ _ _ _ HJn) as OKN. pose proof (j_FI _ _ _ _ _ _ _ _ HJn) as FIN.
  pose proof (j_rel _ _ _ _ _ _ _ _ HJn) as RELN.
  unfold st_wl, st_wv, st_fan, st_s in GVN, GFN, INDN, SLN, SVN, GLN, FANN, OKN, FIN, RELN.
  cbn [fst snd] in GVN, GFN, INDN, SLN, SVN, GLN, FANN, OKN, FIN, RELN.
  subst gvn gfn'.
  assert (OUTR : forall u, In u (outputs c) -> 0 <= u < wsz c).
  { intros u Hu. apply In_nth_error in Hu as [j Hj]. pose proof (wf_out _ WF j u Hj). lia. }
  assert (SYM : sym_cycle cid (w_n w) (w_s w) = Some
    (mkC sln svn sll slv fann, (nn, gln), map (fun u => (lz zs sln u, vz svn u)) (outputs c),
     if terminate_id c >? 0 then Some (lz zs sln (terminate_id c), vz svn (terminate_id c)) else None)).
  { unfold sym_cycle, run_cycle. rewrite PS. cbn [obind].
    change (secret_body zs c sym_gate) with (sbody c). unfold gate_size.
    unfold ss0 in SN. rewrite SN. cbn [obind].
    rewrite (mapM_read zs) by auto. cbn [obind]. rewrite (term_read zs) by auto. reflexivity. }
  set (gouts := map (fun u => (lz zg gln' u, vz svn u)) (outputs c)).
  set (gterm := if terminate_id c >? 0 then Some (lz zg gln' (terminate_id c), vz svn (terminate_id c)) else None).
  assert (GAR : GarbleCycle aes c fan0 R reset p_init p_input ginit (gin cid) cid (w_g w) (w_tmp w) (w_tabs w) =
    Some (mkC gln' svn gll glv fann, tmpn, tabs', Z.of_nat (length sent), gouts, gterm)).
  { unfold GarbleCycle, run_cycle. rewrite PG. cbn [obind].
    change (secret_body zeroPair c (fun l0 v0 l1 v1 t g s => GarbleGate aes l0 v0 l1 v1 t (N.of_nat cid) (N.of_nat g) R s))
      with (gbody c aes R (N.of_nat cid)). unfold gate_size.
    unfold gt0 in GN. rewrite GN. cbn [obind].
    rewrite (mapM_read zg) by auto. cbn [obind]. rewrite (term_read zg) by auto. cbn [obind fanout].
    rewrite INDN, Nat2Z.id. fold k. fold F. rewrite SEL. reflexivity. }
  assert (FST : firstn (Z.to_nat (Z.of_nat (length sent))) tabs' = sent).
  { rewrite Nat2Z.id. unfold tabs'. rewrite firstn_app, Nat.sub_diag, firstn_all, firstn_O, app_nil_r. auto. }
  set (junk := skipn (length sent) (w_et w)).
  assert (RCV : recv_tables sent (w_et w) = Some (sent ++ junk)).
  { unfold recv_tables. destruct (Nat.leb_spec (length sent) (length (w_et w))); [auto|lia]. }
  assert (LET : length (sent ++ junk) = NumOfNonXor c).
  { unfold junk. rewrite app_length, skipn_length. lia. }
  assert (JUNK : forall tb m, In tb junk -> (m < length gs)%nat -> gid tb <> N.of_nat m).
  { intros tb m Hin. apply cjunk. unfold junk in Hin.
    rewrite <- (firstn_skipn (length sent) (w_et w)). apply in_or_app. right; auto. }
  set (es0 := (el, ev, fan, (sent ++ junk, 0, w_dr w)) : estate).
  assert (EF' : forall i ss es, (i < length gs)%nat ->
    for_ i (sbody c) ss0 = Some ss -> for_ i (ebody c aes (N.of_nat cid) rnd) es0 = Some es -> e_free c i ss es).
  { intros i ss es. eapply (EF _ _ _ _ _ _ _ _ _ _ _ _ _ _ _ _ _ GAR); [|exact PS|exact PE].
    rewrite FST. exact RCV. }
  destruct (pass_e c WF SZ (V cid) HVg aes R HR (N.of_nat cid) rnd ss0 gt0 base1 vals1 es0 eb1 junk HJ0 eq_refl
    GF' EF' _ _ SN GN) as (esn & ebn & EN & HEn & LEN & EBX).
  { exact LET. }
  { exact JUNK. }
  { apply (JE (w_tmp w) (sent ++ junk) (w_dr w) ctmp). }
  unfold st_wl, st_wv, st_fan, st_s in LEN, HEn. cbn [fst snd] in LEN, HEn.
  fold F in LEN, HEn. fold k in LEN, HEn. fold sent in LEN, HEn.
  destruct HEn as [eL eV eF eRV eREL eGOOD eTABS eIND].
  destruct (secret_frame_loop ze c (efn aes (N.of_nat cid) rnd) WF 0 (length gs) es0 es0 esn) as (_ & _ & _ & _ & FRE & _);
    auto; [lia|unfold es0, st_fan; cbn [fst snd]; apply (j_fan _ _ _ _ _ _ _ _ HJ0)|].
  destruct (secret_frame_loop zs c sym_gate WF 0 (length gs) ss0 ss0 (sln, svn, fann, (nn, gln))) as (_ & _ & _ & _ & FRS & _);
    auto; [lia|unfold ss0, st_fan; cbn [fst snd]; apply (j_fan _ _ _ _ _ _ _ _ HJ0)|].
  destruct esn as [[[eln evn] efn'] [[etn usedn] drn]] eqn:Eesn.
  unfold es0, ss0 in FRE, FRS.
  unfold st_wl, st_wv, st_fan, st_s in eL, eV, eF, eRV, eREL, eGOOD, eTABS, eIND, FRE, FRS.
  cbn [fst snd] in eL, eV, eF, eRV, eREL, eGOOD, eTABS, eIND, FRE, FRS.
  fold F in eF. subst efn' etn. rewrite <- LEN in eIND.
  set (eouts := map (fun u => (lz ze eln u, vz evn u)) (outputs c)).
  set (eterm := if terminate_id c >? 0 then Some (lz ze eln (terminate_id c), vz evn (terminate_id c)) else None).
  assert (EVA : EvaluateCycle aes c fan0 rnd p_init p_input einit (ein cid) cid (w_e w) (sent ++ junk) (w_dr w) =
    Some (mkC eln evn ell elv F, sent ++ junk, Z.of_nat (length sent), drn, eouts, eterm)).
  { unfold EvaluateCycle, run_cycle. rewrite PE. cbn [obind].
    change (secret_body ZeroBlock c (fun l0 v0 l1 v1 t g s => EvalGate aes rnd l0 v0 l1 v1 t (N.of_nat cid) (N.of_nat g) s))
      with (ebody c aes (N.of_nat cid) rnd). unfold gate_size.
    unfold es0 in EN. rewrite EN. cbn [obind].
    rewrite (mapM_read ze) by auto. cbn [obind]. rewrite (term_read ze) by auto. cbn [obind].
    rewrite eIND. reflexivity. }
  (* wires that are read at the end of the cycle *)
  assert (FINALV : forall u, first_input c <= u < wsz c -> valid c (length gs) F u ->
    wrel basen valsn ebn nn (V cid u) (lz zs sln u) (vz svn u) (lz zg gln' u) (vz svn u) (lz ze eln u) (vz evn u)).
  { intros u Hu VU. destruct (OKN u Hu) as [O1 O2].
    split; [auto|]. split; [auto|]. split; [apply eRV; auto|]. split; [auto|].
    intros HS.
    destruct (RELN u VU HS) as [Q1 Q2]. destruct (eREL u VU HS) as [Q3 Q4].
    pose proof (eGOOD u VU HS). auto. }
  assert (FINAL : forall u, first_input c <= u < wsz c ->
    (first_gate c <= u -> 1 <= ext_uses c (Z.to_nat (u - first_gate c))) ->
    wrel basen valsn ebn nn (V cid u) (lz zs sln u) (vz svn u) (lz zg gln' u) (vz svn u) (lz ze eln u) (vz evn u)).
  { intros u Hu HX. destruct (OKN u Hu) as [O1 O2].
    split; [auto|]. split; [auto|]. split; [apply eRV; auto|]. split; [auto|].
    intros HS.
    assert (VU : valid c (length gs) F u).
    { destruct (Z_lt_le_dec u (first_gate c)) as [LT|GE']; [left; lia|right].
      exists (Z.to_nat (u - first_gate c)). split; [lia|]. split; [lia|].
      set (m := Z.to_nat (u - first_gate c)) in *. specialize (HX GE').
      assert (P : pub c svn m = false).
      { unfold pub. replace (get_gate_lo_index c + Z.of_nat m) with u by (unfold m; lia). rewrite HS. auto. }
      specialize (FIN m ltac:(lia) P). cbv beta in FIN. unfold ext in FIN.
      assert (0 <= live_uses gs (length gs) fann (get_gate_lo_index c + Z.of_nat m)).
      { unfold live_uses. apply sumf_nonneg. intros j _. destruct (live _ _ _); [apply juse_nonneg|lia]. }
      unfold F. lia. }
    destruct (RELN u VU HS) as [Q1 Q2]. destruct (eREL u VU HS) as [Q3 Q4].
    pose proof (eGOOD u VU HS). auto. }
  assert (FREF : forall u (l : list Z), first_gate c <= u ->
     count_ref l (get_gate_lo_index c + Z.of_nat (Z.to_nat (u - first_gate c))) = count_ref l u).
  { intros u l Hu. f_equal. lia. }
  assert (FOUT : forall u, In u (outputs c) -> first_gate c <= u -> 1 <= ext_uses c (Z.to_nat (u - first_gate c))).
  { intros u Hu HG. apply In_nth_error in Hu as [j Hj]. unfold ext_uses. rewrite !FREF by auto.
    pose proof (count_ref_in _ _ _ Hj). pose proof (count_ref_nonneg (D c) u).
    destruct (terminate_id c >? 0); [pose proof (is_ref_nonneg (terminate_id c) (get_gate_lo_index c + Z.of_nat (Z.to_nat (u - first_gate c))))|]; lia. }
  assert (FD : forall u, In u (D c) -> first_gate c <= u -> 1 <= ext_uses c (Z.to_nat (u - first_gate c))).
  { intros u Hu HG. apply In_nth_error in Hu as [j Hj]. unfold ext_uses. rewrite !FREF by auto.
    pose proof (count_ref_in _ _ _ Hj). pose proof (count_ref_nonneg (outputs c) u).
    destruct (terminate_id c >? 0); [pose proof (is_ref_nonneg (terminate_id c) (get_gate_lo_index c + Z.of_nat (Z.to_nat (u - first_gate c))))|]; lia. }
  assert (SVL : forall u, u < first_gate c -> vz svn u = vz sv u /\ vz evn u = vz ev u \/ u < 0).
  { intros u Hu. destruct (Z_lt_le_dec u 0); [right; lia|left].
    rewrite !vz_lz. split; apply rd_eq_lz; auto; [apply FRS|apply FRE]; lia. }
  unfold ss0, st_s in HNn, HBn, EBX. cbn [fst snd] in HNn, HBn, EBX.
  exists (mkWorld nn (mkC sln svn sll slv fann) (mkC gln' svn gll glv fann) tmpn tabs'
            (mkC eln evn ell elv F) (clear_tables (Z.to_nat (Z.of_nat (length sent))) (sent ++ junk)) drn).
  exists (mkOut gouts gterm eouts eterm sent (Z.of_nat (length sent))), basen, valsn, ebn.
  cbn [w_n w_s w_g w_tmp w_tabs w_e w_et w_dr o_gouts o_gterm o_eouts o_eterm o_sent o_used fanout].
  split.
  { unfold world_step. rewrite SYM. cbn [obind]. rewrite GAR. cbn [obind]. rewrite FST, RCV.
    cbn [obind]. rewrite EVA. reflexivity. }
  split.
  { constructor; cbn [w_n w_s w_g w_tmp w_tabs w_e w_et w_dr wires wires_val dff_latch dff_latch_val fanout].
    - unfold cwf; cbn [wires wires_val dff_latch dff_latch_val fanout]. auto.
    - unfold cwf; cbn [wires wires_val dff_latch dff_latch_val fanout]. auto.
    - unfold cwf; cbn [wires wires_val dff_latch dff_latch_val fanout]. auto.
    - lia.
    - intros k' Hk. destruct (cinit k' Hk) as (I1 & I2 & I3 & I4).
      destruct (EXT k' ltac:(lia)) as (X1 & X2 & X3).
      destruct (HBn k' ltac:(lia)) as (Y1 & Y2). rewrite (EBX k' ltac:(lia)).
      rewrite Y1, Y2, X1, X2, X3. auto.
    - auto.
    - intros i Hi. destruct (SIN i Hi) as [Z1 Z2].
      destruct (SVL (first_input c + Z.of_nat (p_input_size c) + Z.of_nat i) ltac:(lia)) as [[W1 W2]|]; [|lia].
      congruence.
    - intros i Hi. destruct (SIN i Hi) as [Z1 Z2].
      destruct (SVL (first_input c + Z.of_nat (p_input_size c) + Z.of_nat i) ltac:(lia)) as [[W1 W2]|]; [|lia].
      congruence.
    - intros cid' i w' Hc Hw Hp. injection Hc as <-.
      pose proof (wf_D _ WF i w' Hw) as [D1 D2].
      apply FINAL; [lia|]. intros. apply FD; auto. eapply nth_error_In; eauto.
    - auto.
    - unfold tabs'. rewrite app_length, skipn_length. lia.
    - unfold clear_tables. rewrite app_length, map_length, firstn_length, skipn_length. lia.
    - intros tb m Hin Hm. unfold clear_tables in Hin. rewrite Nat2Z.id in Hin.
      apply in_app_or in Hin as [Hin|Hin].
      + apply in_map_iff in Hin as (tb' & <- & _). cbn [gid clear_gid].
        assert (N.of_nat m < 2 ^ 32 - 1)%N by lia. lia.
      + apply JUNK; auto. rewrite skipn_app, skipn_all, Nat.sub_diag in Hin. exact Hin.
    - intros cid' Hc. injection Hc as <-.
      split; [auto|]. split; [auto|]. split; [auto|]. split; [auto|].
      split; [intros; apply (j_pos _ _ _ _ _ _ _ _ HJn)|].
      intros u Hu. split; [apply OKN; auto|]. split; [apply eRV; auto|]. intros HVu. apply FINALV; auto. }
  split; [auto|]. split; [lia|].
  split; [unfold gouts; apply map_length|]. split; [unfold eouts; apply map_length|].
  split.
  { intros i u Hu. exists (lz zg gln' u, vz svn u), (lz ze eln u, vz evn u).
    pose proof (nth_error_In _ _ Hu) as Hin. pose proof (wf_out _ WF i u Hu).
    split; [unfold gouts; apply (map_nth_error (fun u => (lz zg gln' u, vz svn u)) i _ Hu)|].
    split; [unfold eouts; apply (map_nth_error (fun u => (lz ze eln u, vz evn u)) i _ Hu)|].
    eapply wrel_out. apply FINAL; [lia|]. apply FOUT; auto. }
  split.
  { unfold gterm, eterm. pose proof (Zgt_cases (terminate_id c) 0) as TC.
    destruct (terminate_id c >? 0); [|auto].
    eexists _, _. split; [reflexivity|]. split; [reflexivity|].
    eapply wrel_out. destruct (wf_term _ WF) as [|TB]; [lia|].
    apply FINAL; [lia|]. intros HG. unfold ext_uses.
    pose proof (count_ref_nonneg (D c) (get_gate_lo_index c + Z.of_nat (Z.to_nat (terminate_id c - first_gate c)))).
    pose proof (count_ref_nonneg (outputs c) (get_gate_lo_index c + Z.of_nat (Z.to_nat (terminate_id c - first_gate c)))).
    pose proof (Zgt_cases (terminate_id c) 0). destruct (terminate_id c >? 0); [|lia].
    replace (get_gate_lo_index c + Z.of_nat (Z.to_nat (terminate_id c - first_gate c))) with (terminate_id c) in * by lia.
    rewrite is_ref_same. lia. }
  exists gln, (map (fun u => (lz zs sln u, vz svn u)) (outputs c)),
    (if terminate_id c >? 0 then Some (lz zs sln (terminate_id c), vz svn (terminate_id c)) else None).
  split; [exact SYM|]. split.
  { unfold sent, k. apply sent_gids; auto; [lia| |].
    - intros g Hg. specialize (GLB g Hg). lia.
    - intros j g Hj. apply (j_gid _ _ _ _ _ _ _ _ HJn j g Hj). }
  split.
  { unfold gouts. rewrite !map_map. reflexivity. }
  unfold gterm. destruct (terminate_id c >? 0); reflexivity.
Qed.
End World.
