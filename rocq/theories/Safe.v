(** Memory safety of garbling and evaluation, without any assumption on labels,
    table contents, gate types or gate order. *)
From Coq Require Import ZArith NArith List Bool Lia.
From Verif Require Import Base Gate Circuit Spec Fanout Phase1 Phase2 Prefix CycleModel.
Import ListNotations.
Open Scope Z_scope.

(** Wire references that the code uses without checking them. *)
Record refs_in_range (c : GarbledCircuit) : Prop := {
  rr_gate : forall i g, nth_error (garbledGates c) i = Some g -> 0 <= output g < wsz c;
  rr_D : forall i w, nth_error (D c) i = Some w -> w < wsz c;
  rr_I : length (I c) = length (D c);
  rr_out : forall i w, nth_error (outputs c) i = Some w -> 0 <= w < wsz c;
  rr_term : 0 < terminate_id c -> terminate_id c < wsz c }.

Section Safe.
Variable c : GarbledCircuit.
Hypothesis RR : refs_in_range c.
Notation gs := (garbledGates c).

Lemma wsz_eq : wsz c = get_dff_lo_index c + Z.of_nat (dff_size c) + Z.of_nat (gate_size c).
Proof. unfold wsz, get_wire_size, get_dff_lo_index. lia. Qed.
Lemma dff_ge : get_dff_lo_index c = Z.of_nat (get_init_size c) + Z.of_nat (get_input_size c).
Proof. unfold get_dff_lo_index. lia. Qed.

Lemma ReduceFanout_total fan w : length fan = length gs ->
  exists fan', ReduceFanout c fan w = Some fan' /\ length fan' = length gs.
Proof.
  intros HL. unfold ReduceFanout.
  destruct (reduce_total gs (get_gate_lo_index c) (S (Z.to_nat (posum fan))) fan w HL) as (fan' & E & L & _);
    [lia|]. exists fan'. split; [auto|congruence].
Qed.

Lemma drop_uses_total g i v0 v1 fan : length fan = length gs -> (i < length gs)%nat ->
  exists fan', drop_uses c g i v0 v1 fan = Some fan' /\ length fan' = length gs.
Proof.
  intros HL Hi. unfold drop_uses.
  destruct (wr_ok fan (Z.of_nat i) 0) as [f1 W]; [lia|]. rewrite W. cbn [obind].
  assert (L1 : length f1 = length gs) by (rewrite (wr_length _ _ _ _ W); auto).
  assert (A : exists f2, (if IsSecret v0 then ReduceFanout c f1 (input0 g) else Some f1) = Some f2 /\ length f2 = length gs).
  { destruct (IsSecret v0); [apply ReduceFanout_total; auto|eauto]. }
  destruct A as (f2 & -> & L2). cbn [obind].
  destruct (IsSecret v1); [apply ReduceFanout_total; auto|eauto].
Qed.

Lemma val0_total wv w : Z.of_nat (length wv) = wsz c -> exists v, val0 c wv w = Some v.
Proof.
  intros. unfold val0. destruct (w =? CONST_ZERO); [eauto|]. destruct (w =? CONST_ONE); [eauto|].
  destruct ((0 <=? w) && (w <? wsz c)) eqn:E; [|eauto].
  apply andb_true_iff in E as [E1 E2]. apply Z.leb_le in E1. apply Z.ltb_lt in E2. apply rd_ok. lia.
Qed.
Lemma val1_total wv t w : Z.of_nat (length wv) = wsz c -> exists v, val1 c wv t w = Some v.
Proof.
  intros. unfold val1. destruct (w =? CONST_ZERO); [eauto|]. destruct (w =? CONST_ONE); [eauto|].
  destruct ((0 <=? w) && (w <? wsz c)) eqn:E; [|destruct (negb (t =? NOTGATE)); eauto].
  apply andb_true_iff in E as [E1 E2]. apply Z.leb_le in E1. apply Z.ltb_lt in E2. apply rd_ok. lia.
Qed.
Lemma lab_total {L} (z : L) wl w : Z.of_nat (length wl) = wsz c -> exists l, lab z c wl w = Some l.
Proof.
  intros. unfold lab. destruct ((0 <=? w) && (w <? wsz c)) eqn:E; [|eauto].
  apply andb_true_iff in E as [E1 E2]. apply Z.leb_le in E1. apply Z.ltb_lt in E2. apply rd_ok. lia.
Qed.

Lemma known_total fan0 wv fan : length fan0 = length gs ->
  Z.of_nat (length wv) = wsz c -> length fan = length gs ->
  exists wv' fan', for_ (gate_size c) (known_body c fan0) (wv, fan) = Some (wv', fan') /\
    Z.of_nat (length wv') = wsz c /\ length fan' = length gs.
Proof.
  intros H0 H1 H2.
  destruct (for_inv (fun _ (s : list Z * list Z) => Z.of_nat (length (fst s)) = wsz c /\ length (snd s) = length gs)
    (gate_size c) (known_body c fan0) (wv, fan)) as ([wv' fan'] & E & P1 & P2); auto.
  - intros i [v f] Hi [Q1 Q2]. cbn [fst snd] in *. unfold gate_size in Hi.
    unfold known_body.
    destruct (rd_ok fan0 (Z.of_nat i)) as [k ->]; [lia|]. cbn [obind].
    destruct (wr_ok f (Z.of_nat i) k) as [f1 W]; [lia|]. rewrite W. cbn [obind].
    destruct (nth_error gs i) as [g|] eqn:Hg; [|apply nth_error_None in Hg; lia].
    rewrite rd_nat, Hg. cbn [obind].
    destruct (val0_total v (input0 g) Q1) as [v0 ->]. cbn [obind].
    destruct (val1_total v (type g) (input1 g) Q1) as [v1 ->]. cbn [obind].
    pose proof (rr_gate c RR i g Hg).
    destruct (wr_ok v (output g) (GarbleEvalGateKnownValue v0 v1 (type g))) as [v' W']; [lia|].
    rewrite W'. cbn [obind].
    assert (LF : length f1 = length gs) by (rewrite (wr_length _ _ _ _ W); auto).
    assert (LV : Z.of_nat (length v') = wsz c) by (rewrite (wr_length _ _ _ _ W'); auto).
    destruct (negb (IsSecret _)).
    + destruct (drop_uses_total g i v0 v1 f1 LF Hi) as (f2 & -> & L2). cbn [obind]. eauto.
    + eauto.
  - eauto.
Qed.

Lemma loop2_total {A B} n (body : nat -> list A * list B -> option (list A * list B)) (la : list A) (lb : list B) :
  (forall i a b, (i < n)%nat -> length a = length la -> length b = length lb ->
     exists a' b', body i (a, b) = Some (a', b') /\ length a' = length la /\ length b' = length lb) ->
  exists a' b', for_ n body (la, lb) = Some (a', b') /\ length a' = length la /\ length b' = length lb.
Proof.
  intros H.
  destruct (for_inv (fun _ (s : list A * list B) => length (fst s) = length la /\ length (snd s) = length lb)
    n body (la, lb)) as ([a b] & E & P1 & P2); auto.
  - intros i [a b] Hi [Q1 Q2]. destruct (H i a b Hi Q1 Q2) as (a' & b' & E & L1 & L2). eauto.
  - eauto.
Qed.

Ltac wr1 := match goal with |- context [wr ?l ?i ?v] =>
  let l' := fresh "l" in let W := fresh "W" in let Lq := fresh "L" in
  destruct (wr_ok l i v) as [l' W]; [lia|]; rewrite W; cbn [obind];
  pose proof (wr_length _ _ _ _ W) as Lq end.

Section Prefix.
Context {L : Type}.
Lemma prefix_total fan0 reset cid p_init p_input getinit getinput (st : cstate L) :
  length fan0 = length gs -> cwf c st ->
  (forall k, 0 <= k < Z.of_nat (get_secret_init_size c) -> exists l, getinit k = Some l) ->
  (forall i, (i < get_secret_input_size c)%nat -> exists l, getinput i = Some l) ->
  exists wl wv ll lv fan, cycle_prefix c fan0 reset cid p_init p_input getinit getinput st = Some (wl, wv, ll, lv, fan) /\
    Z.of_nat (length wl) = wsz c /\ Z.of_nat (length wv) = wsz c /\
    length ll = dff_size c /\ length lv = dff_size c /\ length fan = length gs.
Proof.
  intros HF (L1 & L2 & L3 & L4 & L5) GI GN.
  pose proof wsz_eq as WE. pose proof dff_ge as DG. pose proof (rr_I c RR) as LI.
  assert (A : exists wl1 wv1 ll lv,
    (match cid with
     | O =>
       do '(wl1, wv1) <- for_ (dff_size c) (dff_init_body c p_init getinit) (wires st, wires_val st);
       Some (wl1, wv1, dff_latch st, dff_latch_val st)
     | S _ =>
       do '(ll, lv) <- for_ (dff_size c) (dff_latch_body c (wires st) (wires_val st)) (dff_latch st, dff_latch_val st);
       do '(wl1, wv1) <- for_ (dff_size c) (dff_copy_body c ll lv) (wires st, wires_val st);
       Some (wl1, wv1, ll, lv)
     end) = Some (wl1, wv1, ll, lv) /\
    Z.of_nat (length wl1) = wsz c /\ Z.of_nat (length wv1) = wsz c /\
    length ll = dff_size c /\ length lv = dff_size c).
  { destruct cid.
    - destruct (loop2_total (dff_size c) (dff_init_body c p_init getinit) (wires st) (wires_val st))
        as (a & b & E & Q1 & Q2).
      { intros i a b Hi La Lb. unfold dff_init_body.
        destruct (rd_ok (I c) (Z.of_nat i)) as [wi ->]; [unfold dff_size in Hi; lia|]. cbn [obind].
        destruct (wi =? CONST_ZERO); [wr1; do 2 eexists; split; [reflexivity|lia]|].
        destruct (wi =? CONST_ONE); [wr1; do 2 eexists; split; [reflexivity|lia]|].
        destruct ((0 <=? wi) && (wi <? Z.of_nat (get_init_size c))) eqn:ER;
          [|wr1; do 2 eexists; split; [reflexivity|lia]].
        apply andb_true_iff in ER as [E1 E2]. apply Z.leb_le in E1. apply Z.ltb_lt in E2.
        destruct (Z.ltb_spec wi (get_p_init_hi_index c)); [wr1; do 2 eexists; split; [reflexivity|lia]|].
        destruct (GI (wi - get_p_init_hi_index c)) as [l ->].
        { unfold get_init_size, get_secret_init_size, get_p_init_hi_index in *. lia. }
        cbn [obind]. wr1. wr1. do 2 eexists; split; [reflexivity|lia]. }
      rewrite E. cbn [obind]. do 4 eexists. split; [reflexivity|]. lia.
    - destruct (loop2_total (dff_size c) (dff_latch_body c (wires st) (wires_val st)) (dff_latch st) (dff_latch_val st))
        as (a & b & E & Q1 & Q2).
      { intros i a b Hi La Lb. unfold dff_latch_body.
        destruct (rd_ok (D c) (Z.of_nat i)) as [wi ->]; [unfold dff_size in Hi; lia|]. cbn [obind].
        destruct (wi =? CONST_ZERO); [wr1; do 2 eexists; split; [reflexivity|lia]|].
        destruct (wi =? CONST_ONE); [wr1; do 2 eexists; split; [reflexivity|lia]|].
        destruct ((0 <=? wi) && (wi <? wsz c)) eqn:ER;
          [|wr1; do 2 eexists; split; [reflexivity|lia]].
        apply andb_true_iff in ER as [E1 E2]. apply Z.leb_le in E1. apply Z.ltb_lt in E2.
        destruct (rd_ok (wires st) wi) as [l ->]; [lia|].
        destruct (rd_ok (wires_val st) wi) as [v ->]; [lia|]. cbn [obind].
        wr1. wr1. do 2 eexists; split; [reflexivity|lia]. }
      rewrite E. cbn [obind].
      destruct (loop2_total (dff_size c) (dff_copy_body c a b) (wires st) (wires_val st))
        as (a' & b' & E' & Q1' & Q2').
      { intros i a' b' Hi La Lb. unfold dff_copy_body.
        destruct (rd_ok a (Z.of_nat i)) as [l ->]; [lia|].
        destruct (rd_ok b (Z.of_nat i)) as [v ->]; [lia|]. cbn [obind].
        wr1. wr1. do 2 eexists; split; [reflexivity|lia]. }
      rewrite E'. cbn [obind]. do 4 eexists. split; [reflexivity|]. lia. }
  destruct A as (wl1 & wv1 & ll & lv & EA & A1 & A2 & A3 & A4).
  destruct (for_inv (fun _ wv => length wv = length wv1) (p_input_size c) (p_input_body c p_input cid) wv1)
    as (wv2 & E2 & Q2); auto.
  { intros i s Hi Q. unfold p_input_body, get_p_input_lo_index.
    assert (get_input_size c = p_input_size c + g_input_size c + e_input_size c)%nat by reflexivity.
    wr1. exists l. split; auto. lia. }
  destruct (loop2_total (get_secret_input_size c) (s_input_body c reset getinput) wl1 wv2)
    as (wl3 & wv3 & E3 & Q3 & Q3').
  { intros i a b Hi La Lb. unfold s_input_body, get_g_input_lo_index.
    assert (get_input_size c = p_input_size c + get_secret_input_size c)%nat
      by (unfold get_input_size, get_secret_input_size; lia).
    destruct (GN i Hi) as [l ->]. cbn [obind]. wr1.
    destruct reset; [wr1|cbn [obind]]; do 2 eexists; (split; [reflexivity|lia]). }
  destruct (known_total fan0 wv3 (fanout st) HF) as (wv4 & fan4 & E4 & Q4 & Q4'); [lia|auto|].
  exists wl3, wv4, ll, lv, fan4.
  unfold cycle_prefix. rewrite EA. cbn [obind]. rewrite E2. cbn [obind]. rewrite E3. cbn [obind].
  rewrite E4. cbn [obind]. split; [auto|]. split; [lia|]. auto.
Qed.
End Prefix.

Section Secret.
Context {L S : Type}.
Variable z : L.
Variable fn : L -> Z -> L -> Z -> Z -> nat -> S -> option (L * Z * S).
Variable P : nat -> S -> Prop.
Hypothesis P_fn : forall i g l0 v0 l1 v1 s, nth_error gs i = Some g -> P i s ->
  exists l v s', fn l0 v0 l1 v1 (type g) i s = Some (l, v, s') /\ P (Datatypes.S i) s'.
Hypothesis P_mono : forall i s, (i < length gs)%nat -> P i s -> P (Datatypes.S i) s.

Lemma secret_total wl wv fan s :
  Z.of_nat (length wl) = wsz c -> Z.of_nat (length wv) = wsz c -> length fan = length gs -> P O s ->
  exists wl' wv' fan' s', for_ (gate_size c) (secret_body z c fn) (wl, wv, fan, s) = Some (wl', wv', fan', s') /\
    Z.of_nat (length wl') = wsz c /\ Z.of_nat (length wv') = wsz c /\ length fan' = length gs /\ P (length gs) s'.
Proof.
  intros H1 H2 H3 H4.
  destruct (for_inv (fun i (st : list L * list Z * list Z * S) =>
     Z.of_nat (length (st_wl st)) = wsz c /\ Z.of_nat (length (st_wv st)) = wsz c /\
     length (st_fan st) = length gs /\ P i (st_s st)) (gate_size c) (secret_body z c fn) (wl, wv, fan, s))
     as ([[[wl' wv'] fan'] s'] & E & P1 & P2 & P3 & P4).
  - auto.
  - intros i [[[a b] f] t] Hi (Q1 & Q2 & Q3 & Q4). unfold st_wl, st_wv, st_fan, st_s in *. cbn [fst snd] in *.
    unfold gate_size in Hi. unfold secret_body.
    destruct (nth_error gs i) as [g|] eqn:Hg; [|apply nth_error_None in Hg; lia].
    rewrite rd_nat, Hg. cbn [obind].
    destruct (rd_ok f (Z.of_nat i)) as [k ->]; [lia|]. cbn [obind].
    destruct (0 <? k); [|eexists; split; [reflexivity|]; cbn [fst snd]; auto].
    pose proof (rr_gate c RR i g Hg).
    destruct (rd_ok b (output g)) as [ov ->]; [lia|]. cbn [obind].
    destruct (IsSecret ov); [|eexists; split; [reflexivity|]; cbn [fst snd]; auto].
    destruct (lab_total z a (input0 g) Q1) as [l0 ->]. cbn [obind].
    destruct (val0_total b (input0 g) Q2) as [v0 ->]. cbn [obind].
    destruct (lab_total z a (input1 g) Q1) as [l1 ->]. cbn [obind].
    destruct (val1_total b (type g) (input1 g) Q2) as [v1 ->]. cbn [obind].
    destruct (P_fn i g l0 v0 l1 v1 t Hg Q4) as (l & v & t' & -> & Q5). cbn [obind].
    wr1. wr1.
    destruct (negb (IsSecret v)).
    + destruct (drop_uses_total g i v0 v1 f Q3 Hi) as (f2 & -> & LF). cbn [obind].
      eexists; split; [reflexivity|]; cbn [fst snd]. repeat split; auto; lia.
    + eexists; split; [reflexivity|]; cbn [fst snd]. repeat split; auto; lia.
  - exists wl', wv', fan', s'. auto.
Qed.

Lemma reads_total (wl : list L) wv : Z.of_nat (length wl) = wsz c -> Z.of_nat (length wv) = wsz c ->
  exists outs, mapM (read_wire wl wv) (outputs c) = Some outs /\ length outs = output_size c.
Proof.
  intros H1 H2. unfold output_size.
  assert (G : forall l, (forall w, In w l -> 0 <= w < wsz c) ->
    exists outs, mapM (read_wire wl wv) l = Some outs /\ length outs = length l).
  { induction l as [|w l IH]; intros H; [exists []; auto|].
    destruct IH as (outs & E & HL); [intros; apply H; right; auto|].
    pose proof (H w (or_introl eq_refl)). cbn [mapM]. unfold read_wire at 1.
    destruct (rd_ok wl w) as [l' ->]; [lia|]. destruct (rd_ok wv w) as [v ->]; [lia|]. cbn [obind].
    rewrite E. cbn [obind]. eexists. split; [reflexivity|]. simpl. auto. }
  apply G. intros w Hw. apply In_nth_error in Hw as [i Hi]. eapply (rr_out c RR); eauto.
Qed.

Lemma run_cycle_total fan0 reset cid p_init p_input getinit getinput (st : cstate L) s :
  length fan0 = length gs -> cwf c st ->
  (forall k, 0 <= k < Z.of_nat (get_secret_init_size c) -> exists l, getinit k = Some l) ->
  (forall i, (i < get_secret_input_size c)%nat -> exists l, getinput i = Some l) ->
  P O s ->
  exists st' s' outs term, run_cycle z c fan0 fn reset cid p_init p_input getinit getinput st s = Some (st', s', outs, term) /\
    cwf c st' /\ P (length gs) s' /\ length outs = output_size c.
Proof.
  intros HF CW GI GN HP.
  destruct (prefix_total fan0 reset cid p_init p_input getinit getinput st HF CW GI GN)
    as (wl & wv & ll & lv & fan & E & L1 & L2 & L3 & L4 & L5).
  destruct (secret_total wl wv fan s L1 L2 L5 HP) as (wl' & wv' & fan' & s' & E' & M1 & M2 & M3 & M4).
  destruct (reads_total wl' wv' M1 M2) as (outs & EO & LO).
  unfold run_cycle. rewrite E. cbn [obind]. rewrite E'. cbn [obind]. rewrite EO. cbn [obind].
  pose proof (Zgt_cases (terminate_id c) 0) as TC. pose proof (rr_term c RR) as RT.
  destruct (terminate_id c >? 0).
  - unfold read_wire. destruct (rd_ok wl' (terminate_id c)) as [l ->]; [lia|].
    destruct (rd_ok wv' (terminate_id c)) as [v ->]; [lia|]. cbn [obind].
    do 4 eexists. split; [reflexivity|]. split; [|split; auto]. unfold cwf. cbn. auto.
  - cbn [obind]. do 4 eexists. split; [reflexivity|]. split; [|split; auto]. unfold cwf. cbn. auto.
Qed.
End Secret.

(** ** The garbler *)
Definition gP (i : nat) (s : list GarbledTable * Z) : Prop :=
  length (fst s) = NumOfNonXor c /\ 0 <= snd s <= Z.of_nat (nnx gs i) /\
  (forall j, (Z.of_nat j < snd s) -> exists tb, nth_error (fst s) j = Some tb /\ (gid tb < N.of_nat (length gs))%N).

Lemma nonxor_type g : is_nonxor g = false ->
  type g = XORGATE \/ type g = XNORGATE \/ type g = NOTGATE.
Proof.
  unfold is_nonxor. destruct (Z.eqb_spec (type g) XORGATE); [auto|].
  destruct (Z.eqb_spec (type g) XNORGATE); [auto|]. destruct (Z.eqb_spec (type g) NOTGATE); [auto|discriminate].
Qed.

Lemma nnx_bound i : (nnx gs i <= NumOfNonXor c)%nat.
Proof.
  destruct (Nat.le_gt_cases i (length gs)).
  - rewrite <- nnx_total. apply nnx_le. auto.
  - unfold nnx. rewrite firstn_all2 by lia. reflexivity.
Qed.

Lemma gP_fn aes R cid i g l0 v0 l1 v1 s :
  nth_error gs i = Some g -> gP i s ->
  exists l v s', GarbleGate aes l0 v0 l1 v1 (type g) cid (N.of_nat i) R s = Some (l, v, s') /\ gP (S i) s'.
Proof.
  intros Hg (Q1 & Q2 & Q3). pose proof (nnx_S gs i g Hg) as NS. pose proof (nnx_bound (S i)) as NB.
  assert (HI : (i < length gs)%nat) by (apply nth_error_Some; congruence).
  assert (MONO : gP (S i) s).
  { split; [auto|]. split; [destruct (is_nonxor g); lia|auto]. }
  unfold GarbleGate.
  destruct (IsSecret v0), (IsSecret v1); cbn [negb andb].
  2,3,4: try destruct (HalfGarbleGate _ _ _ _); do 3 eexists; (split; [reflexivity|auto]).
  destruct (negb (type g =? NOTGATE) && CmpBlock (fst l0) (fst l1)).
  { destruct (equal_shortcut (type g)) as [[| |]|]; do 3 eexists; (split; [reflexivity|auto]). }
  destruct (negb (type g =? NOTGATE) && CmpBlock (fst l0) (snd l1)).
  { destruct (inverted_shortcut (type g)) as [[| |]|]; do 3 eexists; (split; [reflexivity|auto]). }
  destruct (Z.eqb_spec (type g) XORGATE) as [|N1]; [do 3 eexists; (split; [reflexivity|auto])|].
  destruct (Z.eqb_spec (type g) XNORGATE) as [|N2]; [do 3 eexists; (split; [reflexivity|auto])|].
  destruct (Z.eqb_spec (type g) NOTGATE) as [|N3]; [do 3 eexists; (split; [reflexivity|auto])|].
  assert (NX : is_nonxor g = true).
  { destruct (is_nonxor g) eqn:E; auto. destruct (nonxor_type g E) as [|[|]]; contradiction. }
  rewrite NX in NS.
  destruct (HalfGates _ _ _ _ _ _ _) as [o [T0 T1]].
  destruct s as [tabs ind]. cbn [fst snd] in *.
  wr1. do 3 eexists. split; [reflexivity|]. split; [cbn [fst]; congruence|]. cbn [fst snd].
  split; [lia|]. intros j Hj.
  destruct (Z.eq_dec (Z.of_nat j) ind) as [EJ|NJ].
  - rewrite <- rd_nat, EJ, (rd_wr_same _ _ _ _ W). eexists. split; [reflexivity|]. cbn [gid].
    pose proof (N.mod_le (N.of_nat i) (2 ^ 32) ltac:(discriminate)). lia.
  - destruct (Q3 j) as (tb & E1 & E2); [lia|]. exists tb. split; [|auto].
    rewrite <- rd_nat, (rd_wr_other _ _ _ _ _ W NJ), rd_nat. auto.
Qed.

Lemma select_total fan tmp tabs n : length fan = length gs ->
  length tmp = NumOfNonXor c -> length tabs = NumOfNonXor c -> (n <= NumOfNonXor c)%nat ->
  (forall j, (j < n)%nat -> exists tb, nth_error tmp j = Some tb /\ (gid tb < N.of_nat (length gs))%N) ->
  exists tabs' ind, for_ n (select_body fan tmp) (tabs, 0) = Some (tabs', ind) /\
    length tabs' = NumOfNonXor c /\ 0 <= ind <= Z.of_nat n.
Proof.
  intros HF H1 H2 Hn HT.
  destruct (for_inv (fun i (s : list GarbledTable * Z) => length (fst s) = NumOfNonXor c /\ 0 <= snd s <= Z.of_nat i)
    n (select_body fan tmp) (tabs, 0)) as ([t k] & E & P1 & P2).
  - cbn [fst snd]. lia.
  - intros i [t k] Hi [Q1 Q2]. cbn [fst snd] in *. unfold select_body.
    destruct (HT i Hi) as (tb & ET & HG). rewrite rd_nat, ET. cbn [obind].
    destruct (rd_ok fan (Z.of_N (gid tb))) as [f ->]; [lia|]. cbn [obind].
    destruct (0 <? f).
    + wr1. eexists. split; [reflexivity|]. cbn [fst snd]. lia.
    + eexists. split; [reflexivity|]. cbn [fst snd]. lia.
  - eauto.
Qed.

Lemma GarbleCycle_total aes fan0 R reset p_init p_input getinit getinput cid (st : cstate BlockPair) tmp tabs :
  length fan0 = length gs -> cwf c st ->
  (forall k, 0 <= k < Z.of_nat (get_secret_init_size c) -> exists l, getinit k = Some l) ->
  (forall i, (i < get_secret_input_size c)%nat -> exists l, getinput i = Some l) ->
  length tmp = NumOfNonXor c -> length tabs = NumOfNonXor c ->
  exists st' tmp' tabs' ind outs term,
    GarbleCycle aes c fan0 R reset p_init p_input getinit getinput cid st tmp tabs
      = Some (st', tmp', tabs', ind, outs, term) /\
    cwf c st' /\ length tmp' = NumOfNonXor c /\ length tabs' = NumOfNonXor c /\
    0 <= ind <= Z.of_nat (NumOfNonXor c) /\ length outs = output_size c.
Proof.
  intros HF CW GI GN H1 H2.
  destruct (run_cycle_total zeroPair
    (fun l0 v0 l1 v1 t g s => GarbleGate aes l0 v0 l1 v1 t (N.of_nat cid) (N.of_nat g) R s)
    gP) with (fan0 := fan0) (reset := reset) (cid := cid) (p_init := p_init) (p_input := p_input)
      (getinit := getinit) (getinput := getinput) (st := st) (s := (tmp, 0))
    as (st' & [tmp' ti] & outs & term & E & CW' & (Q1 & Q2 & Q3) & LO); auto.
  - intros. apply gP_fn; auto.
  - intros i s Hi (A & B & C). split; [auto|]. split; [|auto].
    pose proof (nnx_le gs i (S i) ltac:(lia)). lia.
  - split; [auto|]. cbn [fst snd]. split; [lia|]. intros; lia.
  - unfold GarbleCycle. rewrite E. cbn [obind fst snd] in *.
    pose proof (nnx_bound (length gs)).
    destruct CW' as (W1 & W2 & W3 & W4 & W5).
    destruct (select_total (fanout st') tmp' tabs (Z.to_nat ti)) as (tabs' & ind & E' & L' & B'); auto; [lia| |].
    { intros j Hj. apply Q3. lia. }
    rewrite E'. cbn [obind]. do 6 eexists. split; [reflexivity|]. split; [repeat split; auto|].
    split; [auto|]. split; [auto|]. split; [lia|auto].
Qed.

(** ** The evaluator, whatever the tables contain *)
Lemma EvaluateCycle_total aes fan0 rnd p_init p_input getinit getinput cid (st : cstate block) tabs dr :
  length fan0 = length gs -> cwf c st ->
  (forall k, 0 <= k < Z.of_nat (get_secret_init_size c) -> exists l, getinit k = Some l) ->
  (forall i, (i < get_secret_input_size c)%nat -> exists l, getinput i = Some l) ->
  length tabs = NumOfNonXor c ->
  exists st' tabs' ind dr' outs term,
    EvaluateCycle aes c fan0 rnd p_init p_input getinit getinput cid st tabs dr
      = Some (st', tabs', ind, dr', outs, term) /\
    cwf c st' /\ tabs' = tabs /\ 0 <= ind <= Z.of_nat (NumOfNonXor c) /\ length outs = output_size c.
Proof.
  intros HF CW GI GN H1.
  destruct (run_cycle_total ZeroBlock
    (fun l0 v0 l1 v1 t g s => EvalGate aes rnd l0 v0 l1 v1 t (N.of_nat cid) (N.of_nat g) s)
    (fun i (s : list GarbledTable * Z * nat) => fst (fst s) = tabs /\ 0 <= snd (fst s) <= Z.of_nat (nnx gs i)))
    with (fan0 := fan0) (reset := false) (cid := cid) (p_init := p_init) (p_input := p_input)
      (getinit := getinit) (getinput := getinput) (st := st) (s := (tabs, 0, dr))
    as (st' & [[tabs' ti] dr'] & outs & term & E & CW' & (Q1 & Q2) & LO); auto.
  - intros i g l0 v0 l1 v1 [[tb ind] d] Hg (Q1 & Q2). cbn [fst snd] in *. subst tb.
    pose proof (nnx_S gs i g Hg) as NS. pose proof (nnx_bound (S i)) as NB.
    assert (M : 0 <= ind <= Z.of_nat (nnx gs (S i))) by (destruct (is_nonxor g); lia).
    unfold EvalGate.
    destruct (IsSecret v0), (IsSecret v1); cbn [negb andb].
    2,3,4: try destruct (HalfEvalGate _ _ _ _ _); do 3 eexists; (split; [reflexivity|auto]).
    destruct (negb (type g =? NOTGATE) && CmpBlock l0 l1 && (v0 =? v1)).
    { destruct (equal_shortcut (type g)) as [[| |]|]; do 3 eexists; (split; [reflexivity|auto]). }
    destruct (negb (type g =? NOTGATE) && CmpBlock l0 l1 && negb (v0 =? v1)).
    { destruct (inverted_shortcut (type g)) as [[| |]|]; do 3 eexists; (split; [reflexivity|auto]). }
    destruct (Z.eqb_spec (type g) XORGATE) as [|N1]; [do 3 eexists; (split; [reflexivity|auto])|].
    destruct (Z.eqb_spec (type g) XNORGATE) as [|N2]; [do 3 eexists; (split; [reflexivity|auto])|].
    destruct (Z.eqb_spec (type g) NOTGATE) as [|N3]; [do 3 eexists; (split; [reflexivity|auto])|].
    assert (NX : is_nonxor g = true).
    { destruct (is_nonxor g) eqn:E; auto. destruct (nonxor_type g E) as [|[|]]; contradiction. }
    rewrite NX in NS.
    destruct (rd_ok tabs ind) as [tb ->]; [lia|]. cbn [obind].
    destruct (N.eqb _ _); do 3 eexists; (split; [reflexivity|]); cbn [fst snd]; split; auto; lia.
  - intros i [[tb ind] d] Hi (A & B). cbn [fst snd] in *. split; [auto|].
    pose proof (nnx_le gs i (S i) ltac:(lia)). lia.
  - cbn [fst snd]. split; [auto|lia].
  - cbn [fst snd] in *. subst tabs'. unfold EvaluateCycle. rewrite E. cbn [obind].
    pose proof (nnx_bound (length gs)).
    do 6 eexists. split; [reflexivity|]. split; [auto|]. split; [auto|]. split; [lia|auto].
Qed.

Lemma recv_tables_total sent et : (length sent <= length et)%nat ->
  exists et', recv_tables sent et = Some et' /\ length et' = length et.
Proof.
  intros H. unfold recv_tables. destruct (Nat.leb_spec (length sent) (length et)); [|lia].
  eexists. split; [reflexivity|]. rewrite app_length, skipn_length. lia.
Qed.
Lemma clear_tables_length n et : length (clear_tables n et) = length et.
Proof.
  unfold clear_tables. rewrite app_length, map_length, <- app_length, firstn_skipn. auto.
Qed.
End Safe.

Lemma wf_refs c : well_formed c -> refs_in_range c.
Proof.
  intros WF. pose proof (wsz_gate c) as WG. pose proof (wsz_last c) as WL. pose proof (first_order c).
  pose proof (first_input_nonneg c).
  constructor.
  - intros i g Hg. destruct (wf_gate c WF i g Hg) as (-> & _).
    assert (i < length (garbledGates c))%nat by (apply nth_error_Some; congruence). lia.
  - intros i w Hw. destruct (wf_D _ WF i w Hw). lia.
  - apply (wf_I _ WF).
  - intros i w Hw. pose proof (wf_out _ WF i w Hw). lia.
  - destruct (wf_term _ WF); lia.
Qed.

(** ** Any number of cycles of both parties *)
Record machine_sized (c : GarbledCircuit) (m : machine) : Prop := {
  ms_g : cwf c (m_g m); ms_e : cwf c (m_e m);
  ms_tmp : length (m_tmp m) = NumOfNonXor c;
  ms_tabs : length (m_tabs m) = NumOfNonXor c;
  ms_et : length (m_et m) = NumOfNonXor c }.

Theorem machine_run_safe c fan0 aes R rnd reset p_init p_input ginit gin einit ein :
  refs_in_range c -> length fan0 = length (garbledGates c) ->
  (forall k, 0 <= k < Z.of_nat (get_secret_init_size c) -> exists l, ginit k = Some l) ->
  (forall cy i, (i < get_secret_input_size c)%nat -> exists l, gin cy i = Some l) ->
  (forall k, 0 <= k < Z.of_nat (get_secret_init_size c) -> exists l, einit k = Some l) ->
  (forall cy i, (i < get_secret_input_size c)%nat -> exists l, ein cy i = Some l) ->
  forall n m0, machine_sized c m0 ->
  exists m os, machine_run c fan0 aes R rnd reset p_init p_input ginit gin einit ein n m0 = Some (m, os) /\
    machine_sized c m /\ length os = n /\
    forall o, In o os -> (length (o_sent o) <= NumOfNonXor c)%nat /\ 0 <= o_used o <= Z.of_nat (NumOfNonXor c) /\
      length (o_gouts o) = output_size c /\ length (o_eouts o) = output_size c.
Proof.
  intros RR HF G1 G2 E1 E2 n m0 HM. induction n.
  - exists m0, []. split; [reflexivity|]. split; [auto|]. split; [auto|]. intros o [].
  - destruct IHn as (m & os & E & [M1 M2 M3 M4 M5] & HL & HO).
    cbn [machine_run]. rewrite E. cbn [obind]. unfold machine_step.
    destruct (GarbleCycle_total c RR aes fan0 R reset p_init p_input ginit (gin n) n (m_g m) (m_tmp m) (m_tabs m))
      as (g' & tmp' & tabs' & ind & gouts & gterm & EG & C1 & T1 & T2 & B1 & O1); auto.
    rewrite EG. cbn [obind].
    assert (LS : length (firstn (Z.to_nat ind) tabs') = Z.to_nat ind) by (rewrite firstn_length; lia).
    destruct (recv_tables_total (firstn (Z.to_nat ind) tabs') (m_et m)) as (et & ER & LE); [lia|].
    rewrite ER. cbn [obind].
    destruct (EvaluateCycle_total c RR aes fan0 rnd p_init p_input einit (ein n) n (m_e m) et (m_dr m))
      as (e' & et' & used & dr' & eouts & eterm & EE & C2 & -> & B2 & O2); auto; [lia|].
    rewrite EE. cbn [obind]. do 2 eexists. split; [reflexivity|].
    split; [constructor; cbn; auto; rewrite clear_tables_length; lia|].
    split; [rewrite app_length; simpl; lia|].
    intros o Ho. apply in_app_or in Ho as [Ho|[<-|[]]]; [auto|]. cbn. split; [lia|]. auto.
Qed.
