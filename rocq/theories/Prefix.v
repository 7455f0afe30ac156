(** The loops of a cycle that come before the gates: registers and inputs. *)
From Coq Require Import ZArith NArith List Bool Lia.
From Verif Require Import Base Gate Circuit Spec Fanout GateFacts Phase1 Phase2.
Import ListNotations.
Open Scope Z_scope.

(** * A loop that fills consecutive cells of two arrays *)
Section Fill.
Context {L : Type}.
Variable d : L.

Definition owr {A} (l : list A) (i : Z) (o : option A) : option (list A) :=
  match o with Some v => wr l i v | None => Some l end.

Definition onew {A} (o : option A) (old : A) : A := match o with Some v => v | None => old end.

Lemma owr_spec {A} (e : A) l i o : 0 <= i < Z.of_nat (length l) ->
  exists l', owr l i o = Some l' /\ length l' = length l /\
    (forall w, w <> i -> rd l' w = rd l w) /\ lz e l' i = onew o (lz e l i).
Proof.
  intros H. destruct o as [v|]; simpl.
  - destruct (wr_ok l i v H) as [l' W]. exists l'. split; [auto|].
    split; [eapply wr_length; eauto|]. split.
    + intros. eapply rd_wr_other; eauto.
    + rewrite (lz_wr e l i v l' i W ltac:(lia)), Z.eqb_refl. auto.
  - exists l. auto.
Qed.

Lemma rd_eq_lz {A} (e : A) (l l' : list A) w : rd l w = rd l' w -> 0 <= w -> lz e l w = lz e l' w.
Proof.
  unfold rd, lz. intros H Hw. destruct (Z.ltb_spec w 0); [lia|].
  destruct (nth_error l' (Z.to_nat w)) eqn:E.
  - rewrite (nth_error_nth _ _ _ H), (nth_error_nth _ _ _ E). auto.
  - rewrite !nth_overflow; auto; apply nth_error_None; auto.
Qed.

Lemma vz_lz wv w : vz wv w = lz 0 wv w.
Proof. reflexivity. Qed.

Lemma fill_pair n b (lo : nat -> option L) (vo : nat -> option Z) body wl wv :
  0 <= b -> b + Z.of_nat n <= Z.of_nat (length wl) -> b + Z.of_nat n <= Z.of_nat (length wv) ->
  (forall i wl wv, (i < n)%nat ->
     b + Z.of_nat n <= Z.of_nat (length wl) -> b + Z.of_nat n <= Z.of_nat (length wv) ->
     body i (wl, wv) =
     do wl' <- owr wl (b + Z.of_nat i) (lo i);
     do wv' <- owr wv (b + Z.of_nat i) (vo i); Some (wl', wv')) ->
  exists wl' wv', for_ n body (wl, wv) = Some (wl', wv') /\
    length wl' = length wl /\ length wv' = length wv /\
    (forall w, (w < b \/ b + Z.of_nat n <= w) -> rd wl' w = rd wl w /\ rd wv' w = rd wv w) /\
    (forall j, (j < n)%nat -> lz d wl' (b + Z.of_nat j) = onew (lo j) (lz d wl (b + Z.of_nat j)) /\
       vz wv' (b + Z.of_nat j) = onew (vo j) (vz wv (b + Z.of_nat j))).
Proof.
  intros Hb H1 H2 HB.
  destruct (for_inv (fun i st =>
    length (fst st) = length wl /\ length (snd st) = length wv /\
    (forall w, (w < b \/ b + Z.of_nat i <= w) -> rd (fst st) w = rd wl w /\ rd (snd st) w = rd wv w) /\
    (forall j, (j < i)%nat -> lz d (fst st) (b + Z.of_nat j) = onew (lo j) (lz d wl (b + Z.of_nat j)) /\
       vz (snd st) (b + Z.of_nat j) = onew (vo j) (vz wv (b + Z.of_nat j)))) n body (wl, wv))
    as ([wl' wv'] & E & P).
  - cbn [fst snd]. split; [auto|]. split; [auto|]. split; [auto|]. intros; lia.
  - intros i [l v] Hi (A1 & A2 & A3 & A4). cbn [fst snd] in *.
    rewrite HB by lia.
    destruct (owr_spec d l (b + Z.of_nat i) (lo i)) as (l' & E1 & L1 & F1 & G1); [lia|].
    destruct (owr_spec 0 v (b + Z.of_nat i) (vo i)) as (v' & E2 & L2 & F2 & G2); [lia|].
    rewrite E1. cbn [obind]. rewrite E2. cbn [obind].
    exists (l', v'). split; [auto|]. cbn [fst snd]. split; [lia|]. split; [lia|]. split.
    + intros w Hw. rewrite F1, F2 by lia. apply A3. lia.
    + intros j Hj. destruct (Nat.eq_dec j i) as [->|N].
      * rewrite G1, vz_lz, G2. destruct (A3 (b + Z.of_nat i) ltac:(lia)) as [Q1 Q2].
        rewrite (rd_eq_lz d l wl _ Q1), (rd_eq_lz 0 v wv _ Q2) by lia. auto.
      * destruct (A4 j ltac:(lia)) as [Q1 Q2]. rewrite <- Q1, <- Q2. split.
        -- apply rd_eq_lz; [|lia]. apply F1. lia.
        -- rewrite !vz_lz. apply rd_eq_lz; [|lia]. apply F2. lia.
  - exists wl', wv'. cbn [fst snd] in P. destruct P as (P1 & P2 & P3 & P4). auto.
Qed.
End Fill.

(** * The loops *)
Section Prefix.
Context {L : Type}.
Variable d : L.
Variable c : GarbledCircuit.
Hypothesis WF : well_formed c.

Definition cwf (st : cstate L) : Prop :=
  Z.of_nat (length (wires st)) = wsz c /\ Z.of_nat (length (wires_val st)) = wsz c /\
  length (dff_latch st) = dff_size c /\ length (dff_latch_val st) = dff_size c /\
  length (fanout st) = gate_size c.

Lemma dff_lo : get_dff_lo_index c = first_dff c.
Proof. unfold get_dff_lo_index, first_dff, first_input, get_init_size, get_input_size. lia. Qed.
Lemma p_lo : get_p_input_lo_index c = first_input c.
Proof. reflexivity. Qed.
Lemma g_lo : get_g_input_lo_index c = first_input c + Z.of_nat (p_input_size c).
Proof. unfold get_g_input_lo_index, first_input, get_init_size. lia. Qed.
Lemma dff_eq : first_dff c = first_input c + Z.of_nat (p_input_size c) + Z.of_nat (get_secret_input_size c).
Proof. unfold first_dff, get_secret_input_size. lia. Qed.
Lemma gate_eq : first_gate c = first_dff c + Z.of_nat (dff_size c).
Proof. reflexivity. Qed.

Definition is_sinit (wi : Z) : bool :=
  (Z.of_nat (p_init_size c) <=? wi) && (wi <? Z.of_nat (get_init_size c)).
(** value of a register in cycle 0 *)
Definition init_val (p_init : N) (wi : Z) : Z :=
  if wi =? CONST_ZERO then 0 else if wi =? CONST_ONE then 1
  else if (0 <=? wi) && (wi <? Z.of_nat (get_init_size c)) then
    if wi <? get_p_init_hi_index c then b2z (BN_is_bit_set p_init wi) else SECRET
  else 0.
Definition latch_val (wv : list Z) (wi : Z) : Z :=
  if wi =? CONST_ZERO then 0 else if wi =? CONST_ONE then 1
  else if (0 <=? wi) && (wi <? wsz c) then vz wv wi else 0.

Definition nthz (l : list Z) (i : nat) : Z := nth i l 0.

Definition dvals (cid : nat) (p_init : N) (st : cstate L) (i : nat) : Z :=
  match cid with
  | O => init_val p_init (nthz (I c) i)
  | S _ => latch_val (wires_val st) (nthz (D c) i)
  end.
(** label of register [i] when it is secret *)
Definition dlab (cid : nat) (getinit : Z -> option L) (st : cstate L) (i : nat) : option L :=
  match cid with
  | O => let wi := nthz (I c) i in
         if is_sinit wi then getinit (wi - Z.of_nat (p_init_size c)) else None
  | S _ => let wi := nthz (D c) i in
           if (0 <=? wi) && (wi <? wsz c) then Some (lz d (wires st) wi) else None
  end.

Lemma rd_nthz l i : (i < length l)%nat -> rd l (Z.of_nat i) = Some (nthz l i).
Proof. intros. rewrite rd_nat. now apply nth_error_nth'. Qed.

Lemma is_sinit_cases wi : (0 <=? wi) && (wi <? Z.of_nat (get_init_size c)) = true ->
  (wi <? get_p_init_hi_index c) = negb (is_sinit wi).
Proof.
  unfold is_sinit, get_p_init_hi_index. intros H. apply andb_true_iff in H as [H1 H2].
  rewrite H2, andb_true_r. apply Z.leb_le in H1.
  destruct (Z.ltb_spec wi (Z.of_nat (p_init_size c))), (Z.leb_spec (Z.of_nat (p_init_size c)) wi); auto; lia.
Qed.

Lemma is_sinit_neg wi : wi < 0 -> is_sinit wi = false.
Proof.
  intros. unfold is_sinit. destruct (Z.leb_spec (Z.of_nat (p_init_size c)) wi); auto. lia.
Qed.

Lemma prefix_dffs cid p_init getinit st :
  cwf st ->
  (forall k, 0 <= k < Z.of_nat (get_secret_init_size c) -> exists l, getinit k = Some l) ->
  exists wl1 wv1 ll lv,
    (match cid with
     | O =>
       do '(wl1, wv1) <- for_ (dff_size c) (dff_init_body c p_init getinit)
                              (wires st, wires_val st);
       Some (wl1, wv1, dff_latch st, dff_latch_val st)
     | S _ =>
       do '(ll, lv) <- for_ (dff_size c) (dff_latch_body c (wires st) (wires_val st))
                            (dff_latch st, dff_latch_val st);
       do '(wl1, wv1) <- for_ (dff_size c) (dff_copy_body c ll lv) (wires st, wires_val st);
       Some (wl1, wv1, ll, lv)
     end) = Some (wl1, wv1, ll, lv) /\
    Z.of_nat (length wl1) = wsz c /\ Z.of_nat (length wv1) = wsz c /\
    length ll = dff_size c /\ length lv = dff_size c /\
    (forall w, (w < first_dff c \/ first_gate c <= w) ->
       rd wl1 w = rd (wires st) w /\ rd wv1 w = rd (wires_val st) w) /\
    (forall j, (j < dff_size c)%nat -> vz wv1 (first_dff c + Z.of_nat j) = dvals cid p_init st j /\
       forall l, dlab cid getinit st j = Some l -> lz d wl1 (first_dff c + Z.of_nat j) = l).
Proof.
  intros (L1 & L2 & L3 & L4 & L5) GI.
  pose proof (wsz_gate c) as WG. pose proof (first_order c) as FO.
  pose proof (first_input_nonneg c) as FN. pose proof gate_eq as GE.
  destruct cid as [|cid].
  - destruct (fill_pair d (dff_size c) (first_dff c)
      (fun i => dlab 0 getinit st i)
      (fun i => Some (dvals 0 p_init st i))
      (dff_init_body c p_init getinit) (wires st) (wires_val st))
      as (wl' & wv' & E & Q1 & Q2 & Q3 & Q4); try lia.
    + intros i wl wv Hi B1 B2. unfold dff_init_body, dlab, dvals, init_val.
      rewrite (rd_nthz (I c)) by (rewrite (wf_I _ WF); exact Hi). cbn [obind]. rewrite dff_lo.
      set (wi := nthz (I c) i). cbn [owr].
      destruct (Z.eqb_spec wi CONST_ZERO) as [->|N1].
      { rewrite (is_sinit_neg CONST_ZERO) by reflexivity. reflexivity. }
      destruct (Z.eqb_spec wi CONST_ONE) as [->|N2].
      { rewrite (is_sinit_neg CONST_ONE) by reflexivity. reflexivity. }
      destruct ((0 <=? wi) && (wi <? Z.of_nat (get_init_size c))) eqn:ER.
      * rewrite (is_sinit_cases wi ER). destruct (is_sinit wi) eqn:ES; cbn [negb]; [|reflexivity].
        unfold is_sinit in ES. apply andb_true_iff in ES as [E1 E2].
        apply Z.leb_le in E1. apply Z.ltb_lt in E2.
        unfold get_init_size in E2.
        destruct (GI (wi - get_p_init_hi_index c)) as [l El].
        { unfold get_p_init_hi_index, get_secret_init_size. lia. }
        unfold get_p_init_hi_index in *. rewrite El. reflexivity.
      * assert (is_sinit wi = false) as ->.
        { unfold is_sinit. destruct (wi <? Z.of_nat (get_init_size c)); [|apply andb_false_r].
          rewrite andb_true_r in ER. apply Z.leb_gt in ER.
          destruct (Z.leb_spec (Z.of_nat (p_init_size c)) wi); auto. lia. }
        reflexivity.
    + rewrite E. cbn [obind]. exists wl', wv', (dff_latch st), (dff_latch_val st).
      split; [auto|]. split; [lia|]. split; [lia|]. split; [auto|]. split; [auto|].
      split; [intros w Hw; apply Q3; lia|].
      intros j Hj. destruct (Q4 j Hj) as [A1 A2]. split; [rewrite A2; reflexivity|].
      intros l El. rewrite A1, El. reflexivity.
  - set (wl := wires st). set (wv := wires_val st).
    destruct (fill_pair d (dff_size c) 0
      (fun i => dlab (S cid) getinit st i)
      (fun i => Some (dvals (S cid) p_init st i))
      (dff_latch_body c wl wv) (dff_latch st) (dff_latch_val st))
      as (ll & lv & E & Q1 & Q2 & _ & Q4); try lia.
    + intros i l v Hi B1 B2. unfold dff_latch_body, dlab, dvals, latch_val.
      rewrite (rd_nthz (D c)) by exact Hi. cbn [obind].
      set (wi := nthz (D c) i). cbn [owr]. rewrite Z.add_0_l.
      destruct (Z.eqb_spec wi CONST_ZERO) as [->|N1].
      { reflexivity. }
      destruct (Z.eqb_spec wi CONST_ONE) as [->|N2].
      { reflexivity. }
      destruct ((0 <=? wi) && (wi <? wsz c)) eqn:ER; [|reflexivity].
      apply andb_true_iff in ER as [E1 E2]. apply Z.leb_le in E1. apply Z.ltb_lt in E2.
      rewrite (rd_lz d wl), (rd_vz wv) by (unfold wl, wv; lia). reflexivity.
    + rewrite E. cbn [obind].
      destruct (fill_pair d (dff_size c) (first_dff c)
        (fun i => Some (lz d ll (Z.of_nat i))) (fun i => Some (vz lv (Z.of_nat i)))
        (dff_copy_body c ll lv) wl wv) as (wl1 & wv1 & E1 & P1 & P2 & P3 & P4); try (unfold wl, wv; lia).
      * intros i l v Hi B1 B2. unfold dff_copy_body.
        rewrite (rd_lz d ll), (rd_vz lv) by lia. cbn [obind owr]. rewrite dff_lo. reflexivity.
      * rewrite E1. cbn [obind]. exists wl1, wv1, ll, lv. unfold wl, wv in *.
        split; [auto|]. split; [lia|]. split; [lia|]. split; [lia|]. split; [lia|].
        split; [intros w Hw; apply P3; lia|].
        intros j Hj. destruct (P4 j Hj) as [A1 A2]. destruct (Q4 j Hj) as [A3 A4].
        rewrite Z.add_0_l in A3, A4.
        split; [rewrite A2; cbn [onew]; rewrite A4; reflexivity|].
        intros l El. rewrite A1. cbn [onew]. rewrite A3, El. reflexivity.
Qed.

(** Everything before the gates. *)
Lemma prefix_ok reset cid p_init p_input getinit getinput st :
  cwf st ->
  (forall k, 0 <= k < Z.of_nat (get_secret_init_size c) -> exists l, getinit k = Some l) ->
  (forall i, (i < get_secret_input_size c)%nat -> exists l, getinput i = Some l) ->
  exists wl3 wv3 ll lv,
    (forall fan0, cycle_prefix c fan0 reset cid p_init p_input getinit getinput st =
      do '(wv4, fan4) <- for_ (gate_size c) (known_body c fan0) (wv3, fanout st);
      Some (wl3, wv4, ll, lv, fan4)) /\
    Z.of_nat (length wl3) = wsz c /\ Z.of_nat (length wv3) = wsz c /\
    length ll = dff_size c /\ length lv = dff_size c /\
    (forall j, (j < dff_size c)%nat -> vz wv3 (first_dff c + Z.of_nat j) = dvals cid p_init st j /\
       forall l, dlab cid getinit st j = Some l -> lz d wl3 (first_dff c + Z.of_nat j) = l) /\
    (forall i, (i < p_input_size c)%nat ->
       vz wv3 (first_input c + Z.of_nat i) = b2z (BN_is_bit_set p_input (Z.of_nat (cid * p_input_size c + i)))) /\
    (forall i, (i < get_secret_input_size c)%nat ->
       let w := first_input c + Z.of_nat (p_input_size c) + Z.of_nat i in
       getinput i = Some (lz d wl3 w) /\
       vz wv3 w = if reset then SECRET else vz (wires_val st) w) /\
    (forall w, w < first_input c -> rd wv3 w = rd (wires_val st) w).
Proof.
  intros CW GI GN.
  destruct (prefix_dffs cid p_init getinit st CW GI) as
    (wl1 & wv1 & ll & lv & E1 & L1 & L2 & L3 & L4 & U1 & D1).
  destruct CW as (W1 & W2 & _).
  pose proof (wsz_gate c) as WG. pose proof (first_order c) as FO.
  pose proof (first_input_nonneg c) as FN. pose proof gate_eq as GE. pose proof dff_eq as DE.
  (* public inputs *)
  assert (PI : exists wv2, for_ (p_input_size c) (p_input_body c p_input cid) wv1 = Some wv2 /\
     length wv2 = length wv1 /\
     (forall w, w < first_input c \/ first_input c + Z.of_nat (p_input_size c) <= w -> rd wv2 w = rd wv1 w) /\
     (forall i, (i < p_input_size c)%nat -> vz wv2 (first_input c + Z.of_nat i) =
        b2z (BN_is_bit_set p_input (Z.of_nat (cid * p_input_size c + i))))).
  { destruct (for_inv (fun i wv => length wv = length wv1 /\
      (forall w, w < first_input c \/ first_input c + Z.of_nat i <= w -> rd wv w = rd wv1 w) /\
      (forall j, (j < i)%nat -> vz wv (first_input c + Z.of_nat j) =
         b2z (BN_is_bit_set p_input (Z.of_nat (cid * p_input_size c + j)))))
      (p_input_size c) (p_input_body c p_input cid) wv1) as (wv2 & E & P1 & P2 & P3).
    - split; [auto|]. split; [auto|]. intros; lia.
    - intros i wv Hi (A1 & A2 & A3). unfold p_input_body. rewrite p_lo.
      destruct (wr_ok wv (first_input c + Z.of_nat i)
        (b2z (BN_is_bit_set p_input (Z.of_nat (cid * p_input_size c + i))))) as [wv' W]; [lia|].
      rewrite W. exists wv'. split; [auto|]. pose proof (wr_length _ _ _ _ W). split; [lia|]. split.
      + intros w Hw. rewrite (rd_wr_other _ _ _ _ _ W) by lia. apply A2; lia.
      + intros j Hj. rewrite (vz_wr _ _ _ _ _ W) by lia.
        destruct (Z.eqb_spec (first_input c + Z.of_nat j) (first_input c + Z.of_nat i)) as [Q|Q].
        * assert (j = i) by lia. subst; auto.
        * apply A3; lia.
    - exists wv2. auto. }
  destruct PI as (wv2 & E2 & M1 & U2 & P2).
  destruct (fill_pair d (get_secret_input_size c) (first_input c + Z.of_nat (p_input_size c))
    getinput (fun i => if reset then Some SECRET else None)
    (s_input_body c reset getinput) wl1 wv2) as (wl3 & wv3 & E3 & N1 & N2 & U3 & S3); try lia.
  { intros i wl wv Hi B1 B2. unfold s_input_body. rewrite g_lo.
    destruct (GN i Hi) as [l El]. rewrite El. cbn [obind owr].
    destruct reset; reflexivity. }
  exists wl3, wv3, ll, lv. split.
  { intros fan0. unfold cycle_prefix. rewrite E1. cbn [obind]. rewrite E2. cbn [obind]. rewrite E3.
    cbn [obind]. reflexivity. }
  split; [lia|]. split; [lia|]. split; [auto|]. split; [auto|]. split; [|split; [|split]].
  - intros j Hj. destruct (D1 j Hj) as [A1 A2].
    destruct (U3 (first_dff c + Z.of_nat j)) as [B1 B2]; [lia|].
    specialize (U2 (first_dff c + Z.of_nat j) ltac:(lia)). split.
    + rewrite vz_lz, (rd_eq_lz 0 wv3 wv1 _) by (congruence || lia). rewrite <- vz_lz. auto.
    + intros l El. rewrite (rd_eq_lz d wl3 wl1 _) by (auto; lia). auto.
  - intros i Hi. destruct (U3 (first_input c + Z.of_nat i)) as [B1 B2]; [lia|].
    rewrite vz_lz, (rd_eq_lz 0 wv3 wv2 _) by (congruence || lia). rewrite <- vz_lz. auto.
  - intros i Hi w. destruct (S3 i Hi) as [B1 B2]. fold w in B1, B2.
    destruct (GN i Hi) as [l El]. rewrite B1, B2, El. split; [auto|].
    destruct reset; cbn [onew]; auto.
    rewrite !vz_lz. unfold w. apply rd_eq_lz; [|lia]. rewrite U2 by lia.
    destruct (U1 (first_input c + Z.of_nat (p_input_size c) + Z.of_nat i)) as [_ Q]; [lia|auto].
  - intros w Hw. destruct (U3 w) as [_ B2]; [lia|]. rewrite B2, U2 by lia.
    apply U1. lia.
Qed.
End Prefix.
