(** First pass of a clock cycle: propagation of known values.  Two runs that
    start from values that agree up to the secret flag end with the same fan-outs
    and gate values. *)
From Coq Require Import ZArith NArith List Bool Lia.
From Verif Require Import Base Gate Circuit Spec Fanout GateFacts GateSim.
Import ListNotations.
Open Scope Z_scope.

(** Two loops in lock step. *)
Lemma for_rel {S1 S2} (Rl : nat -> S1 -> S2 -> Prop) n (b1 : nat -> S1 -> option S1)
    (b2 : nat -> S2 -> option S2) s1 s2 :
  Rl O s1 s2 ->
  (forall i s1 s2, (i < n)%nat -> Rl i s1 s2 ->
     exists s1' s2', b1 i s1 = Some s1' /\ b2 i s2 = Some s2' /\ Rl (S i) s1' s2') ->
  exists s1' s2', for_ n b1 s1 = Some s1' /\ for_ n b2 s2 = Some s2' /\ Rl n s1' s2'.
Proof.
  intros H0 HS. induction n.
  - exists s1, s2; auto.
  - destruct IHn as (t1 & t2 & E1 & E2 & Q); [auto|].
    destruct (HS n t1 t2 ltac:(lia) Q) as (u1 & u2 & F1 & F2 & Q').
    exists u1, u2. rewrite !for_S, E1, E2. auto.
Qed.

(** Total read of a value array. *)
Definition vz (wv : list Z) (w : Z) : Z := fz wv (Z.to_nat w).

Lemma rd_vz wv w : 0 <= w < Z.of_nat (length wv) -> rd wv w = Some (vz wv w).
Proof. apply rd_fz_Z. Qed.
Lemma rd_vz_inv wv w v : rd wv w = Some v -> vz wv w = v.
Proof. intros H. pose proof (rd_bound _ _ _ H). rewrite rd_vz in H by auto. congruence. Qed.
Lemma vz_wr wv w v wv' u :
  wr wv w v = Some wv' -> 0 <= u -> vz wv' u = if u =? w then v else vz wv u.
Proof.
  intros H Hu. unfold vz. rewrite (fz_wr _ _ _ _ _ H).
  rewrite Z2Nat.id by lia. auto.
Qed.

Lemma relV_refl v : relV v v.
Proof. split; auto. Qed.

Lemma known_rel v0 v1 e0 e1 t :
  relV v0 e0 -> relV v1 e1 ->
  GarbleEvalGateKnownValue v0 v1 t = GarbleEvalGateKnownValue e0 e1 t.
Proof.
  intros [A0 B0] [A1 B1]. unfold GarbleEvalGateKnownValue. rewrite A0, A1.
  destruct (IsSecret v0); destruct (IsSecret v1); cbn [negb andb];
    try rewrite (B0 eq_refl); try rewrite (B1 eq_refl); auto.
Qed.

Lemma known_vok v0 v1 t : vok (GarbleEvalGateKnownValue v0 v1 t).
Proof.
  unfold GarbleEvalGateKnownValue, HalfGarbleEvalGateKnownValue.
  destruct (IsSecret v0), (IsSecret v1); cbn [negb andb]; try (left; reflexivity);
    try apply vok_b2z; destruct (half_x _ _ _) as [x0 x1]; destruct (Bool.eqb x0 x1);
    try apply vok_b2z; left; reflexivity.
Qed.

Lemma known_plain v0 v1 t b0 b1 :
  valid_type t ->
  (IsSecret v0 = false -> v0 = b2z b0) ->
  (IsSecret v1 = false -> t <> NOTGATE -> v1 = b2z b1) ->
  IsSecret (GarbleEvalGateKnownValue v0 v1 t) = false ->
  GarbleEvalGateKnownValue v0 v1 t = b2z (GateOperator t b0 b1).
Proof.
  intros Ht H0 H1 HS. unfold GarbleEvalGateKnownValue, HalfGarbleEvalGateKnownValue in *.
  destruct (IsSecret v0) eqn:S0, (IsSecret v1) eqn:S1; cbn [negb andb] in *.
  - discriminate.
  - unfold half_x in *. destruct (Z.eq_dec t NOTGATE) as [->|NN].
    { cbn in HS. discriminate. }
    rewrite (H1 eq_refl NN), z2b_b2z in *.
    destruct (Bool.eqb (GateOperator t false b1) (GateOperator t true b1)) eqn:E; [|discriminate].
    apply eqb_prop in E. f_equal. destruct b0; congruence.
  - unfold half_x in *. rewrite (H0 eq_refl), z2b_b2z in *.
    destruct (Bool.eqb (GateOperator t b0 false) (GateOperator t b0 true)) eqn:E; [|discriminate].
    apply eqb_prop in E. f_equal. destruct b1; congruence.
  - rewrite (H0 eq_refl), z2b_b2z. destruct (Z.eq_dec t NOTGATE) as [->|NN]; [reflexivity|].
    rewrite (H1 eq_refl NN), z2b_b2z. auto.
Qed.

Section Phase1.
Variable c : GarbledCircuit.
Hypothesis WF : well_formed c.
Let gs := garbledGates c.
Let bias := get_gate_lo_index c.

Lemma bias_first_gate : get_gate_lo_index c = first_gate c.
Proof.
  unfold get_gate_lo_index, first_gate, first_dff, first_input, get_init_size, get_input_size, dff_size.
  lia.
Qed.
Lemma wsz_last : wsz c = last_wire c.
Proof.
  rewrite get_wire_size_eq, bias_first_gate. reflexivity.
Qed.
Lemma wsz_gate : wsz c = first_gate c + Z.of_nat (length gs).
Proof. exact wsz_last. Qed.
Lemma first_input_nonneg : 0 <= first_input c.
Proof. unfold first_input; lia. Qed.
Lemma first_order : first_input c <= first_dff c /\ first_dff c <= first_gate c.
Proof. unfold first_gate, first_dff; lia. Qed.

Lemma wf_topo : topo gs bias.
Proof.
  intros k g H. destruct (wf_gate c WF k g H) as (_ & _ & [A _] & [B _]).
  unfold bias. rewrite bias_first_gate. lia.
Qed.

Lemma wf_valid_type i g : nth_error gs i = Some g -> valid_type (type g).
Proof.
  intros H. destruct (wf_gate c WF i g H) as (_ & [f E] & _). eapply bool_fun_valid; eauto.
Qed.

(** Public gates. *)
Definition pub (wv : list Z) (k : nat) : bool := negb (IsSecret (vz wv (bias + Z.of_nat k))).

(** What is read for a reference. *)
Definition oval (wv : list Z) (idx : Z) : Z :=
  if idx =? CONST_ZERO then 0 else if idx =? CONST_ONE then 1
  else if (0 <=? idx) && (idx <? wsz c) then vz wv idx else 0.
Definition oval1 (wv : list Z) (t idx : Z) : Z :=
  if idx =? CONST_ZERO then 0 else if idx =? CONST_ONE then 1
  else if (0 <=? idx) && (idx <? wsz c) then vz wv idx
  else if negb (t =? NOTGATE) then 0 else SECRET.

Lemma val0_oval wv idx : Z.of_nat (length wv) = wsz c -> val0 c wv idx = Some (oval wv idx).
Proof.
  intros H. unfold val0, oval. destruct (idx =? CONST_ZERO), (idx =? CONST_ONE); auto.
  destruct ((0 <=? idx) && (idx <? wsz c)) eqn:E; auto.
  apply andb_true_iff in E as [E1 E2]. apply Z.leb_le in E1. apply Z.ltb_lt in E2.
  apply rd_vz; lia.
Qed.
Lemma val1_oval wv t idx : Z.of_nat (length wv) = wsz c -> val1 c wv t idx = Some (oval1 wv t idx).
Proof.
  intros H. unfold val1, oval1. destruct (idx =? CONST_ZERO), (idx =? CONST_ONE); auto.
  destruct ((0 <=? idx) && (idx <? wsz c)) eqn:E.
  - apply andb_true_iff in E as [E1 E2]. apply Z.leb_le in E1. apply Z.ltb_lt in E2.
    apply rd_vz; lia.
  - destruct (negb _); auto.
Qed.

Lemma oval_wire wv w : 0 <= w < wsz c -> oval wv w = vz wv w.
Proof.
  intros. unfold oval, CONST_ZERO, CONST_ONE.
  destruct (Z.eqb_spec w (-2)); [lia|]. destruct (Z.eqb_spec w (-3)); [lia|].
  replace ((0 <=? w) && (w <? wsz c)) with true; auto.
  symmetry. apply andb_true_iff; split; [apply Z.leb_le|apply Z.ltb_lt]; lia.
Qed.
Lemma oval1_wire wv t w : 0 <= w < wsz c -> oval1 wv t w = vz wv w.
Proof.
  intros. unfold oval1, CONST_ZERO, CONST_ONE.
  destruct (Z.eqb_spec w (-2)); [lia|]. destruct (Z.eqb_spec w (-3)); [lia|].
  replace ((0 <=? w) && (w <? wsz c)) with true; auto.
  symmetry. apply andb_true_iff; split; [apply Z.leb_le|apply Z.ltb_lt]; lia.
Qed.
Lemma oval_neg wv w V : w < 0 -> oval wv w = b2z (operand V w).
Proof.
  intros. unfold oval, operand, CONST_ZERO, CONST_ONE.
  destruct (Z.eqb_spec w (-2)) as [->|]; auto. destruct (Z.eqb_spec w (-3)); auto.
  destruct (Z.leb_spec 0 w); [lia|]. destruct (Z.ltb_spec w 0); [|lia]. auto.
Qed.
Lemma oval1_neg wv t w V : w < 0 -> t <> NOTGATE -> oval1 wv t w = b2z (operand V w).
Proof.
  intros. unfold oval1, operand, CONST_ZERO, CONST_ONE.
  destruct (Z.eqb_spec w (-2)) as [->|]; auto. destruct (Z.eqb_spec w (-3)); auto.
  destruct (Z.leb_spec 0 w); [lia|]. destruct (Z.ltb_spec w 0); [|lia].
  cbn [andb]. destruct (Z.eqb_spec t NOTGATE); [congruence|]. auto.
Qed.
(** Independent of the array for negative references. *)
Lemma oval1_neg_same wv wv' t w : w < 0 -> oval1 wv t w = oval1 wv' t w.
Proof.
  intros. unfold oval1. destruct (Z.eqb w CONST_ZERO); auto. destruct (Z.eqb w CONST_ONE); auto.
  destruct (Z.leb_spec 0 w); [lia|]. auto.
Qed.
Lemma oval1_neg_vok wv t w : w < 0 -> vok (oval1 wv t w).
Proof.
  intros. unfold oval1, vok. destruct (Z.eqb w CONST_ZERO); auto. destruct (Z.eqb w CONST_ONE); auto.
  destruct (Z.leb_spec 0 w); [lia|]. cbn [andb]. destruct (negb _); auto.
Qed.

(** * drop_uses *)
Lemma live_uses_drop bnd bnd' fan fan' i w :
  (i < length gs)%nat -> live bnd fan i = true -> live bnd' fan' i = false ->
  (forall j, j <> i -> live bnd' fan' j = live bnd fan j) ->
  live_uses gs bnd' fan' w = live_uses gs bnd fan w - juse gs i w.
Proof.
  intros Hi H1 H2 H3. unfold live_uses.
  rewrite (sumf_change _ (fun j => if live bnd fan j then juse gs j w else 0) _ i); auto.
  - rewrite H1, H2. lia.
  - intros j Hj. now rewrite H3.
Qed.

Definition ext := ext_uses c.

Lemma ReduceFanout_ok fan wid :
  length fan = length gs ->
  exists fan', ReduceFanout c fan wid = Some fan' /\ length fan' = length gs /\
    (forall k, fz fan' k <= fz fan k) /\ (forall k, 0 <= fz fan k -> 0 <= fz fan' k).
Proof.
  intros HL. unfold ReduceFanout. fold gs bias.
  destruct (reduce_total gs bias (S (Z.to_nat (posum fan))) fan wid HL) as (fan' & E & L & _ & M & N);
    [lia|]. exists fan'. repeat split; auto. lia.
Qed.

Lemma drop_uses_total g i v0 v1 fan :
  length fan = length gs -> (i < length gs)%nat -> 0 <= fz fan i ->
  exists fan', drop_uses c g i v0 v1 fan = Some fan' /\ length fan' = length gs /\
    (forall k, fz fan' k <= fz fan k) /\ (forall k, 0 <= fz fan k -> 0 <= fz fan' k).
Proof.
  intros HL Hi H0. unfold drop_uses.
  destruct (wr_ok fan (Z.of_nat i) 0) as [fan1 W]; [lia|]. rewrite W. cbn [obind].
  pose proof (wr_length _ _ _ _ W) as L1.
  assert (M1 : forall k, fz fan1 k <= fz fan k /\ (0 <= fz fan k -> 0 <= fz fan1 k)).
  { intros k. rewrite (fz_wr _ _ _ _ _ W). destruct (Z.eqb_spec (Z.of_nat k) (Z.of_nat i)) as [e|]; [|lia].
    assert (k = i) by lia. subst. lia. }
  assert (exists fan2, (if IsSecret v0 then ReduceFanout c fan1 (input0 g) else Some fan1) = Some fan2 /\
     length fan2 = length gs /\ (forall k, fz fan2 k <= fz fan1 k) /\
     (forall k, 0 <= fz fan1 k -> 0 <= fz fan2 k)) as (fan2 & E2 & L2 & M2 & N2).
  { destruct (IsSecret v0); [apply ReduceFanout_ok; lia|].
    exists fan1. split; [auto|]. split; [lia|]. split; intros; lia. }
  rewrite E2. cbn [obind].
  assert (exists fan3, (if IsSecret v1 then ReduceFanout c fan2 (input1 g) else Some fan2) = Some fan3 /\
     length fan3 = length gs /\ (forall k, fz fan3 k <= fz fan2 k) /\
     (forall k, 0 <= fz fan2 k -> 0 <= fz fan3 k)) as (fan3 & E3 & L3 & M3 & N3).
  { destruct (IsSecret v1); [apply ReduceFanout_ok; lia|].
    exists fan2. split; [auto|]. split; [lia|]. split; intros; lia. }
  exists fan3. split; [auto|]. split; [auto|]. split.
  - intros k. specialize (M1 k). specialize (M2 k). specialize (M3 k). lia.
  - intros k Hk. apply N3, N2, M1; auto.
Qed.

Lemma drop_uses_FI bnd pb g i v0 v1 fan fan' :
  (bnd <= length gs)%nat -> (i < bnd)%nat -> nth_error gs i = Some g ->
  length fan = length gs ->
  pb i = true ->
  (forall k, (k < bnd)%nat -> k <> i -> pb k = true -> fz fan k = 0) ->
  (IsSecret v0 = false -> forall k, (k < bnd)%nat -> pb k = false -> input0 g <> bias + Z.of_nat k) ->
  (IsSecret v1 = false -> forall k, (k < bnd)%nat -> pb k = false -> input1 g <> bias + Z.of_nat k) ->
  (forall fan1, wr fan (Z.of_nat i) 0 = Some fan1 ->
     forall k, (k < bnd)%nat -> pb k = false ->
     live_uses gs bnd fan1 (bias + Z.of_nat k) + gate_uses g (bias + Z.of_nat k) + ext k <= fz fan k) ->
  drop_uses c g i v0 v1 fan = Some fan' ->
  FI gs bias bnd pb ext fan' (fun _ => 0) /\
  (forall k, (k < bnd)%nat -> pb k = true -> fz fan' k = 0).
Proof.
  intros HB Hi Hg HL Pi PZ N0 N1 HF HD. unfold drop_uses in HD.
  destruct (wf_topo i g Hg) as [T0 T1].
  bnd HD. rename x into fan1. rename H into W.
  pose proof (wr_length _ _ _ _ W) as L1.
  specialize (HF fan1 W).
  assert (PZ1 : forall k, (k < bnd)%nat -> pb k = true -> fz fan1 k = 0).
  { intros k Hk Pk. destruct (Nat.eq_dec k i) as [->|].
    - eapply fz_wr_same; eauto.
    - rewrite (fz_wr_other _ _ _ _ _ W); auto. }
  assert (F1 : FI gs bias bnd pb ext fan1 (fun k => is_ref (input1 g) (bias + Z.of_nat k)
                                        + is_ref (input0 g) (bias + Z.of_nat k))).
  { intros k Hk Pk. specialize (HF k Hk Pk). unfold gate_uses in HF.
    assert (k <> i) by congruence.
    rewrite (fz_wr_other _ _ _ _ _ W) by auto. lia. }
  bnd HD. rename x into fan2. rename H into E2.
  assert (FI gs bias bnd pb ext fan2 (fun k => is_ref (input1 g) (bias + Z.of_nat k)) /\
          (forall k, (k < bnd)%nat -> pb k = true -> fz fan2 k = 0) /\ length fan2 = length gs)
    as (F2 & PZ2 & L2).
  { destruct (IsSecret v0) eqn:S0.
    - eapply (reduce_FI gs bias bnd pb ext _ wf_topo HB (ext_uses_nonneg c)
        fan1 (input0 g) (fun k => is_ref (input1 g) (bias + Z.of_nat k))).
      + lia.
      + intros k. apply is_ref_nonneg.
      + exact PZ1.
      + lia.
      + exact F1.
      + exact E2.
    - inv E2. split; [|split; [auto|lia]]. eapply FI_weaken; [|exact F1].
      intros k Hk Pk. cbv beta. rewrite (is_ref_diff (input0 g)); [lia|]. apply N0; auto. }
  destruct (IsSecret v1) eqn:S1.
  - assert (F2' : FI gs bias bnd pb ext fan2 (fun k => 0 + is_ref (input1 g) (bias + Z.of_nat k))).
    { eapply FI_weaken; [|exact F2]. intros. cbv beta. lia. }
    unfold ReduceFanout in HD. fold gs bias in HD.
    destruct (reduce_FI gs bias bnd pb ext _ wf_topo HB (ext_uses_nonneg c)
        fan2 (input1 g) (fun _ => 0) fan' L2 (fun _ => Z.le_refl 0) PZ2 ltac:(lia) F2' HD)
      as (F3 & PZ3 & _); auto.
  - inv HD. split; [|auto]. eapply FI_weaken; [|exact F2].
    intros k Hk Pk. cbv beta. rewrite (is_ref_diff (input1 g)); [lia|]. apply N1; auto.
Qed.

Lemma drop_uses_agree bnd g i v0 v1 e0 e1 fan1 fan2 r1 r2 :
  (bnd <= length gs)%nat -> (i < bnd)%nat -> nth_error gs i = Some g ->
  length fan1 = length gs -> length fan2 = length gs ->
  (forall k, (k < bnd)%nat -> fz fan1 k = fz fan2 k) ->
  IsSecret v0 = IsSecret e0 -> IsSecret v1 = IsSecret e1 ->
  drop_uses c g i v0 v1 fan1 = Some r1 -> drop_uses c g i e0 e1 fan2 = Some r2 ->
  (forall k, (k < bnd)%nat -> fz r1 k = fz r2 k).
Proof.
  intros HB Hi Hg L1 L2 HA S0 S1 D1 D2. unfold drop_uses in *. rewrite <- S0, <- S1 in D2.
  destruct (wf_topo i g Hg) as [T0 T1].
  bnd D1. bnd D2. rename x into a1, x0 into a2, H into W1, H0 into W2.
  pose proof (wr_length _ _ _ _ W1). pose proof (wr_length _ _ _ _ W2).
  assert (A : forall k, (k < bnd)%nat -> fz a1 k = fz a2 k).
  { intros k Hk. rewrite (fz_wr _ _ _ _ _ W1), (fz_wr _ _ _ _ _ W2).
    destruct (Z.of_nat k =? Z.of_nat i); auto. }
  bnd D1. bnd D2. rename x into b1, x0 into b2, H1 into E1, H2 into E2.
  assert (length b1 = length gs /\ length b2 = length gs /\
          forall k, (k < bnd)%nat -> fz b1 k = fz b2 k) as (Lb1 & Lb2 & B).
  { destruct (IsSecret v0).
    - unfold ReduceFanout in E1, E2.
      eapply (reduce_agree gs bias bnd _ wf_topo HB _ a1 a2); [| | | |exact E1|exact E2]; auto; lia.
    - inv E1. inv E2. repeat split; auto; lia. }
  destruct (IsSecret v1).
  - unfold ReduceFanout in D1, D2.
    eapply (reduce_agree gs bias bnd _ wf_topo HB _ b1 b2); [| | | |exact D1|exact D2]; auto; lia.
  - inv D1. inv D2. auto.
Qed.

(** * The pass *)
Variable V : Z -> bool.
Definition okval (wv : list Z) (w : Z) : Prop :=
  vok (vz wv w) /\ (IsSecret (vz wv w) = false -> vz wv w = b2z (V w)).

Record krel (wv1_0 wv2_0 : list Z) (i : nat) (s1 s2 : list Z * list Z) : Prop := {
  k_l1 : Z.of_nat (length (fst s1)) = wsz c;
  k_l2 : Z.of_nat (length (fst s2)) = wsz c;
  k_f1 : length (snd s1) = length gs;
  k_f2 : length (snd s2) = length gs;
  k_rel : forall w, first_input c <= w < first_gate c -> relV (vz (fst s1) w) (vz (fst s2) w);
  k_eq : forall k, (k < i)%nat -> vz (fst s1) (bias + Z.of_nat k) = vz (fst s2) (bias + Z.of_nat k);
  k_ok : forall w, first_input c <= w < first_gate c + Z.of_nat i -> okval (fst s1) w;
  k_fan : forall k, (k < i)%nat -> fz (snd s1) k = fz (snd s2) k;
  k_pos : forall k, (k < i)%nat -> 0 <= fz (snd s1) k;
  k_FI : FI gs bias i (pub (fst s1)) ext (snd s1) (fun _ => 0);
  k_PZ : forall k, (k < i)%nat -> pub (fst s1) k = true -> fz (snd s1) k = 0;
  k_u1 : forall w, w < first_gate c -> rd (fst s1) w = rd wv1_0 w;
  k_u2 : forall w, w < first_gate c -> rd (fst s2) w = rd wv2_0 w }.

Lemma relV_oval i wv1 wv2 idx :
  (i <= length gs)%nat ->
  (forall w, first_input c <= w < first_gate c -> relV (vz wv1 w) (vz wv2 w)) ->
  (forall k, (k < i)%nat -> vz wv1 (bias + Z.of_nat k) = vz wv2 (bias + Z.of_nat k)) ->
  ref_ok c (first_gate c + Z.of_nat i) idx ->
  relV (oval wv1 idx) (oval wv2 idx).
Proof.
  intros Hi HR HE [A B]. destruct B as [B|B].
  - rewrite (oval_neg wv1 idx (fun _ => false)), (oval_neg wv2 idx (fun _ => false)) by auto.
    apply relV_refl.
  - pose proof first_input_nonneg. pose proof wsz_gate.
    rewrite !oval_wire by lia.
    destruct (Z_lt_le_dec idx (first_gate c)); [apply HR; lia|].
    replace idx with (bias + Z.of_nat (Z.to_nat (idx - bias)))
      by (unfold bias; rewrite bias_first_gate; lia).
    rewrite HE; [apply relV_refl|]. unfold bias. rewrite bias_first_gate. lia.
Qed.
Lemma relV_oval1 i wv1 wv2 t idx :
  (i <= length gs)%nat ->
  (forall w, first_input c <= w < first_gate c -> relV (vz wv1 w) (vz wv2 w)) ->
  (forall k, (k < i)%nat -> vz wv1 (bias + Z.of_nat k) = vz wv2 (bias + Z.of_nat k)) ->
  ref_ok c (first_gate c + Z.of_nat i) idx ->
  relV (oval1 wv1 t idx) (oval1 wv2 t idx).
Proof.
  intros Hi HR HE HO. destruct (Z_lt_le_dec idx 0) as [B|B].
  - rewrite (oval1_neg_same wv1 wv2) by auto. apply relV_refl.
  - pose proof (relV_oval i wv1 wv2 idx Hi HR HE HO) as Q.
    pose proof first_input_nonneg. pose proof wsz_gate.
    destruct HO. rewrite !oval1_wire by lia. rewrite !oval_wire in Q by lia. auto.
Qed.

Lemma ok_oval i wv idx :
  (i <= length gs)%nat ->
  (forall w, first_input c <= w < first_gate c + Z.of_nat i -> okval wv w) ->
  ref_ok c (first_gate c + Z.of_nat i) idx ->
  vok (oval wv idx) /\ (IsSecret (oval wv idx) = false -> oval wv idx = b2z (operand V idx)).
Proof.
  intros Hi HK [A [B|B]].
  - rewrite (oval_neg wv idx V) by auto. split; auto. apply vok_b2z.
  - pose proof first_input_nonneg. pose proof wsz_gate.
    rewrite !oval_wire by lia. unfold operand.
    destruct (Z.eqb_spec idx (-3)); [lia|]. destruct (Z.ltb_spec idx 0); [lia|].
    apply HK. lia.
Qed.
Lemma ok_oval1 i wv t idx :
  (i <= length gs)%nat ->
  (forall w, first_input c <= w < first_gate c + Z.of_nat i -> okval wv w) ->
  ref_ok c (first_gate c + Z.of_nat i) idx ->
  vok (oval1 wv t idx) /\
  (IsSecret (oval1 wv t idx) = false -> t <> NOTGATE -> oval1 wv t idx = b2z (operand V idx)).
Proof.
  intros Hi HK HO. destruct (Z_lt_le_dec idx 0) as [B|B].
  - split; [apply oval1_neg_vok; auto|]. intros _ NN. apply oval1_neg; auto.
  - destruct (ok_oval i wv idx Hi HK HO) as [Q1 Q2].
    pose proof first_input_nonneg. pose proof wsz_gate.
    destruct HO. rewrite oval1_wire by lia. rewrite oval_wire in Q1, Q2 by lia. auto.
Qed.

(** A public input is not a secret gate. *)
Lemma public_ref0 i wv idx k :
  (i <= length gs)%nat -> ref_ok c (first_gate c + Z.of_nat i) idx ->
  IsSecret (oval wv idx) = false -> pub wv k = false -> idx <> bias + Z.of_nat k.
Proof.
  intros Hi [A B] HS HP E. unfold pub in HP. rewrite <- E in HP.
  pose proof first_input_nonneg. pose proof wsz_gate.
  pose proof bias_first_gate as BG. fold bias in BG. pose proof first_order.
  rewrite oval_wire in HS by lia. rewrite HS in HP. discriminate.
Qed.
Lemma public_ref1 i wv t idx k :
  (i <= length gs)%nat -> ref_ok c (first_gate c + Z.of_nat i) idx ->
  IsSecret (oval1 wv t idx) = false -> pub wv k = false -> idx <> bias + Z.of_nat k.
Proof.
  intros Hi [A B] HS HP E. unfold pub in HP. rewrite <- E in HP.
  pose proof first_input_nonneg. pose proof wsz_gate.
  pose proof bias_first_gate as BG. fold bias in BG. pose proof first_order.
  rewrite oval1_wire in HS by lia. rewrite HS in HP. discriminate.
Qed.

Lemma pub_wr_other wv i v wv' k :
  wr wv (bias + Z.of_nat i) v = Some wv' -> k <> i -> pub wv' k = pub wv k.
Proof.
  intros W N. unfold pub. rewrite (vz_wr _ _ _ _ _ W).
  2:{ unfold bias. rewrite bias_first_gate. pose proof first_order. pose proof first_input_nonneg. lia. }
  destruct (Z.eqb_spec (bias + Z.of_nat k) (bias + Z.of_nat i)); auto. lia.
Qed.
Lemma pub_wr_same wv i v wv' :
  wr wv (bias + Z.of_nat i) v = Some wv' -> pub wv' i = negb (IsSecret v).
Proof.
  intros W. unfold pub. rewrite (vz_wr _ _ _ _ _ W).
  2:{ unfold bias. rewrite bias_first_gate. pose proof first_order. pose proof first_input_nonneg. lia. }
  now rewrite Z.eqb_refl.
Qed.

Variable fan0 : list Z.
Hypothesis F0len : length fan0 = length gs.
Hypothesis F0 : forall k, (k < length gs)%nat -> fz fan0 k = total_uses c k.
Hypothesis HV : forall i g, nth_error gs i = Some g ->
  V (first_gate c + Z.of_nat i) = GateOperator (type g) (operand V (input0 g)) (operand V (input1 g)).

Lemma fan0_nonneg k : (k < length gs)%nat -> 0 <= fz fan0 k.
Proof.
  intros H. rewrite F0 by auto. unfold total_uses.
  pose proof (ext_uses_nonneg c k).
  pose proof (sumf_nonneg (fun j => juse (garbledGates c) j (get_gate_lo_index c + Z.of_nat k)) (gate_size c)
    ltac:(intros; apply juse_nonneg)). lia.
Qed.

Lemma known_step wv10 wv20 i s1 s2 :
  (i < length gs)%nat -> krel wv10 wv20 i s1 s2 ->
  exists s1' s2', known_body c fan0 i s1 = Some s1' /\ known_body c fan0 i s2 = Some s2' /\
    krel wv10 wv20 (S i) s1' s2'.
Proof.
  intros Hi K. destruct s1 as [wv1 fan1], s2 as [wv2 fan2].
  destruct K as [l1 l2 f1 f2 rel eq ok fan pos fi pz u1 u2]. cbn [fst snd] in *.
  destruct (nth_error gs i) as [g|] eqn:Hg; [|apply nth_error_None in Hg; lia].
  destruct (wf_gate c WF i g Hg) as (HO & [f HT] & R0 & R1).
  pose proof (wf_valid_type i g Hg) as VT.
  pose proof first_input_nonneg as FN. pose proof wsz_gate as WL.
  pose proof bias_first_gate as BG. fold bias in BG. pose proof first_order as FO.
  unfold known_body. rewrite (rd_fz_ok fan0) by lia. cbn [obind].
  destruct (wr_ok fan1 (Z.of_nat i) (fz fan0 i)) as [fa1 W1]; [lia|].
  destruct (wr_ok fan2 (Z.of_nat i) (fz fan0 i)) as [fa2 W2]; [lia|].
  rewrite W1, W2. cbn [obind]. rewrite rd_nat. fold gs. rewrite Hg. cbn [obind].
  rewrite !val0_oval, !val1_oval by auto. cbn [obind].
  pose proof (relV_oval i wv1 wv2 (input0 g) ltac:(lia) rel eq R0) as RV0.
  pose proof (relV_oval1 i wv1 wv2 (type g) (input1 g) ltac:(lia) rel eq R1) as RV1.
  destruct (ok_oval i wv1 (input0 g) ltac:(lia) ok R0) as [OK0 OP0].
  destruct (ok_oval1 i wv1 (type g) (input1 g) ltac:(lia) ok R1) as [OK1 OP1].
  pose proof (fun k => public_ref0 i wv1 (input0 g) k ltac:(lia) R0) as PR0.
  pose proof (fun k => public_ref1 i wv1 (type g) (input1 g) k ltac:(lia) R1) as PR1.
  set (v0 := oval wv1 (input0 g)) in *. set (v1 := oval1 wv1 (type g) (input1 g)) in *.
  set (e0 := oval wv2 (input0 g)) in *. set (e1 := oval1 wv2 (type g) (input1 g)) in *.
  rewrite <- (known_rel v0 v1 e0 e1 (type g) RV0 RV1).
  pose proof (known_vok v0 v1 (type g)) as VK.
  pose proof (known_plain v0 v1 (type g) (operand V (input0 g)) (operand V (input1 g)) VT OP0 OP1) as KP.
  rewrite <- (HV i g Hg) in KP.
  set (v := GarbleEvalGateKnownValue v0 v1 (type g)) in *.
  rewrite HO. rewrite <- BG.
  destruct (wr_ok wv1 (bias + Z.of_nat i) v) as [wa1 X1]; [lia|].
  destruct (wr_ok wv2 (bias + Z.of_nat i) v) as [wa2 X2]; [lia|].
  rewrite X1, X2. cbn [obind].
  pose proof (wr_length _ _ _ _ W1) as LW1. pose proof (wr_length _ _ _ _ W2) as LW2.
  pose proof (wr_length _ _ _ _ X1) as LX1. pose proof (wr_length _ _ _ _ X2) as LX2.
  assert (vz1 : forall w, 0 <= w -> vz wa1 w = if w =? bias + Z.of_nat i then v else vz wv1 w)
    by (intros; eapply vz_wr; eauto).
  assert (vz2 : forall w, 0 <= w -> vz wa2 w = if w =? bias + Z.of_nat i then v else vz wv2 w)
    by (intros; eapply vz_wr; eauto).
  assert (ok' : forall w, first_input c <= w < first_gate c + Z.of_nat (S i) -> okval wa1 w).
  { intros w Hw. unfold okval. rewrite vz1 by lia.
    destruct (Z.eqb_spec w (bias + Z.of_nat i)) as [->|N]; [rewrite <- BG in KP; auto|].
    apply ok. lia. }
  assert (rel' : forall w, first_input c <= w < first_gate c -> relV (vz wa1 w) (vz wa2 w)).
  { intros w Hw. rewrite vz1, vz2 by lia. destruct (Z.eqb_spec w (bias + Z.of_nat i)); [lia|].
    apply rel; auto. }
  assert (eq' : forall k, (k < S i)%nat -> vz wa1 (bias + Z.of_nat k) = vz wa2 (bias + Z.of_nat k)).
  { intros k Hk. rewrite vz1, vz2 by lia.
    destruct (Z.eqb_spec (bias + Z.of_nat k) (bias + Z.of_nat i)); auto. apply eq. lia. }
  assert (u1' : forall w, w < first_gate c -> rd wa1 w = rd wv10 w).
  { intros w Hw. rewrite (rd_wr_other _ _ _ _ _ X1) by lia. auto. }
  assert (u2' : forall w, w < first_gate c -> rd wa2 w = rd wv20 w).
  { intros w Hw. rewrite (rd_wr_other _ _ _ _ _ X2) by lia. auto. }
  assert (fz1 : forall k, fz fa1 k = if Z.of_nat k =? Z.of_nat i then fz fan0 i else fz fan1 k)
    by (intros; eapply fz_wr; eauto).
  assert (fan' : forall k, (k < S i)%nat -> fz fa1 k = fz fa2 k).
  { intros k Hk. rewrite fz1, (fz_wr _ _ _ _ _ W2).
    destruct (Z.eqb_spec (Z.of_nat k) (Z.of_nat i)); auto. apply fan. lia. }
  assert (pos' : forall k, (k < S i)%nat -> 0 <= fz fa1 k).
  { intros k Hk. rewrite fz1. destruct (Z.eqb_spec (Z.of_nat k) (Z.of_nat i)).
    - apply fan0_nonneg; auto.
    - apply pos; lia. }
  destruct (IsSecret v) eqn:SV; cbn [negb].
  - (* still secret *)
    exists (wa1, fa1), (wa2, fa2). split; [auto|]. split; [auto|].
    split; cbn [fst snd]; auto; try lia.
    + intros k Hk Pk. destruct (Nat.eq_dec k i) as [->|N].
      * rewrite (fz_wr_same _ _ _ _ W1), F0 by auto. unfold total_uses, ext.
        assert (live_uses gs (S i) fa1 (bias + Z.of_nat i) <=
          sumf (fun j => juse (garbledGates c) j (get_gate_lo_index c + Z.of_nat i)) (gate_size c)); [|lia].
        apply sumf_le. intros j Hj. pose proof (juse_nonneg gs j (bias + Z.of_nat i)).
        unfold bias, gs in *. destruct (live _ _ _); lia.
      * rewrite (fz_wr_other _ _ _ _ _ W1) by auto.
        specialize (fi k ltac:(lia)). rewrite (pub_wr_other _ _ _ _ _ X1 N) in Pk.
        specialize (fi Pk). cbv beta in fi |- *.
        assert (live_uses gs (S i) fa1 (bias + Z.of_nat k) <= live_uses gs i fan1 (bias + Z.of_nat k)); [|lia].
        apply sumf_le. intros j Hj. pose proof (juse_nonneg gs j (bias + Z.of_nat k)).
        unfold live. destruct (Nat.eq_dec j i) as [->|Nj].
        -- rewrite Nat.leb_refl. cbn [orb]. destruct (_ || _); lia.
        -- rewrite (fz_wr_other _ _ _ _ _ W1) by auto.
           destruct (Nat.leb_spec (S i) j), (Nat.leb_spec i j); try lia; cbn [orb];
             destruct (0 <? fz fan1 j); lia.
    + intros k Hk Pk. destruct (Nat.eq_dec k i) as [->|N].
      * rewrite (pub_wr_same _ _ _ _ X1), SV in Pk. discriminate.
      * rewrite (fz_wr_other _ _ _ _ _ W1) by auto.
        rewrite (pub_wr_other _ _ _ _ _ X1 N) in Pk. apply pz; auto; lia.
  - (* became public *)
    destruct (drop_uses_total g i v0 v1 fa1) as (r1 & D1 & DL1 & DM1 & DN1); [lia|auto|apply pos'; lia|].
    destruct (drop_uses_total g i e0 e1 fa2) as (r2 & D2 & DL2 & _ & _);
      [lia|auto|rewrite <- fan' by lia; apply pos'; lia|].
    rewrite D1, D2. cbn [obind].
    exists (wa1, r1), (wa2, r2). split; [auto|]. split; [auto|].
    assert (FIr : FI gs bias (S i) (pub wa1) ext r1 (fun _ => 0) /\
      (forall k, (k < S i)%nat -> pub wa1 k = true -> fz r1 k = 0)).
    { eapply (drop_uses_FI (S i) (pub wa1) g i v0 v1 fa1 r1); auto; try lia.
      - rewrite (pub_wr_same _ _ _ _ X1), SV. auto.
      - intros k Hk N Pk. rewrite (fz_wr_other _ _ _ _ _ W1) by auto.
        rewrite (pub_wr_other _ _ _ _ _ X1 N) in Pk. apply pz; auto; lia.
      - intros HS k Hk Pk. destruct (Nat.eq_dec k i) as [->|N].
        { destruct R0. lia. }
        rewrite (pub_wr_other _ _ _ _ _ X1 N) in Pk. apply PR0; auto.
      - intros HS k Hk Pk. destruct (Nat.eq_dec k i) as [->|N].
        { destruct R1. lia. }
        rewrite (pub_wr_other _ _ _ _ _ X1 N) in Pk. apply PR1; auto.
      - intros fb Wb k Hk Pk. destruct (Nat.eq_dec k i) as [->|N].
        { rewrite (pub_wr_same _ _ _ _ X1), SV in Pk. discriminate. }
        rewrite (pub_wr_other _ _ _ _ _ X1 N) in Pk.
        rewrite (fz_wr_other _ _ _ _ _ W1) by auto.
        specialize (fi k ltac:(lia) Pk). cbv beta in fi.
        rewrite (live_uses_drop i (S i) fan1 fb i); auto; try lia.
        + unfold juse. rewrite Hg. lia.
        + unfold live. rewrite Nat.leb_refl. auto.
        + unfold live. rewrite (fz_wr_same _ _ _ _ Wb).
          destruct (Nat.leb_spec (S i) i); [lia|auto].
        + intros j Hj. unfold live. rewrite (fz_wr_other _ _ _ _ _ Wb) by auto.
          rewrite (fz_wr_other _ _ _ _ _ W1) by auto.
          destruct (Nat.leb_spec (S i) j), (Nat.leb_spec i j); auto; lia. }
    destruct FIr as [FIr PZr].
    split; cbn [fst snd]; auto; try lia.
    intros k Hk. eapply (drop_uses_agree (S i) g i v0 v1 e0 e1 fa1 fa2 r1 r2); eauto; try lia.
      + symmetry; apply RV0.
      + symmetry; apply RV1.
Qed.

Theorem known_pass wv1 wv2 fan1 fan2 :
  Z.of_nat (length wv1) = wsz c -> Z.of_nat (length wv2) = wsz c ->
  length fan1 = length gs -> length fan2 = length gs ->
  (forall w, first_input c <= w < first_gate c -> relV (vz wv1 w) (vz wv2 w)) ->
  (forall w, first_input c <= w < first_gate c -> okval wv1 w) ->
  exists s1 s2, for_ (gate_size c) (known_body c fan0) (wv1, fan1) = Some s1 /\
    for_ (gate_size c) (known_body c fan0) (wv2, fan2) = Some s2 /\
    krel wv1 wv2 (length gs) s1 s2.
Proof.
  intros l1 l2 f1 f2 HR HK. unfold gate_size. fold gs.
  apply (for_rel (krel wv1 wv2)).
  - split; cbn [fst snd]; auto; try (intros; lia).
    + intros w Hw. apply HK. lia.
    + intros k Hk. lia.
  - intros i s1 s2 Hi K. apply known_step; auto.
Qed.

End Phase1.
