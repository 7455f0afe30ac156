(** Second pass of a clock cycle: the garbler follows the symbolic run. *)
From Coq Require Import ZArith NArith List Bool Lia.
From Verif Require Import Base Gate Circuit Spec Fanout GateFacts GateSim Phase1.
Import ListNotations.
Open Scope Z_scope.

Lemma for_later {S} (Q : S -> Prop) i n (b : nat -> S -> option S) s si sn :
  for_ i b s = Some si -> for_ n b s = Some sn -> (i <= n)%nat -> Q si ->
  (forall m t t', (i <= m < n)%nat -> Q t -> b m t = Some t' -> Q t') -> Q sn.
Proof.
  intros Ei En Hi Q0 HQ. revert sn En. induction n; intros sn En.
  - assert (i = 0)%nat by lia. subst. congruence.
  - destruct (Nat.eq_dec i (Datatypes.S n)) as [->|]; [congruence|].
    rewrite for_S in En. bnd En. eapply (HQ n x); [lia| |exact En].
    eapply IHn; eauto; [lia|]. intros m t t' Hm. apply HQ. lia.
Qed.

Lemma for_prefix {S} i n (b : nat -> S -> option S) s sn :
  for_ n b s = Some sn -> (i <= n)%nat -> exists si, for_ i b s = Some si.
Proof.
  revert sn. induction n; intros sn E Hi.
  - assert (i = 0)%nat by lia. subst. eauto.
  - destruct (Nat.eq_dec i (Datatypes.S n)) as [->|]; [eauto|].
    rewrite for_S in E. bnd E. eapply IHn; eauto. lia.
Qed.

(** Total read of a label array. *)
Definition lz {L} (d : L) (wl : list L) (w : Z) : L := nth (Z.to_nat w) wl d.

Lemma rd_lz {L} (d : L) wl w : 0 <= w < Z.of_nat (length wl) -> rd wl w = Some (lz d wl w).
Proof.
  intros. unfold rd, lz. destruct (Z.ltb_spec w 0); [lia|]. apply nth_error_nth'. lia.
Qed.
Lemma rd_lz_inv {L} (d : L) wl w l : rd wl w = Some l -> lz d wl w = l.
Proof. intros H. pose proof (rd_bound _ _ _ H). rewrite (rd_lz d) in H by auto. congruence. Qed.
Lemma lz_wr {L} (d : L) wl w l wl' u :
  wr wl w l = Some wl' -> 0 <= u < Z.of_nat (length wl) ->
  lz d wl' u = if u =? w then l else lz d wl u.
Proof.
  intros H Hu. apply (rd_lz_inv d). rewrite (rd_wr _ _ _ _ _ H).
  destruct (u =? w); auto. apply rd_lz; auto.
Qed.

Definition nnx (gs : list GarbledGate) (i : nat) : nat := length (filter is_nonxor (firstn i gs)).

Lemma nnx_S gs i g : nth_error gs i = Some g ->
  nnx gs (S i) = (nnx gs i + if is_nonxor g then 1 else 0)%nat.
Proof.
  unfold nnx. revert i; induction gs; intros [|i] H; simpl in H; try discriminate.
  - inv H. simpl. destruct (is_nonxor g); reflexivity.
  - change (firstn (S (S i)) (a :: gs)) with (a :: firstn (S i) gs).
    change (firstn (S i) (a :: gs)) with (a :: firstn i gs).
    cbn [filter]. destruct (is_nonxor a); cbn [length]; rewrite IHgs by auto; lia.
Qed.
Lemma nnx_le gs i j : (i <= j)%nat -> (nnx gs i <= nnx gs j)%nat.
Proof.
  intros H. induction H; auto. destruct (nth_error gs m) as [g|] eqn:E.
  - rewrite (nnx_S _ _ _ E). lia.
  - apply nth_error_None in E. replace (nnx gs (S m)) with (nnx gs m); [auto|].
    unfold nnx. now rewrite !firstn_all2 by lia.
Qed.
Lemma nnx_total c : nnx (garbledGates c) (length (garbledGates c)) = NumOfNonXor c.
Proof. unfold nnx, NumOfNonXor. now rewrite firstn_all. Qed.

Lemma sym_gate_set l0 v0 l1 v1 t g n gl l v n' gl' :
  valid_type t -> vok v0 -> vok v1 ->
  sym_gate l0 v0 l1 v1 t g (n, gl) = Some (l, v, (n', gl')) ->
  IsSecret v = true -> ~ fresh_gate l0 v0 l1 v1 t ->
  (IsSecret v0 = true /\ fst l = fst l0) \/
  (IsSecret v1 = true /\ t <> NOTGATE /\ fst l = fst l1) \/
  (IsSecret v0 = true /\ IsSecret v1 = true /\ t <> NOTGATE /\ fst l = N.lxor (fst l0) (fst l1)).
Proof.
  intros Ht V0 V1 HS SV NF. unfold sym_gate in HS.
  destruct (IsSecret v0) eqn:S0, (IsSecret v1) eqn:S1; cbn [negb andb] in *.
  4:{ inv HS. rewrite IsSecret_b2z in SV. discriminate. }
  3:{ destruct (half_x t true v0) as [x0 x1] eqn:HX. destruct (Bool.eqb x0 x1) eqn:EX.
      - inv HS. rewrite IsSecret_b2z in SV. discriminate.
      - assert (t <> NOTGATE) as NN.
        { intros ->. unfold half_x in HX. inv HX. rewrite eqb_reflx in EX. discriminate. }
        destruct (negb x0 && x1); inv HS; auto. }
  2:{ destruct (half_x t false v1) as [x0 x1] eqn:HX. destruct (Bool.eqb x0 x1) eqn:EX.
      - inv HS. rewrite IsSecret_b2z in SV. discriminate.
      - destruct (negb x0 && x1); inv HS; auto. }
  destruct (Z.eqb_spec t NOTGATE) as [->|NN]; cbn [negb andb] in HS.
  { inv HS. auto. }
  destruct (N.eqb_spec (fst l0) (fst l1)) as [E|E]; cbn [andb] in HS.
  - left. split; auto. destruct (Bool.eqb (snd l0) (snd l1)).
    + destruct Ht as [->|[->|[->|[->|[->|[->|[->|[->|[->|[->| ->]]]]]]]]]];
        try (exfalso; apply NN; reflexivity); cbn in HS; inv HS; auto; discriminate SV.
    + destruct Ht as [->|[->|[->|[->|[->|[->|[->|[->|[->|[->| ->]]]]]]]]]];
        try (exfalso; apply NN; reflexivity); cbn in HS; inv HS; auto; discriminate SV.
  - destruct (Z.eqb_spec t XORGATE) as [->|N1]; [|destruct (Z.eqb_spec t XNORGATE) as [->|N2]];
      try (inv HS; right; right; auto; fail).
    exfalso. apply NF. split; [|split; [|split]]; auto.
    destruct (valid_linear_or t Ht) as [|[|[|]]]; congruence.
Qed.

Section Frame.
Context {L S : Type}.
Variable zeroL : L.
Variable c : GarbledCircuit.
Variable gate_fn : L -> Z -> L -> Z -> Z -> nat -> S -> option (L * Z * S).
Hypothesis WF : well_formed c.

Definition labz (wl : list L) (idx : Z) : L :=
  if (0 <=? idx) && (idx <? wsz c) then lz zeroL wl idx else zeroL.

Lemma lab_labz wl idx : Z.of_nat (length wl) = wsz c -> lab zeroL c wl idx = Some (labz wl idx).
Proof.
  intros H. unfold lab, labz. destruct ((0 <=? idx) && (idx <? wsz c)) eqn:E; auto.
  apply andb_true_iff in E as [E1 E2]. apply Z.leb_le in E1. apply Z.ltb_lt in E2.
  apply rd_lz; lia.
Qed.
Lemma labz_wire wl w : 0 <= w < wsz c -> labz wl w = lz zeroL wl w.
Proof.
  intros. unfold labz.
  replace ((0 <=? w) && (w <? wsz c)) with true; auto.
  symmetry. apply andb_true_iff; split; [apply Z.leb_le|apply Z.ltb_lt]; lia.
Qed.

Definition st_wl (s : @p2state L S) := fst (fst (fst s)).
Definition st_wv (s : @p2state L S) := snd (fst (fst s)).
Definition st_fan (s : @p2state L S) := snd (fst s).
Definition st_s (s : @p2state L S) := snd s.

(** One step only touches gate [i]'s wire and lowers fan-outs. *)
Lemma secret_frame i st st' :
  secret_body zeroL c gate_fn i st = Some st' ->
  length (st_fan st) = length (garbledGates c) ->
  length (st_wl st') = length (st_wl st) /\ length (st_wv st') = length (st_wv st) /\
  length (st_fan st') = length (st_fan st) /\
  (forall w, w <> first_gate c + Z.of_nat i -> rd (st_wl st') w = rd (st_wl st) w) /\
  (forall w, w <> first_gate c + Z.of_nat i -> rd (st_wv st') w = rd (st_wv st) w) /\
  (forall k, fz (st_fan st') k <= fz (st_fan st) k).
Proof.
  destruct st as [[[wl wv] fan] s]. unfold st_wl, st_wv, st_fan. cbn [fst snd].
  unfold secret_body. intros H HL.
  bnd H. rename x into g, H0 into Hg. bnd H. rename x into f, H0 into Hf.
  pose proof (rd_bound _ _ _ Hg) as Bi. rewrite rd_nat in Hg.
  destruct (wf_gate c WF i g Hg) as (HO & _).
  destruct (Z.ltb_spec 0 f) as [fp|fn]; [|inv H; cbn [fst snd]; repeat split; auto; lia].
  bnd H. destruct (IsSecret x); [|inv H; cbn [fst snd]; repeat split; auto; lia].
  do 5 bnd H. destruct x4 as [[l v] s']. bnd H. bnd H. rename H6 into W1, H7 into W2.
  rewrite HO in *.
  assert (A1 := wr_length _ _ _ _ W1). assert (A2 := wr_length _ _ _ _ W2).
  destruct (negb (IsSecret v)).
  - bnd H. inv H. cbn [fst snd].
    destruct (drop_uses_total c g i x1 x3 fan) as (fan' & E & L' & M & _); auto; try lia.
    { apply rd_fz in Hf. lia. }
    rewrite E in H6. inv H6.
    repeat split; auto; try lia; intros.
    + eapply rd_wr_other; eauto.
    + eapply rd_wr_other; eauto.
  - inv H. cbn [fst snd]. repeat split; auto; try lia; intros.
    + eapply rd_wr_other; eauto.
    + eapply rd_wr_other; eauto.
Qed.

Lemma secret_frame_loop i n s0 si sn :
  for_ i (secret_body zeroL c gate_fn) s0 = Some si ->
  for_ n (secret_body zeroL c gate_fn) s0 = Some sn -> (i <= n)%nat ->
  length (st_fan si) = length (garbledGates c) ->
  length (st_wl sn) = length (st_wl si) /\ length (st_wv sn) = length (st_wv si) /\
  length (st_fan sn) = length (st_fan si) /\
  (forall w, w < first_gate c + Z.of_nat i -> rd (st_wl sn) w = rd (st_wl si) w) /\
  (forall w, w < first_gate c + Z.of_nat i -> rd (st_wv sn) w = rd (st_wv si) w) /\
  (forall k, fz (st_fan sn) k <= fz (st_fan si) k).
Proof.
  intros Ei En Hi HL.
  eapply (for_later (fun t =>
    length (st_wl t) = length (st_wl si) /\ length (st_wv t) = length (st_wv si) /\
    length (st_fan t) = length (st_fan si) /\
    (forall w, w < first_gate c + Z.of_nat i -> rd (st_wl t) w = rd (st_wl si) w) /\
    (forall w, w < first_gate c + Z.of_nat i -> rd (st_wv t) w = rd (st_wv si) w) /\
    (forall k, fz (st_fan t) k <= fz (st_fan si) k)) _ _ _ _ _ _ Ei En Hi).
  - repeat split; auto; lia.
  - intros m t t' Hm (Q1 & Q2 & Q3 & Q4 & Q5 & Q6) E.
    destruct (secret_frame m t t' E) as (P1 & P2 & P3 & P4 & P5 & P6); [lia|].
    repeat split; try congruence; intros.
    + rewrite P4 by lia. auto.
    + rewrite P5 by lia. auto.
    + specialize (P6 k). specialize (Q6 k). lia.
Qed.
End Frame.
Arguments labz {L}.

Section Phase2.
Variable c : GarbledCircuit.
Hypothesis WF : well_formed c.
Notation gs := (garbledGates c).
Notation bias := (get_gate_lo_index c).
Variable V : Z -> bool.
Hypothesis HV : forall i g, nth_error gs i = Some g ->
  V (first_gate c + Z.of_nat i) = GateOperator (type g) (operand V (input0 g)) (operand V (input1 g)).
Variable aes : block -> block.
Variable R : block.
Hypothesis HR : get_LSB R = true.
Variable cid : N.

Definition zs : slab := (0%N, false).
Definition zg : BlockPair := (ZeroBlock, ZeroBlock).
Definition gfn (l0 : BlockPair) v0 l1 v1 t (g : nat) st :=
  GarbleGate aes l0 v0 l1 v1 t cid (N.of_nat g) R st.
Definition sbody := secret_body zs c sym_gate.
Definition gbody := secret_body zg c gfn.
Definition sstate := @p2state slab (nat * list nat).
Definition gstate := @p2state BlockPair (list GarbledTable * Z).

(** Wires that carry a meaningful label when the first [i] gates are done. *)
Definition valid (i : nat) (fan : list Z) (w : Z) : Prop :=
  first_input c <= w < first_gate c \/
  exists k, (k < i)%nat /\ w = first_gate c + Z.of_nat k /\ 0 < fz fan k.

Record J (i : nat) (ss : sstate) (gt : gstate) (base vals : nat -> N) : Prop := {
  j_sl : Z.of_nat (length (st_wl ss)) = wsz c;
  j_sv : Z.of_nat (length (st_wv ss)) = wsz c;
  j_fan : length (st_fan ss) = length gs;
  j_gl : Z.of_nat (length (st_wl gt)) = wsz c;
  j_gv : st_wv gt = st_wv ss;
  j_gf : st_fan gt = st_fan ss;
  j_ok : forall w, first_input c <= w < wsz c -> okval V (st_wv ss) w;
  j_pos : forall k, 0 <= fz (st_fan ss) k;
  j_FI : FI gs bias (length gs) (pub c (st_wv ss)) (ext c) (st_fan ss) (fun _ => 0);
  j_PZ : forall k, (k < length gs)%nat -> pub c (st_wv ss) k = true -> fz (st_fan ss) k = 0;
  j_rel : forall w, valid i (st_fan ss) w -> IsSecret (vz (st_wv ss) w) = true ->
    relX 1 vals (fst (st_s ss)) (lz zs (st_wl ss) w) (b2N (V w)) /\
    relG R base (fst (st_s ss)) (lz zs (st_wl ss) w) (lz zg (st_wl gt) w);
  j_tl : length (fst (st_s gt)) = NumOfNonXor c;
  j_ind : snd (st_s gt) = Z.of_nat (length (snd (st_s ss)));
  j_cnt : (length (snd (st_s ss)) <= nnx gs i)%nat;
  j_gid : forall j g, nth_error (snd (st_s ss)) j = Some g ->
     exists tb, nth_error (fst (st_s gt)) j = Some tb /\ gid tb = (N.of_nat g mod 2 ^ 32)%N }.

(** A secret input of a live gate is a valid wire. *)
Lemma live_input_valid i fan sv idx g :
  (i < length gs)%nat -> nth_error gs i = Some g -> (idx = input0 g \/ idx = input1 g) ->
  FI gs bias (length gs) (pub c sv) (ext c) fan (fun _ => 0) ->
  0 < fz fan i -> 0 <= idx -> IsSecret (vz sv idx) = true ->
  valid i fan idx.
Proof.
  intros Hi Hg HI HF Hl H0 HS.
  destruct (wf_gate c WF i g Hg) as (_ & _ & R0 & R1).
  assert (RR : ref_ok c (first_gate c + Z.of_nat i) idx) by (destruct HI; subst; auto).
  destruct RR as [A [B|B]]; [lia|].
  destruct (Z_lt_le_dec idx (first_gate c)) as [|GE]; [left; lia|]. right.
  exists (Z.to_nat (idx - first_gate c)). split; [lia|]. split; [lia|].
  set (k := Z.to_nat (idx - first_gate c)).
  pose proof (bias_first_gate c) as BG.
  assert (IK : idx = bias + Z.of_nat k) by (unfold k; lia).
  assert (P : pub c sv k = false).
  { unfold pub. rewrite <- IK, HS. auto. }
  specialize (HF k ltac:(lia) P). cbv beta in HF.
  pose proof (ext_uses_nonneg c k). unfold ext in HF.
  assert (1 <= live_uses gs (length gs) fan (bias + Z.of_nat k)); [|lia].
  unfold live_uses.
  eapply Z.le_trans; [|apply (sumf_ge_one _ _ i Hi)].
  - cbv beta. assert (live (length gs) fan i = true) as ->.
    { unfold live. apply orb_true_iff; right. apply Z.ltb_lt; auto. }
    unfold juse. rewrite Hg. unfold gate_uses. rewrite <- IK.
    pose proof (is_ref_nonneg (input0 g) idx). pose proof (is_ref_nonneg (input1 g) idx).
    destruct HI as [-> | ->]; rewrite is_ref_same; lia.
  - intros j _. destruct (live _ _ _); [apply juse_nonneg|lia].
Qed.

(** The data read at gate [i]. *)
Section Inputs.
Variables (i : nat) (g : GarbledGate) (ss : sstate) (gt : gstate) (base vals : nat -> N).
Hypothesis HJ : J i ss gt base vals.
Hypothesis Hi : (i < length gs)%nat.
Hypothesis Hg : nth_error gs i = Some g.
Hypothesis Hl : 0 < fz (st_fan ss) i.

Definition i_v0 := oval c (st_wv ss) (input0 g).
Definition i_v1 := oval1 c (st_wv ss) (type g) (input1 g).
Definition i_l0 := labz zs c (st_wl ss) (input0 g).
Definition i_l1 := labz zs c (st_wl ss) (input1 g).
Definition i_p0 := labz zg c (st_wl gt) (input0 g).
Definition i_p1 := labz zg c (st_wl gt) (input1 g).

Lemma ref_range idx : idx = input0 g \/ idx = input1 g -> idx < 0 \/ first_input c <= idx < wsz c.
Proof.
  destruct (wf_gate c WF i g Hg) as (_ & _ & [A0 B0] & [A1 B1]).
  pose proof (wsz_gate c). intros [-> | ->]; lia.
Qed.

Lemma i_ok0 : vok i_v0 /\ (IsSecret i_v0 = false -> i_v0 = b2z (operand V (input0 g))).
Proof.
  destruct (wf_gate c WF i g Hg) as (_ & _ & R0 & R1).
  apply (ok_oval c V i); auto; [lia|]. intros w Hw. apply (j_ok _ _ _ _ _ HJ).
  pose proof (wsz_gate c). lia.
Qed.
Lemma i_ok1 : vok i_v1 /\
  (IsSecret i_v1 = false -> type g <> NOTGATE -> i_v1 = b2z (operand V (input1 g))).
Proof.
  destruct (wf_gate c WF i g Hg) as (_ & _ & R0 & R1).
  apply (ok_oval1 c V i); auto; [lia|]. intros w Hw. apply (j_ok _ _ _ _ _ HJ).
  pose proof (wsz_gate c). lia.
Qed.

Lemma operand_wire idx : 0 <= idx -> operand V idx = V idx.
Proof.
  intros. unfold operand. destruct (Z.eqb_spec idx (-3)); [lia|].
  destruct (Z.ltb_spec idx 0); [lia|auto].
Qed.

Lemma secret_wire0 : IsSecret i_v0 = true ->
  first_input c <= input0 g < wsz c /\ IsSecret (vz (st_wv ss) (input0 g)) = true /\
  valid i (st_fan ss) (input0 g).
Proof.
  intros HS. destruct (ref_range (input0 g) ltac:(auto)) as [N|N].
  - unfold i_v0 in HS. rewrite (oval_neg c _ _ V N), IsSecret_b2z in HS. discriminate.
  - pose proof (first_input_nonneg c). unfold i_v0 in HS. rewrite oval_wire in HS by lia.
    split; [auto|]. split; [auto|].
    eapply live_input_valid; eauto; try lia. apply (j_FI _ _ _ _ _ HJ).
Qed.
Lemma secret_wire1 : IsSecret i_v1 = true -> type g <> NOTGATE ->
  first_input c <= input1 g < wsz c /\ IsSecret (vz (st_wv ss) (input1 g)) = true /\
  valid i (st_fan ss) (input1 g).
Proof.
  intros HS NN. destruct (ref_range (input1 g) ltac:(auto)) as [N|N].
  - unfold i_v1 in HS. rewrite (oval1_neg c _ _ _ V N), IsSecret_b2z in HS by auto. discriminate.
  - pose proof (first_input_nonneg c). unfold i_v1 in HS. rewrite oval1_wire in HS by lia.
    split; [auto|]. split; [auto|].
    eapply live_input_valid; eauto; try lia. apply (j_FI _ _ _ _ _ HJ).
Qed.

Lemma i_rel0 : IsSecret i_v0 = true ->
  relX 1 vals (fst (st_s ss)) i_l0 (b2N (operand V (input0 g))) /\
  relG R base (fst (st_s ss)) i_l0 i_p0.
Proof.
  intros HS. destruct (secret_wire0 HS) as (A & B & C). pose proof (first_input_nonneg c).
  unfold i_l0, i_p0. rewrite !labz_wire, operand_wire by lia.
  apply (j_rel _ _ _ _ _ HJ); auto.
Qed.
Lemma i_rel1 : IsSecret i_v1 = true -> type g <> NOTGATE ->
  relX 1 vals (fst (st_s ss)) i_l1 (b2N (operand V (input1 g))) /\
  relG R base (fst (st_s ss)) i_l1 i_p1.
Proof.
  intros HS NN. destruct (secret_wire1 HS NN) as (A & B & C). pose proof (first_input_nonneg c).
  unfold i_l1, i_p1. rewrite !labz_wire, operand_wire by lia.
  apply (j_rel _ _ _ _ _ HJ); auto.
Qed.

Lemma i_ind : nonlinear (type g) ->
  0 <= snd (st_s gt) < Z.of_nat (length (fst (st_s gt))).
Proof.
  intros NL. rewrite (j_ind _ _ _ _ _ HJ), (j_tl _ _ _ _ _ HJ).
  pose proof (j_cnt _ _ _ _ _ HJ). pose proof (nnx_S _ _ _ Hg) as E.
  rewrite (nonlinear_is_nonxor g NL) in E.
  pose proof (nnx_le gs (S i) (length gs) ltac:(lia)). rewrite nnx_total in *. lia.
Qed.
End Inputs.

(** No accidental collision when the garbler processes gate [i]. *)
Definition g_free (i : nat) (ss : sstate) (gt : gstate) : Prop :=
  forall g, nth_error gs i = Some g -> 0 < fz (st_fan ss) i ->
    IsSecret (vz (st_wv ss) (output g)) = true ->
    g_cmp_ok (i_l0 g ss) (i_l1 g ss) (i_v0 g ss) (i_v1 g ss) (type g) (i_p0 g gt) (i_p1 g gt).

Lemma wv_some (ss : sstate) w : Z.of_nat (length (st_wv ss)) = wsz c ->
  0 <= w < wsz c -> rd (st_wv ss) w = Some (vz (st_wv ss) w).
Proof. intros. apply rd_vz. lia. Qed.

Lemma secret_body_run {L S} (d : L) fn i g (wl : list L) wv fan (s : S) :
  nth_error gs i = Some g -> (i < length gs)%nat ->
  Z.of_nat (length wl) = wsz c -> Z.of_nat (length wv) = wsz c -> length fan = length gs ->
  secret_body d c fn i (wl, wv, fan, s) =
  if 0 <? fz fan i then
    if IsSecret (vz wv (output g)) then
      do '(l, v, s') <- fn (labz d c wl (input0 g)) (oval c wv (input0 g))
           (labz d c wl (input1 g)) (oval1 c wv (type g) (input1 g)) (type g) i s;
      do wl' <- wr wl (output g) l;
      do wv' <- wr wv (output g) v;
      if negb (IsSecret v) then
        do fan' <- drop_uses c g i (oval c wv (input0 g)) (oval1 c wv (type g) (input1 g)) fan;
        Some (wl', wv', fan', s')
      else Some (wl', wv', fan, s')
    else Some (wl, wv, fan, s)
  else Some (wl, wv, fan, s).
Proof.
  intros Hg Hi H1 H2 H3. unfold secret_body.
  rewrite rd_nat, Hg. cbn [obind]. rewrite rd_fz_ok by lia. cbn [obind].
  destruct (0 <? fz fan i); auto.
  destruct (wf_gate c WF i g Hg) as (HO & _).
  pose proof (wsz_gate c). pose proof (first_order c). pose proof (first_input_nonneg c).
  rewrite rd_vz by lia. cbn [obind].
  destruct (IsSecret (vz wv (output g))); auto.
  rewrite !lab_labz, val0_oval, val1_oval by auto. reflexivity.
Qed.

(** Skipped or processed, with the facts that matter later. *)
Lemma step_g i ss gt base vals :
  (i < length gs)%nat -> J i ss gt base vals -> g_free i ss gt ->
  exists ss' gt' base' vals',
    sbody i ss = Some ss' /\ gbody i gt = Some gt' /\ J (S i) ss' gt' base' vals' /\
    (fst (st_s ss) <= fst (st_s ss'))%nat /\
    (forall a, (a < fst (st_s ss))%nat -> base' a = base a /\ vals' a = vals a) /\
    ((snd (st_s ss') = snd (st_s ss) /\ fst (st_s gt') = fst (st_s gt)) \/
     (snd (st_s ss') = snd (st_s ss) ++ [i] /\
      exists tb, wr (fst (st_s gt)) (snd (st_s gt)) tb = Some (fst (st_s gt')))).
Proof.
  intros Hi HJ HC.
  destruct (nth_error gs i) as [g|] eqn:Hg; [|apply nth_error_None in Hg; lia].
  destruct (wf_gate c WF i g Hg) as (HO & [f HT] & R0 & R1).
  pose proof (wf_valid_type c WF i g Hg) as VT.
  pose proof (wsz_gate c) as WG. pose proof (first_order c) as FO.
  pose proof (first_input_nonneg c) as FN. pose proof (bias_first_gate c) as BG.
  specialize (HC g Hg).
  pose proof (i_ok0 i g ss gt base vals HJ Hi Hg) as OK0.
  pose proof (i_ok1 i g ss gt base vals HJ Hi Hg) as OK1.
  pose proof (i_rel0 i g ss gt base vals HJ Hi Hg) as RL0.
  pose proof (i_rel1 i g ss gt base vals HJ Hi Hg) as RL1.
  pose proof (i_ind i g ss gt base vals HJ Hi Hg) as IND.
  pose proof (fun k => public_ref0 c i (st_wv ss) (input0 g) k ltac:(lia) R0) as PR0.
  pose proof (fun k => public_ref1 c i (st_wv ss) (type g) (input1 g) k ltac:(lia) R1) as PR1.
  destruct ss as [[[sl sv] fan] [n gl]]. destruct gt as [[[gw gv] gfan] [tabs ind]].
  destruct HJ as [a1 a2 a3 a4 a5 a6 ok pos fi pz rel tl ind' cnt gidp].
  unfold i_v0, i_v1, i_l0, i_l1, i_p0, i_p1 in *.
  unfold st_wl, st_wv, st_fan, st_s in *. cbn [fst snd] in *. subst gv gfan.
  unfold sbody, gbody. rewrite !(secret_body_run _ _ i g) by auto.
  assert (NSc : nnx gs (S i) = (nnx gs i + if is_nonxor g then 1 else 0)%nat) by (apply nnx_S; auto).
  destruct (Z.ltb_spec 0 (fz fan i)) as [fp|fn].
  2:{ (* dead gate *)
      eexists _, _, base, vals. split; [reflexivity|]. split; [reflexivity|].
      split; [|cbn [fst snd]; repeat split; auto].
      split; unfold st_wl, st_wv, st_fan, st_s; cbn [fst snd]; auto; try lia.
      intros w [Hw|(k & Hk & Ew & Fk)] HS.
      - apply rel; auto. left; auto.
      - apply rel; auto. right. exists k. split; [|auto].
        destruct (Nat.eq_dec k i); [subst; lia|lia]. }
  destruct (IsSecret (vz sv (output g))) eqn:SO.
  2:{ (* public gate: impossible, its fan-out is zero *)
      assert (fz fan i = 0); [|lia]. apply pz; auto. unfold pub. rewrite BG, <- HO, SO. auto. }
  specialize (HC fp eq_refl).
  destruct OK0 as [OK0 OP0]. destruct OK1 as [OK1 OP1].
  specialize (RL0 fp). specialize (RL1 fp).
  set (v0 := oval c sv (input0 g)) in *. set (v1 := oval1 c sv (type g) (input1 g)) in *.
  set (l0 := labz zs c sl (input0 g)) in *. set (l1 := labz zs c sl (input1 g)) in *.
  set (p0 := labz zg c gw (input0 g)) in *. set (p1 := labz zg c gw (input1 g)) in *.
  destruct (sym_gate_some l0 v0 l1 v1 (type g) i n gl VT OK0 OK1)
    as (l & v & n' & gl' & ES & VK & CS).
  destruct (garble_gate_sim aes R base n gl l0 v0 l1 v1 (type g) cid i p0 p1 tabs ind l v n' gl')
    as (p & tabs' & ind2 & base' & EG & BX & RG & TB); auto.
  { intros Q. apply RL0; auto. }
  { intros Q Q'. apply RL1; auto. }
  destruct (plain_gate_sim vals n gl l0 v0 l1 v1 (type g) i (operand V (input0 g)) (operand V (input1 g))
              l v n' gl') as (vals' & VX & PP & PS); auto.
  { intros Q. apply RL0; auto. }
  { intros Q Q'. apply RL1; auto. }
  rewrite <- (HV i g Hg) in PP, PS. rewrite <- HO in PP, PS.
  unfold gfn. rewrite ES, EG. cbn [obind].
  destruct (wr_ok sl (output g) l) as [sl' WS]; [lia|].
  destruct (wr_ok gw (output g) p) as [gw' WG']; [lia|].
  destruct (wr_ok sv (output g) v) as [sv' WV]; [lia|].
  rewrite WS, WG', WV. cbn [obind].
  pose proof (wr_length _ _ _ _ WS) as LS. pose proof (wr_length _ _ _ _ WG') as LG.
  pose proof (wr_length _ _ _ _ WV) as LV.
  assert (vzz : forall w, 0 <= w -> vz sv' w = if w =? output g then v else vz sv w)
    by (intros; eapply vz_wr; eauto).
  assert (ok' : forall w, first_input c <= w < wsz c -> okval V sv' w).
  { intros w Hw. unfold okval. rewrite vzz by lia. destruct (Z.eqb_spec w (output g)) as [->|].
    - split; auto.
    - apply ok; auto. }
  assert (NN' : (n <= n')%nat) by (destruct CS as [(-> & _)|(_ & -> & _)]; lia).
  assert (TBs : length tabs' = NumOfNonXor c /\ ind2 = Z.of_nat (length gl') /\
     (length gl' <= nnx gs (S i))%nat /\
     (forall j g', nth_error gl' j = Some g' -> exists tb, nth_error tabs' j = Some tb /\
        gid tb = (N.of_nat g' mod 2 ^ 32)%N) /\
     ((gl' = gl /\ tabs' = tabs) \/ (gl' = gl ++ [i] /\ exists tb, wr tabs ind tb = Some tabs'))).
  { destruct TB as [(NF & -> & ->)|(FG & -> & T0 & T1 & HG & WT)].
    - destruct CS as [(_ & -> & _)|(Q & _)]; [|contradiction].
      split; [auto|]. split; [auto|]. split; [lia|]. split; [auto|]. left; auto.
    - destruct CS as [(_ & _ & Q)|(_ & _ & -> & _)]; [contradiction|].
      assert (NL : nonlinear (type g)) by apply FG.
      rewrite (nonlinear_is_nonxor g NL) in NSc.
      pose proof (wr_length _ _ _ _ WT) as LT.
      rewrite app_length. cbn [length].
      split; [lia|]. split; [lia|]. split; [lia|]. split; [|right; eauto].
      intros j g' Hj. destruct (Nat.eq_dec j (length gl)) as [->|Nj].
      + rewrite nth_error_app2, Nat.sub_diag in Hj by lia. inv Hj.
        eexists. split; [rewrite <- rd_nat; eapply rd_wr_same; eauto|reflexivity].
      + assert (j < length gl)%nat.
        { assert (j < length (gl ++ [i]))%nat by (apply nth_error_Some; congruence).
          rewrite app_length in H. simpl in H. lia. }
        rewrite nth_error_app1 in Hj by auto. destruct (gidp j g' Hj) as (tb & E1 & E2).
        exists tb. split; auto. rewrite <- rd_nat, (rd_wr_other _ _ _ _ _ WT), rd_nat by lia. auto. }
  destruct TBs as (TL & TI & TC & TG & TP).
  assert (REL : forall fan' : list Z, (forall k, fz fan' k <= fz fan k) ->
     forall w, valid (S i) fan' w -> IsSecret (vz sv' w) = true ->
     relX 1 vals' n' (lz zs sl' w) (b2N (V w)) /\ relG R base' n' (lz zs sl' w) (lz zg gw' w)).
  { intros fan' MF w Hw HS.
    assert (RW : first_input c <= w < wsz c).
    { destruct Hw as [Hw|(k & Hk & Ew & Fk)]; lia. }
    rewrite vzz in HS by lia.
    rewrite (lz_wr zs sl (output g) l sl' w), (lz_wr zg gw (output g) p gw' w) by (auto; lia).
    destruct (Z.eqb_spec w (output g)) as [->|NE].
    - split; auto.
    - assert (VW : valid i fan w).
      { destruct Hw as [Hw|(k & Hk & Ew & Fk)]; [left; auto|right]. exists k.
        split; [|split; auto; specialize (MF k); lia].
        destruct (Nat.eq_dec k i); [subst; congruence|lia]. }
      destruct (rel w VW HS) as [Q1 Q2]. split.
      + eapply relX_mono; eauto.
      + eapply relG_mono; eauto. }
  destruct (IsSecret v) eqn:SV; cbn [negb].
  - eexists _, _, base', vals'. split; [reflexivity|]. split; [reflexivity|].
    split; [|cbn [fst snd]; repeat split; auto; try apply BX; try apply VX; auto].
    split; unfold st_wl, st_wv, st_fan, st_s; cbn [fst snd]; auto; try lia.
    + intros k Hk Pk. apply fi; auto. destruct (Nat.eq_dec k i) as [->|N].
      * unfold pub. rewrite BG, <- HO, SO. auto.
      * rewrite HO, <- BG in WV. rewrite <- (pub_wr_other c _ _ _ _ _ WV N). auto.
    + intros k Hk Pk. rewrite HO, <- BG in WV. destruct (Nat.eq_dec k i) as [->|N].
      * rewrite (pub_wr_same c _ _ _ _ WV), SV in Pk. discriminate.
      * apply pz; auto. rewrite <- (pub_wr_other c _ _ _ _ _ WV N). auto.
    + apply REL. intros; lia.
  - destruct (drop_uses_total c g i v0 v1 fan a3 Hi (pos i)) as (fan' & ED & LF & MF & NF).
    rewrite ED. cbn [obind].
    eexists _, _, base', vals'. split; [reflexivity|]. split; [reflexivity|].
    split; [|cbn [fst snd]; repeat split; auto; try apply BX; try apply VX; auto].
    assert (FD : FI gs bias (length gs) (pub c sv') (ext c) fan' (fun _ => 0) /\
      (forall k, (k < length gs)%nat -> pub c sv' k = true -> fz fan' k = 0)).
    { rewrite HO, <- BG in WV.
      eapply (drop_uses_FI c WF (length gs) (pub c sv') g i v0 v1 fan fan'); auto; try lia.
      - rewrite (pub_wr_same c _ _ _ _ WV), SV. auto.
      - intros k Hk N Pk. apply pz; auto. rewrite <- (pub_wr_other c _ _ _ _ _ WV N). auto.
      - intros HS k Hk Pk. destruct (Nat.eq_dec k i) as [->|N].
        { destruct R0. lia. }
        rewrite (pub_wr_other c _ _ _ _ _ WV N) in Pk. apply PR0; auto.
      - intros HS k Hk Pk. destruct (Nat.eq_dec k i) as [->|N].
        { destruct R1. lia. }
        rewrite (pub_wr_other c _ _ _ _ _ WV N) in Pk. apply PR1; auto.
      - intros fb Wb k Hk Pk. destruct (Nat.eq_dec k i) as [->|N].
        { rewrite (pub_wr_same c _ _ _ _ WV), SV in Pk. discriminate. }
        rewrite (pub_wr_other c _ _ _ _ _ WV N) in Pk.
        specialize (fi k Hk Pk). cbv beta in fi.
        rewrite (live_uses_drop c (length gs) (length gs) fan fb i); auto.
        + unfold juse. rewrite Hg. lia.
        + unfold live. apply orb_true_iff; right; apply Z.ltb_lt; auto.
        + unfold live. rewrite (fz_wr_same _ _ _ _ Wb).
          destruct (Nat.leb_spec (length gs) i); [lia|auto].
        + intros j Hj. unfold live. rewrite (fz_wr_other _ _ _ _ _ Wb) by auto. auto. }
    destruct FD as [FD PZD].
    split; unfold st_wl, st_wv, st_fan, st_s; cbn [fst snd]; auto; try lia.
    apply REL. exact MF.
Qed.

End Phase2.
