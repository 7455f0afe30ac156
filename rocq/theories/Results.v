(** Vocabulary of the theorems about garbling, and their proofs. *)
From Coq Require Import ZArith NArith List Bool Lia.
From Verif Require Import Base Gate Circuit Spec Fanout GateFacts GateSim Phase1 Phase2 Phase2E Prefix
  CycleModel Cycle Run Plain Safe Comm Demo.
Import ListNotations.
Open Scope Z_scope.

(** * One gate *)

(** What the two parties hold for a wire that carries bit [b]: either both know
    the bit, or the garbler holds two labels that differ by [R] and the evaluator
    the one that encodes [b].  The evaluator's flag is SECRET or SECRET_INV. *)
Inductive holds (R : block) (b : bool) : BlockPair -> Z -> block -> Z -> Prop :=
| holds_public p e : holds R b p (b2z b) e (b2z b)
| holds_secret a inv : holds R b (a, N.lxor a R) SECRET (if b then N.lxor a R else a) (evflag inv).

(** Labels of the two inputs of a gate: unrelated as far as the 64-bit
    comparison can see, or the same wire, or a wire and its negation (the
    evaluator tells the last two apart by its flags). *)
Definition comparable (R : block) (va vb : bool) (p0 p1 : BlockPair) (ev0 ev1 : Z) : Prop :=
  (CmpBlock (fst p0) (fst p1) = false /\ CmpBlock (fst p0) (N.lxor (fst p1) R) = false) \/
  (fst p1 = fst p0 /\ vb = va /\ ev1 = ev0) \/
  (fst p1 = N.lxor (fst p0) R /\ vb = negb va /\ ev1 <> ev0).

Lemma CmpBlock_refl a : CmpBlock a a = true.
Proof. apply N.eqb_refl. Qed.
Lemma mod_lxor x r n : (N.modulo (N.lxor x r) (2 ^ n) = N.lxor (N.modulo x (2 ^ n)) (N.modulo r (2 ^ n)))%N.
Proof.
  rewrite <- !N.land_ones. apply N.bits_inj_iff. intros i.
  rewrite !N.land_spec, !N.lxor_spec, !N.land_spec. destruct (N.testbit (N.ones n) i);
    rewrite ?andb_true_r, ?andb_false_r; auto.
Qed.
Lemma lxor_cancel x z : N.lxor (N.lxor x z) z = x.
Proof. rewrite N.lxor_assoc, N.lxor_nilpotent, N.lxor_0_r. auto. Qed.
Lemma CmpBlock_lxor a b r : CmpBlock (N.lxor a r) (N.lxor b r) = CmpBlock a b.
Proof.
  unfold CmpBlock. rewrite !mod_lxor.
  set (x := (a mod 2 ^ 64)%N). set (y := (b mod 2 ^ 64)%N). set (z := (r mod 2 ^ 64)%N).
  destruct (N.eqb_spec x y) as [->|NE]; [apply N.eqb_refl|]. apply N.eqb_neq. intros E. apply NE.
  rewrite <- (lxor_cancel x z), <- (lxor_cancel y z). f_equal. exact E.
Qed.
Lemma CmpBlock_shift a b r : CmpBlock (N.lxor a r) b = CmpBlock a (N.lxor b r).
Proof. rewrite <- (CmpBlock_lxor a (N.lxor b r) r), lxor_cancel. auto. Qed.
Lemma CmpBlock_odd a R : get_LSB R = true -> CmpBlock a (N.lxor a R) = false.
Proof.
  intros H. unfold CmpBlock. apply N.eqb_neq. intros E.
  assert (Q : N.testbit (a mod 2 ^ 64) 0 = N.testbit (N.lxor a R mod 2 ^ 64) 0) by congruence.
  rewrite !N.mod_pow2_bits_low in Q by lia. rewrite N.lxor_spec in Q.
  unfold get_LSB in H. rewrite H in Q. destruct (N.testbit a 0); discriminate.
Qed.

Lemma pick_mulb (b : bool) a R : (if b then N.lxor a R else a) = XorBlock a (mulb b R).
Proof. destruct b; unfold XorBlock; cbn [mulb]; auto. rewrite N.lxor_0_r; auto. Qed.
Lemma evflag_inj i j : evflag i = evflag j -> i = j.
Proof. destruct i, j; cbn; intros H; auto; discriminate H. Qed.
Lemma InvSV i : InvertSecretValue (evflag i) = evflag (negb i).
Proof. destruct i; reflexivity. Qed.

Lemma holds_inv R b a inv :
  holds R (negb b) (N.lxor a R, a) SECRET (if b then N.lxor a R else a) (evflag inv).
Proof.
  pose proof (holds_secret R (negb b) (N.lxor a R) inv) as H. rewrite lxor_cancel in H.
  destruct b; exact H.
Qed.
Lemma holds_not R b p v e ev b' : holds R b p v e ev -> b' = b -> holds R b' p v e ev.
Proof. intros H ->. auto. Qed.

Lemma half_holds R t f b0 b1 (known0 : bool) p e inv :
  bool_fun t = Some f ->
  let kb := if known0 then b0 else b1 in
  let sb := if known0 then b1 else b0 in
  holds R sb p SECRET e (evflag inv) -> 
  let gr := HalfGarbleGate t known0 (b2z kb) p in
  let er := HalfEvalGate t known0 (b2z kb) (evflag inv) e in
  holds R (f b0 b1) (fst gr) (snd gr) (fst er) (snd er).
Proof.
  intros HT kb sb HH. unfold HalfGarbleGate, HalfEvalGate, half_x. rewrite z2b_b2z.
  rewrite !(GateOperator_spec _ _ _ _ HT).
  remember SECRET as sc eqn:ESC. remember (evflag inv) as fl eqn:EFL.
  destruct HH as [p e|a i].
  { unfold SECRET in ESC. destruct sb; discriminate. }
  apply evflag_inj in EFL. subst i.
  assert (Q : f b0 b1 = if known0 then f kb sb else f sb kb) by (subst kb sb; destruct known0; auto).
  rewrite Q. destruct known0.
  - destruct (f kb false) eqn:F0, (f kb true) eqn:F1; cbn [Bool.eqb negb andb fst snd].
    + apply (holds_not R true); [apply (holds_public R true)|]. destruct sb; auto.
    + rewrite InvSV. apply (holds_not R (negb sb)); [apply holds_inv|]. destruct sb; auto.
    + apply (holds_not R sb); [apply holds_secret|]. destruct sb; auto.
    + apply (holds_not R false); [apply (holds_public R false)|]. destruct sb; auto.
  - destruct (f false kb) eqn:F0, (f true kb) eqn:F1; cbn [Bool.eqb negb andb fst snd].
    + apply (holds_not R true); [apply (holds_public R true)|]. destruct sb; auto.
    + rewrite InvSV. apply (holds_not R (negb sb)); [apply holds_inv|]. destruct sb; auto.
    + apply (holds_not R sb); [apply holds_secret|]. destruct sb; auto.
    + apply (holds_not R false); [apply (holds_public R false)|]. destruct sb; auto.
Qed.

Theorem gate_correct aes rnd t f cid g R va vb in0 v0 e0 ev0 in1 v1 e1 ev1 tabs ind dr :
  bool_fun t = Some f -> t <> NOTGATE -> get_LSB R = true -> (N.of_nat g < 2 ^ 32)%N ->
  holds R va in0 v0 e0 ev0 -> holds R vb in1 v1 e1 ev1 ->
  (IsSecret v0 = true -> IsSecret v1 = true -> comparable R va vb in0 in1 ev0 ev1) ->
  0 <= ind < Z.of_nat (length tabs) ->
  exists out v tabs' ind' eout ev,
    GarbleGate aes in0 v0 in1 v1 t cid (N.of_nat g) R (tabs, ind) = Some (out, v, (tabs', ind')) /\
    EvalGate aes rnd e0 ev0 e1 ev1 t cid (N.of_nat g) (tabs', ind, dr) = Some (eout, ev, (tabs', ind', dr)) /\
    holds R (f va vb) out v eout ev.
Proof.
  intros HT NT HR HG H0 H1 HC HI. pose proof (bool_fun_valid _ _ HT) as VT.
  unfold GarbleGate, EvalGate.
  destruct H0 as [p0 e0|a i0], H1 as [p1 e1|b i1].
  - rewrite !IsSecret_b2z. cbn [negb andb]. do 6 eexists. split; [reflexivity|]. split; [reflexivity|].
    rewrite !z2b_b2z, (GateOperator_spec _ _ _ _ HT). apply holds_public.
  - rewrite !IsSecret_b2z, !IsSecret_evflag. cbn [negb andb IsSecret SECRET Z.ltb Z.compare].
    pose proof (half_holds R t f va vb true _ _ i1 HT (holds_secret R vb b i1)) as Q. cbv zeta in Q.
    destruct (HalfGarbleGate _ _ _ _) as [gl gv], (HalfEvalGate _ _ _ _ _) as [el ev]. cbn [fst snd] in Q.
    do 6 eexists. split; [reflexivity|]. split; [reflexivity|]. exact Q.
  - rewrite !IsSecret_b2z, !IsSecret_evflag. cbn [negb andb IsSecret SECRET Z.ltb Z.compare].
    pose proof (half_holds R t f va vb false _ _ i0 HT (holds_secret R va a i0)) as Q. cbv zeta in Q.
    destruct (HalfGarbleGate _ _ _ _) as [gl gv], (HalfEvalGate _ _ _ _ _) as [el ev]. cbn [fst snd] in Q.
    do 6 eexists. split; [reflexivity|]. split; [reflexivity|]. exact Q.
  - rewrite !IsSecret_evflag. cbn [negb andb IsSecret SECRET Z.ltb Z.compare].
    apply Z.eqb_neq in NT. rewrite NT. cbn [negb andb fst snd].
    specialize (HC eq_refl eq_refl). unfold comparable in HC. cbn [fst snd] in HC.
    destruct HC as [[C1 C2]|[(E & -> & EV)|(E & -> & EV)]].
    + (* unrelated *)
      rewrite C1, C2.
      assert (CE : CmpBlock (if va then N.lxor a R else a) (if vb then N.lxor b R else b) = false).
      { destruct va, vb; rewrite ?CmpBlock_lxor, ?CmpBlock_shift; auto. }
      rewrite CE. cbn [andb].
      destruct (valid_linear_or t VT) as [NL|[->|[->| ->]]]; [| | |discriminate].
      * assert (t <> XORGATE /\ t <> XNORGATE) as [N1 N2].
        { unfold nonlinear in NL. unfold XORGATE, XNORGATE. lia. }
        apply Z.eqb_neq in N1, N2. rewrite N1, N2.
        destruct (HalfGates aes (a, N.lxor a R) (b, N.lxor b R) t cid (N.of_nat g) R) as [out [T0 T1]] eqn:EH.
        destruct (half_gates_correct aes t cid (N.of_nat g) R a b va vb out (T0, T1) NL HR EH) as [Q1 Q2].
        cbn [fst snd].
        destruct (wr_ok tabs ind {| row0 := T0; row1 := T1; gid := (N.of_nat g mod 2 ^ 32)%N |} HI) as [tabs' W].
        rewrite W. cbn [obind]. do 6 eexists. split; [reflexivity|].
        rewrite (rd_wr_same _ _ _ _ W). cbn [obind gid row0 row1]. rewrite N.mod_small, N.eqb_refl by lia.
        split; [reflexivity|].
        rewrite !pick_mulb, Q1, (GateOperator_spec _ _ _ _ HT). rewrite <- pick_mulb.
        destruct out as [o0 o1]. cbn [fst snd] in *. rewrite Q2.
        exact (holds_secret R (f va vb) o0 false).
      * rewrite Z.eqb_refl.
        do 6 eexists. split; [reflexivity|]. split; [reflexivity|].
        inv HT. rewrite XorSecret_flag. unfold XorBlock.
        pose proof (holds_secret R (xorb va vb) (N.lxor a b) (xorb i0 i1)) as Q.
        replace (N.lxor (N.lxor a R) b) with (N.lxor (N.lxor a b) R)
          by (rewrite !N.lxor_assoc; f_equal; apply N.lxor_comm).
        destruct va, vb; cbn [xorb] in *; try exact Q.
        -- replace (N.lxor (N.lxor a R) (N.lxor b R)) with (N.lxor a b); [exact Q|].
           rewrite (N.lxor_comm b R), <- N.lxor_assoc, lxor_cancel. auto.
        -- replace (N.lxor (N.lxor a R) b) with (N.lxor (N.lxor a b) R)
             by (rewrite !N.lxor_assoc; f_equal; apply N.lxor_comm). exact Q.
        -- rewrite <- N.lxor_assoc. exact Q.
      * change (XNORGATE =? XORGATE) with false. rewrite Z.eqb_refl. cbv iota.
        do 6 eexists. split; [reflexivity|]. split; [reflexivity|].
        inv HT. rewrite XorSecret_flag, InvSV. unfold XorBlock.
        replace (N.lxor (N.lxor a R) b) with (N.lxor (N.lxor a b) R)
          by (rewrite !N.lxor_assoc; f_equal; apply N.lxor_comm).
        pose proof (holds_inv R (xorb va vb) (N.lxor a b) (negb (xorb i0 i1))) as Q.
        destruct va, vb; cbn [xorb negb] in *; try exact Q.
        -- replace (N.lxor (N.lxor a R) (N.lxor b R)) with (N.lxor a b); [exact Q|].
           rewrite (N.lxor_comm b R), <- N.lxor_assoc, lxor_cancel. auto.
        -- replace (N.lxor (N.lxor a R) b) with (N.lxor (N.lxor a b) R)
             by (rewrite !N.lxor_assoc; f_equal; apply N.lxor_comm). exact Q.
        -- rewrite <- N.lxor_assoc. exact Q.
    + (* the same wire *)
      subst b. apply evflag_inj in EV. subst i1. rewrite !CmpBlock_refl, Z.eqb_refl. cbn [andb].
      destruct VT as [->|[->|[->|[->|[->|[->|[->|[->|[->|[->| ->]]]]]]]]]]; try discriminate; inv HT;
        cbn [equal_shortcut Z.eqb XORGATE ANDNGATE NORNGATE XNORGATE ORNGATE NANDNGATE ANDGATE ORGATE NANDGATE NORGATE Pos.eqb orb];
        do 6 eexists; (split; [reflexivity|]); (split; [reflexivity|]);
        rewrite ?InvSV;
        first
        [ apply (holds_not R va); [apply holds_secret|destruct va; reflexivity]
        | apply (holds_not R (negb va)); [apply holds_inv|destruct va; reflexivity]
        | apply (holds_not R true); [apply (holds_public R true)|destruct va; reflexivity]
        | apply (holds_not R false); [apply (holds_public R false)|destruct va; reflexivity] ].
    + (* opposite wires *)
      subst b. rewrite (CmpBlock_odd a R HR), lxor_cancel, CmpBlock_refl.
      match goal with |- context [CmpBlock ?x ?y && _] =>
        assert (EE : CmpBlock x y = true) by (destruct va; apply CmpBlock_refl) end.
      rewrite EE.
      assert (EF : (evflag i0 =? evflag i1) = false) by (apply Z.eqb_neq; congruence).
      rewrite EF. cbn [andb negb].
      destruct VT as [->|[->|[->|[->|[->|[->|[->|[->|[->|[->| ->]]]]]]]]]]; try discriminate; inv HT;
        cbn [inverted_shortcut Z.eqb XORGATE ANDNGATE NORNGATE XNORGATE ORNGATE NANDNGATE ANDGATE ORGATE NANDGATE NORGATE Pos.eqb orb];
        do 6 eexists; (split; [reflexivity|]); (split; [reflexivity|]);
        rewrite ?InvSV;
        first
        [ apply (holds_not R va); [apply holds_secret|destruct va; reflexivity]
        | apply (holds_not R (negb va)); [apply holds_inv|destruct va; reflexivity]
        | apply (holds_not R true); [apply (holds_public R true)|destruct va; reflexivity]
        | apply (holds_not R false); [apply (holds_public R false)|destruct va; reflexivity] ].
Qed.

Theorem not_gate_correct aes rnd cid g R va in0 v0 e0 ev0 in1 e1 v1 ev1 tabs ind dr :
  holds R va in0 v0 e0 ev0 -> relV v1 ev1 ->
  exists out v eout ev,
    GarbleGate aes in0 v0 in1 v1 NOTGATE cid (N.of_nat g) R (tabs, ind) = Some (out, v, (tabs, ind)) /\
    EvalGate aes rnd e0 ev0 e1 ev1 NOTGATE cid (N.of_nat g) (tabs, ind, dr) = Some (eout, ev, (tabs, ind, dr)) /\
    holds R (negb va) out v eout ev.
Proof.
  intros H0 [S1 P1]. unfold GarbleGate, EvalGate. rewrite S1.
  destruct H0 as [p0 e0|a i0]; rewrite ?IsSecret_b2z, ?IsSecret_evflag;
    change (IsSecret SECRET) with true; destruct (IsSecret v1); cbn [negb andb].
  - unfold HalfGarbleGate, HalfEvalGate, half_x. rewrite z2b_b2z. 
    destruct va; cbn; do 4 eexists; (split; [reflexivity|]); (split; [reflexivity|]).
    + apply (holds_public R false).
    + apply (holds_public R true).
  - rewrite !z2b_b2z. do 4 eexists; (split; [reflexivity|]); (split; [reflexivity|]). apply (holds_public R (negb va)).
  - change (NOTGATE =? XORGATE) with false. change (NOTGATE =? XNORGATE) with false. rewrite Z.eqb_refl. cbn [negb andb].
    do 4 eexists; (split; [reflexivity|]); (split; [reflexivity|]). cbn [fst snd]. rewrite InvSV. apply holds_inv.
  - unfold HalfGarbleGate, HalfEvalGate, half_x. cbn.
    do 4 eexists; (split; [reflexivity|]); (split; [reflexivity|]). fold (InvertSecretValue (evflag i0)). rewrite InvSV. apply holds_inv.
Qed.

(** * Sessions: everything that determines a run of both parties *)
Record session := mkSession {
  s_c : GarbledCircuit; s_x : inputs;
  s_fan : list Z;                                   (* fan-outs, from FillFanout *)
  s_aes : block -> block;                           (* AES under the global key *)
  s_R : block;
  s_rnd : nat -> block;                             (* the evaluator's RandomBlock stream *)
  s_reset : bool;                                   (* low-memory mode *)
  s_ginit : Z -> option BlockPair; s_gin : nat -> nat -> option BlockPair;
  s_einit : Z -> option block; s_ein : nat -> nat -> option block;
  s_m0 : machine }.

(** The label pair the garbler made for a secret position and the label the
    evaluator received for it, when the position carries bit [b]. *)
Definition delivered (R : block) (b : bool) (g : option BlockPair) (e : option block) : Prop :=
  exists a, g = Some (a, N.lxor a R) /\ e = Some (if b then N.lxor a R else a).

Record honest (s : session) : Prop := {
  ho_wf : well_formed (s_c s);
  ho_size : (N.of_nat (length (garbledGates (s_c s))) < 2 ^ 32)%N;
  ho_fan : exists junk ok, length junk = gate_size (s_c s) /\ FillFanout (s_c s) junk = Some (s_fan s, ok);
  ho_R : get_LSB (s_R s) = true;
  ho_init : forall k, (k < g_init_size (s_c s) + e_init_size (s_c s))%nat ->
    delivered (s_R s) (initial_value (s_c s) (s_x s) (Z.of_nat (p_init_size (s_c s) + k)))
      (s_ginit s (Z.of_nat k)) (s_einit s (Z.of_nat k));
  ho_input : forall cy i, (i < g_input_size (s_c s) + e_input_size (s_c s))%nat ->
    delivered (s_R s) (input_value (s_c s) (s_x s) cy (p_input_size (s_c s) + i))
      (s_gin s cy i) (s_ein s cy i);
  ho_mem : fresh_machine (s_c s) (s_m0 s) }.

Definition run (s : session) (n : nat) : option (machine * list cycle_out) :=
  machine_run (s_c s) (s_fan s) (s_aes s) (s_R s) (s_rnd s) (s_reset s)
    (p_init (s_x s)) (p_input (s_x s)) (s_ginit s) (s_gin s) (s_einit s) (s_ein s) n (s_m0 s).

(** No gate of the first [n] cycles sees equal 64-bit label halves on two wires
    that are not equal or opposite by construction. *)
Definition no_collisions (s : session) (n : nat) : Prop :=
  collision_free (s_c s) (s_fan s) (s_aes s) (s_R s) (s_rnd s) (s_reset s)
    (p_init (s_x s)) (p_input (s_x s)) (s_ginit s) (s_gin s) (s_einit s) (s_ein s) n
    (start (s_c s) (s_m0 s)).

Lemma inputs_eta x : x = mkInputs (p_init x) (g_init x) (e_init x) (p_input x) (g_input x) (e_input x).
Proof. destruct x; reflexivity. Qed.

Lemma wf_topo c : well_formed c -> topo (garbledGates c) (get_gate_lo_index c).
Proof.
  intros WF k g Hg. destruct (wf_gate c WF k g Hg) as (_ & _ & [A _] & [B _]).
  pose proof (bias_first_gate c). lia.
Qed.

Lemma honest_fan s : honest s -> length (s_fan s) = length (garbledGates (s_c s)) /\
  forall k, (k < length (garbledGates (s_c s)))%nat -> fz (s_fan s) k = total_uses (s_c s) k.
Proof.
  intros H. destruct (ho_fan s H) as (junk & ok & HL & HF). pose proof (ho_wf s H) as WF.
  pose proof (wsz_last (s_c s)) as WL. pose proof (first_input_nonneg (s_c s)).
  pose proof (first_order (s_c s)) as FO.
  destruct (FillFanout_ok (s_c s) junk HL) as (fan & ok' & E & A & B & _).
  - intros w Hw. apply In_nth_error in Hw as [i Hi]. destruct (wf_D _ WF i w Hi) as [Q _]. lia.
  - intros w Hw. apply In_nth_error in Hw as [i Hi]. pose proof (wf_out _ WF i w Hi) as Q. lia.
  - intros HT. destruct (wf_term _ WF); lia.
  - rewrite HF in E. injection E as <- <-. split; [exact A|]. apply (B (wf_topo _ WF)).
Qed.

Lemma delivered_label R b g e : delivered R b g e -> label_ok R b g e.
Proof.
  intros (a & -> & ->). exists a. split; [auto|]. destruct b; cbn [mulb]; unfold XorBlock; rewrite ?N.lxor_0_r; auto.
Qed.

Lemma initial_ibit c x k : (k < get_secret_init_size c)%nat ->
  initial_value c x (Z.of_nat (p_init_size c + k)) = ibit c (g_init x) (e_init x) k.
Proof.
  unfold get_secret_init_size. intros H. unfold initial_value, ibit.
  destruct (Z.eqb_spec (Z.of_nat (p_init_size c + k)) (-3)); [lia|].
  destruct (Z.ltb_spec (Z.of_nat (p_init_size c + k)) 0); [lia|].
  destruct (Z.ltb_spec (Z.of_nat (p_init_size c + k)) (Z.of_nat (p_init_size c))); [lia|].
  destruct (Z.ltb_spec (Z.of_nat (p_init_size c + k)) (Z.of_nat (p_init_size c) + Z.of_nat (g_init_size c))),
    (Nat.ltb_spec k (g_init_size c)); try lia.
  - f_equal. lia.
  - destruct (Z.ltb_spec (Z.of_nat (p_init_size c + k))
      (Z.of_nat (p_init_size c) + Z.of_nat (g_init_size c) + Z.of_nat (e_init_size c))); [|lia].
    f_equal. lia.
Qed.

(** Everything the run theorem gives, for sessions. *)
Lemma session_ok s n V : honest s -> no_collisions s n -> consistent (s_c s) (s_x s) V ->
  exists w os, run s n = Some (proj w, os) /\ length os = n /\
    (forall cid o, nth_error os cid = Some o -> cycle_good (s_c s) (s_R s) V cid o) /\
    sym_run (s_c s) (s_fan s) (p_init (s_x s)) (p_input (s_x s)) n (sym0 (s_c s)) =
      Some (w_n w, w_s w, map public_trace os) /\
    exists base vals eb, CI (s_c s) (s_R s) (s_ginit s) (s_einit s) (g_init (s_x s)) (e_init (s_x s)) V n w base vals eb.
Proof.
  intros H NC CV. destruct (honest_fan s H) as [F1 F2].
  rewrite (inputs_eta (s_x s)) in CV.
  destruct (run_ok (s_c s) (s_fan s) (s_aes s) (s_R s) (s_rnd s) (s_reset s)
    (p_init (s_x s)) (p_input (s_x s)) (s_ginit s) (s_gin s) (s_einit s) (s_ein s)
    (ho_wf s H) (ho_size s H) (ho_R s H) F1 F2
    (g_init (s_x s)) (e_init (s_x s)) (g_input (s_x s)) (e_input (s_x s)) V CV) with (w0 := start (s_c s) (s_m0 s)) (n := n)
    as (w & os & E & A & B & C & D).
  - intros k Hk. rewrite <- initial_ibit by auto. apply delivered_label, (ho_init s H). exact Hk.
  - intros cy i Hi. unfold nbit. rewrite <- inputs_eta. apply delivered_label, (ho_input s H). exact Hi.
  - apply start_fresh, (ho_mem s H).
  - exact NC.
  - exists w, os. split; [|auto]. unfold run. rewrite <- (proj_start (s_c s) (s_m0 s)) at 1.
    apply world_run_proj. exact E.
Qed.

(** What the two parties hold at the end of a cycle for an output that carries
    bit [b] (the labels are opened by comparing colour bits). *)
Definition decodes (b : bool) (g : BlockPair * Z) (e : block * Z) : Prop :=
  (snd g = b2z b /\ snd e = b2z b) \/
  (IsSecret (snd g) = true /\ IsSecret (snd e) = true /\
   xorb (get_LSB (fst (fst g))) (get_LSB (fst e)) = b).

Lemma out_rel_decodes R b g e : get_LSB R = true -> out_rel R b g e -> decodes b g e.
Proof.
  intros HR [[A B]|(A & B & _ & C)]; [left; auto|right]. rewrite A. split; [reflexivity|]. split; [auto|].
  rewrite C, get_LSB_xor. destruct b; cbn [mulb]; [rewrite HR|]; unfold get_LSB;
    destruct (N.testbit (fst (fst g)) 0); reflexivity.
Qed.

(** ** C02 *)
Theorem run_decodes s n V : honest s -> no_collisions s n -> consistent (s_c s) (s_x s) V ->
  exists m os, run s n = Some (m, os) /\ length os = n /\
    forall cy o, nth_error os cy = Some o ->
      length (o_gouts o) = length (outputs (s_c s)) /\ length (o_eouts o) = length (outputs (s_c s)) /\
      (forall i u, nth_error (outputs (s_c s)) i = Some u ->
        exists g e, nth_error (o_gouts o) i = Some g /\ nth_error (o_eouts o) i = Some e /\
          decodes (V cy u) g e) /\
      (0 < terminate_id (s_c s) -> exists g e, o_gterm o = Some g /\ o_eterm o = Some e /\
          decodes (V cy (terminate_id (s_c s))) g e).
Proof.
  intros H NC CV. destruct (session_ok s n V H NC CV) as (w & os & E & A & B & _).
  exists (proj w), os. split; [auto|]. split; [auto|]. intros cy o Ho.
  destruct (B cy o Ho) as [B1 B2 B3 B4 B5 B6]. split; [exact B3|]. split; [exact B4|]. split.
  - intros i u Hu. destruct (B5 i u Hu) as (g & e & C1 & C2 & C3). exists g, e.
    split; [auto|]. split; [auto|]. eapply out_rel_decodes; eauto. apply (ho_R s H).
  - intros HT. destruct (Z.gtb_spec (terminate_id (s_c s)) 0) as [G|G]; [|lia].
    destruct B6 as (g & e & C1 & C2 & C3). exists g, e.
    split; [auto|]. split; [auto|]. eapply out_rel_decodes; eauto. apply (ho_R s H).
Qed.

(** ** C03 *)
Theorem run_table_sync s n : honest s -> no_collisions s n ->
  exists m os, run s n = Some (m, os) /\ length os = n /\
    forall o, In o os -> o_used o = Z.of_nat (length (o_sent o)).
Proof.
  intros H NC. destruct (consistent_exists (s_c s) (s_x s) (ho_wf s H)) as (V & CV).
  destruct (session_ok s n V H NC CV) as (w & os & E & A & B & _).
  exists (proj w), os. split; [auto|]. split; [auto|]. intros o Ho.
  apply In_nth_error in Ho as [cy Ho]. apply (cg_used _ _ _ _ _ (B cy o Ho)).
Qed.

(** ** C05 *)
Lemma fan_unique s1 s2 : honest s1 -> honest s2 -> s_c s1 = s_c s2 -> s_fan s1 = s_fan s2.
Proof.
  intros H1 H2 E. destruct (honest_fan s1 H1) as [A1 B1], (honest_fan s2 H2) as [A2 B2].
  apply (nth_ext _ _ 0 0); [congruence|]. intros k Hk. fold (fz (s_fan s1) k) (fz (s_fan s2) k).
  rewrite B1, B2 by congruence. congruence.
Qed.

(** The values of all wires after [n] cycles. *)
Definition garbler_values (m : machine) : list Z := wires_val (m_g m).
Definition evaluator_values (m : machine) : list Z := wires_val (m_e m).

Theorem run_public s1 s2 n V1 V2 :
  honest s1 -> honest s2 -> no_collisions s1 n -> no_collisions s2 n ->
  s_c s1 = s_c s2 -> p_init (s_x s1) = p_init (s_x s2) -> p_input (s_x s1) = p_input (s_x s2) ->
  consistent (s_c s1) (s_x s1) V1 -> consistent (s_c s2) (s_x s2) V2 ->
  exists m1 os1 m2 os2, run s1 n = Some (m1, os1) /\ run s2 n = Some (m2, os2) /\
    map public_trace os1 = map public_trace os2 /\
    forall cy, n = S cy ->
      garbler_values m1 = garbler_values m2 /\
      forall u v, first_input (s_c s1) <= u -> rd (garbler_values m1) u = Some v -> 
        v = SECRET \/ (v = b2z (V1 cy u) /\ V2 cy u = V1 cy u /\ rd (evaluator_values m1) u = Some v).
Proof.
  intros H1 H2 N1 N2 EC E1 E2 CV1 CV2.
  destruct (session_ok s1 n V1 H1 N1 CV1) as (w1 & os1 & R1 & A1 & B1 & C1 & ? & ? & ? & D1).
  destruct (session_ok s2 n V2 H2 N2 CV2) as (w2 & os2 & R2 & A2 & B2 & C2 & ? & ? & ? & D2).
  exists (proj w1), os1, (proj w2), os2. split; [auto|]. split; [auto|].
  rewrite <- EC, <- E1, <- E2, <- (fan_unique s1 s2 H1 H2 EC), C1 in C2. injection C2 as F1 F2 F3.
  split; [auto|]. intros cy ->.
  unfold garbler_values, evaluator_values, proj. cbn [m_g m_e].
  destruct (ci_end _ _ _ _ _ _ _ _ _ _ _ _ D1 cy eq_refl) as (-> & _ & _ & _ & _ & G1).
  destruct (ci_end _ _ _ _ _ _ _ _ _ _ _ _ D2 cy eq_refl) as (-> & _ & _ & _ & _ & G2).
  split; [congruence|]. intros u v Hu Hv.
  destruct (ci_s _ _ _ _ _ _ _ _ _ _ _ _ D1) as (_ & L1 & _).
  pose proof (rd_bound _ _ _ Hv) as HB. rewrite <- EC in G2.
  destruct (G1 u ltac:(lia)) as ([VK VP] & [RS RP] & _). destruct (G2 u ltac:(lia)) as ([_ VP2] & _).
  rewrite (rd_vz_inv _ _ _ Hv) in *. rewrite <- F2, (rd_vz_inv _ _ _ Hv) in VP2.
  destruct (IsSecret v) eqn:S; [left; destruct VK as [->|[->| ->]]; auto; discriminate|right].
  specialize (VP eq_refl). specialize (VP2 eq_refl). split; [auto|]. split.
  { rewrite VP in VP2. destruct (V1 cy u), (V2 cy u); auto; discriminate. }
  rewrite <- (RP eq_refl). apply rd_vz.
  destruct (ci_e _ _ _ _ _ _ _ _ _ _ _ _ D1) as (_ & L2 & _). lia.
Qed.

(** ** C06 and C26 *)

(** Gate [k] is needed in a cycle, given the values known at its end: its output
    is secret and it is read by a register, an output, the terminate signal or a
    needed gate. *)
Inductive needed (c : GarbledCircuit) (vals : list Z) : nat -> Prop :=
| needed_ext k : (k < length (garbledGates c))%nat ->
    rd vals (first_gate c + Z.of_nat k) = Some SECRET ->
    In (first_gate c + Z.of_nat k) (D c) \/ In (first_gate c + Z.of_nat k) (outputs c) \/
      (terminate_id c = first_gate c + Z.of_nat k /\ 0 < terminate_id c) ->
    needed c vals k
| needed_gate k j g : (k < length (garbledGates c))%nat ->
    rd vals (first_gate c + Z.of_nat k) = Some SECRET ->
    needed c vals j -> nth_error (garbledGates c) j = Some g ->
    input0 g = first_gate c + Z.of_nat k \/ input1 g = first_gate c + Z.of_nat k ->
    needed c vals k.

Lemma count_ref_In l w : In w l -> 0 < count_ref l w.
Proof.
  induction l as [|a l IH]; intros []; cbn [count_ref fold_right].
  - subst. rewrite is_ref_same. pose proof (count_ref_nonneg l w). unfold count_ref in *. lia.
  - specialize (IH H). pose proof (is_ref_nonneg a w). unfold count_ref in *. lia.
Qed.
Lemma sumf_ge f n j : (forall k, 0 <= f k) -> (j < n)%nat -> f j <= sumf f n.
Proof.
  intros H. induction n; intros Hj; [lia|]. cbn [sumf].
  destruct (Nat.eq_dec j n) as [->|].
  - pose proof (sumf_nonneg f n ltac:(auto)). lia.
  - specialize (H n) as Q. specialize (IHn ltac:(lia)). lia.
Qed.

Lemma needed_live c vals fan :
  FI (garbledGates c) (get_gate_lo_index c) (length (garbledGates c)) (pub c vals) (ext c) fan (fun _ => 0) ->
  forall k, needed c vals k -> (k < length (garbledGates c))%nat /\ 0 < fz fan k.
Proof.
  intros HF. pose proof (bias_first_gate c) as BG.
  assert (P : forall k, rd vals (first_gate c + Z.of_nat k) = Some SECRET -> pub c vals k = false).
  { intros k Hk. unfold pub. rewrite BG, (rd_vz_inv _ _ _ Hk). reflexivity. }
  induction 1 as [k Hk HS HE|k j g Hk HS _ [Hj IH] Hg HI]; (split; [auto|]).
  - assert (HF' := HF k Hk (P k HS)); cbv beta in HF'; clear HF; rename HF' into HF. pose proof (live_uses_nonneg (garbledGates c) (length (garbledGates c)) fan (get_gate_lo_index c + Z.of_nat k)).
    enough (0 < ext c k) by lia. unfold ext, ext_uses. rewrite BG.
    pose proof (count_ref_nonneg (D c) (first_gate c + Z.of_nat k)).
    pose proof (count_ref_nonneg (outputs c) (first_gate c + Z.of_nat k)).
    pose proof (is_ref_nonneg (terminate_id c) (first_gate c + Z.of_nat k)).
    destruct HE as [HE|[HE|[HE HT]]].
    + apply count_ref_In in HE. destruct (terminate_id c >? 0); lia.
    + apply count_ref_In in HE. destruct (terminate_id c >? 0); lia.
    + destruct (Z.gtb_spec (terminate_id c) 0); [|lia]. rewrite HE, is_ref_same. lia.
  - assert (HF' := HF k Hk (P k HS)); cbv beta in HF'; clear HF; rename HF' into HF. pose proof (ext_uses_nonneg c k).
    enough (0 < live_uses (garbledGates c) (length (garbledGates c)) fan (get_gate_lo_index c + Z.of_nat k))
      by (unfold ext in HF; lia).
    unfold live_uses.
    set (f := fun j0 => if live (length (garbledGates c)) fan j0
      then juse (garbledGates c) j0 (get_gate_lo_index c + Z.of_nat k) else 0).
    assert (Q : f j <= sumf f (length (garbledGates c))).
    { apply sumf_ge; auto. intros k0. unfold f. destruct (live _ _ _); [apply juse_nonneg|lia]. }
    unfold f at 1, live, juse in Q. apply Z.ltb_lt in IH. rewrite IH, orb_true_r, Hg in Q.
    assert (0 < gate_uses g (get_gate_lo_index c + Z.of_nat k)).
    { unfold gate_uses. rewrite BG. pose proof (is_ref_nonneg (input0 g) (first_gate c + Z.of_nat k)).
      pose proof (is_ref_nonneg (input1 g) (first_gate c + Z.of_nat k)).
      destruct HI as [-> | ->]; rewrite is_ref_same; lia. }
    lia.
Qed.

(** The labels the parties hold for wire [u]. *)
Definition wire_held (R : block) (b : bool) (m : machine) (u : Z) : Prop :=
  exists p v e ev, rd (wires (m_g m)) u = Some p /\ rd (wires_val (m_g m)) u = Some v /\
    rd (wires (m_e m)) u = Some e /\ rd (wires_val (m_e m)) u = Some ev /\ holds R b p v e ev.

Lemma wrel_holds R base vals eb n b sl sv gl gv el ev :
  wrel R base vals eb n b sl sv gl gv el ev -> holds R b gl gv el ev.
Proof.
  intros (A & -> & [C1 C2] & D & E). destruct (IsSecret sv) eqn:S.
  - destruct (E eq_refl) as (_ & [_ G] & _ & -> & ->). assert (sv = SECRET) as -> by (destruct A as [->|[->| ->]]; auto; discriminate).
    destruct gl as [a a']. cbn [fst snd] in *. subst a'. rewrite <- pick_mulb. apply holds_secret.
  - rewrite (C2 eq_refl), (D eq_refl). apply holds_public.
Qed.

Theorem run_labels s n V cy : honest s -> no_collisions s n -> consistent (s_c s) (s_x s) V -> n = S cy ->
  exists m os, run s n = Some (m, os) /\
    (forall u, first_input (s_c s) <= u < first_gate (s_c s) -> wire_held (s_R s) (V cy u) m u) /\
    (forall k, needed (s_c s) (wires_val (m_g m)) k ->
       (exists f, nth_error (fanout (m_g m)) k = Some f /\ 0 < f) /\
       (exists f, nth_error (fanout (m_e m)) k = Some f /\ 0 < f) /\
       wire_held (s_R s) (V cy (first_gate (s_c s) + Z.of_nat k)) m (first_gate (s_c s) + Z.of_nat k)).
Proof.
  intros H NC CV ->. destruct (session_ok s (S cy) V H NC CV) as (w & os & E & _ & _ & _ & base & vals & eb & HC).
  exists (proj w), os. split; [auto|]. unfold proj, wire_held. cbn [m_g m_e].
  destruct (ci_end _ _ _ _ _ _ _ _ _ _ _ _ HC cy eq_refl) as (E1 & E2 & E3 & HF & NN & HW).
  pose proof (first_order (s_c s)). pose proof (first_input_nonneg (s_c s)). pose proof (wsz_gate (s_c s)).
  destruct (ci_g _ _ _ _ _ _ _ _ _ _ _ _ HC) as (G1 & G2 & _).
  destruct (ci_e _ _ _ _ _ _ _ _ _ _ _ _ HC) as (G3 & G4 & _).
  destruct (ci_s _ _ _ _ _ _ _ _ _ _ _ _ HC) as (_ & _ & _ & _ & G5). unfold gate_size in G5.
  assert (K : forall u, first_input (s_c s) <= u < wsz (s_c s) -> valid (s_c s) (length (garbledGates (s_c s))) (fanout (w_s w)) u ->
    exists p v e ev, rd (wires (w_g w)) u = Some p /\ rd (wires_val (w_g w)) u = Some v /\
      rd (wires (w_e w)) u = Some e /\ rd (wires_val (w_e w)) u = Some ev /\ holds (s_R s) (V cy u) p v e ev).
  { intros u Hu Hv. destruct (HW u Hu) as (_ & _ & Q). specialize (Q Hv).
    exists (lz zg (wires (w_g w)) u), (vz (wires_val (w_g w)) u), (lz ze (wires (w_e w)) u), (vz (wires_val (w_e w)) u).
    split; [apply rd_lz; lia|]. split; [apply rd_vz; lia|]. split; [apply rd_lz; lia|]. split; [apply rd_vz; lia|].
    eapply wrel_holds; eauto. }
  split.
  - intros u Hu. apply K; [lia|]. left. lia.
  - intros k Hk. rewrite E1 in Hk. destruct (needed_live _ _ _ HF k Hk) as [K1 K2].
    split; [|split].
    + rewrite E2. exists (fz (fanout (w_s w)) k). split; [|auto]. rewrite <- rd_nat. apply rd_fz_ok. lia.
    + rewrite E3. exists (fz (fanout (w_s w)) k). split; [|auto]. rewrite <- rd_nat. apply rd_fz_ok. lia.
    + apply K; [lia|]. right. exists k. auto.
Qed.

(** ** C10 *)

(** All places where a wire is read: gate inputs, D inputs, outputs, terminate. *)
Definition reads (c : GarbledCircuit) : list Z :=
  flat_map (fun g => [input0 g; input1 g]) (garbledGates c) ++ D c ++ outputs c ++
  (if 0 <? terminate_id c then [terminate_id c] else []).
Definition topological (c : GarbledCircuit) : Prop :=
  forall k g, nth_error (garbledGates c) k = Some g ->
    input0 g < first_gate c + Z.of_nat k /\ input1 g < first_gate c + Z.of_nat k.

Lemma count_ref_occ l w : count_ref l w = Z.of_nat (count_occ Z.eq_dec l w).
Proof.
  induction l as [|a l IH]; [reflexivity|]. cbn [count_ref fold_right count_occ]. unfold count_ref in IH. rewrite IH.
  destruct (Z.eq_dec a w) as [->|NE]; [rewrite is_ref_same; lia|rewrite is_ref_diff by auto; lia].
Qed.
Lemma juse_occ w : forall gs,
  sumf (fun j => juse gs j w) (length gs) = Z.of_nat (count_occ Z.eq_dec (flat_map (fun g => [input0 g; input1 g]) gs) w).
Proof.
  intros gs.
  assert (G : forall n, (n <= length gs)%nat -> sumf (fun j => juse gs j w) n =
     Z.of_nat (count_occ Z.eq_dec (flat_map (fun g => [input0 g; input1 g]) (firstn n gs)) w)).
  { induction n; intros Hn; [reflexivity|]. cbn [sumf]. rewrite IHn by lia.
    destruct (nth_error gs n) as [g|] eqn:Hg; [|apply nth_error_None in Hg; lia].
    assert (firstn (S n) gs = firstn n gs ++ [g]) as ->.
    { clear - Hg. revert n Hg; induction gs as [|a l IH]; intros [|i] ET; simpl in *; try discriminate.
      - inv ET; auto.
      - rewrite IH; auto. }
    rewrite flat_map_app, count_occ_app. unfold juse. rewrite Hg. unfold gate_uses, is_ref.
    cbn [flat_map app count_occ].
    destruct (Z.eq_dec (input0 g) w), (Z.eq_dec (input1 g) w), (Z.eqb_spec (input0 g) w), (Z.eqb_spec (input1 g) w);
      try contradiction; lia. }
  rewrite G, firstn_all by lia. auto.
Qed.
Lemma total_uses_occ c k : total_uses c k = Z.of_nat (count_occ Z.eq_dec (reads c) (first_gate c + Z.of_nat k)).
Proof.
  unfold total_uses, ext_uses, reads, gate_size. rewrite juse_occ, !count_ref_occ, bias_first_gate, !count_occ_app.
  destruct (Z.gtb_spec (terminate_id c) 0), (Z.ltb_spec 0 (terminate_id c)); try lia.
  - unfold is_ref. cbn [count_occ]. destruct (Z.eqb_spec (terminate_id c) (first_gate c + Z.of_nat k)),
      (Z.eq_dec (terminate_id c) (first_gate c + Z.of_nat k)); try contradiction; lia.
  - cbn [count_occ]. lia.
Qed.

Theorem fill_fanout_counts c junk :
  length junk = length (garbledGates c) ->
  (forall w, In w (D c) -> w < last_wire c) -> (forall w, In w (outputs c) -> w < last_wire c) ->
  (0 < terminate_id c -> terminate_id c < last_wire c) ->
  exists fan ok, FillFanout c junk = Some (fan, ok) /\ length fan = length (garbledGates c) /\
    (topological c -> forall k, (k < length (garbledGates c))%nat ->
       nth_error fan k = Some (Z.of_nat (count_occ Z.eq_dec (reads c) (first_gate c + Z.of_nat k)))) /\
    (ok = true <-> topological c /\
       forall k, (k < length (garbledGates c))%nat -> In (first_gate c + Z.of_nat k) (reads c)).
Proof.
  intros HL HD HO HT. rewrite <- (wsz_last c) in *.
  assert (TE : topological c <-> topo (garbledGates c) (get_gate_lo_index c))
    by (unfold topological, topo; rewrite bias_first_gate; tauto).
  destruct (FillFanout_ok c junk HL HD HO HT) as (fan & ok & E & A & B & C). unfold gate_size in *.
  exists fan, ok. split; [auto|]. split; [auto|]. split.
  - intros T k Hk. destruct (B (proj1 TE T)) as [B1 _]. rewrite <- total_uses_occ, <- B1 by auto.
    rewrite <- rd_nat. apply rd_fz_ok. lia.
  - split.
    + intros O. split; [apply TE, C; auto|]. intros k Hk.
      destruct (B (C O)) as [_ [B2 _]]. specialize (B2 O k Hk). rewrite total_uses_occ in B2.
      apply (count_occ_In Z.eq_dec). lia.
    + intros [T U]. destruct (B (proj1 TE T)) as [_ [_ B3]]. apply B3. intros k Hk.
      rewrite total_uses_occ. specialize (U k Hk). apply (count_occ_In Z.eq_dec) in U. lia.
Qed.

(** ** C07 *)
Lemma honest_defined s : honest s ->
  (forall k, 0 <= k < Z.of_nat (get_secret_init_size (s_c s)) -> exists l, s_ginit s k = Some l) /\
  (forall cy i, (i < get_secret_input_size (s_c s))%nat -> exists l, s_gin s cy i = Some l) /\
  (forall k, 0 <= k < Z.of_nat (get_secret_init_size (s_c s)) -> exists l, s_einit s k = Some l) /\
  (forall cy i, (i < get_secret_input_size (s_c s))%nat -> exists l, s_ein s cy i = Some l).
Proof.
  intros H. unfold get_secret_init_size, get_secret_input_size.
  split; [|split; [|split]].
  - intros k Hk. destruct (ho_init s H (Z.to_nat k) ltac:(lia)) as (a & A & B). rewrite Z2Nat.id in A by lia. eauto.
  - intros cy i Hi. destruct (ho_input s H cy i Hi) as (a & A & B). eauto.
  - intros k Hk. destruct (ho_init s H (Z.to_nat k) ltac:(lia)) as (a & A & B). rewrite Z2Nat.id in B by lia. eauto.
  - intros cy i Hi. destruct (ho_input s H cy i Hi) as (a & A & B). eauto.
Qed.

Theorem run_tables s n : honest s ->
  exists m os, run s n = Some (m, os) /\ length os = n /\
    forall o, In o os ->
      (length (o_sent o) <= NumOfNonXor (s_c s))%nat /\
      NoDup (map gid (o_sent o)) /\
      (forall tb, In tb (o_sent o) -> exists k g, gid tb = N.of_nat k /\
          nth_error (garbledGates (s_c s)) k = Some g /\
          type g <> XORGATE /\ type g <> XNORGATE /\ type g <> NOTGATE).
Proof.
  intros H. destruct (honest_defined s H) as (A & B & C & D). destruct (honest_fan s H) as [F _].
  pose proof (wf_refs _ (ho_wf s H)) as RR. pose proof (fm_sized _ _ (ho_mem s H)) as MS.
  destruct (machine_run_safe (s_c s) (s_fan s) (s_aes s) (s_R s) (s_rnd s) (s_reset s)
    (p_init (s_x s)) (p_input (s_x s)) (s_ginit s) (s_gin s) (s_einit s) (s_ein s) RR F A B C D n (s_m0 s) MS)
    as (m & os & E & _ & L & K).
  exists m, os. split; [exact E|]. split; [auto|]. intros o Ho. destruct (K o Ho) as (K1 & _).
  destruct (sent_linear_free (s_c s) (s_fan s) (s_aes s) (s_R s) (s_rnd s) (s_reset s)
    (p_init (s_x s)) (p_input (s_x s)) (s_ginit s) (s_gin s) (s_einit s) (s_ein s) (ho_size s H) RR F A B C D n (s_m0 s) MS
    m os E o Ho) as [S1 S2].
  split; [auto|]. split; [auto|]. intros tb Htb. destruct (S1 tb Htb) as (g & Q2 & Q3).
  exists (N.to_nat (gid tb)), g. split; [lia|]. split; [auto|]. unfold is_nonxor in Q3.
  apply andb_true_iff in Q3 as [Q3 Q5]. apply andb_true_iff in Q3 as [Q3 Q4].
  apply negb_true_iff in Q3, Q4, Q5. apply Z.eqb_neq in Q3, Q4, Q5. auto.
Qed.

(** * Example session *)
Definition demo_session (x : inputs) (reset : bool) : session :=
  mkSession demo x demo_fan toy_aes demo_R demo_rnd reset demo_ginit demo_gin (demo_einit x) (demo_ein x)
    (demo_machine demo).

Lemma pick_delivered b p : snd p = N.lxor (fst p) demo_R -> delivered demo_R b (Some p) (Some (pick b p)).
Proof. destruct p as [a a']. cbn [fst snd]. intros ->. exists a. split; [auto|]. destruct b; reflexivity. Qed.

Lemma demo_honest x reset : honest (demo_session x reset).
Proof.
  constructor; cbn [demo_session s_c s_x s_fan s_R s_ginit s_gin s_einit s_ein s_m0].
  - apply demo_wf.
  - reflexivity.
  - exists (repeat 99 (gate_size demo)), true. split; reflexivity.
  - reflexivity.
  - intros k Hk. rewrite initial_ibit by auto. unfold demo_ginit, demo_einit. rewrite Nat2Z.id.
    apply pick_delivered. reflexivity.
  - intros cy i Hi. apply pick_delivered. reflexivity.
  - apply demo_fresh. reflexivity.
Qed.

Definition demo_x' : inputs := mkInputs 1 1 0 5 0x2a1 0x11f.

Lemma demo_free reset : no_collisions (demo_session demo_x reset) 4.
Proof. apply run_freeb_ok. destruct reset; vm_compute; reflexivity. Qed.
Lemma demo_free' reset : no_collisions (demo_session demo_x' reset) 4.
Proof. apply run_freeb_ok. destruct reset; vm_compute; reflexivity. Qed.

(** Plaintext values of the example, computed by the plaintext evaluator. *)
Definition demo_alloc_b : list bool * list bool := (repeat false (get_wire_size demo), repeat false (dff_size demo)).
Definition demo_V (x : inputs) : nat -> Z -> bool := pl_V demo x demo_alloc_b.
Lemma demo_consistent x : consistent demo x (demo_V x).
Proof. apply pl_V_consistent; [apply demo_wf|reflexivity|reflexivity]. Qed.

(** * Sessions that go wrong *)

(** ** C04: leftover table memory *)
Definition with_tables (s : session) (et : list GarbledTable) : session :=
  let m := s_m0 s in
  mkSession (s_c s) (s_x s) (s_fan s) (s_aes s) (s_R s) (s_rnd s) (s_reset s) (s_ginit s) (s_gin s)
    (s_einit s) (s_ein s) (mkM (m_g m) (m_tmp m) (m_tabs m) (m_e m) et (m_dr m)).

(** AND of the two inputs, then XOR of that wire with itself. *)
Definition dropped : GarbledCircuit := {|
  p_init_size := 0; g_init_size := 0; e_init_size := 0;
  p_input_size := 0; g_input_size := 1; e_input_size := 1;
  garbledGates := [ mkGate 0 1 2 ANDGATE; mkGate 2 2 3 XORGATE ];
  outputs := [3]; D := []; I := []; terminate_id := 0 |}.
(** A session of a circuit with one garbler's and one evaluator's input bit, both
    1, whose 0-labels are [a] and [b]. *)
Definition two_input (c : GarbledCircuit) (fan : list Z) (R a b : block) (x : inputs) : session :=
  mkSession c x fan toy_aes R demo_rnd true
    (fun _ => None) (fun _ i => Some (if (i =? 0)%nat then (a, N.lxor a R) else (b, N.lxor b R)))
    (fun _ => None)
    (fun cy i => Some (pick (input_value c x cy i) (if (i =? 0)%nat then (a, N.lxor a R) else (b, N.lxor b R))))
    (demo_machine c).

Lemma two_input_honest c fan R a b x :
  well_formed c -> (N.of_nat (length (garbledGates c)) < 4000000000)%N ->
  (exists junk ok, length junk = gate_size c /\ FillFanout c junk = Some (fan, ok)) -> get_LSB R = true ->
  g_init_size c = O -> e_init_size c = O -> p_input_size c = O ->
  honest (two_input c fan R a b x).
Proof.
  intros WF SZ HF HR G1 E1 P1. constructor; cbn [two_input s_c s_x s_fan s_R s_ginit s_gin s_einit s_ein s_m0]; auto.
  - lia.
  - intros k Hk. rewrite G1, E1 in Hk. lia.
  - intros cy i Hi. rewrite P1. cbn [Nat.add].
    destruct (i =? 0)%nat; [exists a|exists b]; (split; [reflexivity|]);
      destruct (input_value c x cy i); reflexivity.
  - apply demo_fresh. auto.
Qed.

Definition ones : inputs := mkInputs 0 0 0 0 1 1.
Definition dropped_session : session := two_input dropped [2; 1] 0x8421%N 0x1234%N 0x5678%N ones.
Definition leftover : list GarbledTable := [ {| row0 := 0%N; row1 := 0%N; gid := 0%N |} ].

Theorem leftover_mismatch :
  exists s et m os o, honest s /\ no_collisions s 1 /\ length et = length (m_et (s_m0 s)) /\
    run (with_tables s et) 1 = Some (m, os) /\ In o os /\
    o_used o <> Z.of_nat (length (o_sent o)).
Proof.
  exists dropped_session, leftover.
  destruct (run (with_tables dropped_session leftover) 1) as [[m os]|] eqn:E;
    [|vm_compute in E; discriminate].
  destruct os as [|o os]; [vm_compute in E; discriminate|].
  exists m, (o :: os), o.
  assert (o_used o = 1 /\ o_sent o = []) as [U S].
  { assert (Q : option_map (fun r => match snd r with o :: _ => (o_used o, o_sent o) | [] => (0, []) end)
      (run (with_tables dropped_session leftover) 1) = Some (1, [])) by (vm_compute; reflexivity).
    rewrite E in Q. cbn in Q. injection Q as Q1 Q2. auto. }
  split.
  { apply two_input_honest; try reflexivity; [apply well_formedb_ok; reflexivity|].
    exists [5; 6], true. split; reflexivity. }
  split; [apply run_freeb_ok; vm_compute; reflexivity|].
  split; [reflexivity|]. split; [auto|]. split; [left; auto|]. rewrite U, S. discriminate.
Qed.

(** ** C28: labels that agree in the low half *)
Definition one_xor : GarbledCircuit := {|
  p_init_size := 0; g_init_size := 0; e_init_size := 0;
  p_input_size := 0; g_input_size := 1; e_input_size := 1;
  garbledGates := [ mkGate 0 1 2 XORGATE ];
  outputs := [2]; D := []; I := []; terminate_id := 0 |}.
Definition half_equal : session :=
  two_input one_xor [1] 0x8421%N 0x1234%N (0x1234 + 2 ^ 64)%N (mkInputs 0 0 0 0 1 0).

Theorem half_equal_wrong :
  exists s a b m os o g V, honest s /\ consistent (s_c s) (s_x s) V /\
    s_gin s 0 0 = Some (a, N.lxor a (s_R s)) /\ s_gin s 0 1 = Some (b, N.lxor b (s_R s)) /\
    a <> b /\ a <> N.lxor b (s_R s) /\ (a < 2 ^ 128)%N /\ (b < 2 ^ 128)%N /\
    run s 1 = Some (m, os) /\ nth_error os 0 = Some o /\
    nth_error (outputs (s_c s)) 0 = Some 2 /\ V O 2 = true /\
    nth_error (o_gouts o) 0 = Some g /\ snd g = 0.
Proof.
  exists half_equal, 0x1234%N, (0x1234 + 2 ^ 64)%N.
  destruct (run half_equal 1) as [[m os]|] eqn:E; [|vm_compute in E; discriminate].
  destruct os as [|o os]; [vm_compute in E; discriminate|].
  destruct (nth_error (o_gouts o) 0) as [g|] eqn:EG.
  2:{ exfalso. assert (Q : option_map (fun r => match snd r with o :: _ => length (o_gouts o) | [] => O end)
      (run half_equal 1) = Some 1%nat) by (vm_compute; reflexivity).
      rewrite E in Q. cbn in Q. injection Q as Q. apply nth_error_None in EG. lia. }
  exists m, (o :: os), o, g, (pl_V one_xor (mkInputs 0 0 0 0 1 0) ([false; false; false], [])).
  assert (WF : well_formed one_xor) by (apply well_formedb_ok; reflexivity).
  split. { apply two_input_honest; try reflexivity; auto. exists [5], true. split; reflexivity. }
  split; [apply pl_V_consistent; auto|].
  split; [reflexivity|]. split; [reflexivity|]. split; [discriminate|]. split; [discriminate|].
  split; [reflexivity|]. split; [reflexivity|]. split; [auto|]. split; [reflexivity|]. split; [reflexivity|].
  split; [reflexivity|]. split; [auto|].
  assert (Q : option_map (fun r => match snd r with o :: _ => option_map snd (nth_error (o_gouts o) 0) | [] => None end)
      (run half_equal 1) = Some (Some 0)) by (vm_compute; reflexivity).
  rewrite E in Q. cbn [option_map snd] in Q. rewrite EG in Q. cbn [option_map] in Q. congruence.
Qed.

(** * Remaining statements *)
Theorem half_gates_eval aes t f cid gid R A B (va vb : bool) out T :
  bool_fun t = Some f -> t <> XORGATE -> t <> XNORGATE -> t <> NOTGATE ->
  get_LSB R = true ->
  HalfGates aes (A, N.lxor A R) (B, N.lxor B R) t cid gid R = (out, T) ->
  snd out = N.lxor (fst out) R /\
  EvalHalfGates aes (if va then N.lxor A R else A) (if vb then N.lxor B R else B) T cid gid =
    (if f va vb then snd out else fst out).
Proof.
  intros HT N1 N2 N3 HR EH.
  assert (NL : nonlinear t).
  { destruct (valid_linear_or t (bool_fun_valid _ _ HT)) as [|[|[|]]]; auto; contradiction. }
  destruct (half_gates_correct aes t cid gid R A B va vb out T NL HR EH) as [Q1 Q2].
  split; [exact Q2|]. rewrite !pick_mulb. etransitivity; [exact Q1|].
  rewrite (GateOperator_spec _ _ _ _ HT), Q2. destruct (f va vb); cbn [mulb]; auto.
  unfold XorBlock. apply N.lxor_0_r.
Qed.

Theorem holds_colour R b p e ev : get_LSB R = true -> holds R b p SECRET e ev ->
  snd p = N.lxor (fst p) R /\ get_LSB (snd p) = negb (get_LSB (fst p)) /\
  e = (if b then snd p else fst p) /\ xorb (get_LSB (fst p)) (get_LSB e) = b.
Proof.
  intros HR H. remember SECRET as sc eqn:ES; destruct H as [p0 e0|a i].
  { destruct b; discriminate. }
  assert (Q : get_LSB (N.lxor a R) = negb (get_LSB a)).
  { unfold get_LSB in *. rewrite N.lxor_spec, HR. destruct (N.testbit a 0); auto. }
  cbn [fst snd]. split; [auto|]. split; [auto|]. split; [auto|].
  destruct b; rewrite ?Q; destruct (get_LSB a); auto.
Qed.

Theorem run_public_circuit s n : honest s ->
  g_init_size (s_c s) = O -> e_init_size (s_c s) = O -> g_input_size (s_c s) = O -> e_input_size (s_c s) = O ->
  exists m os, run s n = Some (m, os) /\ length os = n /\
    forall o, In o os -> o_sent o = [] /\ o_used o = 0 /\
      (forall y, In y (o_gouts o) -> IsSecret (snd y) = false) /\
      (forall y, In y (o_eouts o) -> IsSecret (snd y) = false).
Proof.
  intros H A B C D. apply public_run; try (apply (ho_wf s H)); try (apply (honest_fan s H));
    try (apply (fm_sized _ _ (ho_mem s H))); unfold get_secret_init_size, get_secret_input_size; lia.
Qed.

(** A two-bit counter with a public enable input. *)
Definition counter : GarbledCircuit := {|
  p_init_size := 0; g_init_size := 0; e_init_size := 0;
  p_input_size := 1; g_input_size := 0; e_input_size := 0;
  garbledGates := [ mkGate 1 0 3 XORGATE; mkGate 1 0 4 ANDGATE; mkGate 2 4 5 XORGATE ];
  outputs := [3; 5]; D := [3; 5]; I := [-2; -2]; terminate_id := 0 |}.
Definition counter_session : session :=
  mkSession counter (mkInputs 0 0 0 15 0 0) [2; 1; 2] toy_aes demo_R demo_rnd true
    (fun _ => None) (fun _ _ => None) (fun _ => None) (fun _ _ => None) (demo_machine counter).
Lemma counter_honest : honest counter_session.
Proof.
  constructor; cbn; try reflexivity; try (intros; lia).
  - apply well_formedb_ok. reflexivity.
  - exists [5; 6; 7], true. split; reflexivity.
  - apply demo_fresh. reflexivity.
Qed.

Lemma odd_circuit_sized : let c := {|
    p_init_size := 0; g_init_size := 0; e_init_size := 0; p_input_size := 0; g_input_size := 1; e_input_size := 1;
    garbledGates := [ mkGate 3 1 2 77; mkGate 2 90 3 ANDGATE ];
    outputs := [3]; D := []; I := []; terminate_id := 0 |} in
  refs_in_range c /\ machine_sized c (demo_machine c).
Proof.
  cbv zeta. split; [|apply demo_fresh; reflexivity].
  constructor; cbn; try reflexivity; unfold wsz, get_wire_size; cbn.
  - intros [|[|[|i]]] g Hg; try discriminate; inv Hg; cbn; lia.
  - intros [|i] w Hw; discriminate.
  - intros [|[|i]] w Hw; try discriminate; inv Hw; lia.
Qed.

Lemma demo_needed : let s := demo_session demo_x true in
  honest s /\ no_collisions s 3 /\ consistent (s_c s) (s_x s) (demo_V demo_x) /\
  (exists m os, run s 3 = Some (m, os) /\ needed demo (wires_val (m_g m)) 0).
Proof.
  cbv zeta. split; [apply demo_honest|].
  split; [intros i w os Hi; apply (demo_free true); lia|]. split; [apply demo_consistent|].
  destruct (run (demo_session demo_x true) 3) as [[m os]|] eqn:E; [|vm_compute in E; discriminate].
  exists m, os. split; [auto|].
  assert (Q : option_map (fun r => wires_val (m_g (fst r))) (run (demo_session demo_x true) 3) =
    Some [-1; -1; -1; 1; -1; -1; -1; -1; -1; 1; -1; -1; -1; -1; -1; -1; -1; -1; 1; 0; 0]) by (vm_compute; reflexivity).
  rewrite E in Q. cbn [option_map fst] in Q. injection Q as ->.
  apply (needed_gate demo _ 0 2 (mkGate 10 8 12 ORGATE)); [cbn; lia|reflexivity| |reflexivity|left; reflexivity].
  apply (needed_gate demo _ 2 4 (mkGate 12 9 14 XORGATE)); [cbn; lia|reflexivity| |reflexivity|left; reflexivity].
  apply needed_ext; [cbn; lia|reflexivity|]. left. cbn. auto.
Qed.

Theorem consistent_functional c x V W : well_formed c -> consistent c x V -> consistent c x W ->
  forall cy u, first_input c <= u < last_wire c -> W cy u = V cy u.
Proof. intros WF CV CW cy u Hu. eapply consistent_unique; eauto. Qed.
