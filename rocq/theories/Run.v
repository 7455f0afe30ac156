(** Any number of clock cycles. *)
From Coq Require Import ZArith NArith List Bool Lia.
From Verif Require Import Base Gate Circuit Spec Fanout GateFacts GateSim Phase1 Phase2 Phase2E Prefix CycleModel Cycle.
Import ListNotations.
Open Scope Z_scope.

Section Run.
Variable c : GarbledCircuit.
Variable fan0 : list Z.
Variable aes : block -> block.
Variable R : block.
Variable rnd : nat -> block.
Variable reset : bool.
Variables p_init p_input : N.
Variable ginit : Z -> option BlockPair.
Variable gin : nat -> nat -> option BlockPair.
Variable einit : Z -> option block.
Variable ein : nat -> nat -> option block.

Notation gs := (garbledGates c).
Notation ns := (get_secret_input_size c).
Notation world_step := (world_step c fan0 aes R rnd reset p_init p_input ginit gin einit ein).
Notation cycle_gfree := (cycle_gfree c fan0 aes R reset p_init p_input ginit gin).
Notation cycle_efree := (cycle_efree c fan0 aes R rnd reset p_init p_input ginit gin einit ein).
Notation sym_cycle := (sym_cycle c fan0 p_init p_input).

(** The cycle loops of GarbleBNLowMem / EvaluateBNLowMem (low_mem.cpp:113,
    260) and GarbleHighMem / EvaluateHighMem, both parties side by side. *)
Fixpoint world_run (n : nat) (w0 : world) : option (world * list cycle_out) :=
  match n with
  | O => Some (w0, [])
  | S k => do '(w, os) <- world_run k w0;
           do '(w', o) <- world_step k w;
           Some (w', os ++ [o])
  end.

(** Forgetting the symbolic executor. *)
Definition proj (w : world) : machine :=
  mkM (w_g w) (w_tmp w) (w_tabs w) (w_e w) (w_et w) (w_dr w).
Lemma world_step_proj cid w w' o : world_step cid w = Some (w', o) ->
  machine_step c fan0 aes R rnd reset p_init p_input ginit gin einit ein cid (proj w) = Some (proj w', o).
Proof.
  unfold Cycle.world_step, machine_step, proj. cbn [m_g m_tmp m_tabs m_e m_et m_dr].
  destruct (sym_cycle cid (w_n w) (w_s w)) as [[[[s' [n' gl]] so] st]|]; [|discriminate]. cbn [obind].
  destruct (GarbleCycle _ _ _ _ _ _ _ _ _ _ _ _ _) as [[[[[[g' tmp'] tabs'] ind] go] gt]|]; [|discriminate].
  cbn [obind].
  destruct (recv_tables _ _) as [et|]; [|discriminate]. cbn [obind].
  destruct (EvaluateCycle _ _ _ _ _ _ _ _ _ _ _ _) as [[[[[[e' et'] used] dr'] eo] eterm]|]; [|discriminate].
  cbn [obind]. intros [= <- <-]. reflexivity.
Qed.
Lemma world_run_proj n w0 w os : world_run n w0 = Some (w, os) ->
  machine_run c fan0 aes R rnd reset p_init p_input ginit gin einit ein n (proj w0) = Some (proj w, os).
Proof.
  revert w os. induction n; intros w os; cbn [world_run machine_run].
  - intros [= <- <-]. reflexivity.
  - destruct (world_run n w0) as [[w1 os1]|]; [|discriminate]. cbn [obind].
    rewrite (IHn w1 os1 eq_refl). cbn [obind].
    destruct (world_step n w1) as [[w2 o]|] eqn:E; [|discriminate]. cbn [obind].
    rewrite (world_step_proj _ _ _ _ E). cbn [obind]. intros [= <- <-]. reflexivity.
Qed.

(** No accidental label collision in the first [n] cycles. *)
Definition collision_free (n : nat) (w0 : world) : Prop :=
  forall i w os, (i < n)%nat -> world_run i w0 = Some (w, os) -> cycle_gfree i w /\ cycle_efree i w.

(** Memory as allocated before the first cycle (low_mem.cpp:67-91, 222-243):
    array sizes, all wire values SECRET; labels, latches and fan-outs are
    arbitrary; table memory is arbitrary on the garbler's side and must not by
    chance contain a gate number on the evaluator's. *)
Record fresh_world (w : world) : Prop := {
  fw_s : cwf c (w_s w); fw_g : cwf c (w_g w); fw_e : cwf c (w_e w);
  fw_sv : wires_val (w_s w) = repeat SECRET (get_wire_size c);
  fw_gv : wires_val (w_g w) = repeat SECRET (get_wire_size c);
  fw_ev : wires_val (w_e w) = repeat SECRET (get_wire_size c);
  fw_n : w_n w = get_secret_init_size c;
  fw_tmp : length (w_tmp w) = NumOfNonXor c;
  fw_tabs : length (w_tabs w) = NumOfNonXor c;
  fw_et : length (w_et w) = NumOfNonXor c;
  fw_junk : forall tb k, In tb (w_et w) -> (k < length gs)%nat -> gid tb <> N.of_nat k }.

(** What the protocol reveals about the flow of public values in a cycle: the
    gates whose tables are sent, the known/secret value of every output and of
    the terminate signal. *)
Definition public_trace (o : cycle_out) : list N * list Z * option Z :=
  (map gid (o_sent o), map snd (o_gouts o), option_map snd (o_gterm o)).

(** The same computed without any secret: inputs are the circuit and the public
    inputs only. *)
Definition sym_start (st0 : cstate slab) : nat * cstate slab := (get_secret_init_size c, st0).
Fixpoint sym_run (n : nat) (st0 : cstate slab) : option (nat * cstate slab * list (list N * list Z * option Z)) :=
  match n with
  | O => Some (get_secret_init_size c, st0, [])
  | S k => do '(m, st, tr) <- sym_run k st0;
           do '(st', (m', gl), souts, sterm) <- sym_cycle k m st;
           Some (m', st', tr ++ [(map N.of_nat (filter (used (fanout st')) gl),
                                  map snd souts, option_map snd sterm)])
  end.

Hypothesis WF : well_formed c.
Hypothesis SZ : (N.of_nat (length gs) < 2 ^ 32)%N.
Hypothesis HR : get_LSB R = true.
Hypothesis F0len : length fan0 = length gs.
Hypothesis F0 : forall k, (k < length gs)%nat -> fz fan0 k = total_uses c k.
Variables g_init e_init g_input e_input : N.
Notation x := (mkInputs p_init g_init e_init p_input g_input e_input).
Variable V : nat -> Z -> bool.
Hypothesis CV : consistent c x V.
Hypothesis LI : forall k, (k < get_secret_init_size c)%nat ->
  label_ok R (ibit c g_init e_init k) (ginit (Z.of_nat k)) (einit (Z.of_nat k)).
Hypothesis LN : forall cy i, (i < ns)%nat ->
  label_ok R (nbit c p_init p_input g_init e_init g_input e_input cy i) (gin cy i) (ein cy i).

Notation CI := (CI c R ginit einit g_init e_init V).

(** Correctness of one cycle's results. *)
Record cycle_good (cid : nat) (o : cycle_out) : Prop := {
  cg_used : o_used o = Z.of_nat (length (o_sent o));
  cg_bound : (length (o_sent o) <= NumOfNonXor c)%nat;
  cg_glen : length (o_gouts o) = output_size c;
  cg_elen : length (o_eouts o) = output_size c;
  cg_out : forall i u, nth_error (outputs c) i = Some u ->
     exists g e, nth_error (o_gouts o) i = Some g /\ nth_error (o_eouts o) i = Some e /\
       out_rel R (V cid u) g e;
  cg_term : if terminate_id c >? 0 then exists g e, o_gterm o = Some g /\ o_eterm o = Some e /\
         out_rel R (V cid (terminate_id c)) g e
     else o_gterm o = None /\ o_eterm o = None }.

Lemma vz_repeat n u : 0 <= u < Z.of_nat n -> vz (repeat SECRET n) u = SECRET.
Proof.
  intros H. apply rd_vz_inv. unfold rd. destruct (Z.ltb_spec u 0); [lia|].
  apply nth_error_repeat. lia.
Qed.

Lemma fresh_CI w0 : fresh_world w0 -> exists base vals eb, CI 0 w0 base vals eb.
Proof.
  intros [s g e sv gv ev n tmp tabs et junk].
  exists (fun k => match ginit (Z.of_nat k) with Some p => fst p | None => 0%N end).
  exists (fun k => b2N (ibit c g_init e_init k)).
  exists (fun k => match einit (Z.of_nat k) with Some p => p | None => 0%N end).
  pose proof (dff_eq c). pose proof (gate_eq c). pose proof (wsz_gate c).
  pose proof (first_input_nonneg c). unfold wsz in *.
  constructor; auto.
  - lia.
  - intros k Hk. destruct (LI k Hk) as (a & -> & ->). cbn [fst]. auto.
  - intros. rewrite sv, gv. auto.
  - intros. rewrite gv. apply vz_repeat. lia.
  - intros. rewrite ev. apply vz_repeat. lia.
  - discriminate.
  - discriminate.
Qed.

Theorem run_ok w0 : fresh_world w0 -> forall n, collision_free n w0 ->
  exists w os, world_run n w0 = Some (w, os) /\ length os = n /\
    (forall cid o, nth_error os cid = Some o -> cycle_good cid o) /\
    sym_run n (w_s w0) = Some (w_n w, w_s w, map public_trace os) /\
    exists base vals eb, CI n w base vals eb.
Proof.
  intros FW. induction n; intros CF.
  - exists w0, []. split; [reflexivity|]. split; [reflexivity|].
    split; [intros [|?] ?; discriminate|]. split; [simpl; rewrite (fw_n _ FW); auto|].
    apply fresh_CI; auto.
  - destruct IHn as (w & os & E & HL & HG & HS & base & vals & eb & HC).
    { intros i w os Hi. apply CF. lia. }
    destruct (CF n w os ltac:(lia) E) as [G1 G2].
    destruct (cycle_step c fan0 aes R rnd reset p_init p_input ginit gin einit ein WF SZ HR F0len F0
      g_init e_init g_input e_input V CV LI LN n w base vals eb HC G1 G2)
      as (w' & o & base' & vals' & eb' & ST & HC' & A1 & A2 & A3 & A4 & A5 & A6 & gl & souts & sterm & B1 & B2 & B3 & B4).
    exists w', (os ++ [o]). cbn [world_run]. rewrite E. cbn [obind]. rewrite ST. cbn [obind].
    split; [reflexivity|]. split; [rewrite app_length, HL; simpl; lia|].
    split.
    { intros cid o' H. destruct (Nat.lt_ge_cases cid (length os)) as [H1|H1].
      - rewrite nth_error_app1 in H by auto. auto.
      - rewrite nth_error_app2 in H by auto. destruct (cid - length os)%nat as [|[|?]] eqn:EQ; try discriminate.
        injection H as <-. assert (cid = n) as -> by lia. constructor; auto. }
    split.
    { cbn [sym_run]. rewrite HS. cbn [obind]. rewrite B1. cbn [obind].
      rewrite map_app, <- B2, <- B3, <- B4. reflexivity. }
    eauto.
Qed.
End Run.
