(** The text-level programs against the plaintext evaluator and the Verilog
    source. *)
From Coq Require Import ZArith NArith List Bool Lia Ascii String.
From Verif Require Import Base Gate Circuit CycleModel Spec Plain Run Results
  Proc Codec Tcp BN Rand Bounded Tables Protocol Transfer OutTransfer ProtocolOk ProtocolRun EndToEnd ProtocolResults
  Text Scd Parse VerilogFront Hex Format Programs.
Import ListNotations.
Open Scope Z_scope.

(** * The plaintext evaluator prints the same text *)
Lemma stops_at_iff u V cy : stops_at (u_c u) V (terminate_period (u_opt u)) cy = true <-> EndToEnd.terminates u V cy.
Proof.
  rewrite <- stops_iff. unfold stops_at, ProtocolRun.stops, Protocol.inspected. rewrite Z.gtb_ltb. reflexivity.
Qed.
Lemma executed_is u V : (0 < u_n u)%nat -> executes u V (executed (u_c u) V (terminate_period (u_opt u)) (u_n u)).
Proof.
  intros HN. unfold executed. pose proof (executed_from_bounds (u_c u) V (terminate_period (u_opt u)) (u_n u) 0) as B.
  destruct (executed_from_spec (u_c u) V (terminate_period (u_opt u)) (u_n u) 0) as [S1 S2].
  set (T := executed_from (u_c u) V (terminate_period (u_opt u)) (u_n u) 0) in *.
  assert (NT : forall cy, stops_at (u_c u) V (terminate_period (u_opt u)) cy = false -> ~ EndToEnd.terminates u V cy).
  { intros cy H HT. apply stops_at_iff in HT. congruence. }
  destruct (Nat.eq_dec T (u_n u)) as [E|E].
  - split; [lia|]. split; [|left; exact E]. intros cy Hc. apply NT, S1; lia.
  - destruct (S2 ltac:(lia)) as (cy & ET & SC). split; [lia|]. split; [intros k Hk; apply NT, S1; lia|].
    right. apply stops_at_iff. replace (T - 1)%nat with cy by lia. exact SC.
Qed.

(** The plaintext program is started for the same run. *)
Record plain_started (a : plain_arguments) (u : setup) : Prop := {
  ps_file : exists f, pl_file a = Some f /\ forall jf, ReadSCD jf f = u_c u;
  ps_init : writes (pl_p_init a) (p_init (u_x u)) /\ writes (pl_g_init a) (g_init (u_x u)) /\ writes (pl_e_init a) (e_init (u_x u));
  ps_input : writes (pl_p_input a) (p_input (u_x u)) /\ writes (pl_g_input a) (g_input (u_x u)) /\ writes (pl_e_input a) (e_input (u_x u));
  ps_rest : pl_cycles a = u_n u /\ pl_period a = terminate_period (u_opt u) /\ pl_mode a = output_mode (u_opt u) }.

Lemma plain_runs jf a u V wl0 ll0 : plain_started a u -> ready u -> consistent (u_c u) (u_x u) V ->
  List.length wl0 = get_wire_size (u_c u) -> List.length ll0 = dff_size (u_c u) ->
  exists out, let T := executed (u_c u) V (terminate_period (u_opt u)) (u_n u) in
  EvalauatePlaintextStr jf true wl0 ll0 a = Some (Some (OutputBN2StrHighMem (output_size (u_c u)) (Z.of_N out) T (output_mode (u_opt u)))) /\
  (forall cy i w, (cy < T)%nat -> nth_error (outputs (u_c u)) i = Some w -> N.testbit out (N.of_nat (cy * output_size (u_c u) + i)) = V cy w) /\
  (forall p, (N.of_nat (T * output_size (u_c u)) <= p)%N -> N.testbit out p = false).
Proof.
  intros [(f & FA & FR) (P1 & P2 & P3) (Q1 & Q2 & Q3) (R1 & R2 & R3)] RU CV L1 L2.
  destruct (EvalauatePlaintext_ok (u_c u) (u_x u) V (terminate_period (u_opt u)) (u_n u) wl0 ll0 (rd_wf u RU) CV L1 L2) as (out & E & B1 & B2).
  exists out. cbv zeta. split; [|split; assumption]. unfold EvalauatePlaintextStr. rewrite FA, FR, R1, R2, R3.
  assert (T0 : negb (terminate_period (u_opt u) =? 0) && (terminate_id (u_c u) =? 0) = false).
  { destruct (rd_term u RU) as [->|NE]; [reflexivity|]. apply Z.eqb_neq in NE. rewrite NE. apply andb_false_r. }
  rewrite T0. unfold plain_inputs. rewrite (parsed_ok _ _ P1), (parsed_ok _ _ P2), (parsed_ok _ _ P3), (parsed_ok _ _ Q1), (parsed_ok _ _ Q2), (parsed_ok _ _ Q3).
  replace (mkInputs (p_init (u_x u)) (g_init (u_x u)) (e_init (u_x u)) (p_input (u_x u)) (g_input (u_x u)) (e_input (u_x u))) with (u_x u) by (destruct (u_x u); reflexivity).
  rewrite E. reflexivity.
Qed.

(** What the plaintext program prints. *)
Theorem plain_program_ok jf a u V T wl0 ll0 : plain_started a u -> ready u -> consistent (u_c u) (u_x u) V -> executes u V T ->
  Z.of_nat (u_n u * output_size (u_c u)) < 2 ^ 31 ->
  List.length wl0 = get_wire_size (u_c u) -> List.length ll0 = dff_size (u_c u) ->
  exists t, EvalauatePlaintextStr jf true wl0 ll0 a = Some (Some t) /\
    displays (output_mode (u_opt u)) (output_size (u_c u)) T t (fun cy i => V cy (nth i (outputs (u_c u)) 0)).
Proof.
  intros PS RU CV ET SM L1 L2. destruct (plain_runs jf a u V wl0 ll0 PS RU CV L1 L2) as (out & E & B1 & B2).
  assert (TE : executed (u_c u) V (terminate_period (u_opt u)) (u_n u) = T) by (eapply executes_unique; [apply executed_is; apply (rd_cycles u RU)|exact ET]).
  rewrite TE in *. eexists. split; [exact E|]. destruct ET as ((T1 & T2) & _).
  apply (printed_displays false); [lia|nia| |].
  - intros cy i Hc Hi. rewrite Nat.sub_0_r. apply B1; [lia|]. apply nth_error_nth'. exact Hi.
  - intros p Hp. apply B2. rewrite Nat.sub_0_r in Hp. exact Hp.
Qed.

Lemma low_high_same mode n v T : mode <> last_clock -> OutputBN2StrLowMem n v T mode = OutputBN2StrHighMem n v T mode.
Proof. destruct mode; intros H; [reflexivity|reflexivity|congruence]. Qed.

(** With an empty mask the evaluator prints exactly what the plaintext evaluation
    of the same circuit prints. *)
Theorem same_text ja jb jf a b p u V T wl0 ll0 : started a b u -> plain_started p u -> good_run (low_mem_foot a) u V T ->
  output_mask (u_opt u) = 0%N -> Z.of_nat (u_n u * output_size (u_c u)) < 2 ^ 31 ->
  List.length wl0 = get_wire_size (u_c u) -> List.length ll0 = dff_size (u_c u) ->
  exists ta t, always_finish (garbler_program ja a u) (evaluator_program jb b u) (Some ta) (Some t) /\
    EvalauatePlaintextStr jf true wl0 ll0 p = Some (Some t).
Proof.
  intros S PS G M SM L1 L2. set (foot := low_mem_foot a) in *. pose proof (gr_ready _ _ _ _ G) as RU. pose proof (gr_T _ _ _ _ G) as ET.
  destruct (plain_runs jf p u V wl0 ll0 PS RU (gr_V _ _ _ _ G) L1 L2) as (out & E & B1 & B2).
  assert (TE : executed (u_c u) V (terminate_period (u_opt u)) (u_n u) = T) by (eapply executes_unique; [apply executed_is; apply (rd_cycles u RU)|exact ET]).
  cbv zeta in E. rewrite TE in *. destruct ET as ((T1 & T2) & _). pose proof (both_finish foot u V T G) as BE.
  pose proof (result_bits foot u V T _ _ G BE) as RB. pose proof (result_nothing_else foot u V T _ _ G BE) as RZ. destruct BE as (k & RE & _).
  assert (R : runs (garbler foot u) (evaluator foot u) (Some (T, Z.of_N (outA foot u V T))) (Some (T, Z.of_N (outB foot u V T)))) by (exists k; exact RE).
  pose proof (program_runs ja jb a b u T _ _ S ltac:(lia) R) as PR.
  exists (printed a (u_c u) (T, Z.of_N (outA foot u V T))), (printed a (u_c u) (T, Z.of_N (outB foot u V T))).
  split; [apply always_runs; exact PR|]. rewrite E. do 2 f_equal. set (n := output_size (u_c u)) in *.
  assert (OW : forall i, (i < n)%nat -> nth_error (outputs (u_c u)) i = Some (nth i (outputs (u_c u)) 0)) by (intros i Hi; apply nth_error_nth'; exact Hi).
  assert (TG : forall i, to_garbler u i = false) by (intros i; unfold to_garbler; rewrite M; apply N.bits_0).
  assert (BB : forall cy i, (shown_from foot u T <= cy < T)%nat -> (i < n)%nat ->
    N.testbit (outB foot u V T) (N.of_nat ((cy - shown_from foot u T) * n + i)) = N.testbit out (N.of_nat (cy * n + i))).
  { intros cy i Hc Hi. rewrite (B1 cy i _ ltac:(lia) (OW i Hi)). destruct (RB cy i _ Hc (OW i Hi)) as (_ & _ & R3).
    unfold bit_of in R3. fold n in R3. rewrite R3, TG, andb_true_r; [reflexivity|]. apply zero_mask_hides_nothing. exact M. }
  destruct (st_mode _ _ _ S) as [EM _]. destruct (st_cycles _ _ _ S) as [EC _].
  pose proof (from_is a u T EM EC) as FI. fold foot in FI. unfold printed. cbn [fst snd]. fold n foot. rewrite EM in *.
  destruct (foot && (1 <? arg_cycles a)%nat) eqn:LOW; [destruct (output_mode (u_opt u)) eqn:MD|].
  3: { (* only the last cycle is kept *)
    cbn [OutputBN2StrLowMem OutputBN2StrHighMem]. replace (Z.of_nat T - 1) with (Z.of_nat (T - 1)) by lia. rewrite cycle_bits_ok by nia. do 2 f_equal.
    apply N.bits_inj. intros q. rewrite FI in *. destruct (N.le_gt_cases (N.of_nat n) q) as [L|L].
    - rewrite N.mod_pow2_bits_high by lia. symmetry. apply RZ. fold n. nia.
    - rewrite N.mod_pow2_bits_low, N.shiftr_spec by lia. specialize (BB (T - 1)%nat (N.to_nat q) ltac:(lia) ltac:(lia)).
      rewrite Nat.sub_diag in BB. replace (N.of_nat (0 * n + N.to_nat q)) with q in BB by lia. rewrite BB. f_equal. lia. }
  all: assert (NE : out = outB foot u V T).
  1,3,5: rewrite FI in *; apply N.bits_inj; intros q; destruct (N.le_gt_cases (N.of_nat (T * n)) q) as [L|L];
    [rewrite B2 by exact L; symmetry; apply RZ; fold n; rewrite Nat.sub_0_r; exact L|];
    assert (OZ : (0 < n)%nat) by (destruct n; [rewrite Nat.mul_0_r in L; lia|lia]);
    pose proof (Nat.div_mod (N.to_nat q) n ltac:(lia)) as DM; pose proof (Nat.mod_upper_bound (N.to_nat q) n ltac:(lia)) as MB;
    assert (HQ : (N.to_nat q / n < T)%nat) by (apply Nat.div_lt_upper_bound; lia);
    specialize (BB (N.to_nat q / n)%nat (N.to_nat q mod n)%nat ltac:(lia) MB); rewrite Nat.sub_0_r in BB;
    replace (N.of_nat (N.to_nat q / n * n + N.to_nat q mod n)) with q in BB by lia; symmetry; exact BB.
  all: rewrite NE; reflexivity.
Qed.

(** * C42: a failed evaluation is reported as an all-zero result *)
Theorem failure_hidden jf wl0 ll0 a f : pl_file a = Some f -> (pl_period a = 0 \/ terminate_id (ReadSCD jf f) <> 0) ->
  EvalauatePlaintext (ReadSCD jf f) (plain_inputs a) false (pl_cycles a) (pl_period a) wl0 ll0 = Some (false, 0%N, pl_cycles a) /\
  EvalauatePlaintextStr jf false wl0 ll0 a =
    Some (Some (OutputBN2StrHighMem (output_size (ReadSCD jf f)) 0 (pl_cycles a) (pl_mode a))).
Proof.
  intros FA HT. split; [reflexivity|]. unfold EvalauatePlaintextStr. rewrite FA.
  assert (T0 : negb (pl_period a =? 0) && (terminate_id (ReadSCD jf f) =? 0) = false).
  { destruct HT as [->|NE]; [reflexivity|]. apply Z.eqb_neq in NE. rewrite NE. apply andb_false_r. }
  rewrite T0. reflexivity.
Qed.

(** * From the Verilog text to the printed outputs *)
Lemma displays_ext mode n T t b b' : (0 < T)%nat -> (forall cy i, (cy < T)%nat -> (i < n)%nat -> b cy i = b' cy i) ->
  displays mode n T t b -> displays mode n T t b'.
Proof.
  intros HT E. destruct mode; cbn [displays].
  - intros (v & H1 & H2 & H3). exists v. split; [exact H1|]. split; [exact H2|]. intros cy i Hc Hi. rewrite <- E by assumption. auto.
  - intros (ls & H1 & H2 & H3). exists ls. split; [exact H1|]. split; [exact H2|]. intros cy l Hl. destruct (H3 cy l Hl) as (v & V1 & V2 & V3).
    exists v. split; [exact V1|]. split; [exact V2|]. intros j Hj. rewrite <- E; auto. rewrite <- H2. apply nth_error_Some. congruence.
  - intros (v & V1 & V2 & V3). exists v. split; [exact V1|]. split; [exact V2|]. intros j Hj. rewrite <- E; auto. lia.
Qed.
(** [T] cycles of the module are run. *)
Definition module_runs (m : list stmt) (U : nat -> string -> bool) (n : nat) (period : Z) (T : nat) : Prop :=
  let stop cy := period <> 0 /\ Parse.terminates m /\ (period mod 2 ^ 64 | Z.of_nat cy) /\ U cy "terminate"%string = true in
  (1 <= T <= n)%nat /\ (forall cy, (S cy < T)%nat -> ~ stop cy) /\ (T = n \/ stop (T - 1)%nat).

Theorem verilog_programs m t : well_built m -> Z.of_nat (List.length m) < 2 ^ 60 -> ~ comb_loop m -> written (module_words m) t ->
  exists file c, (forall log, Verilog2SCD log (Some t) = Done file) /\ (forall jf, ReadSCD jf file = c) /\
  forall ja jb a b u V T, u_c u = c -> scd_file a = Some file -> started a b u -> good_run (low_mem_foot a) u V T ->
    Z.of_nat (u_n u * out_width m) < 2 ^ 31 -> (forall cy i, (cy < T)%nat -> ~ hidden (sess (low_mem_foot a) u) u V cy i) ->
  forall U net, obeys m (u_x u) U -> (forall i, (i < out_width m)%nat -> out_net m i (net i)) ->
    module_runs m U (u_n u) (terminate_period (u_opt u)) T /\
    exists ta tb, always_finish (garbler_program ja a u) (evaluator_program jb b u) (Some ta) (Some tb) /\
      displays (output_mode (u_opt u)) (out_width m) T ta (fun cy i => U cy (net i) && to_garbler u i) /\
      displays (output_mode (u_opt u)) (out_width m) T tb (fun cy i => U cy (net i) && negb (to_garbler u i)).
Proof.
  intros WB SM NL W. destruct (verilog_reads m t WB SM NL W) as (file & c & TR & RD & RM). exists file, c. split; [exact TR|]. split; [exact RD|].
  intros ja jb a b u V T EC FA S G SO NH U net OB NET. subst c. destruct RM as [WF RS RT _ RV].
  pose proof (gr_V _ _ _ _ G) as CV. pose proof (RV (u_x u) U V OB CV) as VAL. destruct RS as (_ & _ & _ & _ & _ & _ & OW).
  change (output_size (u_c u) = out_width m) in OW.
  pose proof (gr_T _ _ _ _ G) as ET. 
  assert (TP : 0 <= terminate_id (u_c u)) by (pose proof (wf_term _ WF); unfold first_input in *; lia).
  assert (ST : forall cy, EndToEnd.terminates u V cy <->
    (terminate_period (u_opt u) <> 0 /\ Parse.terminates m /\ (terminate_period (u_opt u) mod 2 ^ 64 | Z.of_nat cy) /\ U cy "terminate"%string = true)).
  { intros cy. unfold EndToEnd.terminates, checked. destruct (VAL cy) as [_ VT]. split.
    - intros ((A1 & A2 & A3) & A4). assert (PT : Parse.terminates m) by (apply RT; lia). rewrite (VT PT) in A4. auto.
    - intros (A1 & A2 & A3 & A4). rewrite (VT A2). apply RT in A2. split; [split; [exact A1|split; [lia|exact A3]]|exact A4]. }
  split.
  { destruct ET as (E1 & E2 & E3). split; [exact E1|]. split.
    - intros cy Hc H. apply (E2 cy Hc). apply ST. exact H.
    - destruct E3 as [E3|E3]; [left; exact E3|right; apply ST; exact E3]. }
  destruct ET as ((T1 & T2) & _).
  rewrite <- OW in SO. destruct (programs_ok ja jb a b u V T S G SO NH) as (ta & tb & AF & DA & DB). rewrite OW in DA, DB.
  assert (VU : forall cy i, (i < out_width m)%nat -> V cy (nth i (outputs (u_c u)) 0) = U cy (net i)).
  { intros cy i Hi. destruct (VAL cy) as [VO _]. destruct (VO i (net i) Hi (NET i Hi)) as (w & EW & EV).
    rewrite (nth_error_nth _ _ 0 EW). exact EV. }
  exists ta, tb. split; [exact AF|]. split; (eapply displays_ext; [lia| |eassumption]); intros cy i Hc Hi; cbv beta; rewrite VU by exact Hi; reflexivity.
Qed.

Theorem failure_reported_refuted : ~ forall jf files wl0 ll0 a f, pl_file a = Some f ->
  (exists out n, EvalauatePlaintext (ReadSCD jf f) (plain_inputs a) files (pl_cycles a) (pl_period a) wl0 ll0 = Some (false, out, n)) ->
  EvalauatePlaintextStr jf files wl0 ll0 a = Some None.
Proof.
  intros C. set (a := mkPlain (Some []) [] [] [] [] [] [] 1 0 consecutive).
  specialize (C (fun _ _ => 0) false [] [] a [] eq_refl). destruct (failure_hidden (fun _ _ => 0) [] [] a [] eq_refl (or_introl eq_refl)) as [E1 E2].
  rewrite E2 in C. specialize (C ltac:(eauto)). discriminate.
Qed.
