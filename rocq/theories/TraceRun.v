(** Mapping files and traces of circuits made from Verilog and Bristol netlists. *)
From Coq Require Import ZArith NArith List Bool Lia Ascii String Permutation.
From Verif Require Import Base Gate Circuit Spec Fanout GateFacts Phase1 Phase2 Prefix Plain Sort SortOk Text Netlist NetlistOk Scd Front Parse ParseOk Verilog VerilogOk VerilogNet VerilogFront
  FrontDemo Demo Bristol BristolOk BristolRun MapFile Trace.
Import ListNotations.
Open Scope Z_scope.
Open Scope string_scope.
Open Scope list_scope.

(** scd/v_2_scd.cpp:27-58 with the mapping file: mapping file and SCD file. *)
Definition Verilog2SCDFiles (log : bool) (file : option text) : result (text * text) :=
  match ParseNetlist log file with
  | Done s => match translate_files log s with None => Undefined | Some None => Failed | Some (Some t) => Done t end
  | Failed => Failed
  | Hangs => Hangs
  | Undefined => Undefined
  end.
(** scd/v_2_scd.cpp:60-91 *)
Definition Bris2SCDFiles (log : bool) (junk0 : nat -> Z) (junk : nat -> nat -> Z) (file : option text) : result (text * text) :=
  match ParseBrisNetlist log junk0 junk file with
  | Some s => match translate_files log s with None => Undefined | Some None => Failed | Some (Some t) => Done t end
  | None => Failed
  end.

(** * Specification *)

(** The entries [es] name the nets of the module [m] in the circuit [c]: every net
    driven by a cell has exactly one entry, whose wire carries its value; the other
    entries are for nets inside MUX and FADDER cells; the wires are listed in order. *)
Record names_nets (m : list stmt) (c : GarbledCircuit) (es : list (string * Z)) : Prop := {
  nn_all : forall n, In n (reg_nets m ++ gate_nets m) -> exists w, In (n, w) es;
  nn_once : NoDup (map fst es);
  nn_only : forall n w, In (n, w) es -> In n (reg_nets m ++ gate_nets m) \/ mid_name n;
  nn_order : map snd es = map (fun k => first_dff c + Z.of_nat k) (seq 0 (dff_size c + gate_size c));
  nn_value : forall x U V, obeys m x U -> consistent c x V ->
    forall cy n w, In (n, w) es -> ~ mid_name n -> V cy w = U cy n }.
(** Fewer than 2^31 wires, so that their numbers are ints. *)
Definition wires_fit (m : list stmt) : Prop :=
  Z.of_nat (fold_right (fun p k => in_width m p + k)%nat 0%nat in_ports + 6 * List.length m) < 2 ^ 31.
(** All there is to say about a run of the plaintext evaluator with the mapping file [mapf]. *)
Definition traces (c : GarbledCircuit) (mapf : text) (es : list (string * Z)) : Prop :=
  forall x V n period wl0 ll0, consistent c x V -> List.length wl0 = get_wire_size c -> List.length ll0 = dff_size c ->
  exists out, EvalauatePlaintext c x true n period wl0 ll0 = Some (true, out, executed c V period n) /\
    EvalauatePlaintextFiles c x (Some mapf) true n period wl0 ll0 =
      Some (true, out, executed c V period n, Some (trace (shown es) V (recorded c V period n))).

(** * Names *)
Definition clean (w : string) : Prop := Forall (fun c => is_sep c = false /\ c <> nl) (list_ascii_of_string w).
Lemma separator_clean c : separator c = false -> is_sep c = false /\ c <> nl.
Proof.
  unfold separator. cbn [existsb]. rewrite !orb_false_iff. intros (A & _ & _ & _ & B & _ & C & _). unfold is_sep, sp, tab. rewrite A, B. split; [reflexivity|].
  intros ->. discriminate.
Qed.
Lemma written_clean ws t : written ws t -> Forall clean ws.
Proof.
  induction 1 as [|c ws t S W IH|ws t W IH|w ws t N F E W IH]; auto.
  - constructor; [|exact IH]. constructor; [split; [reflexivity|discriminate]|constructor].
  - constructor; [|exact IH]. eapply Forall_impl; [|exact F]. cbn. intros c [S _]. apply separator_clean. exact S.
Qed.
Lemma str_app a b : list_ascii_of_string (a ++ b)%string = list_ascii_of_string a ++ list_ascii_of_string b.
Proof. induction a as [|c a IH]; cbn; [reflexivity|]. rewrite IH. reflexivity. Qed.
Lemma clean_app a b : clean a -> clean b -> clean (a ++ b)%string.
Proof. unfold clean. rewrite str_app. intros. apply Forall_app. auto. Qed.
Lemma to_string_clean k : clean (to_string k).
Proof.
  unfold clean, to_string. rewrite list_ascii_of_string_of_list_ascii. destruct (dec_ok (N.of_nat k)) as (_ & F & _).
  eapply Forall_impl; [|exact F]. apply digit_plain.
Qed.
Lemma mid_plain n : mid_name n -> plain_name n.
Proof.
  intros (p & k & I & ->). assert (C : clean p) by (cbn in I; decompose [or] I; try contradiction; subst p; repeat constructor; discriminate). split.
  - cbn in I; decompose [or] I; try contradiction; subst p; discriminate.
  - apply clean_app; [exact C|apply to_string_clean].
Qed.
Lemma cell_conn_clean m t k i cs p n : Forall legal m -> written (module_words m) t -> In (Cell k i cs) m -> at_pin cs p = Some n -> plain_name n.
Proof.
  intros LG W I E. apply at_pin_in in E as (r & J & ->). pose proof (written_clean _ _ W) as C. rewrite Forall_forall in C.
  assert (CW : forall w, In w (conn_words (p, r)) -> clean w).
  { intros w Hw. apply C. unfold module_words. rewrite in_app_iff. left. apply in_flat_map. exists (Cell k i cs). split; [exact I|].
    cbn [stmt_words]. right. right. rewrite in_app_iff. left. apply in_flat_map. eauto. }
  rewrite Forall_forall in LG. specialize (LG _ I). cbn [legal] in LG. destruct LG as (_ & _ & F & _). rewrite Forall_forall in F. destruct (F _ J) as (_ & (_ & NE & _) & _).
  cbn [snd fst] in *. destruct r as [a [ix|]]; unfold Parse.net; cbn [snd fst] in *; split.
  - destruct a; [congruence|discriminate].
  - apply clean_app; apply CW; cbn; auto.
  - exact NE.
  - apply CW. cbn. auto.
Qed.

(** * Verilog *)
Section Verilog.
Variable m : list stmt.
Variable t : text.
Hypothesis WB : well_built m.
Hypothesis NL : ~ comb_loop m.
Hypothesis W : written (module_words m) t.
Notation s := (elab m).

Lemma elab_small : Z.of_nat (List.length m) < 2 ^ 60 -> small s.
Proof.
  intros SM. pose proof (wb_legal m WB) as LG. destruct (elab_fields m LG) as (EG & ED & EA & EO & ET & S1 & S2 & S3 & S4 & S5 & S6).
  unfold small. rewrite S1, S2, S3, S4, S5, S6, EG, ED, EO. pose proof (gates_bound m 0). pose proof (regs_bound m). pose proof (out_width_bound m LG).
  pose proof (in_width_bound m "p_init" LG). pose proof (in_width_bound m "g_init" LG). pose proof (in_width_bound m "e_init" LG).
  pose proof (in_width_bound m "p_input" LG). pose proof (in_width_bound m "g_input" LG). pose proof (in_width_bound m "e_input" LG). lia.
Qed.
Lemma net_names c es : names_wires s c es -> names_nets m c es.
Proof.
  intros [A _ O V]. pose proof (wb_legal m WB) as LG. pose proof (elab_well_named m WB) as WN. split.
  - intros n I. assert (J : In n (map fst es)).
    { apply (Permutation_in _ (Permutation_sym A)). apply (in_cells m WB). rewrite in_app_iff in I. tauto. }
    apply in_map_iff in J as ((n' & w) & E & J). cbn in E. subst n'. eauto.
  - apply (Permutation_NoDup (Permutation_sym A)). pose proof (wn_drivers _ WN) as ND. unfold declared in ND.
    apply nodup_right in ND. apply nodup_right in ND. apply nodup_left in ND. exact ND.
  - intros n w I. assert (J : In n (cell_names s)) by (apply (Permutation_in _ A); apply in_map_iff; exists (n, w); auto).
    apply (in_cells m WB) in J. rewrite in_app_iff. destruct J as [J|[J|J]]; auto. right. apply (mids_mid m). exact J.
  - exact O.
  - intros x U V' OB C cy n w I NM. rewrite (V x _ V' (obeys_net m WB x U OB) C cy n w I). apply (ext_other m). exact NM.
Qed.
Lemma entry_plain c es n w : names_nets m c es -> In (n, w) es -> plain_name n.
Proof.
  intros NN I. pose proof (wb_legal m WB) as LG. destruct (nn_only _ _ _ NN n w I) as [J|J]; [|apply mid_plain; exact J].
  rewrite in_app_iff in J. destruct J as [J|J].
  - apply (reg_nets_in m) in J as (i & cs & J & E). eapply cell_conn_clean; eauto.
  - apply (gate_nets_in m) in J as (k & i & cs & p & J & _ & _ & E). eapply cell_conn_clean; eauto.
Qed.

Theorem verilog_traces : wires_fit m -> exists mapf file c es,
  (forall log, Verilog2SCDFiles log (Some t) = Done (mapf, file)) /\ (forall log, Verilog2SCD log (Some t) = Done file) /\
  (forall junk, ReadSCD junk file = c) /\ runs_module c m /\
  mapf = map_file es (terminate_id c) /\ names_nets m c es /\ traces c mapf es.
Proof.
  intros WFI. pose proof (wb_legal m WB) as LG. unfold wires_fit in WFI. cbn [in_ports fold_right] in WFI.
  assert (SM : Z.of_nat (List.length m) < 2 ^ 60) by lia.
  destruct (names_ok s (elab_well_named m WB) (elab_small SM)) as (file & c & es & TF & T & R & IM & NW).
  { intros L. apply NL. apply (loops_agree m WB). exact L. }
  pose proof (net_names c es NW) as NN.
  exists (map_file es (terminate_id c)), file, c, es.
  assert (TV : forall log, Verilog2SCD log (Some t) = Done file).
  { intros log. unfold Verilog2SCD. rewrite (parse_module log m t LG W), T. reflexivity. }
  split; [intros log; unfold Verilog2SCDFiles; rewrite (parse_module log m t LG W), TF; reflexivity|].
  split; [exact TV|]. split; [exact R|]. split.
  { destruct (verilog_reads m t WB SM NL W) as (file' & c' & T' & R' & M). specialize (T' true). rewrite TV in T'. injection T' as <-.
    rewrite (R (fun _ _ => 0)) in R' || (specialize (R (fun _ _ => 0)); specialize (R' (fun _ _ => 0))). congruence. }
  split; [reflexivity|]. split; [exact NN|].
  intros x V n period wl0 ll0 CV L1 L2.
  pose proof (im_wf _ _ IM) as WF. destruct (im_sizes _ _ IM) as (Z1 & Z2 & Z3 & Z4 & Z5 & Z6 & Z7 & Z8 & Z9).
  destruct (elab_fields m LG) as (EG & ED & EA & EO & ET & S1 & S2 & S3 & S4 & S5 & S6).
  assert (B : forall n w, In (n, w) es -> first_dff c <= w < last_wire c).
  { intros a w I. assert (J : In w (map snd es)) by (apply in_map_iff; exists (a, w); auto). rewrite (nn_order _ _ _ NN) in J.
    apply in_map_iff in J as (k & <- & K). apply in_seq in K. unfold last_wire, first_gate. unfold dff_size, gate_size in K. lia. }
  assert (LW : last_wire c < 2 ^ 31).
  { unfold last_wire, first_gate, first_dff, first_input. rewrite Z8, Z9, Z1, Z2, Z3, Z4, Z5, Z6, S1, S2, S3, S4, S5, S6, EG, ED.
    pose proof (gates_bound m 0). pose proof (regs_bound m). lia. }
  pose proof (first_order c) as FO. pose proof (first_input_nonneg c) as FN.
  apply trace_ok; auto.
  - intros a w I. eapply entry_plain; eauto.
  - intros a w I. specialize (B a w I). lia.
  - destruct (wf_term _ WF) as [->|]; lia.
  - intros a w I. specialize (B a w I). lia.
Qed.
End Verilog.

Lemma shown_all es : ~ In "terminate" (map fst es) -> shown es = es.
Proof.
  induction es as [|e es IH]; cbn; [reflexivity|]. intros H. destruct (String.eqb_spec (fst e) "terminate") as [E|_]; [exfalso; auto|]. rewrite IH by auto. reflexivity.
Qed.

(** * Bristol *)
Theorem bristol_traces b t ws : b_valid b -> spaced (bristol_words b ++ ws) t -> Z.of_nat (b_g b + b_e b + List.length (b_gates b)) < 2 ^ 31 ->
  exists mapf file c es,
  (forall log junk0 junk, Bris2SCDFiles log junk0 junk (Some t) = Done (mapf, file)) /\
  (forall log junk0 junk, Bris2SCD log junk0 junk (Some t) = Done file) /\
  (forall junk, ReadSCD junk file = c) /\ runs_bristol c b /\ mapf = map_file es 0 /\
  Permutation (map fst es) (map (fun g => wname b (bg_out g)) (b_gates b)) /\ NoDup (map fst es) /\
  (forall x V, consistent c x V -> forall cy k w, In k (map bg_out (b_gates b)) -> In (wname b k, w) es ->
     V cy w = b_run b (fun j => bit (Spec.g_input x) (cy * b_g b + j)) (fun j => bit (Spec.e_input x) (cy * b_e b + j)) k) /\
  shown es = es /\ traces c mapf es.
Proof.
  intros BV S LT. pose proof (net_well_named b BV) as WN.
  destruct (names_ok (BristolOk.net b) WN (net_small b BV) (no_loop b BV)) as (file & c & es & TF & T & R & IM & [A _ O V]).
  assert (TT : forall log junk0 junk, Bris2SCD log junk0 junk (Some t) = Done file).
  { intros. unfold Bris2SCD. rewrite (parse_bristol b BV log junk0 junk t ws S), T. reflexivity. }
  assert (RB : runs_bristol c b).
  { destruct (bristol_reads b t ws BV S) as (file' & c' & T' & R' & M). specialize (T' true (fun _ => 0) (fun _ _ => 0)). rewrite TT in T'. injection T' as <-.
    specialize (R (fun _ _ => 0)). specialize (R' (fun _ _ => 0)). congruence. }
  assert (CN : cell_names (BristolOk.net b) = map (fun g => wname b (bg_out g)) (b_gates b)).
  { unfold cell_names. cbn [BristolOk.net dff_list_string gate_list_string map app]. rewrite map_map. apply map_ext. apply net_out. }
  assert (PL : forall n, In n (map fst es) -> plain_name n /\ n <> "terminate").
  { intros n I. apply (Permutation_in _ A) in I. rewrite CN in I. apply in_map_iff in I as (g & <- & _).
    assert (EL : forall p k, clean p -> clean (elem p k)).
    { intros p k C. unfold elem. repeat apply clean_app; auto using to_string_clean; repeat constructor; discriminate. }
    assert (NE : forall (p : string) r, p <> "" -> (p ++ r)%string <> "") by (intros [|? ?] r H; [congruence|discriminate]).
    unfold wname. repeat match goal with |- context [if ?q then _ else _] => destruct q end; split; try discriminate;
      (split; [apply NE; discriminate|]); try (apply EL; repeat constructor; discriminate).
    apply clean_app; [repeat constructor; discriminate|apply to_string_clean]. }
  exists (map_file es (terminate_id c)), file, c, es.
  split; [intros; unfold Bris2SCDFiles; rewrite (parse_bristol b BV log junk0 junk t ws S), TF; reflexivity|].
  split; [exact TT|]. split; [exact R|]. split; [exact RB|]. split; [rewrite (rb_term _ _ RB); reflexivity|].
  split; [rewrite <- CN; exact A|]. split.
  { apply (Permutation_NoDup (Permutation_sym A)). pose proof (wn_drivers _ WN) as ND. unfold declared in ND.
    apply nodup_right in ND. apply nodup_right in ND. apply nodup_left in ND. exact ND. }
  split; [|split].
  - intros x V' CV cy k w K I. destruct (im_some _ _ IM x) as [U NC]. rewrite (V x U V' NC CV cy _ _ I). symmetry. apply (b_run_ok b BV x U NC cy). auto.
  - apply shown_all. intros I. apply PL in I as [_ I]. congruence.
  - intros x V' n period wl0 ll0 CV L1 L2. pose proof (im_wf _ _ IM) as WF. destruct (rb_sizes _ _ RB) as (Z1 & Z2 & Z3 & Z4 & Z5 & Z6 & Z7 & Z8 & Z9).
    assert (B : forall n w, In (n, w) es -> first_dff c <= w < last_wire c).
    { intros a w I. assert (J : In w (map snd es)) by (apply in_map_iff; exists (a, w); auto). rewrite O in J.
      apply in_map_iff in J as (k & <- & K). apply in_seq in K. unfold last_wire, first_gate. unfold dff_size, gate_size in K. lia. }
    assert (LW : last_wire c < 2 ^ 31). { unfold last_wire, first_gate, first_dff, first_input. rewrite Z8, Z9, Z1, Z2, Z3, Z4, Z5, Z6. lia. }
    pose proof (first_order c) as FO. pose proof (first_input_nonneg c) as FN.
    apply trace_ok; auto.
    + intros a w I. apply PL. apply in_map_iff. exists (a, w). auto.
    + intros a w I. specialize (B a w I). lia.
    + rewrite (rb_term _ _ RB). lia.
    + intros a w I. specialize (B a w I). lia.
Qed.
