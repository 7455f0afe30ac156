(** Claims about the mapping file and the trace.  Each theorem is followed by its
    assumptions and an instance. *)
From Coq Require Import ZArith NArith List Bool Lia Ascii String Permutation.
From Verif Require Import Base Gate Circuit Spec Plain Demo ProtocolDemo Text Netlist Scd Front Parse ParseOk VerilogFront FrontDemo ProgramsDemo
  Bristol BristolOk BristolRun MapFile Trace TraceRun TraceDemo.
Import ListNotations.
Open Scope Z_scope.
Open Scope string_scope.
Open Scope list_scope.

(** * C61 The mapping file names the wires *)
Theorem C61_mapping : forall s, well_named s -> small s -> ~ combinational_loop s -> exists file c es,
  (forall log, translate_files log s = Some (Some (map_file es (terminate_id c), file))) /\ (forall log, translate log s = Some (Some file)) /\
  (forall junk, ReadSCD junk file = c) /\ implements c s /\ names_wires s c es.
Proof. exact names_ok. Qed.
Print Assumptions C61_mapping.
Example C61_example : well_built demo_module /\ (forall log, Verilog2SCDFiles log (Some demo_text) = Done (map_file demo_entries 10, acc_file)) /\
  In ("\carry[0]", 9) demo_entries /\ In ("n7", 23) demo_entries.
Proof. split; [exact demo_built|]. split; [exact demo_files|]. cbn. auto 20. Qed.

(** * C62 The trace *)
Theorem C62_trace : forall es t, (forall n w, In (n, w) es -> plain_name n) -> (forall n w, In (n, w) es -> 0 <= w < 2 ^ 31) -> 0 <= t ->
  forall c x V period, well_formed c -> consistent c x V -> (forall n w, In (n, w) es -> first_input c <= w < last_wire c) ->
  forall n wl0 ll0 sim, List.length wl0 = get_wire_size c -> List.length ll0 = dff_size c -> sim = true ->
  exists out, EvalauatePlaintext c x true n period wl0 ll0 = Some (true, out, executed c V period n) /\
    EvalauatePlaintextFiles c x (Some (map_file es t)) sim n period wl0 ll0 =
      Some (true, out, executed c V period n, Some (trace (shown es) V (recorded c V period n))).
Proof. exact trace_ok. Qed.
Print Assumptions C62_trace.
Example C62_example : demo_trace 0 3 = Some (true, 0x119%N, 3%nat, Some (flat_map (fun l => list_ascii_of_string l ++ [nl])
  [("cid, " ++ tabs ["n1"; "n2"; "\carry[0]"])%string; "0, 1, 0, 0, "; "1, 1, 1, 0, "; "2, 0, 0, 1, "])).
Proof. exact demo_trace_is. Qed.
(** Tracing does not change the result. *)
Theorem C62_same_result : forall c x mapf sim n period wl0 ll0 ok out T csv,
  EvalauatePlaintextFiles c x mapf sim n period wl0 ll0 = Some (ok, out, T, csv) -> 
  EvalauatePlaintext c x match mapf with Some _ => sim | None => false end n period wl0 ll0 = Some (ok, out, T).
Proof. exact files_plain. Qed.
Print Assumptions C62_same_result.
Example C62_same_example : exists csv, demo_trace 1 5 = Some (true, 0x19%N, 2%nat, csv).
Proof. eexists. exact demo_trace_ends. Qed.
(** The cycle in which the run terminates has no row. *)
Theorem C62_every_cycle_refuted : ~ forall m t mapf file c, well_built m -> ~ comb_loop m -> wires_fit m -> written (module_words m) t ->
  (forall log, Verilog2SCDFiles log (Some t) = Done (mapf, file)) -> (forall junk, ReadSCD junk file = c) ->
  forall x n period wl0 ll0 out T csv, List.length wl0 = get_wire_size c -> List.length ll0 = dff_size c ->
    EvalauatePlaintextFiles c x (Some mapf) true n period wl0 ll0 = Some (true, out, T, Some csv) -> List.length (lines_of csv) = S T.
Proof. exact every_cycle_refuted. Qed.
Print Assumptions C62_every_cycle_refuted.
(** The nets listed after a gate that drives "terminate" have no column. *)
Theorem C62_every_net_refuted : ~ forall m t mapf file c es, well_built m -> ~ comb_loop m -> wires_fit m -> written (module_words m) t ->
  (forall log, Verilog2SCDFiles log (Some t) = Done (mapf, file)) -> (forall junk, ReadSCD junk file = c) ->
  mapf = map_file es (terminate_id c) -> names_nets m c es -> traces c mapf es -> forall n, In n (gate_nets m) -> In n (map fst (shown es)).
Proof. exact every_net_refuted. Qed.
Print Assumptions C62_every_net_refuted.

(** * C63 From the netlist to the trace *)
Theorem C63_verilog : forall m t, well_built m -> ~ comb_loop m -> written (module_words m) t -> wires_fit m -> exists mapf file c es,
  (forall log, Verilog2SCDFiles log (Some t) = Done (mapf, file)) /\ (forall log, Verilog2SCD log (Some t) = Done file) /\
  (forall junk, ReadSCD junk file = c) /\ runs_module c m /\
  mapf = map_file es (terminate_id c) /\ names_nets m c es /\ traces c mapf es.
Proof. exact verilog_traces. Qed.
Print Assumptions C63_verilog.
Example C63_example : well_built demo_module /\ ~ comb_loop demo_module /\ written (module_words demo_module) demo_text /\ wires_fit demo_module.
Proof. exact (conj demo_built (conj demo_no_loop (conj demo_written demo_fits))). Qed.
Theorem C63_bristol : forall b t ws, b_valid b -> spaced (bristol_words b ++ ws) t -> Z.of_nat (b_g b + b_e b + List.length (b_gates b)) < 2 ^ 31 ->
  exists mapf file c es,
  (forall log junk0 junk, Bris2SCDFiles log junk0 junk (Some t) = Done (mapf, file)) /\
  (forall log junk0 junk, Bris2SCD log junk0 junk (Some t) = Done file) /\
  (forall junk, ReadSCD junk file = c) /\ runs_bristol c b /\ mapf = map_file es 0 /\
  Permutation (map fst es) (map (fun g => wname b (bg_out g)) (b_gates b)) /\ NoDup (map fst es) /\
  (forall x V, consistent c x V -> forall cy k w, In k (map bg_out (b_gates b)) -> In (wname b k, w) es ->
     V cy w = b_run b (fun j => bit (Spec.g_input x) (cy * b_g b + j)) (fun j => bit (Spec.e_input x) (cy * b_e b + j)) k) /\
  shown es = es /\ traces c mapf es.
Proof. exact bristol_traces. Qed.
Print Assumptions C63_bristol.
Example C63_bristol_example : b_valid adder /\ spaced (bristol_words adder ++ []) adder_text /\
  (forall log junk0 junk, Bris2SCDFiles log junk0 junk (Some adder_text) =
    Done (map_file [("w4", 4); ("w5", 5); ("w6", 6); ("w7", 7); ("w8", 8); ("w9", 9); ("w10", 10); ("o[0]", 11); ("o[1]", 12); ("o[2]", 13)] 0, adder_file)).
Proof.
  split; [exact adder_valid|]. split; [exact adder_spaced|]. intros log junk0 junk.
  pose proof (parse_bristol adder adder_valid log junk0 junk adder_text [] adder_spaced) as P. unfold Bris2SCDFiles. rewrite P. clear P. destruct log; vm_compute; reflexivity.
Qed.
