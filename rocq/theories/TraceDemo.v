(** Mapping file and trace of the accumulator of FrontDemo. *)
From Coq Require Import ZArith NArith List Bool Lia Ascii String Permutation.
From Verif Require Import Base Gate Circuit Spec Plain Demo ProtocolDemo Text Netlist Scd Parse ParseOk VerilogFront FrontDemo ProgramsDemo MapFile Trace TraceRun.
Import ListNotations.
Open Scope Z_scope.
Open Scope string_scope.
Open Scope list_scope.

Definition demo_entries : list (string * Z) := [
  ("n1", 7); ("n2", 8); ("\carry[0]", 9); ("terminate", 10); ("n4", 11); ("MUX_MID_1_1", 12); ("MUX_MID_2_1", 13); ("n3", 14); ("n8", 15);
  ("FADDER_MID_1_9", 16); ("n6", 17); ("MUX_MID_1_4", 18); ("MUX_MID_2_4", 19); ("n5", 20); ("FADDER_MID_2_9", 21); ("FADDER_MID_3_9", 22); ("n7", 23)].
Definition demo_map : text := map_file demo_entries 10.
Lemma demo_files log : Verilog2SCDFiles log (Some demo_text) = Done (demo_map, acc_file).
Proof. destruct log; vm_compute; reflexivity. Qed.
Lemma demo_fits : wires_fit demo_module.
Proof. vm_compute. reflexivity. Qed.
(** What is written for three cycles; the entries after "terminate" are missing. *)
Definition demo_trace (period : Z) (n : nat) : option (bool * N * nat * option text) :=
  EvalauatePlaintextFiles acc acc_in (Some demo_map) true n period (repeat false (get_wire_size acc)) (repeat false 3).
Definition tabs (l : list string) : string := List.fold_right (fun n r => n ++ String tab r)%string "" l.
Lemma demo_trace_is : demo_trace 0 3 = Some (true, 0x119%N, 3%nat, Some (flat_map (fun l => list_ascii_of_string l ++ [nl])
  [("cid, " ++ tabs ["n1"; "n2"; "\carry[0]"])%string; "0, 1, 0, 0, "; "1, 1, 1, 0, "; "2, 0, 0, 1, "])).
Proof. vm_compute. reflexivity. Qed.
(** The terminate signal inspected in each cycle: the run ends in the second one. *)
Lemma demo_trace_ends : demo_trace 1 5 = Some (true, 0x19%N, 2%nat, Some (flat_map (fun l => list_ascii_of_string l ++ [nl])
  [("cid, " ++ tabs ["n1"; "n2"; "\carry[0]"])%string; "0, 1, 0, 0, "])).
Proof. vm_compute. reflexivity. Qed.

(** Not every executed cycle is in the trace. *)
Theorem last_cycle_missing : exists c x mapf n period wl0 ll0 out T csv,
  well_formed c /\ List.length wl0 = get_wire_size c /\ List.length ll0 = dff_size c /\
  EvalauatePlaintextFiles c x (Some mapf) true n period wl0 ll0 = Some (true, out, T, Some csv) /\
  (T = 2 /\ List.length (lines_of csv) = 2)%nat (* a header and the row of the first cycle *).
Proof.
  exists acc, acc_in, demo_map, 5%nat, 1, (repeat false (get_wire_size acc)), (repeat false 3), 0x19%N, 2%nat. eexists.
  split; [apply acc_wf|]. split; [apply repeat_length|]. split; [reflexivity|]. split; [apply demo_trace_ends|]. vm_compute. auto.
Qed.
(** Not every net is in the trace: a net driven by a cell that does not occur in it. *)
Theorem nets_missing : exists m t mapf file c es n,
  well_built m /\ ~ comb_loop m /\ wires_fit m /\ written (module_words m) t /\
  (forall log, Verilog2SCDFiles log (Some t) = Done (mapf, file)) /\ (forall junk, ReadSCD junk file = c) /\
  mapf = map_file es (terminate_id c) /\ names_nets m c es /\ In n (gate_nets m) /\ In n (map fst es) /\ ~ In n (map fst (shown es)) /\ traces c mapf es.
Proof.
  destruct (verilog_traces demo_module demo_text demo_built demo_no_loop demo_written demo_fits) as (mapf & file & c & es & T & _ & R & _ & M & NN & TR).
  exists demo_module, demo_text, mapf, file, c, es, "n4".
  split; [apply demo_built|]. split; [apply demo_no_loop|]. split; [apply demo_fits|]. split; [apply demo_written|]. split; [exact T|]. split; [exact R|].
  split; [exact M|]. split; [exact NN|]. split; [vm_compute; auto 20|].
  assert (I4 : In "n4" (map fst es)).
  { destruct (nn_all _ _ _ NN "n4") as [w I]; [vm_compute; auto 20|]. apply in_map_iff. exists ("n4", w). auto. }
  split; [exact I4|]. split; [|exact TR].
  (* the header of the trace shows what is shown *)
  intros IS.
  assert (EC : c = acc). { specialize (T true). rewrite demo_files in T. injection T as _ <-. rewrite <- (R (fun _ _ => 0)). apply acc_reads. }
  subst c. specialize (T true). rewrite demo_files in T. injection T as EM _.
  assert (ES : csv_names (lines_of mapf) = Some (flat_map (fun e => list_ascii_of_string (fst e) ++ [tab]) (shown es))).
  { rewrite M. assert (B : forall n w, In (n, w) es -> 0 <= w < 2 ^ 31).
    { intros a w I. assert (J : In w (map snd es)) by (apply in_map_iff; exists (a, w); auto). rewrite (nn_order _ _ _ NN) in J.
      apply in_map_iff in J as (k & <- & K). apply in_seq in K. change (first_dff acc) with 7. cbn [acc dff_size gate_size D garbledGates List.length] in K. lia. }
    apply names_shown; auto; [|vm_compute; discriminate].
    intros a w I. eapply entry_plain; eauto using demo_built, demo_written. }
  rewrite <- EM in ES.
  assert (EN : csv_names (lines_of demo_map) = Some (list_ascii_of_string (tabs ["n1"; "n2"; "\carry[0]"]))) by (vm_compute; reflexivity).
  rewrite EN in ES. injection ES as ES. apply in_map_iff in IS as (e & E4 & IS).
  assert (C4 : In "4"%char (flat_map (fun e => list_ascii_of_string (fst e) ++ [tab]) (shown es))).
  { apply in_flat_map. exists e. split; [exact IS|]. rewrite E4. cbn. auto. }
  rewrite <- ES in C4. cbn in C4. decompose [or] C4; try discriminate; contradiction.
Qed.

Theorem every_cycle_refuted : ~ forall m t mapf file c, well_built m -> ~ comb_loop m -> wires_fit m -> written (module_words m) t ->
  (forall log, Verilog2SCDFiles log (Some t) = Done (mapf, file)) -> (forall junk, ReadSCD junk file = c) ->
  forall x n period wl0 ll0 out T csv, List.length wl0 = get_wire_size c -> List.length ll0 = dff_size c ->
    EvalauatePlaintextFiles c x (Some mapf) true n period wl0 ll0 = Some (true, out, T, Some csv) -> List.length (lines_of csv) = S T.
Proof.
  intros H. specialize (H demo_module demo_text demo_map acc_file acc demo_built demo_no_loop demo_fits demo_written demo_files acc_reads
    acc_in 5%nat 1 (repeat false (get_wire_size acc)) (repeat false 3) _ _ _ (repeat_length _ _) eq_refl demo_trace_ends).
  vm_compute in H. discriminate.
Qed.
Theorem every_net_refuted : ~ forall m t mapf file c es, well_built m -> ~ comb_loop m -> wires_fit m -> written (module_words m) t ->
  (forall log, Verilog2SCDFiles log (Some t) = Done (mapf, file)) -> (forall junk, ReadSCD junk file = c) ->
  mapf = map_file es (terminate_id c) -> names_nets m c es -> traces c mapf es -> forall n, In n (gate_nets m) -> In n (map fst (shown es)).
Proof.
  intros H. destruct nets_missing as (m & t & mapf & file & c & es & n & A1 & A2 & A3 & A4 & A5 & A6 & A7 & A8 & A9 & _ & B & A10).
  apply B. eapply H; eauto.
Qed.
