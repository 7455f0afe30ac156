(** Theorems about the translator from Verilog netlists to circuit files, and about
    the files; each is followed by a concrete case that meets its hypotheses.

    [written (module_words m) t]: the text [t] is the module [m] written down (any
    white space).  [obeys m x U]: [U] gives every net of [m] a bit in every cycle as
    the cell library, the registers, the assignments and the inputs [x] demand.
    [well_built m]: one driver for every net that is used, assignments in order, and
    the like.  [consistent c x V]: the same for the wires of a circuit. *)
From Coq Require Import ZArith NArith List Bool Ascii String Lia Permutation.
From Verif Require Import Base Gate Circuit Spec Plain Sort SortOk Text Netlist NetlistOk Scd Front Parse ParseOk Verilog VerilogOk VerilogNet VerilogFront
  Proc Protocol ProtocolOk Demo ProtocolDemo FrontDemo FrontResults ScdResults.
Import ListNotations.
Open Scope Z_scope.
Open Scope string_scope.
Open Scope list_scope.

(** * C09 Files the reader accepts can make the programs access memory out of bounds *)
Theorem C09_malformed_file_refuted : exists file u, (forall junk, ReadSCD junk file = u_c u) /\
  (forall foot, exists n d, reach n (start_cfg (garbler foot u) (evaluator foot u)) d /\ pA d = Crash) /\
  (forall wl ll, EvalauatePlaintext (u_c u) (u_x u) true 1 0 wl ll = None).
Proof. exact malformed_refuted. Qed.
Print Assumptions C09_malformed_file_refuted.

(** * C31 Topological sorting is correct *)
Theorem C31_topological_sort : forall rc, in_range rc ->
  (TopologicalSort rc = Some None <-> has_loop rc) /\
  (~ has_loop rc <-> exists l, TopologicalSort rc = Some (Some l) /\ sorting rc l).
Proof. exact topological_sort_iff. Qed.
Print Assumptions C31_topological_sort.
(** Three inputs and five gates, out of order; and two gates that read each other. *)
Definition unordered : ReadCircuit :=
  mkRC 0 0 0 0 2 1 [3; 6] [mkRG 5 4 3 8; mkRG 7 5 4 6; mkRG 0 1 5 8; mkRG 4 (-3) 6 14; mkRG 5 2 7 6] [] [] 0.
Example C31_example : in_range unordered /\ sorting unordered [0; 1; 2; 5; 7; 4; 3; 6] /\
  exists rc, in_range rc /\ has_loop rc.
Proof.
  assert (R : in_range unordered) by (intros g H; cbn in H; decompose [or] H; try contradiction; subst g; cbn; lia).
  split; [exact R|]. split.
  - assert (NL : ~ has_loop unordered).
    { intros L. apply (proj1 (C31_topological_sort _ R)) in L.
      assert (Q : match TopologicalSort unordered with Some None => false | _ => true end = true) by (vm_compute; reflexivity). rewrite L in Q. discriminate. }
    destruct (proj1 (proj2 (C31_topological_sort _ R)) NL) as (l & E & S).
    assert (Q : TopologicalSort unordered = Some (Some [0; 1; 2; 5; 7; 4; 3; 6])) by (vm_compute; reflexivity). congruence.
  - exists (mkRC 0 0 0 0 1 0 [2] [mkRG 2 0 1 8; mkRG 1 0 2 6] [] [] 0). split; [intros g H; cbn in H; decompose [or] H; try contradiction; subst g; cbn; lia|].
    exists 1. apply dep_more with 2; [|apply dep_one]; [exists 0%nat|exists 1%nat]; eexists; (split; [reflexivity|]); cbn; repeat split; try lia; auto.
Qed.

(** * C32 Sorting keeps the meaning of a netlist *)
Theorem C32_sorting_keeps_meaning : forall rc, translatable rc -> exists rc' gs,
  (forall log, SortNetlist log rc = Some (Some rc')) /\ scheduled rc' = Some gs /\
  let c := circuit_with rc' gs in
  well_formed c /\
  p_init_size c = rc_p_init rc /\ g_init_size c = rc_g_init rc /\ e_init_size c = rc_e_init rc /\
  p_input_size c = rc_p_input rc /\ g_input_size c = rc_g_input rc /\ e_input_size c = rc_e_input rc /\
  List.length (D c) = List.length (dff_list rc) /\ List.length (garbledGates c) = List.length (gate_list rc) /\
  List.length (outputs c) = List.length (output_list rc) /\
  (terminate_id c = 0 <-> rc_terminate_id rc = 0) /\
  forall x, (exists W, consistent (unsorted rc) x W) /\
    forall V W, consistent c x V -> consistent (unsorted rc) x W ->
    forall cy, (forall i w, nth_error (output_list rc) i = Some w -> exists w', nth_error (outputs c) i = Some w' /\ V cy w' = W cy w) /\
      (rc_terminate_id rc <> 0 -> V cy (terminate_id c) = W cy (rc_terminate_id rc)).
Proof. exact sort_netlist_meaning. Qed.
Print Assumptions C32_sorting_keeps_meaning.
(** The netlist of the 2-bit accumulator: registers, terminate, gates out of order. *)
Example C32_example : translatable (numbered (elab demo_module)) /\ ~ reads_earlier (numbered (elab demo_module)) (map Z.of_nat (seq 0 24)).
Proof.
  split.
  - apply numbered_translatable; [apply elab_well_named; apply demo_built|]. intros L. apply demo_no_loop. apply (loops_agree _ demo_built). exact L.
  - intros R. assert (Q : In 17 (map Z.of_nat (seq 0 11))).
    { apply (R (map Z.of_nat (seq 0 11)) 11 (map Z.of_nat (seq 12 12))); [reflexivity|].
      exists 1%nat. eexists. split; [vm_compute; reflexivity|]. vm_compute. split; [reflexivity|]. split; [right; reflexivity|discriminate]. }
    vm_compute in Q. decompose [or] Q; try discriminate; contradiction.
Qed.

(** * C33 Cells are expanded to gates that compute the library's function *)
Theorem C33_cells : forall m t, well_built m -> written (module_words m) t -> exists s, (forall log, ParseNetlist log (Some t) = Done s) /\
  (forall x U, net_consistent s x U -> obeys m x U) /\
  (forall x U, obeys m x U -> exists U', net_consistent s x U' /\ forall cy n, ~ mid_name n -> U' cy n = U cy n).
Proof. exact cells_expanded. Qed.
Print Assumptions C33_cells.
Example C33_example : well_built demo_module /\ written (module_words demo_module) demo_text.
Proof. split; [apply demo_built|apply demo_written]. Qed.

(** * C34 Reading what was written *)
Theorem C34_round_trip : forall rc gs junk, scheduled rc = Some gs -> fits rc gs ->
  exists file, WriteSCD rc = Some file /\ ReadSCD junk file = circuit_with rc gs.
Proof. exact scd_round_trip. Qed.
Print Assumptions C34_round_trip.
Example C34_example :
  let rc := mkRC 0 1 0 0 2 1 [4; 6] [mkRG 2 1 4 8; mkRG (-3) 4 5 14; mkRG 5 (-1) 6 12] [mkRG 6 0 3 (-1)] [0; 1; 2] 5 in
  exists gs, scheduled rc = Some gs /\ fits rc gs /\
  option_map string_of_list_ascii (WriteSCD rc) = Some
"0 1 0 0 2 1 1 2 5 3
2 -3 5 
1 4 -1 
8 14 12 
4 6 
6 
0 
".
Proof.
  cbv zeta. eexists. split; [reflexivity|]. split; [|vm_compute; reflexivity].
  split; unfold u64, i64; cbn; try (repeat split; lia); try lia; intros g H; decompose [or] H; try contradiction; subst g; cbn; lia.
Qed.

(** * C35 An output tied to a constant crashes the translator *)
Theorem C35_constant_output : forall rc, in_range rc -> ~ has_loop rc -> (exists o, In o (output_list rc) /\ o < 0) -> SortNetlist false rc = None.
Proof. exact constant_output. Qed.
Print Assumptions C35_constant_output.
Theorem C35_constant_output_refuted : exists s rc, IdAssignment true s = Some rc /\ in_range rc /\ ~ has_loop rc /\ forall log, SortNetlist log rc = None.
Proof. exact constant_output_refuted. Qed.
Print Assumptions C35_constant_output_refuted.
(** From a Verilog text: [assign o[1] = 1'b1]. *)
Example C35_example : written (module_words tied_module) (list_ascii_of_string tied_verilog) /\
  forall log, Verilog2SCD log (Some (list_ascii_of_string tied_verilog)) = Undefined.
Proof. split; [apply tied_written|apply tied_crashes]. Qed.

(** * C36 Wire numbers are assigned consistently *)
Theorem C36_numbering : forall s, well_named s -> exists num rc, numbering s num /\ (forall log, IdAssignment log s = Some rc) /\
  gate_list rc = map (fun g => mkRG (num (gs_in0 g)) (num (gs_in1 g)) (num (gs_out g)) (gs_type g)) (gate_list_string s) /\
  dff_list rc = map (fun g => mkRG (num (gs_in0 g)) (num (gs_in1 g)) (num (gs_out g)) (gs_type g)) (dff_list_string s) /\
  List.length (output_list rc) = s_output s /\
  (forall i n, (i < s_output s)%nat -> output_name s i n -> nth_error (output_list rc) i = Some (num n)) /\
  (has_terminate s = true -> rc_terminate_id rc = num "terminate") /\ (has_terminate s = false -> rc_terminate_id rc = 0) /\
  all_ports s = combine (map fst (all_ports s)) [rc_p_init rc; rc_g_init rc; rc_e_init rc; rc_p_input rc; rc_g_input rc; rc_e_input rc].
Proof. exact id_assignment. Qed.
Print Assumptions C36_numbering.
Example C36_example : well_named (elab demo_module).
Proof. apply elab_well_named. apply demo_built. Qed.

(** * C47 A netlist without inputs and registers is translated wrongly *)
Theorem C47_wire_zero_refuted : exists m t file, well_built (Input None ["p_input"] :: m) /\ written (module_words m) t /\
  (forall log, Verilog2SCD log (Some t) = Done file) /\
  forall junk x, (exists U, obeys m x U) /\
    forall U V, obeys m x U -> consistent (ReadSCD junk file) x V -> exists w, nth_error (outputs (ReadSCD junk file)) 0 = Some w /\
      U O "o[0]" = false /\ V O w = true.
Proof. exact wire_zero_refuted. Qed.
Print Assumptions C47_wire_zero_refuted.

(** * C50 The order of assignments matters *)
Theorem C50_assign_order_refuted : exists m m' t file, Permutation m m' /\ well_built m' /\ ~ comb_loop m' /\ written (module_words m) t /\
  Verilog2SCD true (Some t) = Failed /\ Verilog2SCD false (Some t) = Done file /\
  forall junk, exists x U, obeys m x U /\ obeys m' x U /\
    forall V, consistent (ReadSCD junk file) x V -> exists w, nth_error (outputs (ReadSCD junk file)) 0 = Some w /\ V O w <> U O "o[0]".
Proof. exact assign_order_refuted. Qed.
Print Assumptions C50_assign_order_refuted.

(** What an assignment does to the table of wires, in either direction. *)
Theorem C50_assignment : forall t a b, get t a <> None \/ get t b <> None ->
  exists k, get (assign_step t (a, b)) a = Some k /\ get (assign_step t (a, b)) b = Some k /\
    get t (match get t a with Some _ => a | None => b end) = Some k /\
    forall n, n <> a -> n <> b -> get (assign_step t (a, b)) n = get t n.
Proof. exact assign_joins. Qed.
Print Assumptions C50_assignment.
Example C50_assignment_example : let t := base_table (elab demo_module) in
  get t "o[0]" = None /\ get t "n1" <> None /\ get (assign_step t ("o[0]", "n1")) "o[0]" = get t "n1" /\
  get (assign_step t ("n1", "o[0]")) "o[0]" = get t "n1".
Proof. vm_compute. repeat split; discriminate. Qed.

(** * C51 Without logging, a net without driver is the first input bit *)
Theorem C51_undriven_net_refuted : exists file, let t := list_ascii_of_string typo_verilog in
  Verilog2SCD true (Some t) = Failed /\ Verilog2SCD false (Some t) = Done file /\
  forall junk x V, consistent (ReadSCD junk file) x V -> exists w, nth_error (outputs (ReadSCD junk file)) 1 = Some w /\
    forall cy, V cy w = bit (Spec.g_input x) (cy * 2).
Proof. exact undriven_refuted. Qed.
Print Assumptions C51_undriven_net_refuted.

(** * C52 Does the parser end? *)
Theorem C52_parser_ends : forall log t, log = true \/ In "endmodule" (words t) -> ParseNetlist log (Some t) <> Hangs.
Proof. exact parser_ends. Qed.
Print Assumptions C52_parser_ends.
Theorem C52_unfinished_file_refuted : forall m t, Forall legal m -> written (flat_map stmt_words m) t ->
  ParseNetlist true (Some t) = Failed /\ ParseNetlist false (Some t) = Hangs.
Proof. exact unfinished_hangs. Qed.
Print Assumptions C52_unfinished_file_refuted.
Example C52_example : In "endmodule" (words demo_text) /\ exists t, Forall legal demo_module /\ written (flat_map stmt_words demo_module) t.
Proof.
  split; [rewrite (words_written _ _ demo_written); unfold module_words; apply in_or_app; right; left; reflexivity|].
  exists (firstn (List.length demo_text - 10) demo_text). split; [apply (wb_legal _ demo_built)|].
  assert (E : words (firstn (List.length demo_text - 10) demo_text) = flat_map stmt_words demo_module) by (vm_compute; reflexivity).
  rewrite <- E. apply written_words.
Qed.

(** * C53 From the text of a Verilog netlist to a circuit with the same meaning *)
Theorem C53_verilog : forall m t, well_built m -> Z.of_nat (List.length m) < 2 ^ 60 -> ~ comb_loop m -> written (module_words m) t ->
  exists file, (forall log, Verilog2SCD log (Some t) = Done file) /\ forall junk, runs_module (ReadSCD junk file) m.
Proof. exact verilog_ok. Qed.
Print Assumptions C53_verilog.
(** The 2-bit accumulator; the file that is written for it. *)
Example C53_example : well_built demo_module /\ ~ comb_loop demo_module /\ written (module_words demo_module) demo_text /\
  (forall log, Verilog2SCD log (Some demo_text) = Done (list_ascii_of_string demo_scd)) /\
  forall junk, runs_module (ReadSCD junk (list_ascii_of_string demo_scd)) demo_module.
Proof.
  split; [apply demo_built|]. split; [apply demo_no_loop|]. split; [apply demo_written|]. split; [apply demo_translated|].
  destruct (C53_verilog _ _ demo_built demo_size demo_no_loop demo_written) as (f & T & R). rewrite (demo_translated true) in T || specialize (T true).
  rewrite demo_translated in T. injection T as <-. exact R.
Qed.

(** * C54 Netlists with a combinational loop are rejected *)
Theorem C54_loops : forall m t, well_built m -> comb_loop m -> written (module_words m) t -> forall log, Verilog2SCD log (Some t) = Failed.
Proof. exact verilog_loop. Qed.
Print Assumptions C54_loops.
Definition latch_module : list stmt := [
  Other ["module"; "latch"; "g_input"; "o"]; Input (Some 1%nat) ["g_input"]; Output None ["o"];
  Cell NAND "U1" [("A", ("g_input[0]", None)); ("B", ("n2", None)); ("Z", ("n1", None))];
  Cell NAND "U2" [("A", ("g_input[1]", None)); ("B", ("n3", None)); ("Z", ("n2", None))];
  Assign "n3" "n1"; Assign "o[0]" "n1" ].
Example C54_example : well_built latch_module /\ comb_loop latch_module.
Proof.
  split; [apply well_builtb_ok; vm_compute; reflexivity|]. exists "n1". apply cp_trans with "n2"; [|apply cp_step].
  - exists NAND, "U1", [("A", ("g_input[0]", None)); ("B", ("n2", None)); ("Z", ("n1", None))], "Z", "B", "n2". repeat split; try discriminate; vm_compute; auto 10.
  - exists NAND, "U2", [("A", ("g_input[1]", None)); ("B", ("n3", None)); ("Z", ("n2", None))], "Z", "B", "n3". repeat split; try discriminate; vm_compute; auto 10.
Qed.
