(** Theorems about the programs on a disk. *)
From Coq Require Import String ZArith NArith List Bool Lia Ascii Permutation.
From Verif Require Import Base Gate Circuit CycleModel Spec Plain Run Demo Results
  Proc Codec Tcp BN OT Rand Bounded Tables Protocol Transfer OutTransfer ProtocolOk ProtocolRun EndToEnd ProtocolDemo ProtocolResults
  Text Sort Netlist Scd Front Parse VerilogFront FrontDemo Bristol BristolOk BristolRun MapFile Trace TraceRun TraceDemo Hex Format Programs ProgramsOk ProgramsDemo
  CmdText Mains MainsDemo Disk DiskDemo.
Import ListNotations.
Open Scope Z_scope.
Open Scope list_scope.

(** * C84 The translator *)
Theorem C84_verilog : forall m t, well_built m -> ~ comb_loop m -> written (module_words m) t -> wires_fit m ->
  exists file mapf c es, files_for m file mapf c es /\
  forall log junk0 junk sp d netlist brist scd, netlist <> [] -> scd <> [] -> d netlist = Some t -> sp scd = Free -> sp (map_of scd) = Free ->
  exists d', main_translate log junk0 junk sp d netlist brist scd = Done (d', SUCCESS) /\
    d' scd = Some file /\ d' (map_of scd) = Some mapf /\ only_changed [map_of scd; scd] d d'.
Proof. exact translate_verilog. Qed.
Print Assumptions C84_verilog.
Example C84_example : (well_built demo_module /\ ~ comb_loop demo_module /\ written (module_words demo_module) demo_text /\ wires_fit demo_module) /\
  (forall log, translate_acc log free sources = Done (acc_disk, SUCCESS)) /\ acc_disk (str "c.scd") = Some acc_file /\ acc_disk (str "c.scd.map") = Some demo_map.
Proof.
  split; [exact (conj demo_built (conj demo_no_loop (conj demo_written demo_fits)))|]. split; [exact acc_disk_is|]. split; reflexivity.
Qed.
Theorem C84_bristol : forall b t ws, b_valid b -> spaced (bristol_words b ++ ws) t -> Z.of_nat (b_g b + b_e b + List.length (b_gates b)) < 2 ^ 31 ->
  exists file mapf c es, bristol_files b file mapf c es /\
  forall log junk0 junk sp d brist scd, brist <> [] -> scd <> [] -> d brist = Some t -> sp scd = Free -> sp (map_of scd) = Free ->
  exists d', main_translate log junk0 junk sp d [] brist scd = Done (d', SUCCESS) /\
    d' scd = Some file /\ d' (map_of scd) = Some mapf /\ only_changed [map_of scd; scd] d d'.
Proof. exact translate_bristol. Qed.
Print Assumptions C84_bristol.
Example C84_bristol_example : b_valid one_gate /\ spaced (bristol_words one_gate ++ []) one_text /\
  translate_and true free sources = Done (one_disk, SUCCESS).
Proof. exact (conj one_valid (conj one_spaced one_disk_is)). Qed.
Theorem C84_loop : forall m t, well_built m -> comb_loop m -> written (module_words m) t ->
  forall log junk0 junk sp d netlist brist scd, netlist <> [] -> d netlist = Some t ->
  main_translate log junk0 junk sp d netlist brist scd = Done (d, FAILURE).
Proof. exact translate_loop. Qed.
Print Assumptions C84_loop.

(** * C85 From the netlist file to the outputs *)
Theorem C85_plain : forall m file mapf c es, files_for m file mapf c es ->
  forall usage jf sp wl0 ll0 d scd p_init g_init e_init p_input g_input e_input cycles period om mode x,
  d scd = Some file -> d (map_of scd) = Some mapf -> sp (csv_of scd) = Free -> scd <> [] -> output_mode_of om = Some mode ->
  gives d x p_init g_init e_init p_input g_input e_input -> (period = 0 \/ Parse.terminates m) ->
  (0 < cycles)%nat -> Z.of_nat (cycles * out_width m) < 2 ^ 31 ->
  List.length wl0 = get_wire_size c -> List.length ll0 = dff_size c ->
  forall U net, obeys m x U -> (forall i, (i < out_width m)%nat -> out_net m i (net i)) ->
  exists d' t T V csv, main_plain_disk usage jf sp wl0 ll0 d scd p_init g_init e_init p_input g_input e_input cycles period om = Some (d', t ++ [nl], SUCCESS) /\
    module_runs m U cycles period T /\ displays mode (out_width m) T t (fun cy i => U cy (net i)) /\
    only_changed [csv_of scd] d d' /\ d' (csv_of scd) = Some csv /\
    csv = trace (shown es) V (recorded c V period cycles) /\ (forall cy n w, In (n, w) es -> ~ mid_name n -> V cy w = U cy n).
Proof. exact plain_on_disk. Qed.
Print Assumptions C85_plain.
Example C85_example : (exists es, files_for demo_module acc_file demo_map acc es) /\
  acc_disk (str "c.scd") = Some acc_file /\ acc_disk (map_of (str "c.scd")) = Some demo_map /\
  gives acc_disk acc_in (str "0") (str "1") (str "0") (str "0") (str "1b") (str "1F4") /\
  forall jf, exists d,
    main_plain_disk [] jf free (repeat true 24) (repeat false 3) acc_disk (str "c.scd") (str "0") (str "1") (str "0") (str "0") (str "1b") (str "1F4") 3 0 None
      = Some (d, str "0119" ++ [nl], SUCCESS) /\
    d (str "c.scd.csv") = Some (flat_map (fun l => list_ascii_of_string l ++ [nl])
      [("cid, " ++ tabs ["n1"; "n2"; "\carry[0]"])%string; "0, 1, 0, 0, "; "1, 1, 1, 0, "; "2, 0, 0, 1, "]%string).
Proof. split; [exact demo_files_for|]. split; [reflexivity|]. split; [reflexivity|]. split; [exact acc_gives|exact acc_disk_run]. Qed.
Theorem C85_mains : forall m file mapf c es, files_for m file mapf c es ->
  forall usage ja jb log fsA fsB ca cb mode u V T, fsA (cl_scd ca) = Some file ->
  output_mode_of (cl_mode ca) = Some mode -> output_mode_of (cl_mode cb) = Some mode ->
  started (arguments_of fsA ca mode) (arguments_of fsB cb mode) u -> good_run (cl_low_mem_foot ca) u V T ->
  Z.of_nat (u_n u * out_width m) < 2 ^ 31 -> (forall cy i, (cy < T)%nat -> ~ hidden (sess (cl_low_mem_foot ca) u) u V cy i) ->
  forall U net, obeys m (u_x u) U -> (forall i, (i < out_width m)%nat -> out_net m i (net i)) ->
  u_c u = c /\ module_runs m U (u_n u) (terminate_period (u_opt u)) T /\
  exists ta tb, always_finish
      (main_alice (u_AES u) (u_sha u) (u_coins u) log usage fsA ja ca (u_ra u) (u_junkA u) (gmem_of (u_m u)))
      (main_bob (u_AES u) (u_sha u) (u_coins u) log usage fsB jb cb (u_rnd u) (u_junkB u) (emem_of (u_m u)))
      (ta ++ [nl], SUCCESS) (tb ++ [nl], SUCCESS) /\
    displays mode (out_width m) T ta (fun cy i => U cy (net i) && to_garbler u i) /\
    displays mode (out_width m) T tb (fun cy i => U cy (net i) && negb (to_garbler u i)).
Proof. exact mains_on_disk. Qed.
Print Assumptions C85_mains.
(** The run of C67, whose circuit file is what the translator writes. *)
Example C85_mains_example : (exists es, files_for demo_module acc_file demo_map acc es) /\
  forall foot, let ca := acc_cmd "1" "1b" "3" 3 "separated_clock" foot in let cb := acc_cmd "0" "e.txt" "03" 3 "1" foot in
  acc_fs (cl_scd ca) = Some acc_file /\ output_mode_of (cl_mode ca) = Some separated_clock /\ output_mode_of (cl_mode cb) = Some separated_clock /\
  started (arguments_of acc_fs ca separated_clock) (arguments_of acc_fs cb separated_clock) (acc_u 3 separated_clock) /\
  good_run foot (acc_u 3 separated_clock) acc_plain 3 /\
  (forall cy i, (cy < 3)%nat -> ~ hidden (sess foot (acc_u 3 separated_clock)) (acc_u 3 separated_clock) acc_plain cy i).
Proof.
  split; [exact demo_files_for|]. intros foot ca cb. split; [reflexivity|]. split; [reflexivity|]. split; [reflexivity|].
  split; [apply acc_cmd_started|]. split; [apply acc_good|]. intros cy i H. apply acc_visible. exact H.
Qed.

(** * C86 The exit status of the translator *)
Theorem C86_status : forall log junk0 junk sp d netlist brist scd d' s, main_translate log junk0 junk sp d netlist brist scd = Done (d', s) ->
  only_changed [map_of scd; scd] d d' /\ (s = SUCCESS \/ s = FAILURE) /\
  (s = SUCCESS -> scd <> [] /\ sp scd <> Closed /\ sp (map_of scd) <> Closed /\
     exists n file, d n = Some file /\ ((netlist <> [] /\ n = netlist) \/ (netlist = [] /\ brist <> [] /\ n = brist)) /\
     exists r, match netlist with [] => Bris2SCDFiles log junk0 junk (Some file) | _ :: _ => Verilog2SCDFiles log (Some file) end = Done r) /\
  (s = FAILURE -> d' scd = d scd).
Proof. exact translate_status. Qed.
Print Assumptions C86_status.
Example C86_example : translate_acc true read_only one_disk = Done (stale_disk, FAILURE) /\ stale_disk (str "c.scd.map") = Some demo_map.
Proof. exact (conj stale_disk_is stale_mapping). Qed.
(** The mapping file is replaced even if the circuit is not; the old circuit can then no
    longer be evaluated. *)
Theorem C86_failure_clean_refuted : ~ forall log junk0 junk sp d netlist brist scd d',
  main_translate log junk0 junk sp d netlist brist scd = Done (d', FAILURE) -> forall n, d' n = d n.
Proof. exact failure_clean_refuted. Qed.
Print Assumptions C86_failure_clean_refuted.
Theorem C86_after_failure_refuted : ~ forall log junk0 junk sp sp' d netlist brist scd d' usage jf wl0 ll0 p_init g_init e_init p_input g_input e_input cycles period mode,
  main_translate log junk0 junk sp d netlist brist scd = Done (d', FAILURE) ->
  main_plain_disk usage jf sp' wl0 ll0 d scd p_init g_init e_init p_input g_input e_input cycles period mode <> None ->
  main_plain_disk usage jf sp' wl0 ll0 d' scd p_init g_init e_init p_input g_input e_input cycles period mode <> None.
Proof. exact after_failure_refuted. Qed.
Print Assumptions C86_after_failure_refuted.
(** A disk that becomes full while the circuit is written goes unnoticed. *)
Theorem C86_success_written_refuted : ~ forall m t log junk0 junk sp d netlist brist scd d',
  well_built m -> ~ comb_loop m -> written (module_words m) t -> wires_fit m -> netlist <> [] -> d netlist = Some t ->
  main_translate log junk0 junk sp d netlist brist scd = Done (d', SUCCESS) ->
  exists file c, d' scd = Some file /\ (forall jf, ReadSCD jf file = c) /\ runs_module c m.
Proof. exact success_written_refuted. Qed.
Print Assumptions C86_success_written_refuted.
