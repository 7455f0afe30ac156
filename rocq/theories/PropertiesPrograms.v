(** Claims about the programs at the level of text.  Each theorem is followed by its
    assumptions and an instance. *)
From Coq Require Import ZArith NArith List Bool Lia Ascii String.
From Verif Require Import Base Gate Circuit CycleModel Spec Plain Run Results
  Proc Codec Tcp BN Rand Bounded Tables Protocol Transfer OutTransfer ProtocolOk ProtocolRun EndToEnd ProtocolResults
  Text Netlist Scd Parse VerilogFront FrontDemo Hex Format Programs ProgramsOk ProgramsDemo.
Import ListNotations.
Open Scope Z_scope.

(** * C42 A failed plaintext evaluation *)
Theorem C42_failure_reported_refuted : ~ forall jf files wl0 ll0 a f, pl_file a = Some f ->
  (exists out n, EvalauatePlaintext (ReadSCD jf f) (plain_inputs a) files (pl_cycles a) (pl_period a) wl0 ll0 = Some (false, out, n)) ->
  EvalauatePlaintextStr jf files wl0 ll0 a = Some None.
Proof. exact failure_reported_refuted. Qed.
Print Assumptions C42_failure_reported_refuted.
(** Without the files every valid command line yields an all-zero result and SUCCESS. *)
Theorem C42_zeros_printed : forall jf wl0 ll0 a f, pl_file a = Some f -> (pl_period a = 0 \/ terminate_id (ReadSCD jf f) <> 0) ->
  EvalauatePlaintext (ReadSCD jf f) (plain_inputs a) false (pl_cycles a) (pl_period a) wl0 ll0 = Some (false, 0%N, pl_cycles a) /\
  EvalauatePlaintextStr jf false wl0 ll0 a =
    Some (Some (OutputBN2StrHighMem (output_size (ReadSCD jf f)) 0 (pl_cycles a) (pl_mode a))).
Proof. exact failure_hidden. Qed.
Print Assumptions C42_zeros_printed.
Example C42_example : forall jf wl0 ll0,
  EvalauatePlaintextStr jf false wl0 ll0 (acc_plain_args separated_clock) = Some (Some (lines ["0"; "0"; "0"])) /\
  EvalauatePlaintextStr jf true (repeat false 24) (repeat false 3) (acc_plain_args separated_clock) = Some (Some (lines ["01"; "03"; "04"])).
Proof.
  intros jf wl0 ll0. unfold EvalauatePlaintextStr. cbn [acc_plain_args pl_file]. rewrite acc_reads. split; vm_compute; reflexivity.
Qed.

(** * C55 The two programs, from files and command lines to printed text *)
Theorem C55_programs : forall ja jb a b u V T, started a b u -> good_run (low_mem_foot a) u V T ->
  Z.of_nat (u_n u * output_size (u_c u)) < 2 ^ 31 ->
  (forall cy i, (cy < T)%nat -> ~ hidden (sess (low_mem_foot a) u) u V cy i) ->
  exists ta tb, always_finish (garbler_program ja a u) (evaluator_program jb b u) (Some ta) (Some tb) /\
  displays (output_mode (u_opt u)) (output_size (u_c u)) T ta (fun cy i => V cy (nth i (outputs (u_c u)) 0) && to_garbler u i) /\
  displays (output_mode (u_opt u)) (output_size (u_c u)) T tb (fun cy i => V cy (nth i (outputs (u_c u)) 0) && negb (to_garbler u i)).
Proof. exact programs_ok. Qed.
Print Assumptions C55_programs.
(** The accumulator; the mask 3 gives the two register bits to the garbler. *)
Example C55_example : forall mode foot,
  started (acc_args "1" "1b" "3" mode foot) (acc_args "0" "1F4" "03" mode foot) (acc_u 3 mode) /\ good_run foot (acc_u 3 mode) acc_plain 3 /\
  (forall cy i, (cy < 3)%nat -> ~ hidden (sess foot (acc_u 3 mode)) (acc_u 3 mode) acc_plain cy i) /\
  forall ja jb, always_finish (garbler_program ja (acc_args "1" "1b" "3" separated_clock foot) (acc_u 3 separated_clock))
    (evaluator_program jb (acc_args "0" "1F4" "03" separated_clock foot) (acc_u 3 separated_clock))
    (Some (lines ["01"; "03"; "0"])) (Some (lines ["0"; "0"; "04"])).
Proof.
  intros mode foot. split; [apply acc_started|]. split; [apply acc_good|]. split; [intros cy i H; apply acc_visible; exact H|]. intros. apply acc_prints.
Qed.

(** * C56 Secure and plaintext evaluation print the same text *)
Theorem C56_same_text : forall ja jb jf a b p u V T wl0 ll0, started a b u -> plain_started p u -> good_run (low_mem_foot a) u V T ->
  output_mask (u_opt u) = 0%N -> Z.of_nat (u_n u * output_size (u_c u)) < 2 ^ 31 ->
  List.length wl0 = get_wire_size (u_c u) -> List.length ll0 = dff_size (u_c u) ->
  exists ta t, always_finish (garbler_program ja a u) (evaluator_program jb b u) (Some ta) (Some t) /\
    EvalauatePlaintextStr jf true wl0 ll0 p = Some (Some t).
Proof. exact same_text. Qed.
Print Assumptions C56_same_text.
Theorem C56_plain_program : forall jf a u V T wl0 ll0, plain_started a u -> ready u -> consistent (u_c u) (u_x u) V -> executes u V T ->
  Z.of_nat (u_n u * output_size (u_c u)) < 2 ^ 31 ->
  List.length wl0 = get_wire_size (u_c u) -> List.length ll0 = dff_size (u_c u) ->
  exists t, EvalauatePlaintextStr jf true wl0 ll0 a = Some (Some t) /\
    displays (output_mode (u_opt u)) (output_size (u_c u)) T t (fun cy i => V cy (nth i (outputs (u_c u)) 0)).
Proof. exact plain_program_ok. Qed.
Print Assumptions C56_plain_program.
Example C56_example : forall mode foot,
  started (acc_args "1" "1b" "0" mode foot) (acc_args "0" "1F4" "0" mode foot) (acc_u 0 mode) /\
  plain_started (acc_plain_args mode) (acc_u 0 mode) /\ good_run foot (acc_u 0 mode) acc_plain 3 /\
  forall jf, EvalauatePlaintextStr jf true (repeat true 24) (repeat false 3) (acc_plain_args consecutive) = Some (Some (str "0119")).
Proof.
  intros mode foot. split; [apply acc_started0|]. split; [apply acc_plain_started|]. split; [apply acc_good|].
  intros jf. unfold EvalauatePlaintextStr. cbn [acc_plain_args pl_file]. rewrite acc_reads. vm_compute. reflexivity.
Qed.

(** * C57 From the Verilog text to the printed outputs *)
Theorem C57_verilog_to_output : forall m t, well_built m -> Z.of_nat (List.length m) < 2 ^ 60 -> ~ comb_loop m -> written (module_words m) t ->
  exists file c, (forall log, Verilog2SCD log (Some t) = Done file) /\ (forall jf, ReadSCD jf file = c) /\
  forall ja jb a b u V T, u_c u = c -> scd_file a = Some file -> started a b u -> good_run (low_mem_foot a) u V T ->
    Z.of_nat (u_n u * out_width m) < 2 ^ 31 -> (forall cy i, (cy < T)%nat -> ~ hidden (sess (low_mem_foot a) u) u V cy i) ->
  forall U net, obeys m (u_x u) U -> (forall i, (i < out_width m)%nat -> out_net m i (net i)) ->
    module_runs m U (u_n u) (terminate_period (u_opt u)) T /\
    exists ta tb, always_finish (garbler_program ja a u) (evaluator_program jb b u) (Some ta) (Some tb) /\
      displays (output_mode (u_opt u)) (out_width m) T ta (fun cy i => U cy (net i) && to_garbler u i) /\
      displays (output_mode (u_opt u)) (out_width m) T tb (fun cy i => U cy (net i) && negb (to_garbler u i)).
Proof. exact verilog_programs. Qed.
Print Assumptions C57_verilog_to_output.
(** The accumulator of C53 and the runs of C55. *)
Example C57_example : (well_built demo_module /\ ~ comb_loop demo_module /\ written (module_words demo_module) demo_text) /\
  (forall log, Verilog2SCD log (Some demo_text) = Done acc_file) /\ (forall jf, ReadSCD jf acc_file = acc) /\
  (forall mode foot, u_c (acc_u 3 mode) = acc /\ scd_file (acc_args "1" "1b" "3" mode foot) = Some acc_file) /\
  (exists U, obeys demo_module acc_in U) /\ forall i, (i < out_width demo_module)%nat -> out_net demo_module i (elem "o" i).
Proof.
  split; [split; [apply demo_built|split; [apply demo_no_loop|apply demo_written]]|].
  split; [apply demo_translated|]. split; [apply acc_reads|]. split; [split; reflexivity|]. split.
  - destruct (verilog_ok _ _ demo_built demo_size demo_no_loop demo_written) as (f & _ & R). apply (rm_some _ _ (R (fun _ _ => 0))).
  - intros i Hi. reflexivity.
Qed.
