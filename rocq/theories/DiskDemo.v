(** The accumulator and a single gate on a disk. *)
From Coq Require Import String ZArith NArith List Bool Lia Ascii Permutation.
From Verif Require Import Base Gate Circuit CycleModel Spec Plain Run Demo Results
  Proc Codec Tcp BN OT Rand Bounded Tables Protocol Transfer OutTransfer ProtocolOk ProtocolRun EndToEnd ProtocolDemo ProtocolResults
  Text Sort Netlist Scd Front Parse VerilogFront FrontDemo Bristol BristolOk BristolRun MapFile Trace TraceRun TraceDemo Hex Format Programs ProgramsOk ProgramsDemo
  CmdText Mains MainsDemo Disk.
Import ListNotations.
Open Scope Z_scope.
Open Scope list_scope.

Definition one_gate : bristol := mkBristol 3 1 1 1 [AND 0 1 2].
Definition one_text : text := list_ascii_of_string "1 3
1 1 1

2 1 0 1 2 AND
".
Lemma one_valid : b_valid one_gate.
Proof. apply b_validb_ok. vm_compute. reflexivity. Qed.
Lemma one_spaced : spaced (bristol_words one_gate ++ []) one_text.
Proof. apply spacedb_ok. vm_compute. reflexivity. Qed.
(** Two netlists. *)
Definition sources : disk := fun n => if named "acc.v" n then Some demo_text else if named "and.txt" n then Some one_text else None.
Definition free : text -> access := fun _ => Free.
(** The file c.scd is there but must not be written, or the disk becomes full. *)
Definition read_only : text -> access := fun n => if named "c.scd" n then Closed else Free.
Definition full (k : nat) : text -> access := fun n => if named "c.scd" n then Limited k else Free.
Definition translate_acc (log : bool) (sp : text -> access) (d : disk) : result (disk * Z) :=
  main_translate log (fun _ => 0) (fun _ _ => 0) sp d (str "acc.v") [] (str "c.scd").
Definition translate_and (log : bool) (sp : text -> access) (d : disk) : result (disk * Z) :=
  main_translate log (fun _ => 0) (fun _ _ => 0) sp d [] (str "and.txt") (str "c.scd").
Definition disk_of {A} (r : result (disk * A)) : disk := match r with Done (d, _) => d | _ => fun _ => None end.
Definition acc_disk : disk := put (put sources (map_of (str "c.scd")) demo_map) (str "c.scd") acc_file.
Lemma acc_disk_is log : translate_acc log free sources = Done (acc_disk, SUCCESS).
Proof.
  unfold translate_acc, main_translate. cbv beta iota zeta delta [str list_ascii_of_string]. 
  change (sources _) with (Some demo_text). rewrite demo_files. reflexivity.
Qed.
(** The plaintext evaluator on that disk: the outputs of C56 and the trace of C62. *)
Lemma acc_disk_run : forall jf, exists d,
  main_plain_disk [] jf free (repeat true 24) (repeat false 3) acc_disk (str "c.scd") (str "0") (str "1") (str "0") (str "0") (str "1b") (str "1F4") 3 0 None
    = Some (d, str "0119" ++ [nl], SUCCESS) /\
  d (str "c.scd.csv") = Some (flat_map (fun l => list_ascii_of_string l ++ [nl])
    [("cid, " ++ tabs ["n1"; "n2"; "\carry[0]"])%string; "0, 1, 0, 0, "; "1, 1, 1, 0, "; "2, 0, 0, 1, "]%string).
Proof.
  intros jf. unfold main_plain_disk. cbv beta iota zeta delta [str list_ascii_of_string output_mode_of].
  unfold EvalauatePlaintextStrDisk. cbn [pl_file].
  change (acc_disk _) with (Some acc_file) at 1. cbv iota. rewrite acc_reads. eexists. split; [vm_compute; reflexivity|vm_compute; reflexivity].
Qed.
Lemma acc_gives : gives acc_disk acc_in (str "0") (str "1") (str "0") (str "0") (str "1b") (str "1F4").
Proof. repeat split; vm_compute; reflexivity. Qed.

(** ** What goes wrong *)
Definition one_run (d : disk) : option (disk * text * Z) :=
  main_plain_disk [] (fun _ _ => 0) free (repeat false 3) [] d (str "c.scd") (str "0") (str "0") (str "0") (str "0") (str "1") (str "1") 1 0 None.
(** The gate is translated and evaluated; then the accumulator shall be written to the
    same file, which fails; then the gate cannot be evaluated any more. *)
Definition one_disk : disk := disk_of (translate_and true free sources).
Definition stale_disk : disk := disk_of (translate_acc true read_only one_disk).
Lemma one_disk_is : translate_and true free sources = Done (one_disk, SUCCESS).
Proof. vm_compute. reflexivity. Qed.
Lemma one_runs : exists d, one_run one_disk = Some (d, str "01" ++ [nl], SUCCESS).
Proof. eexists. vm_compute. reflexivity. Qed.
Lemma stale_disk_is : translate_acc true read_only one_disk = Done (stale_disk, FAILURE).
Proof. vm_compute. reflexivity. Qed.
Lemma stale_mapping : stale_disk (str "c.scd.map") = Some demo_map.
Proof. vm_compute. reflexivity. Qed.
Lemma stale_run : one_run stale_disk = None.
Proof. vm_compute. reflexivity. Qed.
Theorem failure_clean_refuted : ~ forall log junk0 junk sp d netlist brist scd d',
  main_translate log junk0 junk sp d netlist brist scd = Done (d', FAILURE) -> forall n, d' n = d n.
Proof.
  intros H. specialize (H _ _ _ _ _ _ _ _ _ stale_disk_is (str "c.scd.map")). rewrite stale_mapping in H. vm_compute in H. discriminate.
Qed.
Theorem after_failure_refuted : ~ forall log junk0 junk sp sp' d netlist brist scd d' usage jf wl0 ll0 p_init g_init e_init p_input g_input e_input cycles period mode,
  main_translate log junk0 junk sp d netlist brist scd = Done (d', FAILURE) ->
  main_plain_disk usage jf sp' wl0 ll0 d scd p_init g_init e_init p_input g_input e_input cycles period mode <> None ->
  main_plain_disk usage jf sp' wl0 ll0 d' scd p_init g_init e_init p_input g_input e_input cycles period mode <> None.
Proof.
  intros H. refine (H _ _ _ _ free _ _ _ _ _ [] (fun _ _ => 0) (repeat false 3) [] (str "0") (str "0") (str "0") (str "0") (str "1") (str "1") 1%nat 0 None stale_disk_is _ stale_run).
  destruct one_runs as (d & E). unfold one_run in E. rewrite E. discriminate.
Qed.
(** Room for the first 60 characters of the circuit: the exit status is SUCCESS. *)
Definition cut_disk : disk := disk_of (translate_acc true (full 60) sources).
Lemma cut_disk_is : translate_acc true (full 60) sources = Done (cut_disk, SUCCESS).
Proof. vm_compute. reflexivity. Qed.
Lemma cut_file : cut_disk (str "c.scd") = Some (firstn 60 acc_file).
Proof. vm_compute. reflexivity. Qed.
Theorem success_written_refuted : ~ forall m t log junk0 junk sp d netlist brist scd d',
  well_built m -> ~ comb_loop m -> written (module_words m) t -> wires_fit m -> netlist <> [] -> d netlist = Some t ->
  main_translate log junk0 junk sp d netlist brist scd = Done (d', SUCCESS) ->
  exists file c, d' scd = Some file /\ (forall jf, ReadSCD jf file = c) /\ runs_module c m.
Proof.
  intros H. destruct (H demo_module demo_text true (fun _ => 0) (fun _ _ => 0) (full 60) sources (str "acc.v") [] (str "c.scd") cut_disk
    demo_built demo_no_loop demo_written demo_fits ltac:(discriminate) eq_refl cut_disk_is) as (file & c & F & R & _).
  rewrite cut_file in F. injection F as <-. pose proof (R (fun _ _ => 0)) as R0. pose proof (R (fun _ _ => 1)) as R1. rewrite <- R1 in R0.
  apply (f_equal outputs) in R0. vm_compute in R0. discriminate.
Qed.
Lemma demo_files_for : exists es, files_for demo_module acc_file demo_map acc es.
Proof.
  destruct (translate_verilog _ _ demo_built demo_no_loop demo_written demo_fits) as (file & mapf & c & es & F & T).
  destruct (T true (fun _ => 0) (fun _ _ => 0) free sources (str "acc.v") [] (str "c.scd") ltac:(discriminate) ltac:(discriminate) eq_refl eq_refl eq_refl)
    as (d & E & D1 & D2 & _).
  pose proof (acc_disk_is true) as A. unfold translate_acc in A. rewrite A in E. clear A. injection E as <-.
  change (acc_disk (str "c.scd")) with (Some acc_file) in D1. injection D1 as <-.
  change (acc_disk (map_of (str "c.scd"))) with (Some demo_map) in D2. injection D2 as <-.
  assert (EC : c = acc) by (rewrite <- (ff_reads _ _ _ _ _ F (fun _ _ => 0)); apply acc_reads). subst c. exists es. exact F.
Qed.
