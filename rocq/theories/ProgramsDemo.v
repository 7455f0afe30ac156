(** The accumulator of FrontDemo run by both programs, from Verilog text to
    printed text. *)
From Coq Require Import ZArith NArith List Bool Lia Ascii String.
From Verif Require Import Base Gate Circuit CycleModel Spec Plain Run Demo Results
  Proc Codec Tcp BN Rand Bounded Tables Protocol Transfer OutTransfer ProtocolOk ProtocolRun EndToEnd ProtocolDemo ProtocolResults
  Text Scd Parse VerilogFront FrontDemo Hex Format Programs ProgramsOk.
Import ListNotations.
Open Scope Z_scope.

Definition acc_file : text := list_ascii_of_string demo_scd.
Definition acc : GarbledCircuit := Eval vm_compute in ReadSCD (fun _ _ => 0) acc_file.
Lemma acc_reads jf : ReadSCD jf acc_file = acc.
Proof.
  destruct (verilog_reads _ _ demo_built demo_size demo_no_loop demo_written) as (f & c & T & R & _).
  specialize (T true). rewrite demo_translated in T. injection T as <-. fold acc_file in R. rewrite R, <- (R (fun _ _ => 0)). vm_compute. reflexivity.
Qed.
Lemma acc_wf : well_formed acc.
Proof. apply well_formedb_ok. vm_compute. reflexivity. Qed.
Definition acc_in : inputs := mkInputs 0 1 0 0 0x1b 0x1f4.
Definition acc_u (mask : N) (mode : OutputMode) : setup := example acc (mkOptions 3 mask 0 mode false) acc_in.
Definition acc_plain : nat -> Z -> bool := plain acc acc_in.
Lemma acc_ready mask mode : ready (acc_u mask mode).
Proof. apply example_ready; cbn; auto using acc_wf; try lia; try reflexivity. Qed.
Lemma acc_free mask mode foot : no_collisions (sess foot (acc_u mask mode)) 3.
Proof.
  assert (E : no_collisions (session_of foot (acc_u 0 consecutive)) 3) by (destruct foot; apply free_upto_ok; vm_compute; reflexivity).
  unfold sess. replace (is_low foot (acc_u mask mode)) with foot by (destruct foot; reflexivity). exact E.
Qed.
Lemma acc_good mask mode foot : good_run foot (acc_u mask mode) acc_plain 3.
Proof.
  constructor; [apply acc_ready|apply plain_ok; apply acc_wf|apply acc_free| |].
  - split; [cbn; lia|]. split; [|left; reflexivity]. intros cy _ [[H _] _]. apply H. reflexivity.
  - intros cy _ [H _]. exfalso. apply H. reflexivity.
Qed.
Lemma acc_visible mask mode foot cy i : (cy < 3)%nat -> ~ hidden (sess foot (acc_u mask mode)) (acc_u mask mode) acc_plain cy i.
Proof.
  intros Hc (S1 & _ & _ & w & HW & VT).
  assert (E : forall cy i, (cy < 3)%nat -> (i < 3)%nat -> out_secret (session_of foot (acc_u 0 consecutive)) cy i = false ->
    acc_plain cy (nth i (outputs acc) 0) = false).
  { intros [|[|[|k]]] [|[|[|j]]] H1 H2; try lia; destruct foot; vm_compute; auto. }
  assert (Hi : (i < 3)%nat) by (change 3%nat with (List.length (outputs acc)); apply nth_error_Some; change (u_c (acc_u mask mode)) with acc in HW; congruence).
  unfold sess in S1. replace (is_low foot (acc_u mask mode)) with foot in S1 by (destruct foot; reflexivity).
  change (u_c (acc_u mask mode)) with acc in HW. specialize (E cy i Hc Hi S1). rewrite (nth_error_nth _ _ 0 HW) in E. congruence.
Qed.

(** The command lines; the mask gives the two register bits to the garbler. *)
Definition str (s : string) : text := list_ascii_of_string s.
Definition acc_args (init input mask : string) (mode : OutputMode) (foot : bool) : arguments :=
  mkArguments (Some acc_file) (str "0") (str "") (str init) (str input) 3 (str mask) 0 mode false foot.
Lemma acc_started mode foot : started (acc_args "1" "1b" "3" mode foot) (acc_args "0" "1F4" "03" mode foot) (acc_u 3 mode).
Proof.
  split; [exists acc_file; split; [reflexivity|]; split; [reflexivity|]; apply acc_reads|..]; try (split; reflexivity); try reflexivity;
    repeat (split; [split; reflexivity|]); split; reflexivity.
Qed.
(** All for the evaluator. *)
Lemma acc_started0 mode foot : started (acc_args "1" "1b" "0" mode foot) (acc_args "0" "1F4" "0" mode foot) (acc_u 0 mode).
Proof.
  split; [exists acc_file; split; [reflexivity|]; split; [reflexivity|]; apply acc_reads|..]; try (split; reflexivity); try reflexivity;
    repeat (split; [split; reflexivity|]); split; reflexivity.
Qed.
Definition acc_plain_args (mode : OutputMode) : plain_arguments :=
  mkPlain (Some acc_file) (str "0") (str "1") (str "0") (str "0") (str "1B") (str "1f4") 3 0 mode.
Lemma acc_plain_started mask mode : plain_started (acc_plain_args mode) (acc_u mask mode).
Proof.
  split; [exists acc_file; split; [reflexivity|]; apply acc_reads|..]; try (repeat (split; [split; reflexivity|]); split; reflexivity).
Qed.
(** What is printed. *)
Definition lines (l : list string) : text := join (map str l).
Lemma acc_prints ja jb foot : 
  always_finish (garbler_program ja (acc_args "1" "1b" "3" separated_clock foot) (acc_u 3 separated_clock))
    (evaluator_program jb (acc_args "0" "1F4" "03" separated_clock foot) (acc_u 3 separated_clock))
    (Some (lines ["01"; "03"; "0"])) (Some (lines ["0"; "0"; "04"])).
Proof.
  pose proof (both_finish _ _ _ _ (acc_good 3 separated_clock foot)) as (k & RE & _).
  match type of RE with reach _ _ (done_cfg ?x ?y) => assert (R : runs (garbler foot (acc_u 3 separated_clock)) (evaluator foot (acc_u 3 separated_clock)) x y) by (exists k; exact RE) end.
  pose proof (program_runs ja jb _ _ _ _ _ _ (acc_started separated_clock foot) ltac:(cbn; lia) R) as PR. apply always_runs.
  match type of PR with runs _ _ (Some ?x) (Some ?y) =>
    assert (X : x = lines ["01"; "03"; "0"]) by (destruct foot; vm_compute; reflexivity);
    assert (Y : y = lines ["0"; "0"; "04"]) by (destruct foot; vm_compute; reflexivity) end.
  rewrite X, Y in PR. exact PR.
Qed.
