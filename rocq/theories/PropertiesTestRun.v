(** Theorems about the test of the garbled processor. *)
From Coq Require Import String ZArith NArith List Bool Lia Ascii.
From Verif Require Import Base Gate Circuit CycleModel Spec Plain Run Results
  Proc Codec Tcp BN Rand Bounded Tables Protocol Transfer OutTransfer ProtocolOk ProtocolRun EndToEnd ProtocolResults
  Text Scd Hex Format Programs ProgramsOk ProgramsDemo CmdText Mains TestRun TestRunDemo.
Import ListNotations.
Open Scope Z_scope.
Open Scope list_scope.

(** * C99 The test of the processor *)
Theorem C99_test_passes : forall log fs dir scd name cycles period ja jb jf u V T wl0 ll0 o, started (gt_args (a23_alice fs dir scd name cycles period)) (gt_args (a23_bob fs dir scd name cycles period [])) u ->
  plain_started (a23_plain fs dir scd name cycles period) u -> good_run true u V T -> Z.of_nat (u_n u * output_size (u_c u)) < 2 ^ 31 ->
  List.length wl0 = get_wire_size (u_c u) -> List.length ll0 = dff_size (u_c u) -> all_works o ->
  exists r out, EvalauatePlaintextStr jf true wl0 ll0 (a23_plain fs dir scd name cycles period) = Some r /\ a23_expected log r = Some out /\
    displays last_clock (output_size (u_c u)) T out (fun cy i => V cy (nth i (outputs (u_c u)) 0)) /\
  exists server client,
    always_finish
      (Alice (u_AES u) (u_sha u) (u_coins u) ja (a23_alice fs dir scd name cycles period) (u_ra u) (u_junkA u) (gmem_of (u_m u)))
      (Bob (u_AES u) (u_sha u) (u_coins u) jb (a23_bob fs dir scd name cycles period out) (u_rnd u) (u_junkB u) (emem_of (u_m u)))
      server client /\
    TcpipTestRun o server client = SUCCESS /\ a23_status log (TcpipTestRun o server client) = SUCCESS.
Proof. exact a23_test_ok. Qed.
Print Assumptions C99_test_passes.
Theorem C99_test_compares : forall AESk sha coins ja jb da db ra junkA mA rnd junkB mB rA rB o, always_finish (GarbleStr AESk sha coins ja (gt_args da) ra junkA mA) (EvaluateStr AESk sha coins jb (gt_args db) rnd junkB mB) rA rB ->
  all_works o ->
  exists server client,
    always_finish (Alice AESk sha coins ja da ra junkA mA) (Bob AESk sha coins jb db rnd junkB mB) server client /\
    (TcpipTestRun o server client = SUCCESS <-> rA = Some (gt_output da) /\ rB = Some (gt_output db)).
Proof. exact test_iff. Qed.
Print Assumptions C99_test_compares.
Theorem C99_run : forall o server client, TcpipTestRun o server client = SUCCESS <->
  all_works o /\ server <> FAILURE /\ client <> FAILURE.
Proof. exact run_iff. Qed.
Print Assumptions C99_run.
Theorem C99_status_with_log : forall ret, a23_status true ret = SUCCESS <-> ret = SUCCESS.
Proof. exact a23_status_log. Qed.
Print Assumptions C99_status_with_log.
Theorem C99_missing_netlist : forall fs dir scd name cycles period jf ja jb files wl0 ll0 AESk sha coins ra junkA mA rnd junkB mB o, fs scd = None ->
  let r := EvalauatePlaintextStr jf files wl0 ll0 (a23_plain fs dir scd name cycles period) in
  r = Some None /\ a23_expected true None = None /\ a23_expected false None = Some [] /\
  always_finish (Alice AESk sha coins ja (a23_alice fs dir scd name cycles period) ra junkA mA)
    (Bob AESk sha coins jb (a23_bob fs dir scd name cycles period []) rnd junkB mB) FAILURE FAILURE /\
  TcpipTestRun o FAILURE FAILURE = FAILURE /\ a23_status false (TcpipTestRun o FAILURE FAILURE) = SUCCESS.
Proof. exact missing_netlist. Qed.
Print Assumptions C99_missing_netlist.
Theorem C99_reports_refuted : ~ forall log o server client, a23_status log (TcpipTestRun o server client) = SUCCESS ->
  TcpipTestRun o server client = SUCCESS.
Proof. exact reports_refuted. Qed.
Print Assumptions C99_reports_refuted.
(** The premises of the first theorem, and a run of the test. *)
Example C99_example_premises : started (gt_args (a23_alice test_fs (str "/src") (str "acc.scd") (str "acc") 3 0))
  (gt_args (a23_bob test_fs (str "/src") (str "acc.scd") (str "acc") 3 0 [])) test_u /\
  plain_started (a23_plain test_fs (str "/src") (str "acc.scd") (str "acc") 3 0) test_u /\ good_run true test_u test_V 3 /\ all_works fine_os.
Proof. exact (conj (test_started []) (conj test_plain_started (conj test_good fine_works))). Qed.
Example C99_example : forall ja jb expected, exists server client,
  always_finish
    (Alice (u_AES test_u) (u_sha test_u) (u_coins test_u) ja (a23_alice test_fs (str "/src") (str "acc.scd") (str "acc") 3 0)
       (u_ra test_u) (u_junkA test_u) (gmem_of (u_m test_u)))
    (Bob (u_AES test_u) (u_sha test_u) (u_coins test_u) jb (a23_bob test_fs (str "/src") (str "acc.scd") (str "acc") 3 0 expected)
       (u_rnd test_u) (u_junkB test_u) (emem_of (u_m test_u))) server client /\
  (TcpipTestRun fine_os server client = SUCCESS <-> expected = str "01").
Proof. exact test_runs. Qed.
