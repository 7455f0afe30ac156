(** The test of the processor: Alice and Bob of the test library, the two
    processes of TcpipTestRun and the main program a23_test. *)
From Coq Require Import String ZArith NArith List Bool Lia Ascii.
From Verif Require Import Base Gate Circuit CycleModel Spec Plain Run Results
  Proc Codec Tcp BN OT Rand Bounded Tables Protocol Transfer OutTransfer ProtocolOk ProtocolRun EndToEnd ProtocolResults
  Text Scd MapFile Trace Hex Format Programs ProgramsOk CmdText Mains.
Import ListNotations.
Open Scope Z_scope.
Open Scope list_scope.

(** * Model *)

(** GCTestStruct and MakeGCTestStruct, garbled_circuit_testing.cpp:31-53: the
    arguments of GarbleStr or EvaluateStr and the text it should print. *)
Record gc_test := mkGCTest { gt_args : arguments; gt_output : text }.
(** garbled_circuit_testing.cpp:65-78, 90-104: what Alice and Bob return.  [None]:
    the protocol failed. *)
Definition verdict (expected : text) (r : option text) : Z :=
  match r with
  | None => FAILURE
  | Some t => if text_eqb t expected then SUCCESS else FAILURE
  end.
Section Parties.
Variable AESk : block -> block -> block.
Variable sha : bytes -> bytes.
Variable coins : nat -> ot_coins.
(** Alice, garbled_circuit_testing.cpp:55-79 *)
Definition Alice (jf : nat -> nat -> Z) (d : gc_test) (ra : nat -> block) (junk : list Z) (m : gmem) : proc Z :=
  bind (GarbleStr AESk sha coins jf (gt_args d) ra junk m) (fun r => Ret (verdict (gt_output d) r)).
(** Bob, garbled_circuit_testing.cpp:81-105 *)
Definition Bob (jf : nat -> nat -> Z) (d : gc_test) (rnd : nat -> block) (junk : list Z) (m : emem) : proc Z :=
  bind (EvaluateStr AESk sha coins jf (gt_args d) rnd junk m) (fun r => Ret (verdict (gt_output d) r)).
End Parties.

(** What the operating system answers: whether the [i]-th attempt to open the port,
    fork, accept, connect and the two close succeed, and whether the child is
    killed by a signal before it ends. *)
Record os := mkOs {
  opens : nat -> bool; forks : bool; accepts : bool; connects : bool;
  server_closes : bool; client_closes : bool; killed : bool }.
(** tcpip_testsuit.cpp:42-53, PORT_TRIAL attempts *)
Definition PORT_TRIAL : nat := 20.
Fixpoint open_port (opens : nat -> bool) (i trials : nat) : bool :=
  match trials with
  | O => false
  | S k => if opens i then true else open_port opens (S i) k
  end.
(** tcpip_testsuit.cpp:58-73: the argument of exit in the child, which is the
    client; [client]: what client_func returns. *)
Definition child_exit (o : os) (client : Z) : Z :=
  if negb (connects o) then FAILURE
  else if client =? FAILURE then FAILURE
  else if negb (client_closes o) then FAILURE
  else SUCCESS.
(** The status waitpid stores: the low eight bits of the argument of exit in bits
    8-15, or the number of the signal (9) in bits 0-6; WEXITSTATUS, WIFEXITED. *)
Definition wait_status (o : os) (code : Z) : Z := if killed o then 9 else Z.shiftl (Z.land code 255) 8.
Definition WEXITSTATUS (s : Z) : Z := Z.land (Z.shiftr s 8) 255.
Definition WIFEXITED (s : Z) : bool := Z.land s 127 =? 0.
(** (char), signed as on x86 *)
Definition to_char (z : Z) : Z := let r := z mod 256 in if r <? 128 then r else r - 256.
(** TcpipTestRun, tcpip_testsuit.cpp:34-102.  [server], [client]: what the two
    functions return if they are called. *)
Definition TcpipTestRun (o : os) (server client : Z) : Z :=
  if negb (open_port (opens o) 0 PORT_TRIAL) then FAILURE
  else if negb (forks o) then FAILURE
  else if negb (accepts o) then FAILURE
  else if server =? FAILURE then FAILURE
  else if negb (server_closes o) then FAILURE
  else let s := wait_status o (child_exit o client) in
    if negb (to_char (WEXITSTATUS s) =? SUCCESS) || negb (WIFEXITED s) then FAILURE else SUCCESS.

(** The files of a test, a23_test_main.cpp:99-108 *)
Definition a23_file (fs : text -> option text) (dir name : text) (file : string) : text :=
  ReadFileOrPassHex fs (dir ++ list_ascii_of_string "/a23/" ++ name ++ list_ascii_of_string file).
Section Main.
Variable fs : text -> option text.
Variables dir scd name : text.
Variable cycles : nat.
Variable period : Z.
Definition a23_p : text := a23_file fs dir name "/p.txt".
Definition a23_g : text := a23_file fs dir name "/test/g.txt".
Definition a23_e : text := a23_file fs dir name "/test/e.txt".
(** a23_test_main.cpp:90-97, 114-117 *)
Definition a23_plain : plain_arguments := mkPlain (fs scd) a23_p a23_g a23_e [] [] [] cycles period last_clock.
(** a23_test_main.cpp:122-133; [expected] is "0" for Alice and the output of the
    plaintext evaluation for Bob. *)
Definition a23_data (init expected : text) : gc_test :=
  mkGCTest (mkArguments (fs scd) a23_p [] init [] cycles (list_ascii_of_string "0") period last_clock false true) expected.
Definition a23_alice : gc_test := a23_data a23_g (list_ascii_of_string "0").
Definition a23_bob (out : text) : gc_test := a23_data a23_e out.
End Main.
(** CHECK_EXPR_MSG(ret == SUCCESS, …), util/log.h:68-69, 79: the program ends with
    FAILURE, or goes on. *)
Definition check_expr (log ok : bool) : bool := ok || negb log.
(** a23_test_main.cpp:110-118: the output the test goes on with (empty if the
    evaluation failed), if it goes on. *)
Definition a23_expected (log : bool) (r : option text) : option text :=
  if check_expr log (match r with Some _ => true | None => false end)
  then Some (match r with Some t => t | None => [] end) else None.
(** a23_test_main.cpp:135-138: the exit status, [ret] being the result of
    TcpipTestRun. *)
Definition a23_status (log : bool) (ret : Z) : Z := if check_expr log (ret =? SUCCESS) then SUCCESS else FAILURE.

(** * Specification *)

(** Everything asked of the operating system works. *)
Definition all_works (o : os) : Prop :=
  (exists i, (i < 20)%nat /\ opens o i = true) /\ forks o = true /\ accepts o = true /\ connects o = true /\
  server_closes o = true /\ client_closes o = true /\ killed o = false.

(** * Facts *)
Lemma text_eqb_iff a b : text_eqb a b = true <-> a = b.
Proof.
  revert b. induction a as [|x a IH]; intros [|y b]; cbn [text_eqb]; try (split; [discriminate|congruence]); [split; reflexivity|].
  rewrite andb_true_iff, IH, Ascii.eqb_eq. split; [intros [-> ->]; reflexivity|intros [= -> ->]; auto].
Qed.
Lemma verdict_iff e r : verdict e r = SUCCESS <-> r = Some e.
Proof.
  destruct r as [t|]; cbn [verdict]; [|unfold FAILURE, SUCCESS; split; discriminate].
  destruct (text_eqb t e) eqn:E; [apply text_eqb_iff in E; subst; split; reflexivity|].
  split; [discriminate|]. intros [= ->]. assert (X : text_eqb e e = true) by (apply text_eqb_iff; reflexivity). congruence.
Qed.
Lemma verdict_cases e r : verdict e r = SUCCESS \/ verdict e r = FAILURE.
Proof. destruct r as [t|]; cbn [verdict]; [destruct (text_eqb t e)|]; auto. Qed.

Lemma open_port_iff f k i : open_port f i k = true <-> exists j, (i <= j < i + k)%nat /\ f j = true.
Proof.
  revert i. induction k as [|k IH]; intros i; cbn [open_port]; [split; [discriminate|intros (j & H & _); lia]|].
  destruct (f i) eqn:E; [split; [intros _; exists i; split; [lia|exact E]|reflexivity]|]. rewrite IH. split.
  - intros (j & H & F). exists j. split; [lia|exact F].
  - intros (j & H & F). exists j. split; [|exact F]. assert (j <> i) by congruence. lia.
Qed.

(** The run succeeds exactly if everything works and neither function fails. *)
Theorem run_iff o server client : TcpipTestRun o server client = SUCCESS <->
  all_works o /\ server <> FAILURE /\ client <> FAILURE.
Proof.
  unfold TcpipTestRun, all_works. destruct (open_port (opens o) 0 PORT_TRIAL) eqn:OP; cbn [negb].
  2: { split; [discriminate|]. intros (((i & H & F) & _) & _). assert (X : open_port (opens o) 0 PORT_TRIAL = true); [|congruence].
       apply open_port_iff. exists i. unfold PORT_TRIAL. split; [lia|exact F]. }
  apply open_port_iff in OP. destruct OP as (i & Hi & Fi). unfold PORT_TRIAL in Hi.
  assert (IO : exists i, (i < 20)%nat /\ opens o i = true) by (exists i; split; [lia|exact Fi]).
  destruct (forks o); cbn [negb]; [|split; [discriminate|intros ((_ & H & _) & _); discriminate]].
  destruct (accepts o); cbn [negb]; [|split; [discriminate|intros ((_ & _ & H & _) & _); discriminate]].
  destruct (Z.eqb_spec server FAILURE) as [->|NS]; [split; [discriminate|intros (_ & H & _); congruence]|].
  destruct (server_closes o); cbn [negb]; [|split; [discriminate|intros ((_ & _ & _ & _ & H & _) & _); discriminate]].
  unfold wait_status, child_exit. destruct (killed o); [cbn; split; [discriminate|intros ((_ & _ & _ & _ & _ & _ & H) & _); discriminate]|].
  destruct (connects o); cbn [negb]; [|cbn; split; [discriminate|intros ((_ & _ & _ & H & _) & _); discriminate]].
  destruct (Z.eqb_spec client FAILURE) as [->|NC]; [cbn; split; [discriminate|intros (_ & _ & H); congruence]|].
  destruct (client_closes o); cbn [negb]; [|cbn; split; [discriminate|intros ((_ & _ & _ & _ & _ & H & _) & _); discriminate]].
  cbn. split; auto 12.
Qed.

(** The test succeeds exactly if both print what is expected. *)
Theorem test_iff AESk sha coins ja jb da db ra junkA mA rnd junkB mB rA rB o :
  always_finish (GarbleStr AESk sha coins ja (gt_args da) ra junkA mA) (EvaluateStr AESk sha coins jb (gt_args db) rnd junkB mB) rA rB ->
  all_works o ->
  exists server client,
    always_finish (Alice AESk sha coins ja da ra junkA mA) (Bob AESk sha coins jb db rnd junkB mB) server client /\
    (TcpipTestRun o server client = SUCCESS <-> rA = Some (gt_output da) /\ rB = Some (gt_output db)).
Proof.
  intros (n & R & _) W. exists (verdict (gt_output da) rA), (verdict (gt_output db) rB). split.
  - apply always_runs. unfold Alice, Bob. eapply runs_bind; [exists n; exact R|]. apply runs_ret.
  - rewrite run_iff, <- !verdict_iff.
    destruct (verdict_cases (gt_output da) rA) as [-> | ->], (verdict_cases (gt_output db) rB) as [-> | ->]; unfold SUCCESS, FAILURE;
      split; [intros _; split; reflexivity|intros _; split; [exact W|split; discriminate]| | | | | |]; clear; intuition (exfalso; lia).
Qed.

(** With an empty mask the garbler's result is 0. *)
Lemma zero_mask_outA foot u V T : good_run foot u V T -> output_mask (u_opt u) = 0%N -> outA foot u V T = 0%N.
Proof.
  intros G M. pose proof (both_finish foot u V T G) as BE. destruct (gr_T _ _ _ _ G) as ((T1 & T2) & _).
  pose proof (result_bits foot u V T _ _ G BE) as RB. pose proof (result_nothing_else foot u V T _ _ G BE) as RZ.
  set (n := output_size (u_c u)) in *. set (from := shown_from foot u T) in *.
  assert (FT : (from <= T)%nat) by (unfold from, shown_from; destruct (is_low foot u), (output_mode (u_opt u)); lia).
  apply N.bits_inj. intros q. rewrite N.bits_0. destruct (N.le_gt_cases (N.of_nat ((T - from) * n)) q) as [L|L]; [apply RZ; exact L|].
  assert (OZ : (0 < n)%nat) by (destruct n; [rewrite Nat.mul_0_r in L; lia|lia]).
  pose proof (Nat.div_mod (N.to_nat q) n ltac:(lia)) as DM. pose proof (Nat.mod_upper_bound (N.to_nat q) n ltac:(lia)) as MB.
  assert (HQ : (N.to_nat q / n < T - from)%nat) by (apply Nat.div_lt_upper_bound; lia).
  destruct (RB (from + N.to_nat q / n)%nat (N.to_nat q mod n)%nat (nth (N.to_nat q mod n) (outputs (u_c u)) 0) ltac:(lia)) as (R1 & _).
  { apply nth_error_nth'. exact MB. }
  unfold bit_of in R1. fold n from in R1. replace (from + N.to_nat q / n - from)%nat with (N.to_nat q / n)%nat in R1 by lia.
  replace (N.of_nat (N.to_nat q / n * n + N.to_nat q mod n)) with q in R1 by lia.
  rewrite R1. unfold to_garbler. rewrite M, N.bits_0, andb_false_r. reflexivity.
Qed.

Lemma hex_zero : BN_bn2hex 0 = list_ascii_of_string "0".
Proof. reflexivity. Qed.
(** Both texts of the programs, when the mask is empty. *)
Lemma mask_zero_texts ja jb jf a b p u V T wl0 ll0 : started a b u -> plain_started p u -> good_run (low_mem_foot a) u V T ->
  output_mask (u_opt u) = 0%N -> output_mode (u_opt u) = last_clock -> Z.of_nat (u_n u * output_size (u_c u)) < 2 ^ 31 ->
  List.length wl0 = get_wire_size (u_c u) -> List.length ll0 = dff_size (u_c u) ->
  exists t, always_finish (garbler_program ja a u) (evaluator_program jb b u) (Some (list_ascii_of_string "0")) (Some t) /\
    EvalauatePlaintextStr jf true wl0 ll0 p = Some (Some t).
Proof.
  intros S PS G M MD SM L1 L2. destruct (same_text ja jb jf a b p u V T wl0 ll0 S PS G M SM L1 L2) as (ta & t & AF & E).
  exists t. split; [|exact E]. replace (Some (list_ascii_of_string "0")) with (Some ta); [exact AF|]. f_equal.
  destruct (gr_T _ _ _ _ G) as ((T1 & T2) & _). pose proof (both_finish _ u V T G) as (k & RE & _).
  assert (R : runs (garbler (low_mem_foot a) u) (evaluator (low_mem_foot a) u) (Some (T, Z.of_N (outA (low_mem_foot a) u V T))) (Some (T, Z.of_N (outB (low_mem_foot a) u V T))))
    by (exists k; exact RE).
  destruct (program_runs ja jb a b u T _ _ S ltac:(lia) R) as (n' & R'). destruct AF as (n & R0 & _).
  destruct (outcome_unique n n' _ _ _ (done_stuck _ _) (done_stuck _ _) R0 R') as [_ D]. unfold done_cfg in D. injection D as D _.
  rewrite <- D, (zero_mask_outA _ u V T G M). destruct (st_mode _ _ _ S) as [EM _]. unfold printed. cbn [fst snd]. rewrite EM, MD.
  destruct (low_mem_foot a && _); cbn [OutputBN2StrLowMem OutputBN2StrHighMem]; [exact hex_zero|].
  replace (Z.of_nat T - 1) with (Z.of_nat (T - 1)) by lia. rewrite cycle_bits_ok by nia.
  rewrite N.shiftr_0_l, N.mod_0_l by (apply N.pow_nonzero; discriminate). exact hex_zero.
Qed.

(** The processor's test succeeds. *)
Theorem a23_test_ok log fs dir scd name cycles period ja jb jf u V T wl0 ll0 o :
  started (gt_args (a23_alice fs dir scd name cycles period)) (gt_args (a23_bob fs dir scd name cycles period [])) u ->
  plain_started (a23_plain fs dir scd name cycles period) u -> good_run true u V T -> Z.of_nat (u_n u * output_size (u_c u)) < 2 ^ 31 ->
  List.length wl0 = get_wire_size (u_c u) -> List.length ll0 = dff_size (u_c u) -> all_works o ->
  exists r out, EvalauatePlaintextStr jf true wl0 ll0 (a23_plain fs dir scd name cycles period) = Some r /\ a23_expected log r = Some out /\
    displays last_clock (output_size (u_c u)) T out (fun cy i => V cy (nth i (outputs (u_c u)) 0)) /\
  exists server client,
    always_finish
      (Alice (u_AES u) (u_sha u) (u_coins u) ja (a23_alice fs dir scd name cycles period) (u_ra u) (u_junkA u) (gmem_of (u_m u)))
      (Bob (u_AES u) (u_sha u) (u_coins u) jb (a23_bob fs dir scd name cycles period out) (u_rnd u) (u_junkB u) (emem_of (u_m u)))
      server client /\
    TcpipTestRun o server client = SUCCESS /\ a23_status log (TcpipTestRun o server client) = SUCCESS.
Proof.
  intros S PS G SM L1 L2 W.
  assert (M : output_mask (u_opt u) = 0%N). { destruct (st_mask _ _ _ S) as [[H _] _]. cbn in H. congruence. }
  assert (MD : output_mode (u_opt u) = last_clock) by (destruct (st_mode _ _ _ S) as [H _]; symmetry; exact H).
  destruct (mask_zero_texts ja jb jf _ _ _ u V T wl0 ll0 S PS G M MD SM L1 L2) as (t & AF & E).
  destruct (plain_program_ok jf _ u V T wl0 ll0 PS (gr_ready _ _ _ _ G) (gr_V _ _ _ _ G) (gr_T _ _ _ _ G) SM L1 L2) as (t' & E' & D).
  rewrite E in E'. injection E' as <-. rewrite MD in D.
  exists (Some t), t. split; [exact E|]. split; [unfold a23_expected; destruct log; reflexivity|]. split; [exact D|].
  destruct (test_iff (u_AES u) (u_sha u) (u_coins u) ja jb (a23_alice fs dir scd name cycles period) (a23_bob fs dir scd name cycles period t)
              (u_ra u) (u_junkA u) (gmem_of (u_m u)) (u_rnd u) (u_junkB u) (emem_of (u_m u)) _ _ o AF W) as (server & client & F & I).
  exists server, client. split; [exact F|]. assert (X : TcpipTestRun o server client = SUCCESS) by (apply I; split; reflexivity).
  split; [exact X|]. rewrite X. destruct log; reflexivity.
Qed.

(** With logging the exit status is that of the run; without, it is always SUCCESS. *)
Theorem a23_status_log ret : a23_status true ret = SUCCESS <-> ret = SUCCESS.
Proof. unfold a23_status, check_expr. rewrite orb_false_r. destruct (Z.eqb_spec ret SUCCESS); [split; auto|]. split; [discriminate|congruence]. Qed.
Theorem a23_status_no_log ret : a23_status false ret = SUCCESS.
Proof. unfold a23_status, check_expr. rewrite orb_true_r. reflexivity. Qed.

(** A missing netlist: both parties fail; only with logging does the program say
    so. *)
Theorem missing_netlist fs dir scd name cycles period jf ja jb files wl0 ll0 AESk sha coins ra junkA mA rnd junkB mB o : fs scd = None ->
  let r := EvalauatePlaintextStr jf files wl0 ll0 (a23_plain fs dir scd name cycles period) in
  r = Some None /\ a23_expected true None = None /\ a23_expected false None = Some [] /\
  always_finish (Alice AESk sha coins ja (a23_alice fs dir scd name cycles period) ra junkA mA)
    (Bob AESk sha coins jb (a23_bob fs dir scd name cycles period []) rnd junkB mB) FAILURE FAILURE /\
  TcpipTestRun o FAILURE FAILURE = FAILURE /\ a23_status false (TcpipTestRun o FAILURE FAILURE) = SUCCESS.
Proof.
  intros N. cbv zeta. unfold EvalauatePlaintextStr, a23_plain. cbn [pl_file]. rewrite N. repeat (split; [reflexivity|]). split; [|split].
  - apply always_runs. unfold Alice, Bob, GarbleStr, EvaluateStr, a23_alice, a23_bob, a23_data. cbn [gt_args gt_output arg_cycles scd_file]. rewrite N.
    destruct (cycles =? 0)%nat; cbn [bind verdict]; apply runs_ret.
  - unfold TcpipTestRun. destruct (negb _); [reflexivity|]. destruct (negb _); [reflexivity|]. destruct (negb _); reflexivity.
  - apply a23_status_no_log.
Qed.
Theorem reports_refuted : ~ forall log o server client, a23_status log (TcpipTestRun o server client) = SUCCESS ->
  TcpipTestRun o server client = SUCCESS.
Proof.
  intros C. specialize (C false (mkOs (fun _ => true) true true true true true false) FAILURE FAILURE (a23_status_no_log _)). discriminate.
Qed.
