(** The programs at the level of text: SCD file and hexadecimal strings in,
    printed outputs out. *)
From Coq Require Import ZArith NArith List Bool Lia Ascii.
From Verif Require Import Base Gate Circuit CycleModel Spec Plain Run Results
  Proc Codec Tcp BN Rand Bounded Tables Protocol Transfer OutTransfer ProtocolOk ProtocolRun EndToEnd ProtocolResults
  Text Scd Hex Format.
Import ListNotations.
Open Scope Z_scope.

(** * Model *)

(** The arguments of GarbleStr and EvaluateStr (garbled_circuit.cpp:52-57,
    130-135).  [scd_file]: the contents of the file, or it cannot be opened. *)
Record arguments := mkArguments {
  scd_file : option text; p_init_str : text; p_input_str : text; init_str : text; input_str : text;
  arg_cycles : nat; mask_str : text; arg_period : Z; arg_mode : OutputMode; arg_disable_OT : bool; low_mem_foot : bool }.

(** ParseInitInputStr, garbled_circuit_util.cpp:70-77, and the mask,
    low_mem.cpp:1099-1100, 1146-1147: BN_hex2bn into a new number.  The sign is never looked at. *)
Definition parsed (t : text) : N := mag (BN_hex2bn 0 t).
Definition options_of (a : arguments) : options :=
  mkOptions (arg_cycles a) (parsed (mask_str a)) (arg_period a) (arg_mode a) (arg_disable_OT a).
(** garbled_circuit.cpp:98-118, 173-191: how the outputs are printed; [r]: cycles
    executed and output_bn. *)
Definition printed (a : arguments) (c : GarbledCircuit) (r : nat * BIGNUM) : text :=
  (if low_mem_foot a && (1 <? arg_cycles a)%nat then OutputBN2StrLowMem else OutputBN2StrHighMem)
    (output_size c) (snd r) (fst r) (arg_mode a).

Section Programs.
Variable AESk : block -> block -> block.
Variable sha : bytes -> bytes.
Variable coins : nat -> ot_coins.

(** garbled_circuit.cpp:52-128.  [jf]: uninitialised memory in ReadSCD; the other
    arguments as for [Garble].  [None]: FAILURE. *)
Definition GarbleStr (jf : nat -> nat -> Z) (a : arguments) (ra : nat -> block) (junk : list Z) (m : gmem) : proc (option text) :=
  if (arg_cycles a =? 0)%nat then Ret None else
  match scd_file a with
  | None => Ret None
  | Some f =>
    let c := ReadSCD jf f in
    (let? r := Garble AESk sha c (options_of a) coins (parsed (p_init_str a)) (parsed (p_input_str a))
                (low_mem_foot a) (parsed (init_str a)) (parsed (input_str a)) ra junk m in
     Ret (Some (printed a c r)))%proc
  end.
(** garbled_circuit.cpp:130-200 *)
Definition EvaluateStr (jf : nat -> nat -> Z) (a : arguments) (rnd : nat -> block) (junk : list Z) (m : emem) : proc (option text) :=
  if (arg_cycles a =? 0)%nat then Ret None else
  match scd_file a with
  | None => Ret None
  | Some f =>
    let c := ReadSCD jf f in
    (let? r := Evaluate AESk sha c (options_of a) coins (parsed (p_init_str a)) (parsed (p_input_str a))
                (low_mem_foot a) (parsed (init_str a)) (parsed (input_str a)) rnd junk m in
     Ret (Some (printed a c r)))%proc
  end.
End Programs.

(** EvalauatePlaintextStr, scd_evaluator.cpp:254-301.  The outer [None]: an access
    out of bounds; the inner one: FAILURE.  The result of EvalauatePlaintext is not
    looked at. *)
Record plain_arguments := mkPlain {
  pl_file : option text; pl_p_init : text; pl_g_init : text; pl_e_init : text;
  pl_p_input : text; pl_g_input : text; pl_e_input : text; pl_cycles : nat; pl_period : Z; pl_mode : OutputMode }.
Definition plain_inputs (a : plain_arguments) : inputs :=
  mkInputs (parsed (pl_p_init a)) (parsed (pl_g_init a)) (parsed (pl_e_init a))
           (parsed (pl_p_input a)) (parsed (pl_g_input a)) (parsed (pl_e_input a)).
Definition EvalauatePlaintextStr (jf : nat -> nat -> Z) (files : bool) (wl0 ll0 : list bool) (a : plain_arguments) : option (option text) :=
  match pl_file a with
  | None => Some None
  | Some f =>
    let c := ReadSCD jf f in
    if negb (pl_period a =? 0) && (terminate_id c =? 0) then Some None else
    do '(_, out, T) <- EvalauatePlaintext c (plain_inputs a) files (pl_cycles a) (pl_period a) wl0 ll0;
    Some (Some (OutputBN2StrHighMem (output_size c) (Z.of_N out) T (pl_mode a)))
  end.

(** * Specification *)

(** The text is a numeral whose bits [0, n) are [b] and which has no others. *)
Definition numeral_of_bits (t : text) (n : nat) (b : nat -> bool) : Prop :=
  exists v, hexnum t = Some v /\ (v < 2 ^ N.of_nat n)%N /\ forall j, (j < n)%nat -> N.testbit v (N.of_nat j) = b j.
(** The text shows [n] outputs per cycle of [T] cycles. *)
Definition displays (mode : OutputMode) (n T : nat) (t : text) (b : nat -> nat -> bool) : Prop :=
  match mode with
  | consecutive => exists v, hexnum t = Some v /\ (v < 2 ^ N.of_nat (T * n))%N /\
                     forall cy i, (cy < T)%nat -> (i < n)%nat -> N.testbit v (N.of_nat (cy * n + i)) = b cy i
  | separated_clock => exists ls, t = join ls /\ length ls = T /\ forall cy l, nth_error ls cy = Some l -> numeral_of_bits l n (b cy)
  | last_clock => numeral_of_bits t n (b (T - 1)%nat)
  end.
(** [t] is a numeral of [v], short enough for BN_hex2bn. *)
Definition writes (t : text) (v : N) : Prop := hexnum t = Some v /\ (N.of_nat (length t) < 2 ^ 29)%N.

(** Both parties are started for the run [u]. *)
Record started (a b : arguments) (u : setup) : Prop := {
  st_file : exists f, scd_file a = Some f /\ scd_file b = Some f /\ forall jf, ReadSCD jf f = u_c u;
  st_public : writes (p_init_str a) (p_init (u_x u)) /\ writes (p_input_str a) (p_input (u_x u)) /\
              writes (p_init_str b) (p_init (u_x u)) /\ writes (p_input_str b) (p_input (u_x u));
  st_private : writes (init_str a) (g_init (u_x u)) /\ writes (input_str a) (g_input (u_x u)) /\
               writes (init_str b) (e_init (u_x u)) /\ writes (input_str b) (e_input (u_x u));
  st_mask : writes (mask_str a) (output_mask (u_opt u)) /\ writes (mask_str b) (output_mask (u_opt u));
  st_cycles : arg_cycles a = u_n u /\ arg_cycles b = u_n u;
  st_period : arg_period a = terminate_period (u_opt u) /\ arg_period b = terminate_period (u_opt u);
  st_mode : arg_mode a = output_mode (u_opt u) /\ arg_mode b = output_mode (u_opt u);
  st_OT : arg_disable_OT a = disable_OT (u_opt u) /\ arg_disable_OT b = disable_OT (u_opt u);
  st_foot : low_mem_foot b = low_mem_foot a }.
Definition garbler_program (jf : nat -> nat -> Z) (a : arguments) (u : setup) : proc (option text) :=
  GarbleStr (u_AES u) (u_sha u) (u_coins u) jf a (u_ra u) (u_junkA u) (gmem_of (u_m u)).
Definition evaluator_program (jf : nat -> nat -> Z) (b : arguments) (u : setup) : proc (option text) :=
  EvaluateStr (u_AES u) (u_sha u) (u_coins u) jf b (u_rnd u) (u_junkB u) (emem_of (u_m u)).

(** * Facts *)
Lemma parsed_ok t v : writes t v -> parsed t = v.
Proof.
  intros [H L]. unfold parsed. destruct t as [|c t].
  - cbn in H. injection H as <-. reflexivity.
  - rewrite (hex2bn_whole 0 (c :: t) v H) by (auto; discriminate). apply mag_of_N.
Qed.
Lemma options_ok (a : arguments) o : arg_cycles a = clock_cycles o -> parsed (mask_str a) = output_mask o -> arg_period a = terminate_period o ->
  arg_mode a = output_mode o -> arg_disable_OT a = disable_OT o -> options_of a = o.
Proof. intros. unfold options_of. destruct o; cbn in *. congruence. Qed.

Lemma program_runs ja jb a b u T A B : started a b u -> (0 < u_n u)%nat ->
  runs (garbler (low_mem_foot a) u) (evaluator (low_mem_foot a) u) (Some (T, A)) (Some (T, B)) ->
  runs (garbler_program ja a u) (evaluator_program jb b u) (Some (printed a (u_c u) (T, A))) (Some (printed a (u_c u) (T, B))).
Proof.
  intros [(f & FA & FB & FR) (P1 & P2 & P3 & P4) (Q1 & Q2 & Q3 & Q4) [M1 M2] [C1 C2] [D1 D2] [E1 E2] [O1 O2] LF] HN R.
  unfold garbler_program, evaluator_program, GarbleStr, EvaluateStr. rewrite FA, FB, !FR.
  destruct (Nat.eqb_spec (arg_cycles a) 0); [lia|]. destruct (Nat.eqb_spec (arg_cycles b) 0); [lia|].
  rewrite (options_ok a (u_opt u)), (options_ok b (u_opt u)); auto using parsed_ok.
  rewrite !(parsed_ok _ _ P1), !(parsed_ok _ _ P2), !(parsed_ok _ _ P3), !(parsed_ok _ _ P4), !(parsed_ok _ _ Q1), !(parsed_ok _ _ Q2),
    !(parsed_ok _ _ Q3), !(parsed_ok _ _ Q4), LF.
  unfold obindp. eapply runs_bind; [exact R|]. cbn beta iota.
  replace (printed b (u_c u) (T, B)) with (printed a (u_c u) (T, B)); [apply runs_ret|].
  unfold printed. rewrite LF, C1, C2, E1, E2. reflexivity.
Qed.

(** Printing a number with the right bits. *)
Lemma bits_below v p : (forall q, (p <= q)%N -> N.testbit v q = false) -> (v < 2 ^ p)%N.
Proof.
  intros H. destruct (N.eq_dec v 0) as [->|NZ]; [apply N.neq_0_lt_0, N.pow_nonzero; discriminate|].
  apply N.log2_lt_pow2; [lia|]. destruct (N.lt_ge_cases (N.log2 v) p) as [L|L]; [exact L|].
  specialize (H _ L). rewrite N.bit_log2 in H by exact NZ. discriminate.
Qed.
Lemma printed_displays low mode n T v (b : nat -> nat -> bool) : (0 < T)%nat -> Z.of_nat (T * n) < 2 ^ 31 ->
  let from := if (low : bool) then match mode with last_clock => (T - 1)%nat | _ => O end else O in
  (forall cy i, (from <= cy < T)%nat -> (i < n)%nat -> N.testbit v (N.of_nat ((cy - from) * n + i)) = b cy i) ->
  (forall p, (N.of_nat ((T - from) * n) <= p)%N -> N.testbit v p = false) ->
  displays mode n T ((if low then OutputBN2StrLowMem else OutputBN2StrHighMem) n (Z.of_N v) T mode) b.
Proof.
  intros HT SM from HB HZ. assert (SN : Z.of_nat n < 2 ^ 31) by nia. destruct mode.
  - replace from with O in * by (unfold from; destruct low; reflexivity). exists v. split; [apply consecutive_ok|].
    rewrite Nat.sub_0_r in HZ. split; [apply bits_below; exact HZ|]. intros cy i Hc Hi. rewrite <- (HB cy i) by lia. f_equal. lia.
  - replace from with O in * by (unfold from; destruct low; reflexivity).
    destruct (separated_clock_ok low n T v SM SN) as (ls & E & L & S). exists ls. split; [exact E|]. split; [exact L|].
    intros cy l H. assert (cy < T)%nat by (rewrite <- L; apply nth_error_Some; congruence).
    destruct (S cy l H) as (w & W1 & W2 & W3). exists w. split; [exact W1|]. split; [exact W2|]. intros j Hj. rewrite (W3 j Hj), <- (HB cy j) by lia. f_equal. lia.
  - destruct (last_clock_ok n T v HT SM SN) as [H L]. destruct low; unfold from in *.
    + exists v. split; [exact L|]. split; [apply bits_below; intros q Hq; apply HZ; nia|].
      intros j Hj. rewrite <- (HB (T - 1)%nat j) by lia. f_equal. lia.
    + destruct H as (w & W1 & W2 & W3). exists w. split; [exact W1|]. split; [exact W2|]. intros j Hj. rewrite (W3 j Hj), <- (HB (T - 1)%nat j) by lia.
      f_equal. lia.
Qed.
Lemma from_is (a : arguments) u T : arg_mode a = output_mode (u_opt u) -> arg_cycles a = u_n u ->
  shown_from (low_mem_foot a) u T = 
  (if low_mem_foot a && (1 <? arg_cycles a)%nat then match arg_mode a with last_clock => (T - 1)%nat | _ => O end else O).
Proof. intros H1 H2. unfold shown_from, is_low. rewrite H1, H2. reflexivity. Qed.

(** Both programs end on every schedule, and print each output to the party the
    mask assigns it to, 0 to the other. *)
Theorem programs_ok ja jb a b u V T : started a b u -> good_run (low_mem_foot a) u V T -> Z.of_nat (u_n u * output_size (u_c u)) < 2 ^ 31 ->
  (forall cy i, (cy < T)%nat -> ~ hidden (sess (low_mem_foot a) u) u V cy i) ->
  exists ta tb, always_finish (garbler_program ja a u) (evaluator_program jb b u) (Some ta) (Some tb) /\
  displays (output_mode (u_opt u)) (output_size (u_c u)) T ta (fun cy i => V cy (nth i (outputs (u_c u)) 0) && to_garbler u i) /\
  displays (output_mode (u_opt u)) (output_size (u_c u)) T tb (fun cy i => V cy (nth i (outputs (u_c u)) 0) && negb (to_garbler u i)).
Proof.
  intros S G SM NH. set (foot := low_mem_foot a) in *. pose proof (both_finish foot u V T G) as E.
  pose proof (result_bits foot u V T _ _ G E) as RB. pose proof (result_nothing_else foot u V T _ _ G E) as RZ.
  destruct (gr_T _ _ _ _ G) as ((T1 & T2) & _).
  pose proof E as E'. destruct E' as (k & RE & _).
  assert (R : runs (garbler foot u) (evaluator foot u) (Some (T, Z.of_N (outA foot u V T))) (Some (T, Z.of_N (outB foot u V T)))) by (exists k; exact RE).
  pose proof (program_runs ja jb a b u T _ _ S ltac:(lia) R) as PR.
  exists (printed a (u_c u) (T, Z.of_N (outA foot u V T))), (printed a (u_c u) (T, Z.of_N (outB foot u V T))).
  split; [apply always_runs; exact PR|].
  destruct (st_mode _ _ _ S) as [EM _]. destruct (st_cycles _ _ _ S) as [EC _].
  pose proof (from_is a u T EM EC) as FI. fold foot in FI. unfold printed. cbn [fst snd]. rewrite <- EM. fold foot.
  assert (OW : forall i, (i < output_size (u_c u))%nat -> nth_error (outputs (u_c u)) i = Some (nth i (outputs (u_c u)) 0)) by (intros i Hi; apply nth_error_nth'; exact Hi).
  assert (SM' : Z.of_nat (T * output_size (u_c u)) < 2 ^ 31) by nia.
  split; apply printed_displays; try lia; rewrite <- FI.
  - intros cy i Hc Hi. apply (RB cy i _ Hc (OW i Hi)).
  - intros p Hp. apply RZ. exact Hp.
  - intros cy i Hc Hi. apply (RB cy i _ Hc (OW i Hi)). apply NH. lia.
  - intros p Hp. apply RZ. exact Hp.
Qed.
