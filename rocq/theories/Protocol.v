(** The two parties' programs: label transfer, cycles, outputs, termination. *)
From Coq Require Import ZArith NArith List Bool Lia.
From Verif Require Import Base Gate Circuit CycleModel Spec Proc Codec Tcp BN OT OTExt Rand Tables.
Import ListNotations.
Open Scope Z_scope.

(** FAILURE is [None]: the builds with logging, in which CHECK and CHECK_EXPR
    return (util/log.h:59-82). *)
Definition obindp {A B} (p : proc (option A)) (f : A -> proc (option B)) : proc (option B) :=
  bind p (fun o => match o with None => Ret None | Some a => f a end).
Notation "'let?' x ':=' p 'in' q" := (obindp p (fun x => q))
  (at level 200, x pattern, p at level 100, q at level 200, right associativity) : proc_scope.
Notation "'let?' ' x ':=' p 'in' q" := (obindp p (fun x => q))
  (at level 200, x pattern, p at level 100, q at level 200, right associativity) : proc_scope.

(** util/common.h OutputMode *)
Inductive OutputMode := consecutive | separated_clock | last_clock.

(** The arguments both parties are started with (garbled_circuit.cpp:52-57,
    130-135). *)
Record options := mkOptions {
  clock_cycles : nat; output_mask : N; terminate_period : Z;
  output_mode : OutputMode; disable_OT : bool }.

(** The draws of one oblivious transfer.  In the base OT the garbler draws
    [oc_key], [oc_x] and the evaluator [oc_k]; in the extension the garbler draws
    [oc_S], [oc_k] and the evaluator [oc_t], [oc_key], [oc_x]. *)
Record ot_coins := mkCoins {
  oc_key : rsa_key; oc_x : nat -> bool -> Z; oc_k : nat -> Z; oc_S : Z; oc_t : nat -> Z }.

(** OT_extension.h:26 *)
Notation OT_EXT_LEN := 128%nat (only parsing).

Section Labels.
Variable sha : bytes -> bytes.

(** A bit of an input number, as tested before a label is sent: positions at or
    above the bit length count as 0 (low_mem.cpp:972, 1010-1012, ...). *)
Definition input_bit (a : N) (i : nat) : bool :=
  negb ((BN_num_bits (Z.of_N a) <=? N.of_nat i)%N || negb (BN.BN_is_bit_set (Z.of_N a) (N.of_nat i))).
(** As tested without regard to the bit length (low_mem.cpp:913, 945). *)
Definition select_bit (a : N) (i : nat) : bool := BN.BN_is_bit_set (Z.of_N a) (N.of_nat i).

(** low_mem.cpp:970-978, 1008-1018: 16 bytes per position; [bit i] says which of
    the two labels. *)
Definition SendLabels (bit : nat -> bool) (labels : list BlockPair) : proc unit :=
  pfor (fun i _ =>
    match nth_error labels i with
    | None => Crash
    | Some p => send (le 16 (if bit i then snd p else fst p))
    end) 0 (length labels) tt.
(** low_mem.cpp:1051-1053, 1074-1076 *)
Definition RecvLabels (n : nat) : proc (list block) :=
  pfor (fun _ ls => let! b := recv 16 in Ret (ls ++ [of_le b])) 0 n [].

(** low_mem.cpp:838-902, high_mem.cpp:730-770 (without the test for an empty
    message) *)
Definition GarbleOT (co : ot_coins) (labels : list BlockPair) : proc (option unit) :=
  if (OT_EXT_LEN <? length labels)%nat then OTExtSend sha labels (oc_S co) (oc_k co)
  else let! _ := OTSend (oc_key co) (oc_x co) labels in Ret (Some tt).
(** low_mem.cpp:904-964, high_mem.cpp:772-816 *)
Definition EvaluateOT (co : ot_coins) (select : list bool) : proc (option (list block)) :=
  if (OT_EXT_LEN <? length select)%nat then OTExtRecv sha select (oc_t co) (oc_key co) (oc_x co)
  else OTRecv select (oc_k co).

(** low_mem.cpp:980-999, 1020-1042: the evaluator's labels.  [off]: position of
    the first bit. *)
Definition GarbleTransferE (dis : bool) (co : ot_coins) (labels : list BlockPair) (off : nat) : proc (option unit) :=
  if dis then
    let! e := RecvBN in
    let! _ := SendLabels (fun i => input_bit (Z.to_N e) (off + i)) labels in Ret (Some tt)
  else if (length labels =? 0)%nat then Ret (Some tt)
  else GarbleOT co labels.
(** low_mem.cpp:1055-1066, 1078-1090 *)
Definition EvaluateTransferE (dis : bool) (co : ot_coins) (e : N) (n off : nat) : proc (option (list block)) :=
  if dis then
    let! _ := SendBN (Z.of_N e) in
    let! ls := RecvLabels n in Ret (Some ls)
  else if (n =? 0)%nat then Ret (Some [])
  else EvaluateOT co (map (fun i => select_bit e (off + i)) (seq 0 n)).

(** GarbleTransferInitLabels (low_mem.cpp:966-1002) with [gn = g_init_size],
    [goff = eoff = 0]; GarbleTransferInputLabels (1004-1045) with
    [gn = g_input_size], [goff = cid * g_input_size], [eoff = cid * e_input_size].
    [labels]: first the garbler's, then the evaluator's. *)
Definition GarbleTransfer (dis : bool) (co : ot_coins) (g : N) (labels : list BlockPair) (gn goff eoff : nat)
  : proc (option unit) :=
  let! _ := SendLabels (fun i => input_bit g (goff + i)) (firstn gn labels) in
  GarbleTransferE dis co (skipn gn labels) eoff.
(** EvaluateTransferInitLabels, EvaluateTransferInputLabels (low_mem.cpp:1047-1092);
    the result is the label array. *)
Definition EvaluateTransfer (dis : bool) (co : ot_coins) (e : N) (gn en eoff : nat) : proc (option (list block)) :=
  let! gl := RecvLabels gn in
  let? el := EvaluateTransferE dis co e en eoff in
  Ret (Some (gl ++ el)).

(** high_mem.cpp:818-905.  [init], [input]: the label pairs; the pairs of input
    [i] of cycle [cid] are at [cid * secret_input_size + i]. *)
Definition slice_of {A} (l : list A) (from n : nat) : list A := firstn n (skipn from l).
Definition GarbleTransferLabels (c : GarbledCircuit) (opt : options) (co : ot_coins) (g0 g1 : N)
    (init input : list BlockPair) : proc (option unit) :=
  let ssz := get_secret_input_size c in
  let! _ := SendLabels (input_bit g0) (firstn (g_init_size c) init) in
  let! _ := pfor (fun cid _ => SendLabels (fun i => input_bit g1 (cid * g_input_size c + i))
                   (slice_of input (cid * ssz) (g_input_size c))) 0 (clock_cycles opt) tt in
  let ei := slice_of init (g_init_size c) (e_init_size c) in
  if disable_OT opt then
    let! e0 := RecvBN in
    let! _ := SendLabels (fun i => input_bit (Z.to_N e0) i) ei in
    let! e1 := RecvBN in
    let! _ := pfor (fun cid _ => SendLabels (fun i => input_bit (Z.to_N e1) (cid * e_input_size c + i))
                     (slice_of input (cid * ssz + g_input_size c) (e_input_size c))) 0 (clock_cycles opt) tt in
    Ret (Some tt)
  else
    GarbleOT co (ei ++ flat_map (fun cid => slice_of input (cid * ssz + g_input_size c) (e_input_size c))
                         (seq 0 (clock_cycles opt))).
(** high_mem.cpp:907-952; the result is the initial labels and the input labels of
    each cycle. *)
Definition EvaluateTransferLabels (c : GarbledCircuit) (opt : options) (co : ot_coins) (e0 e1 : N)
  : proc (option (list block * list (list block))) :=
  let en := e_input_size c in
  let! gi := RecvLabels (g_init_size c) in
  let! gl := pfor (fun _ ls => let! l := RecvLabels (g_input_size c) in Ret (ls ++ [l])) 0 (clock_cycles opt) [] in
  let? '(ei, el) :=
    (if disable_OT opt then
       let! _ := SendBN (Z.of_N e0) in
       let! ei := RecvLabels (e_init_size c) in
       let! _ := SendBN (Z.of_N e1) in
       let! el := pfor (fun _ ls => let! l := RecvLabels en in Ret (ls ++ [l])) 0 (clock_cycles opt) [] in
       Ret (Some (ei, el))
     else
       let? ms := EvaluateOT co (map (select_bit e0) (seq 0 (e_init_size c)) ++
                    flat_map (fun cid => map (fun i => select_bit e1 (cid * en + i)) (seq 0 en)) (seq 0 (clock_cycles opt))) in
       Ret (Some (firstn (e_init_size c) ms,
                  map (fun cid => slice_of ms (e_init_size c + cid * en) en) (seq 0 (clock_cycles opt))))) in
  Ret (Some (gi ++ ei, map (fun p => fst p ++ snd p) (combine gl el))).
End Labels.

(** * Outputs *)

(** get_LSB as a [short] on the wire *)
Definition lsb_short (b : block) : N := if get_LSB b then 1%N else 0%N.

(** [i < num_bits(mask) && mask bit i] *)
Definition masked (mask : N) (i : nat) : bool :=
  (N.of_nat i <? BN_num_bits (Z.of_N mask))%N && BN.BN_is_bit_set (Z.of_N mask) (N.of_nat i).

(** low_mem.cpp:1111-1135, high_mem.cpp:1036-1059: output [i], stored at bit
    [off + i] of [bn]. *)
Definition garble_output (mask : N) (off i : nat) (y : BlockPair * Z) (bn : BIGNUM) : proc BIGNUM :=
  let pos := N.of_nat (off + i) in
  if snd y =? 0 then Ret (fst (BN_clear_bit bn pos))
  else if snd y =? 1 then
    Ret (if masked mask i then BN_set_bit bn pos else bn)
  else
    let garble_output_type := lsb_short (fst (fst y)) in
    if ((BN_num_bits (Z.of_N mask) <=? N.of_nat i)%N || negb (BN.BN_is_bit_set (Z.of_N mask) (N.of_nat i)))%bool then
      let! _ := send (le 2 garble_output_type) in Ret (fst (BN_clear_bit bn pos))
    else
      let! t := recv 2 in
      Ret (if negb (of_le t =? garble_output_type)%N then BN_set_bit bn pos else fst (BN_clear_bit bn pos)).

(** low_mem.cpp:1158-1182, high_mem.cpp:1077-1100 *)
Definition evaluate_output (mask : N) (off i : nat) (y : block * Z) (bn : BIGNUM) : proc BIGNUM :=
  let pos := N.of_nat (off + i) in
  if snd y =? 0 then Ret (fst (BN_clear_bit bn pos))
  else if snd y =? 1 then
    Ret (if ((BN_num_bits (Z.of_N mask) <=? N.of_nat i)%N && negb (BN.BN_is_bit_set (Z.of_N mask) (N.of_nat i)))%bool
         then BN_set_bit bn pos else bn)
  else
    let eval_output_type := lsb_short (fst y) in
    if ((BN_num_bits (Z.of_N mask) <=? N.of_nat i)%N || negb (BN.BN_is_bit_set (Z.of_N mask) (N.of_nat i)))%bool then
      let! t := recv 2 in
      Ret (if negb (of_le t =? eval_output_type)%N then BN_set_bit bn pos else fst (BN_clear_bit bn pos))
    else
      let! _ := send (le 2 eval_output_type) in Ret (fst (BN_clear_bit bn pos)).

(** The outputs of one cycle. *)
Definition transfer_outputs {Y} (out1 : nat -> Y -> BIGNUM -> proc BIGNUM) (ys : list Y) (n : nat) (bn : BIGNUM) : proc BIGNUM :=
  pfor (fun i bn => match nth_error ys i with None => Crash | Some y => out1 i y bn end) 0 n bn.

(** low_mem.cpp:1102-1109, 1149-1156 *)
Definition output_bit_offset (c : GarbledCircuit) (mode : OutputMode) (cid : nat) : nat :=
  match mode with
  | consecutive | separated_clock => cid * output_size c
  | last_clock => 0
  end.

(** * Termination *)

(** garbled_circuit_util.cpp:591-608; [None]: the local variable was never
    written. *)
Definition GarbleTransferTerminate (t : option (BlockPair * Z)) : proc bool :=
  match t with
  | None => Crash
  | Some (l, v) =>
    if v =? 0 then Ret false
    else if v =? 1 then Ret true
    else
      let terminate_type := lsb_short (fst l) in
      let! _ := send (le 2 terminate_type) in
      let! e := recv 2 in
      Ret (terminate_type =? of_le e)%N
  end.
(** garbled_circuit_util.cpp:610-626: both messages are received. *)
Definition EvaluateTransferTerminate (t : option (block * Z)) : proc bool :=
  match t with
  | None => Crash
  | Some (l, v) =>
    if v =? 0 then Ret false
    else if v =? 1 then Ret true
    else
      let! g := recv 2 in
      let! t := recv 2 in
      Ret (of_le t =? of_le g)%N
  end.

(** low_mem.cpp:149-150: [terminate_period != 0 && terminate_id > 0] and
    [cid % terminate_period == 0], computed as uint64_t. *)
Definition inspected (c : GarbledCircuit) (period : Z) (cid : nat) : bool :=
  negb (period =? 0) && (0 <? terminate_id c) && (Z.of_nat cid mod (period mod 2 ^ 64) =? 0).

(** * The garbler *)
Section Parties.
Variable AES : block -> block -> block.     (* AES-128: key, plaintext *)
Variable sha : bytes -> bytes.              (* SHA-256 *)
Variable c : GarbledCircuit.
Variable opt : options.
Variable coins : nat -> ot_coins.           (* one entry per oblivious transfer *)
Variables p0 p1 : N.                        (* public initial values and inputs *)

(** [n] label pairs from the draws [from ..] of the garbler's generator
    (low_mem.cpp:787-807, high_mem.cpp:954-990). *)
Definition fresh_pairs (R : block) (ra : nat -> block) (from n : nat) : list BlockPair :=
  map (fun i => let a := ra (from + i)%nat in (a, XorBlock R a)) (seq 0 n).

Section Garbler.
Variables g0 g1 : N.                        (* garbler's initial values and inputs *)
Variable R : block.
Variable key : block.                       (* global key *)
Variable ra : nat -> block.                 (* draws of RandomBlock *)
Variable from : nat.                        (* draws already made *)
Variable fan : list Z.                      (* result of FillFanout *)

(** Memory that survives a cycle. *)
Definition gmem : Type := cstate BlockPair * list GarbledTable * list GarbledTable.

(** Number of draws before the labels of cycle 0: GarbleAllocLabels
    (low_mem.cpp:758-765) draws labels that GarbleGneInitLabels (787-796)
    overwrites. *)
Definition low_init_from : nat := (if (0 <? get_init_size c)%nat then from + get_secret_init_size c else from)%nat.
Definition low_input_from (cid : nat) : nat :=
  (low_init_from + get_secret_init_size c + cid * get_secret_input_size c)%nat.

(** The body of the cycle loop, low_mem.cpp:113-171.  The result is the memory,
    the outputs collected and whether to stop. *)
Definition garble_cycle_low (init : list BlockPair) (cid : nat) (m : gmem) (bn : BIGNUM)
  : proc (option (gmem * BIGNUM * bool)) :=
  let '(st, tmp, tabs) := m in
  let input := fresh_pairs R ra (low_input_from cid) (get_secret_input_size c) in
  let? _ := GarbleTransfer sha (disable_OT opt) (coins (S cid)) g1 input (g_input_size c)
              (cid * g_input_size c) (cid * e_input_size c) in
  let! '(st', tmp', tabs', ind, outs, term) :=
    lift (GarbleCycle (AES key) c fan R true p0 p1 (rd init) (fun i => nth_error input i) cid st tmp tabs) in
  let! _ := SendTables tabs' ind in
  let! bn' := transfer_outputs (garble_output (output_mask opt) (output_bit_offset c (output_mode opt) cid))
                outs (output_size c) bn in
  let! stop := (if inspected c (terminate_period opt) cid then GarbleTransferTerminate term else Ret false) in
  Ret (Some ((st', tmp', tabs'), bn', stop)).

(** A loop of at most [k] cycles that may stop early; the result carries the
    number of cycles executed. *)
Fixpoint cycles {M} (body : nat -> M -> BIGNUM -> proc (option (M * BIGNUM * bool))) (cid k : nat) (m : M) (bn : BIGNUM)
  : proc (option (nat * BIGNUM)) :=
  match k with
  | O => Ret (Some (cid, bn))
  | S k' =>
    let? '(m', bn', stop) := body cid m bn in
    if (stop : bool) then Ret (Some (S cid, bn')) else cycles body (S cid) k' m' bn'
  end.

(** low_mem.cpp:49-203 *)
Definition GarbleBNLowMem (m : gmem) : proc (option (nat * BIGNUM)) :=
  let init := fresh_pairs R ra low_init_from (get_secret_init_size c) in
  let? _ := GarbleTransfer sha (disable_OT opt) (coins 0) g0 init (g_init_size c) 0 0 in
  cycles (garble_cycle_low init) 0 (clock_cycles opt) m 0.

(** The body of the cycle loop of GarbleHighMem, high_mem.cpp:190-425.  The
    outputs of all cycles are collected first. *)
Definition garble_cycle_high (init input : list BlockPair) (cid : nat) (m : gmem) (outs : list (BlockPair * Z))
  : proc (gmem * list (BlockPair * Z) * bool) :=
  let '(st, tmp, tabs) := m in
  let! '(st', tmp', tabs', ind, os, term) :=
    lift (GarbleCycle (AES key) c fan R false p0 p1 (rd init)
            (fun i => nth_error input (cid * get_secret_input_size c + i)) cid st tmp tabs) in
  let! _ := SendTables tabs' ind in
  let! stop := (if inspected c (terminate_period opt) cid then GarbleTransferTerminate term else Ret false) in
  Ret ((st', tmp', tabs'), outs ++ os, stop).
End Garbler.

(** A loop that collects the outputs; [None]: FAILURE in the middle. *)
Fixpoint cycles_high {M Y} (body : nat -> M -> list Y -> proc (option (M * list Y * bool))) (cid k : nat) (m : M) (outs : list Y)
  : proc (option (nat * list Y)) :=
  match k with
  | O => Ret (Some (cid, outs))
  | S k' =>
    let? '(m', outs', stop) := body cid m outs in
    if (stop : bool) then Ret (Some (S cid, outs')) else cycles_high body (S cid) k' m' outs'
  end.
(** high_mem.cpp:1034-1062, 1075-1103: the outputs of [n] cycles. *)
Definition transfer_all {Y} (out1 : nat -> nat -> Y -> BIGNUM -> proc BIGNUM) (outs : list Y) (n : nat) : proc BIGNUM :=
  pfor (fun cid bn => transfer_outputs (out1 (cid * output_size c)%nat)
         (skipn (cid * output_size c) outs) (output_size c) bn) 0 n 0.

(** high_mem.cpp:50-96.  GarbleMakeLabels draws a pair for every initial value and
    every input, public ones included, and the pairs are then addressed as if there
    were only secret ones (954-990). *)
Definition GarbleBNHighMem (g0 g1 : N) (R key : block) (ra : nat -> block) (from : nat) (fan : list Z) (m : gmem)
  : proc (option (nat * BIGNUM)) :=
  let init := fresh_pairs R ra from (get_init_size c) in
  let input := fresh_pairs R ra (from + get_init_size c) (clock_cycles opt * get_input_size c) in
  let? _ := GarbleTransferLabels sha c opt (coins 0) g0 g1 init input in
  let? '(n, outs) := cycles_high (fun cid m os => let! r := garble_cycle_high R key fan init input cid m os in Ret (Some r))
                       0 (clock_cycles opt) m [] in
  let! bn := transfer_all (garble_output (output_mask opt)) outs n in
  Ret (Some (n, bn)).

(** * The evaluator *)
Section Evaluator.
Variables e0 e1 : N.                        (* evaluator's initial values and inputs *)
Variable key : block.                       (* global key *)
Variable rnd : nat -> block.                (* draws of RandomBlock *)
Variable fan : list Z.

Definition emem : Type := cstate block * list GarbledTable * nat.

(** low_mem.cpp:271-293, high_mem.cpp:493-686: receive the tables, evaluate,
    compare the number of tables, clear them. *)
Definition evaluate_tables (einit : Z -> option block) (ein : nat -> option block) (cid : nat) (m : emem)
  : proc (option (emem * list (block * Z) * option (block * Z))) :=
  let '(st, et, dr) := m in
  let! '(rcv, et1) := RecvTables et in
  let! '(st', et', ind, dr', outs, term) :=
    lift (EvaluateCycle (AES key) c fan rnd p0 p1 einit ein cid st et1 dr) in
  if negb (ind =? Z.of_N rcv) then Ret None else
  Ret (Some ((st', clear_tables (Z.to_nat ind) et', dr'), outs, term)).

(** The body of the cycle loop, low_mem.cpp:260-322. *)
Definition evaluate_cycle_low (init : list block) (cid : nat) (m : emem) (bn : BIGNUM)
  : proc (option (emem * BIGNUM * bool)) :=
  let? input := EvaluateTransfer sha (disable_OT opt) (coins (S cid)) e1 (g_input_size c) (e_input_size c) (cid * e_input_size c) in
  let? '(m', outs, term) := evaluate_tables (rd init) (fun i => nth_error input i) cid m in
  let! bn' := transfer_outputs (evaluate_output (output_mask opt) (output_bit_offset c (output_mode opt) cid))
                outs (output_size c) bn in
  let! stop := (if inspected c (terminate_period opt) cid then EvaluateTransferTerminate term else Ret false) in
  Ret (Some (m', bn', stop)).

(** low_mem.cpp:205-344 *)
Definition EvaluateBNLowMem (m : emem) : proc (option (nat * BIGNUM)) :=
  let? init := EvaluateTransfer sha (disable_OT opt) (coins 0) e0 (g_init_size c) (e_init_size c) 0 in
  cycles (evaluate_cycle_low init) 0 (clock_cycles opt) m 0.

(** high_mem.cpp:489-712 *)
Definition evaluate_cycle_high (init : list block) (input : list (list block)) (cid : nat) (m : emem) (outs : list (block * Z))
  : proc (option (emem * list (block * Z) * bool)) :=
  let? '(m', os, term) := evaluate_tables (rd init)
      (fun i => match nth_error input cid with None => None | Some l => nth_error l i end) cid m in
  let! stop := (if inspected c (terminate_period opt) cid then EvaluateTransferTerminate term else Ret false) in
  Ret (Some (m', outs ++ os, stop)).

(** high_mem.cpp:98-142.  The result of EvaluateHighMem is ignored: after a
    FAILURE inside, outputs that were never written are read (here [Crash]). *)
Definition EvaluateBNHighMem (m : emem) : proc (option (nat * BIGNUM)) :=
  let? '(init, input) := EvaluateTransferLabels sha c opt (coins 0) e0 e1 in
  let! r := cycles_high (evaluate_cycle_high init input) 0 (clock_cycles opt) m [] in
  match r with
  | None => Crash
  | Some (n, outs) =>
    let! bn := transfer_all (evaluate_output (output_mask opt)) outs n in
    Ret (Some (n, bn))
  end.
End Evaluator.

(** * Entry points *)

(** GarbleStr, garbled_circuit.cpp:52-128, from the parsed inputs on; [junk]: the
    fan-out fields before FillFanout, [m]: the memory allocated.  The result is
    the number of cycles executed and output_bn. *)
Definition Garble (low_mem_foot : bool) (g0 g1 : N) (ra : nat -> block) (junk : list Z) (m : gmem)
  : proc (option (nat * BIGNUM)) :=
  if (clock_cycles opt =? 0)%nat then Ret None else
  let! '(fan, _) := lift (FillFanout c junk) in
  if negb (terminate_period opt =? 0) && (terminate_id c =? 0) then Ret None else
  let R := make_R (ra 0%nat) in
  let key := ra 1%nat in
  let! _ := send (le 16 key) in
  if low_mem_foot && (1 <? clock_cycles opt)%nat
  then GarbleBNLowMem g0 g1 R key ra 2 fan m
  else GarbleBNHighMem g0 g1 R key ra 2 fan m.

(** EvaluateStr, garbled_circuit.cpp:130-200. *)
Definition Evaluate (low_mem_foot : bool) (e0 e1 : N) (rnd : nat -> block) (junk : list Z) (m : emem)
  : proc (option (nat * BIGNUM)) :=
  if (clock_cycles opt =? 0)%nat then Ret None else
  let! '(fan, _) := lift (FillFanout c junk) in
  if negb (terminate_period opt =? 0) && (terminate_id c =? 0) then Ret None else
  let! key := recv 16 in
  if low_mem_foot && (1 <? clock_cycles opt)%nat
  then EvaluateBNLowMem e0 e1 (of_le key) rnd fan m
  else EvaluateBNHighMem e0 e1 (of_le key) rnd fan m.
End Parties.
