(** The programs that read and write files: the translator (scd/v_2_scd_main.cpp) and the
    plaintext evaluator (scd/scd_evaluator_main.cpp) on a disk. *)
From Coq Require Import String ZArith NArith List Bool Lia Ascii Permutation.
From Verif Require Import Base Gate Circuit CycleModel Spec Plain Run Results
  Proc Codec Tcp BN OT Rand Bounded Tables Protocol Transfer OutTransfer ProtocolOk ProtocolRun EndToEnd ProtocolResults
  Text Sort Netlist Scd Front Parse VerilogFront Bristol BristolOk BristolRun MapFile Trace TraceRun Hex Format Programs ProgramsOk CmdText Mains.
Import ListNotations.
Open Scope Z_scope.
Open Scope list_scope.

(** * Model *)

(** What a name stands for, and what happens when it is opened for writing: it cannot be
    opened, there is room for so many characters only, or there is room.  Errors after
    opening are not noticed by the programs. *)
Definition disk := text -> option text.
Inductive access := Closed | Limited (k : nat) | Free.
Definition put (d : disk) (n t : text) : disk := fun m => if text_eqb m n then Some t else d m.
(** An ofstream: opened (which empties the file), written, closed.  [None]: not opened. *)
Definition save (sp : text -> access) (d : disk) (n t : text) : option disk :=
  match sp n with
  | Closed => None
  | Limited k => Some (put d n (firstn k t))
  | Free => Some (put d n t)
  end.
(** v_2_scd_main.cpp:76, scd_evaluator.cpp:55, 62 *)
Definition map_of (n : text) : text := n ++ list_ascii_of_string ".map".
Definition csv_of (n : text) : text := n ++ list_ascii_of_string ".csv".

(** v_2_scd.cpp:46-57, 79-90: [r] is what there is to be written, or why there is nothing.
    Disk and returned value. *)
Definition write_both (sp : text -> access) (d : disk) (mapn scdn : text) (r : result (text * text)) : result (disk * Z) :=
  match r with
  | Failed => Done (d, FAILURE)
  | Hangs => Hangs
  | Undefined => Undefined
  | Done (mapf, scdf) =>
    match save sp d mapn mapf with
    | None => Done (d, FAILURE)
    | Some d => match save sp d scdn scdf with
                | None => Done (d, FAILURE)
                | Some d => Done (d, SUCCESS)
                end
    end
  end.
(** v_2_scd_main.cpp:33-102 after boost has read the command line: an option that is not
    given is empty.  What is printed is not modelled.  [log]: built with ENABLE_LOG;
    [junk0], [junk]: uninitialised variables in the parser of Bristol netlists. *)
Definition main_translate (log : bool) (junk0 : nat -> Z) (junk : nat -> nat -> Z) (sp : text -> access) (d : disk)
    (netlist brist scd : text) : result (disk * Z) :=
  match scd with
  | [] => Done (d, FAILURE)
  | _ =>
    match netlist with
    | _ :: _ => write_both sp d (map_of scd) scd (Verilog2SCDFiles log (d netlist))
    | [] => match brist with
            | _ :: _ => write_both sp d (map_of scd) scd (Bris2SCDFiles log junk0 junk (d brist))
            | [] => Done (d, FAILURE)
            end
    end
  end.

(** scd_evaluator.cpp:254-300 with the files; outer [None]: an access out of bounds. *)
Definition EvalauatePlaintextStrDisk (jf : nat -> nat -> Z) (sp : text -> access) (wl0 ll0 : list bool) (d : disk) (scd : text) (a : plain_arguments)
  : option (disk * option text) :=
  match pl_file a with
  | None => Some (d, None)
  | Some f =>
    let c := ReadSCD jf f in
    if negb (pl_period a =? 0) && (terminate_id c =? 0) then Some (d, None) else
    do '(_, out, T, csv) <- EvalauatePlaintextFiles c (plain_inputs a) (d (map_of scd)) (match sp (csv_of scd) with Closed => false | _ => true end)
                              (pl_cycles a) (pl_period a) wl0 ll0;
    Some (match csv with Some t => match save sp d (csv_of scd) t with Some d => d | None => d end | None => d end,
          Some (OutputBN2StrHighMem (output_size c) (Z.of_N out) T (pl_mode a)))
  end.
(** scd_evaluator_main.cpp:91-133: disk, standard output, exit status *)
Definition main_plain_disk (usage : text) (jf : nat -> nat -> Z) (sp : text -> access) (wl0 ll0 : list bool) (d : disk)
    (scd p_init g_init e_init p_input g_input e_input : text) (cycles : nat) (period : Z) (mode : option text) : option (disk * text * Z) :=
  match scd, output_mode_of mode with
  | [], _ => Some (d, usage, FAILURE)
  | _, None => Some (d, usage, FAILURE)
  | _, Some mode =>
    let r := ReadFileOrPassHex d in
    do '(d, o) <- EvalauatePlaintextStrDisk jf sp wl0 ll0 d scd
              (mkPlain (d scd) (r p_init) (r g_init) (r e_init) (r p_input) (r g_input) (r e_input) cycles period mode);
    Some (d, match o with Some t => t | None => [] end ++ [nl], SUCCESS)
  end.

(** * Specification *)

(** Nothing else on the disk has changed. *)
Definition only_changed (names : list text) (d d' : disk) : Prop := forall n, ~ In n names -> d' n = d n.

(** * Proof *)
Lemma text_eqb_refl a : text_eqb a a = true.
Proof. apply text_eqb_eq. reflexivity. Qed.
Lemma put_same d n t : put d n t n = Some t.
Proof. unfold put. rewrite text_eqb_refl. reflexivity. Qed.
Lemma put_other d n t m : m <> n -> put d n t m = d m.
Proof. intros H. unfold put. destruct (text_eqb m n) eqn:E; [|reflexivity]. apply text_eqb_eq in E. congruence. Qed.
Lemma map_of_other n : map_of n <> n.
Proof. intros H. apply (f_equal (@List.length _)) in H. unfold map_of in H. rewrite app_length in H. cbn in H. lia. Qed.
Lemma csv_of_other n : csv_of n <> n.
Proof. intros H. apply (f_equal (@List.length _)) in H. unfold csv_of in H. rewrite app_length in H. cbn in H. lia. Qed.
Lemma csv_of_map n : csv_of n <> map_of n.
Proof. intros H. unfold csv_of, map_of in H. apply app_inv_head in H. discriminate. Qed.

Lemma write_both_ok sp d o mapf file : sp o = Free -> sp (map_of o) = Free ->
  exists d', write_both sp d (map_of o) o (Done (mapf, file)) = Done (d', SUCCESS) /\
    d' o = Some file /\ d' (map_of o) = Some mapf /\ only_changed [map_of o; o] d d'.
Proof.
  intros S1 S2. unfold write_both, save. rewrite S2, S1. eexists. split; [reflexivity|]. split; [apply put_same|].
  rewrite put_other by apply map_of_other. split; [apply put_same|]. intros n H. cbn [In] in H. rewrite !put_other by (intros ->; tauto). reflexivity.
Qed.

(** The files written for [m]: the circuit [c] that the SCD file describes, and the names
    [es] in the mapping file. *)
Record files_for (m : list stmt) (file mapf : text) (c : GarbledCircuit) (es : list (string * Z)) : Prop := {
  ff_reads : forall junk, ReadSCD junk file = c;
  ff_runs : runs_module c m;
  ff_map : mapf = map_file es (terminate_id c);
  ff_names : names_nets m c es;
  ff_traces : traces c mapf es }.

Theorem translate_verilog m t : well_built m -> ~ comb_loop m -> written (module_words m) t -> wires_fit m ->
  exists file mapf c es, files_for m file mapf c es /\
  forall log junk0 junk sp d netlist brist scd, netlist <> [] -> scd <> [] -> d netlist = Some t -> sp scd = Free -> sp (map_of scd) = Free ->
  exists d', main_translate log junk0 junk sp d netlist brist scd = Done (d', SUCCESS) /\
    d' scd = Some file /\ d' (map_of scd) = Some mapf /\ only_changed [map_of scd; scd] d d'.
Proof.
  intros WB NL W WF. destruct (verilog_traces m t WB NL W WF) as (mapf & file & c & es & T & _ & RD & RM & EM & NN & TR).
  exists file, mapf, c, es. split; [split; assumption|].
  intros log junk0 junk sp d netlist brist scd N1 N2 F S1 S2. unfold main_translate. destruct scd as [|a scd]; [congruence|].
  destruct netlist as [|b netlist]; [congruence|]. rewrite F, T. apply write_both_ok; assumption.
Qed.
Record bristol_files (b : bristol) (file mapf : text) (c : GarbledCircuit) (es : list (string * Z)) : Prop := {
  bf_reads : forall junk, ReadSCD junk file = c;
  bf_runs : runs_bristol c b;
  bf_map : mapf = map_file es 0;
  bf_names : Permutation (map fst es) (map (fun g => wname b (bg_out g)) (b_gates b));
  bf_values : forall x V, consistent c x V -> forall cy k w, In k (map bg_out (b_gates b)) -> In (wname b k, w) es ->
    V cy w = b_run b (fun j => bit (Spec.g_input x) (cy * b_g b + j)) (fun j => bit (Spec.e_input x) (cy * b_e b + j)) k;
  bf_traces : traces c mapf es }.
Theorem translate_bristol b t ws : b_valid b -> spaced (bristol_words b ++ ws) t -> Z.of_nat (b_g b + b_e b + List.length (b_gates b)) < 2 ^ 31 ->
  exists file mapf c es, bristol_files b file mapf c es /\
  forall log junk0 junk sp d brist scd, brist <> [] -> scd <> [] -> d brist = Some t -> sp scd = Free -> sp (map_of scd) = Free ->
  exists d', main_translate log junk0 junk sp d [] brist scd = Done (d', SUCCESS) /\
    d' scd = Some file /\ d' (map_of scd) = Some mapf /\ only_changed [map_of scd; scd] d d'.
Proof.
  intros BV S SM. destruct (bristol_traces b t ws BV S SM) as (mapf & file & c & es & T & _ & RD & RM & EM & NN & _ & VA & _ & TR).
  exists file, mapf, c, es. split; [split; assumption|].
  intros log junk0 junk sp d brist scd N1 N2 F S1 S2. unfold main_translate. destruct scd as [|x scd]; [congruence|].
  destruct brist as [|y brist]; [congruence|]. rewrite F, T. apply write_both_ok; assumption.
Qed.

(** When is SUCCESS returned? *)
Theorem translate_status log junk0 junk sp d netlist brist scd d' s : main_translate log junk0 junk sp d netlist brist scd = Done (d', s) ->
  only_changed [map_of scd; scd] d d' /\ (s = SUCCESS \/ s = FAILURE) /\
  (s = SUCCESS -> scd <> [] /\ sp scd <> Closed /\ sp (map_of scd) <> Closed /\
     exists n file, d n = Some file /\ ((netlist <> [] /\ n = netlist) \/ (netlist = [] /\ brist <> [] /\ n = brist)) /\
     exists r, match netlist with [] => Bris2SCDFiles log junk0 junk (Some file) | _ :: _ => Verilog2SCDFiles log (Some file) end = Done r) /\
  (s = FAILURE -> d' scd = d scd).
Proof.
  assert (Q : forall r, write_both sp d (map_of scd) scd r = Done (d', s) -> only_changed [map_of scd; scd] d d' /\ (s = SUCCESS \/ s = FAILURE) /\
    (s = SUCCESS -> sp scd <> Closed /\ sp (map_of scd) <> Closed /\ exists q, r = Done q) /\ (s = FAILURE -> d' scd = d scd)).
  { assert (B : forall k, put d (map_of scd) k scd = d scd) by (intros k; apply put_other; intros H; symmetry in H; exact (map_of_other _ H)).
    unfold write_both, save. intros [[mapf f]| | |] H; try discriminate.
    - destruct (sp (map_of scd)); [|destruct (sp scd)|destruct (sp scd)]; injection H as <- <-;
        (split; [intros n H; cbn [In] in H; rewrite ?put_other by (intros ->; tauto); reflexivity|]);
        (split; [auto|]); (split; [first [discriminate|intros _; split; [discriminate|split; [discriminate|eauto]]]|]); try discriminate; intros _; auto.
    - injection H as <- <-. split; [intros n _; reflexivity|]. split; [auto|]. split; [discriminate|reflexivity]. }
  assert (P0 : forall log, ParseNetlist log None = Failed) by reflexivity.
  unfold main_translate. destruct scd as [|a scd0].
  { intros [= <- <-]. split; [intros n _; reflexivity|]. split; [auto|]. split; [discriminate|reflexivity]. }
  set (scd := a :: scd0) in *. destruct netlist as [|b netlist0].
  - destruct brist as [|b brist0].
    { intros [= <- <-]. split; [intros n _; reflexivity|]. split; [auto|]. split; [discriminate|reflexivity]. }
    intros H. destruct (Q _ H) as (A1 & A2 & A3 & A4). split; [exact A1|]. split; [exact A2|]. split; [|exact A4].
    intros E. destruct (A3 E) as (B1 & B2 & q & B3). split; [discriminate|]. split; [exact B1|]. split; [exact B2|].
    destruct (d (b :: brist0)) as [f|] eqn:F; [|discriminate B3].
    exists (b :: brist0), f. split; [exact F|]. split; [right; split; [reflexivity|split; [discriminate|reflexivity]]|]. exists q. exact B3.
  - intros H. destruct (Q _ H) as (A1 & A2 & A3 & A4). split; [exact A1|]. split; [exact A2|]. split; [|exact A4].
    intros E. destruct (A3 E) as (B1 & B2 & q & B3). split; [discriminate|]. split; [exact B1|]. split; [exact B2|].
    destruct (d (b :: netlist0)) as [f|] eqn:F; [|unfold Verilog2SCDFiles in B3; rewrite P0 in B3; discriminate].
    exists (b :: netlist0), f. split; [exact F|]. split; [left; split; [discriminate|reflexivity]|]. exists q. exact B3.
Qed.
Theorem translate_loop m t : well_built m -> comb_loop m -> written (module_words m) t ->
  forall log junk0 junk sp d netlist brist scd, netlist <> [] -> d netlist = Some t ->
  main_translate log junk0 junk sp d netlist brist scd = Done (d, FAILURE).
Proof.
  intros WB L W log junk0 junk sp d netlist brist scd N F. unfold main_translate. destruct scd as [|a scd]; [reflexivity|].
  destruct netlist as [|b netlist]; [congruence|]. rewrite F.
  pose proof (verilog_loop m t WB L W log) as E. unfold Verilog2SCD in E. unfold Verilog2SCDFiles.
  destruct (ParseNetlist log (Some t)) as [s| | |] eqn:P; try discriminate; [|reflexivity].
  unfold translate in E. unfold translate_files. destruct (IdAssignment log s) as [rc|]; [|reflexivity].
  destruct (SortNetlist log rc) as [[rc'|]|]; cbn [obind] in *; try discriminate; try reflexivity.
  destruct (WriteSCD rc'); discriminate.
Qed.

(** ** From the netlist to what the programs print *)
Lemma stops_module c m U V x period cy : runs_module c m -> obeys m x U -> consistent c x V ->
  (stops_at c V period cy = true <-> period <> 0 /\ Parse.terminates m /\ (period mod 2 ^ 64 | Z.of_nat cy) /\ U cy "terminate"%string = true).
Proof.
  intros [WF _ RT _ RV] OB CV. destruct (RV x U V OB CV cy) as [_ VT].
  assert (TP : 0 <= terminate_id c) by (pose proof (wf_term _ WF); unfold first_input in *; lia).
  unfold stops_at. rewrite !andb_true_iff, negb_true_iff, Z.eqb_neq, Z.gtb_ltb, Z.ltb_lt, Z.eqb_eq.
  assert (DV : period <> 0 -> (Z.of_nat cy mod (period mod 2 ^ 64) = 0 <-> (period mod 2 ^ 64 | Z.of_nat cy))).
  { intros NZ. destruct (Z.eq_dec (period mod 2 ^ 64) 0) as [E|E].
    - rewrite E, Zmod_0_r. split; intros H; [rewrite H; apply Z.divide_0_r|]. apply Z.divide_0_l in H. exact H.
    - apply Z.mod_divide. exact E. }
  split.
  - intros (((A1 & A2) & A3) & A4). assert (PT : Parse.terminates m) by (apply RT; lia). rewrite (VT PT) in A4. apply DV in A3; auto.
  - intros (A1 & A2 & A3 & A4). rewrite (VT A2). apply RT in A2. apply DV in A3; auto. repeat split; auto. lia.
Qed.
Lemma module_executed c m U V x n period : runs_module c m -> obeys m x U -> consistent c x V -> (0 < n)%nat ->
  module_runs m U n period (executed c V period n).
Proof.
  intros RM OB CV HN. pose proof (fun cy => stops_module c m U V x period cy RM OB CV) as ST.
  unfold executed. pose proof (executed_from_bounds c V period n 0) as B. destruct (executed_from_spec c V period n 0) as [S1 S2].
  set (T := executed_from c V period n 0) in *. unfold module_runs.
  assert (P : (0 < T)%nat).
  { destruct (Nat.eq_dec T n); [lia|]. destruct (S2 ltac:(lia)) as (k & -> & _). lia. }
  split; [lia|]. split.
  - intros cy Hc H. apply ST in H. rewrite S1 in H by lia. discriminate.
  - destruct (Nat.eq_dec T n) as [E|E]; [left; exact E|right]. destruct (S2 ltac:(lia)) as (k & EK & SK). apply ST. replace (T - 1)%nat with k by lia. exact SK.
Qed.
Lemma module_values c m U V x net : runs_module c m -> obeys m x U -> consistent c x V -> (forall i, (i < out_width m)%nat -> out_net m i (net i)) ->
  forall cy i, (i < out_width m)%nat -> V cy (nth i (outputs c) 0) = U cy (net i).
Proof.
  intros [_ _ _ _ RV] OB CV NET cy i Hi. destruct (RV x U V OB CV cy) as [VO _]. destruct (VO i (net i) Hi (NET i Hi)) as (w & EW & EV).
  rewrite (nth_error_nth _ _ 0 EW). exact EV.
Qed.

(** The arguments for the inputs [x]. *)
Definition gives (fs : text -> option text) (x : inputs) (p_init g_init e_init p_input g_input e_input : text) : Prop :=
  let r := ReadFileOrPassHex fs in
  writes (r p_init) (Spec.p_init x) /\ writes (r g_init) (Spec.g_init x) /\ writes (r e_init) (Spec.e_init x) /\
  writes (r p_input) (Spec.p_input x) /\ writes (r g_input) (Spec.g_input x) /\ writes (r e_input) (Spec.e_input x).

Theorem plain_on_disk m file mapf c es : files_for m file mapf c es ->
  forall usage jf sp wl0 ll0 d scd p_init g_init e_init p_input g_input e_input cycles period om mode x,
  d scd = Some file -> d (map_of scd) = Some mapf -> sp (csv_of scd) = Free -> scd <> [] -> output_mode_of om = Some mode ->
  gives d x p_init g_init e_init p_input g_input e_input -> (period = 0 \/ Parse.terminates m) ->
  (0 < cycles)%nat -> Z.of_nat (cycles * out_width m) < 2 ^ 31 ->
  List.length wl0 = get_wire_size c -> List.length ll0 = dff_size c ->
  forall U net, obeys m x U -> (forall i, (i < out_width m)%nat -> out_net m i (net i)) ->
  exists d' t T V csv, main_plain_disk usage jf sp wl0 ll0 d scd p_init g_init e_init p_input g_input e_input cycles period om = Some (d', t ++ [nl], SUCCESS) /\
    module_runs m U cycles period T /\ displays mode (out_width m) T t (fun cy i => U cy (net i)) /\
    only_changed [csv_of scd] d d' /\ d' (csv_of scd) = Some csv /\
    csv = trace (shown es) V (recorded c V period cycles) /\ (forall cy n w, In (n, w) es -> ~ mid_name n -> V cy w = U cy n).
Proof.
  intros [RD RM EM NN TR] usage jf sp wl0 ll0 d scd p_init g_init e_init p_input g_input e_input cycles period om mode x
    D1 D2 SP NE OM G TP HN SM L1 L2 U net OB NET.
  pose proof RM as [WF RS RT SO RV]. 
  destruct (consistent_exists c x WF) as (V & CV).
  destruct (TR x V cycles period wl0 ll0 CV L1 L2) as (out & E1 & E2).
  destruct (EvalauatePlaintext_ok c x V period cycles wl0 ll0 WF CV L1 L2) as (out' & E3 & B1 & B2).
  rewrite E1 in E3. injection E3 as <-. set (T := executed c V period cycles) in *.
  destruct RS as (_ & _ & _ & _ & _ & _ & OW). change (output_size c = out_width m) in OW.
  pose proof (module_executed c m U V x cycles period RM OB CV HN) as MR. fold T in MR.
  exists (put d (csv_of scd) (trace (shown es) V (recorded c V period cycles))), (OutputBN2StrHighMem (output_size c) (Z.of_N out) T mode), T, V,
    (trace (shown es) V (recorded c V period cycles)).
  split; [|split; [exact MR|split; [|split; [|split; [apply put_same|split; [reflexivity|]]]]]].
  - unfold main_plain_disk. destruct scd as [|ch scd0]; [congruence|]. set (scd := ch :: scd0) in *. rewrite OM. cbv zeta. unfold EvalauatePlaintextStrDisk. cbn [pl_file].
    rewrite D1, RD, D2, SP. cbn [pl_period pl_cycles pl_mode].
    assert (T0 : negb (period =? 0) && (terminate_id c =? 0) = false).
    { destruct TP as [->|H]; [reflexivity|]. apply RT in H. apply Z.eqb_neq in H. rewrite H. apply andb_false_r. }
    rewrite T0. destruct G as (G1 & G2 & G3 & G4 & G5 & G6). unfold plain_inputs. cbn [pl_p_init pl_g_init pl_e_init pl_p_input pl_g_input pl_e_input].
    rewrite (parsed_ok _ _ G1), (parsed_ok _ _ G2), (parsed_ok _ _ G3), (parsed_ok _ _ G4), (parsed_ok _ _ G5), (parsed_ok _ _ G6).
    replace (mkInputs (Spec.p_init x) (Spec.g_init x) (Spec.e_init x) (Spec.p_input x) (Spec.g_input x) (Spec.e_input x)) with x by (destruct x; reflexivity).
    rewrite E2. cbn [obind]. unfold save. rewrite SP. reflexivity.
  - destruct MR as ((T1 & T2) & _). rewrite <- OW. eapply displays_ext; [exact T1| |].
    + intros cy i _ Hi. apply (module_values c m U V x net RM OB CV NET). rewrite <- OW. exact Hi.
    + apply (printed_displays false); [lia|rewrite OW; nia| |].
      * intros cy i Hc Hi. rewrite Nat.sub_0_r. apply B1; [lia|]. apply nth_error_nth'. exact Hi.
      * intros p Hp. apply B2. rewrite Nat.sub_0_r in Hp. exact Hp.
  - intros n H. cbn [In] in H. apply put_other. intros ->. tauto.
  - intros cy n w I NM. apply (nn_value _ _ _ NN x U V OB CV cy n w I NM).
Qed.

Theorem mains_on_disk m file mapf c es : files_for m file mapf c es ->
  forall usage ja jb log fsA fsB ca cb mode u V T, fsA (cl_scd ca) = Some file ->
  output_mode_of (cl_mode ca) = Some mode -> output_mode_of (cl_mode cb) = Some mode ->
  started (arguments_of fsA ca mode) (arguments_of fsB cb mode) u -> good_run (cl_low_mem_foot ca) u V T ->
  Z.of_nat (u_n u * out_width m) < 2 ^ 31 -> (forall cy i, (cy < T)%nat -> ~ hidden (sess (cl_low_mem_foot ca) u) u V cy i) ->
  forall U net, obeys m (u_x u) U -> (forall i, (i < out_width m)%nat -> out_net m i (net i)) ->
  u_c u = c /\ module_runs m U (u_n u) (terminate_period (u_opt u)) T /\
  exists ta tb, always_finish
      (main_alice (u_AES u) (u_sha u) (u_coins u) log usage fsA ja ca (u_ra u) (u_junkA u) (gmem_of (u_m u)))
      (main_bob (u_AES u) (u_sha u) (u_coins u) log usage fsB jb cb (u_rnd u) (u_junkB u) (emem_of (u_m u)))
      (ta ++ [nl], SUCCESS) (tb ++ [nl], SUCCESS) /\
    displays mode (out_width m) T ta (fun cy i => U cy (net i) && to_garbler u i) /\
    displays mode (out_width m) T tb (fun cy i => U cy (net i) && negb (to_garbler u i)).
Proof.
  intros [RD RM EM NN TR] usage ja jb log fsA fsB ca cb mode u V T FA OA OB' ST G SM NH U net OB NET.
  destruct (st_file _ _ _ ST) as (f & F1 & F2 & F3). cbn [arguments_of scd_file] in F1. rewrite FA in F1. injection F1 as <-.
  assert (EC : u_c u = c). { rewrite <- (F3 (fun _ _ => 0)). apply RD. } rewrite <- EC in *. split; [reflexivity|].
  pose proof (gr_V _ _ _ _ G) as CV. pose proof RM as [WF RS RT SO RV].
  destruct RS as (_ & _ & _ & _ & _ & _ & OW). change (output_size (u_c u) = out_width m) in OW.
  assert (TE : executed (u_c u) V (terminate_period (u_opt u)) (u_n u) = T).
  { eapply executes_unique; [apply executed_is; apply (rd_cycles u (gr_ready _ _ _ _ G))|exact (gr_T _ _ _ _ G)]. }
  pose proof (module_executed _ m U V (u_x u) (u_n u) (terminate_period (u_opt u)) RM OB CV (proj1 (rd_cycles u (gr_ready _ _ _ _ G)))) as MR. rewrite TE in MR.
  split; [exact MR|]. destruct MR as ((T1 & T2) & _). rewrite <- OW in SM.
  destruct (mains_ok usage ja jb log fsA fsB ca cb mode u V T OA OB' ST G SM NH) as (ta & tb & AF & DA & DB). rewrite OW in DA, DB.
  exists ta, tb. split; [exact AF|]. split; (eapply displays_ext; [lia| |eassumption]); intros cy i Hc Hi; cbv beta;
    rewrite (module_values (u_c u) m U V (u_x u) net RM OB CV NET cy i Hi); reflexivity.
Qed.
