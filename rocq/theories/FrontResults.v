(** Results about the translation of netlists, in the form used by PropertiesScd. *)
From Coq Require Import ZArith NArith List Bool Ascii String Lia.
From Verif Require Import Base Gate Circuit Spec Plain Sort SortOk Text Netlist NetlistOk Scd Front Parse ParseOk Verilog VerilogOk VerilogNet VerilogFront
  Demo ProtocolDemo FrontDemo.
Import ListNotations.
Open Scope Z_scope.
Open Scope string_scope.
Open Scope list_scope.

(** * C36 Wire numbers *)
(** The ports in the order of their wires. *)
Definition all_ports (s : ReadCircuitString) : list (string * nat) :=
  [("p_init", s_p_init s); ("g_init", s_g_init s); ("e_init", s_e_init s); ("p_input", s_p_input s); ("g_input", s_g_input s); ("e_input", s_e_input s)].
Definition widths (l : list (string * nat)) : nat := fold_right (fun p n => (snd p + n)%nat) 0%nat l.
(** [num] numbers the names of [s]: the bits of the ports one after the other, then
    the registers, then the gates; constants are negative; assigned names share the
    number of their driver; no number is given to two different things. *)
Record numbering (s : ReadCircuitString) (num : string -> Z) : Prop := {
  nu_port : forall l p n r, all_ports s = l ++ (p, n) :: r -> forall i, (i < n)%nat ->
    num (elem p i) = Z.of_nat (widths l + i) /\ (n = 1%nat -> num p = Z.of_nat (widths l));
  nu_dff : forall i d, nth_error (dff_list_string s) i = Some d -> num (gs_out d) = Z.of_nat (widths (all_ports s) + i);
  nu_gate : forall i g, nth_error (gate_list_string s) i = Some g ->
    num (gs_out g) = Z.of_nat (widths (all_ports s) + List.length (dff_list_string s) + i);
  nu_const : num "" = -1 /\ num "1'b0" = -2 /\ num "1'b1" = -3;
  nu_assign : forall a b, In (a, b) (assignment_list_string s) -> num a = num b;
  nu_distinct : forall n m, In n (declared s) -> In m (declared s) -> num n = num m ->
    n = m \/ exists p, In (p, 1%nat) (all_ports s) /\ (n = p /\ m = elem p 0 \/ n = elem p 0 /\ m = p) }.

Lemma ids_distinct s n m k : In (n, k) (ids s) -> In (m, k) (ids s) ->
  n = m \/ exists p, In (p, 1%nat) (all_ports s) /\ (n = p /\ m = elem p 0 \/ n = elem p 0 /\ m = p).
Proof.
  assert (ARR : forall p w sz a b j, In (p, sz) (all_ports s) -> In (a, j) (arr_ids p sz w) -> In (b, j) (arr_ids p sz w) ->
    a = b \/ exists p, In (p, 1%nat) (all_ports s) /\ (a = p /\ b = elem p 0 \/ a = elem p 0 /\ b = p)).
  { intros p w sz a b j P A B. apply arr_in in A as (i & L & E & A). apply arr_in in B as (i' & L' & E' & B). assert (i' = i) by lia. subst i'.
    destruct A as [->|[-> ->]]; destruct B as [->|[S1 ->]]; auto.
    - subst sz. assert (i = O) by lia. subst i. right. exists p. auto.
    - assert (i = O) by lia. subst i. right. exists p. auto. }
  assert (CEL : forall l w a b j, In (a, j) (cell_ids l w) -> In (b, j) (cell_ids l w) -> a = b).
  { intros l w a b j A B. apply cell_in in A as (i & g & G & E & ->). apply cell_in in B as (i' & h & H & E' & ->). assert (i' = i) by lia. subst i'. congruence. }
  assert (AR : forall p w sz a j, In (a, j) (arr_ids p sz w) -> w <= j < w + Z.of_nat sz).
  { intros p w sz a j A. apply arr_in in A as (i & L & E & A). lia. }
  assert (CR : forall l w a j, In (a, j) (cell_ids l w) -> w <= j < w + Z.of_nat (List.length l)).
  { intros l w a j A. apply cell_in in A as (i & g & G & E & ->). apply nth_error_lt in G. lia. }
  intros A B. unfold ids, init_ids, input_ids, dff_ids, gate_ids, fdff, const_ids in A, B. rewrite !in_app_iff in A. rewrite !in_app_iff in B.
  destruct A as [[A|[A|A]]|[[A|[A|A]]|[[A|A]|A]]]; destruct B as [[B|[B|B]]|[[B|[B|B]]|[[B|B]|B]]];
  try (eapply ARR; [|exact A|exact B]; cbn; tauto); try (left; eapply CEL; [exact A|exact B]);
  try (exfalso; (apply AR in A || apply CR in A); (apply AR in B || apply CR in B); lia);
  try (exfalso; cbn in A; (apply AR in B || apply CR in B); decompose [or] A; try contradiction; match goal with E : (_, _) = (_, _) |- _ => injection E as <- <- end; lia);
  try (exfalso; cbn in B; (apply AR in A || apply CR in A); decompose [or] B; try contradiction; match goal with E : (_, _) = (_, _) |- _ => injection E as <- <- end; lia).
  left. cbn in A, B. decompose [or] A; decompose [or] B; try contradiction; congruence.
Qed.

Theorem id_assignment s : well_named s -> exists num rc, numbering s num /\ (forall log, IdAssignment log s = Some rc) /\
  gate_list rc = map (fun g => mkRG (num (gs_in0 g)) (num (gs_in1 g)) (num (gs_out g)) (gs_type g)) (gate_list_string s) /\
  dff_list rc = map (fun g => mkRG (num (gs_in0 g)) (num (gs_in1 g)) (num (gs_out g)) (gs_type g)) (dff_list_string s) /\
  List.length (output_list rc) = s_output s /\
  (forall i n, (i < s_output s)%nat -> output_name s i n -> nth_error (output_list rc) i = Some (num n)) /\
  (has_terminate s = true -> rc_terminate_id rc = num "terminate") /\ (has_terminate s = false -> rc_terminate_id rc = 0) /\
  all_ports s = combine (map fst (all_ports s)) [rc_p_init rc; rc_g_init rc; rc_e_init rc; rc_p_input rc; rc_g_input rc; rc_e_input rc].
Proof.
  intros WN. exists (id s), (numbered s). pose proof (fun m k => id_declared s WN m k) as ID. split; [|split; [|split; [|split; [|split; [|split; [|split; [|split]]]]]]].
  - assert (PORT : forall p n w, (forall i, (i < n)%nat -> forall m, In (m, w + Z.of_nat i) (arr_ids p n w) -> In (m, w + Z.of_nat i) (ids s)) ->
      forall i, (i < n)%nat -> id s (elem p i) = w + Z.of_nat i /\ (n = 1%nat -> id s p = w)).
    { intros p n w H i L. split.
      - apply ID. apply H; [exact L|]. apply arr_elem. exact L.
      - intros ->. apply ID. replace w with (w + Z.of_nat 0) by lia. apply H; [lia|]. rewrite Z.add_0_r. left. reflexivity. }
    split.
    + intros l p n r E i L.
      assert (Q : id s (elem p i) = Z.of_nat (widths l) + Z.of_nat i /\ (n = 1%nat -> id s p = Z.of_nat (widths l))).
      { apply PORT; [|exact L]. intros j _ m H. revert H. unfold ids, init_ids, input_ids. rewrite !in_app_iff.
        unfold all_ports in E. do 6 (destruct l as [|[p' n'] l]; [injection E as <- <- <-; cbn [widths fold_right snd]; rewrite ?Nat.add_0_r, ?Nat2Z.inj_add, ?Z.add_assoc; cbn [Z.of_nat]; tauto|injection E as <- <- E]).
        destruct l; discriminate. }
      rewrite Nat2Z.inj_add. exact Q.
    + intros i d H. apply ID. replace (Z.of_nat (widths (all_ports s) + i)) with (fdff s + Z.of_nat i) by (unfold fdff, all_ports; cbn; lia).
      pose proof (cell_nth _ (fdff s) i d H). unfold ids, dff_ids. rewrite !in_app_iff. tauto.
    + intros i d H. apply ID. replace (Z.of_nat (widths (all_ports s) + List.length (dff_list_string s) + i)) with (fdff s + Z.of_nat (List.length (dff_list_string s)) + Z.of_nat i) by (unfold fdff, all_ports; cbn; lia).
      pose proof (cell_nth _ (fdff s + Z.of_nat (List.length (dff_list_string s))) i d H). unfold ids, gate_ids. rewrite !in_app_iff. tauto.
    + split; [|split]; apply ID; unfold ids; rewrite !in_app_iff; cbn; tauto.
    + intros a b H. apply id_assign; auto.
    + intros n m DN DM E. pose proof (id_in s n) as IN. pose proof (id_in s m) as IM. rewrite !root_of_declared in * by auto. rewrite E in IN.
      eapply ids_distinct; [apply IN; auto|apply IM; auto].
  - intros log. apply IdAssignment_is. exact WN.
  - reflexivity.
  - reflexivity.
  - cbn. rewrite map_length, seq_length. reflexivity.
  - intros i n L ON. cbn [output_list numbered]. rewrite nth_error_map, (nth_error_nth' _ 0%nat), seq_nth by (rewrite ?seq_length; auto). cbn [option_map]. f_equal. f_equal.
    apply (output_name_unique s i); auto.
    + apply out_nm_is; auto.
    + pose proof (out_nm_declared s WN i L) as Q. unfold declared. rewrite in_app_iff in Q. rewrite !in_app_iff. tauto.
    + pose proof (wn_out _ WN i n L ON) as Q. unfold declared. rewrite in_app_iff in Q. rewrite !in_app_iff. tauto.
  - intros T. cbn. rewrite T. reflexivity.
  - intros T. cbn. rewrite T. reflexivity.
  - reflexivity.
Qed.

(** * C33 Parsing *)
Theorem cells_expanded m t : well_built m -> written (module_words m) t -> exists s, (forall log, ParseNetlist log (Some t) = Done s) /\
  (forall x U, net_consistent s x U -> obeys m x U) /\
  (forall x U, obeys m x U -> exists U', net_consistent s x U' /\ forall cy n, ~ mid_name n -> U' cy n = U cy n).
Proof.
  intros WB W. exists (elab m). split; [|split].
  - intros log. apply parse_module; [apply (wb_legal m WB)|exact W].
  - intros x U. apply (net_obeys m WB).
  - intros x U OB. eexists. split; [apply (obeys_net m WB x U OB)|]. intros cy n N. apply (ext_other m). exact N.
Qed.

(** * C35 Constant outputs *)
Lemma omap_none {A B} (f : A -> option B) l a : In a l -> f a = None -> omap f l = None.
Proof.
  induction l as [|b l IH]; cbn; [tauto|]. intros [->|I] E; [rewrite E; reflexivity|]. destruct (f b); [cbn|reflexivity]. rewrite IH by auto. reflexivity.
Qed.
Lemma rd_neg {A} (l : list A) i : i < 0 -> rd l i = None.
Proof. intros H. destruct (rd l i) eqn:E; [|reflexivity]. apply rd_bound in E. lia. Qed.
Theorem constant_output rc : in_range rc -> ~ has_loop rc -> (exists o, In o (output_list rc) /\ o < 0) -> SortNetlist false rc = None.
Proof.
  intros R L (o & I & N). destruct (proj2 (topological_sort_iff rc R)) as [T _]. destruct (T L) as (l & E & _).
  unfold SortNetlist. rewrite E. cbn [obind]. destruct (invert l); [cbn [obind]|reflexivity].
  destruct (omap (sort_dff _) _); [cbn [obind]|reflexivity]. destruct (omap (sort_gate _ _) _); [cbn [obind andb]|reflexivity].
  rewrite (omap_none _ _ o I) by (apply rd_neg; exact N). reflexivity.
Qed.
(** A module whose output is tied to a constant. *)
Definition tied_module : list stmt := [
  Other ["module"; "tied"; "g_input"; "o"]; Input (Some 1%nat) ["g_input"]; Output (Some 1%nat) ["o"];
  Cell AND "U1" [("A", ("g_input[0]", None)); ("B", ("g_input[1]", None)); ("Z", ("o[0]", None))];
  Assign "o[1]" "1'b1" ].
Definition tied_verilog : string :=
"module tied ( g_input, o );
  input [1:0] g_input;
  output [1:0] o;
  AND U1 ( .A(g_input[0]), .B(g_input[1]), .Z(o[0]) );
  assign o[1] = 1'b1;
endmodule".
Lemma tied_written : written (module_words tied_module) (list_ascii_of_string tied_verilog).
Proof. rewrite <- (eq_refl : words (list_ascii_of_string tied_verilog) = module_words tied_module). apply written_words. Qed.
Theorem tied_crashes log : Verilog2SCD log (Some (list_ascii_of_string tied_verilog)) = Undefined.
Proof. destruct log; vm_compute; reflexivity. Qed.
Theorem constant_output_refuted : exists s rc, IdAssignment true s = Some rc /\ in_range rc /\ ~ has_loop rc /\ forall log, SortNetlist log rc = None.
Proof.
  pose (s := elab tied_module). destruct (IdAssignment true s) as [rc|] eqn:E; [|vm_compute in E; discriminate]. exists s, rc.
  vm_compute in E. injection E as <-. split; [vm_compute; reflexivity|].
  assert (R : in_range (mkRC 0 0 0 0 2 0 [2; -3] [mkRG 0 1 2 8] [] [] 0)).
  { intros g [<-|[]]. cbn. lia. }
  split; [exact R|]. split; [|intros [|]; vm_compute; reflexivity].
  intros L. apply (proj1 (topological_sort_iff _ R)) in L.
  assert (Q : match TopologicalSort (mkRC 0 0 0 0 2 0 [2; -3] [mkRG 0 1 2 8] [] [] 0) with Some None => false | _ => true end = true) by (vm_compute; reflexivity).
  rewrite L in Q. discriminate.
Qed.

(** * C47 Wire 0 *)
(** One more port makes this module well built. *)
Definition gates_only : list stmt := [
  Other ["module"; "gates"; "o"]; Output None ["o"];
  Cell IV "U0" [("A", ("n1", None)); ("Z", ("n0", None))];
  Cell OR "U1" [("A", ("1'b0", None)); ("B", ("1'b1", None)); ("Z", ("n1", None))];
  Cell AND "U2" [("A", ("n0", None)); ("B", ("1'b1", None)); ("Z", ("o[0]", None))] ].
Definition gates_only_verilog : string :=
"module gates ( o );
  output o;
  IV U0 ( .A(n1), .Z(n0) );
  OR U1 ( .A(1'b0), .B(1'b1), .Z(n1) );
  AND U2 ( .A(n0), .B(1'b1), .Z(o[0]) );
endmodule".
Lemma gates_only_written : written (module_words gates_only) (list_ascii_of_string gates_only_verilog).
Proof. rewrite <- (eq_refl : words (list_ascii_of_string gates_only_verilog) = module_words gates_only). apply written_words. Qed.
Lemma gates_only_built : well_built (Input None ["p_input"] :: gates_only).
Proof. apply well_builtb_ok. vm_compute. reflexivity. Qed.

Definition ok_text (log : bool) (t : text) : option text := match Verilog2SCD log (Some t) with Done f => Some f | _ => None end.
Lemma ok_text_done log t f : ok_text log t = Some f -> Verilog2SCD log (Some t) = Done f.
Proof. unfold ok_text. destruct (Verilog2SCD log (Some t)); congruence. Qed.
Lemma loop_free m t : well_built m -> written (module_words m) t -> match Verilog2SCD true (Some t) with Failed => false | _ => true end = true -> ~ comb_loop m.
Proof. intros WB W E L. rewrite (verilog_loop _ _ WB L W true) in E. discriminate. Qed.
(** The circuit at wire [w]. *)
Lemma value_is c x V cy w : well_formed c -> consistent c x V -> first_input c <= w < last_wire c -> V cy w = plain c x cy w.
Proof. intros WF C R. apply (consistent_unique c x WF V); auto. apply plain_ok. exact WF. Qed.

Theorem wire_zero_refuted : exists m t file, well_built (Input None ["p_input"] :: m) /\ written (module_words m) t /\
  (forall log, Verilog2SCD log (Some t) = Done file) /\
  forall junk x, (exists U, obeys m x U) /\
    forall U V, obeys m x U -> consistent (ReadSCD junk file) x V -> exists w, nth_error (outputs (ReadSCD junk file)) 0 = Some w /\
      U O "o[0]" = false /\ V O w = true.
Proof.
  exists gates_only, (list_ascii_of_string gates_only_verilog).
  destruct (ok_text false (list_ascii_of_string gates_only_verilog)) as [file|] eqn:E; [|vm_compute in E; discriminate]. exists file.
  assert (E' : ok_text true (list_ascii_of_string gates_only_verilog) = Some file) by (rewrite <- E; vm_compute; reflexivity).
  split; [apply gates_only_built|]. split; [apply gates_only_written|]. split; [intros [|]; apply ok_text_done; auto|].
  intros junk x. split.
  - assert (ALL : forall U, obeys (Input None ["p_input"] :: gates_only) x U -> obeys gates_only x U).
    { intros U [C1 C2 C3 C4 C5 C6 C7]. split.
      - exact C1.
      - exact C2.
      - intros cy. split; [split; [intros i L; cbn in L; lia|intros L; cbn in L; discriminate]|]. exact (proj2 (C3 cy)).
      - intros cy k i cs p n I. apply C4 with (i := i). right. exact I.
      - intros i cs n I. apply C5 with (i := i). right. exact I.
      - intros cy i cs n I. apply C6 with (i := i). right. exact I.
      - intros cy a b I. apply C7. right. exact I. }
    assert (W : written (module_words (Input None ["p_input"] :: gates_only)) (list_ascii_of_string (String.append "input p_input ; " gates_only_verilog))).
    { rewrite <- (eq_refl : words (list_ascii_of_string (String.append "input p_input ; " gates_only_verilog)) = module_words (Input None ["p_input"] :: gates_only)). apply written_words. }
    destruct (verilog_ok _ _ gates_only_built ltac:(vm_compute; reflexivity) (loop_free _ _ gates_only_built W ltac:(vm_compute; reflexivity)) W) as (f & _ & RM).
    destruct (rm_some _ _ (RM junk) x) as [U OB]. exists U. apply ALL. exact OB.
  - intros U V OB C. assert (EC : ReadSCD junk file = ReadSCD (fun _ _ => 0) file) by (vm_compute in E; injection E as <-; vm_compute; reflexivity).
    rewrite EC in *. clear EC E'. vm_compute in E. injection E as <-. vm_compute (ReadSCD _ _) in C. vm_compute (ReadSCD _ _).
    exists 2. split; [reflexivity|]. split.
    + rewrite (ob_cell _ _ _ OB 0%nat AND "U2" [("A", ("n0", None)); ("B", ("1'b1", None)); ("Z", ("o[0]", None))] "Z" "o[0]") by (cbn; try reflexivity; try discriminate; auto 12). cbn [library pin_value at_pin].
      unfold pin_value, at_pin. cbn [String.eqb Ascii.eqb Bool.eqb net fst snd].
      rewrite (ob_cell _ _ _ OB 0%nat IV "U0" [("A", ("n1", None)); ("Z", ("n0", None))] "Z" "n0") by (cbn; try reflexivity; try discriminate; auto 12). cbn [library].
      unfold pin_value, at_pin. cbn [String.eqb Ascii.eqb Bool.eqb net fst snd].
      rewrite (ob_cell _ _ _ OB 0%nat OR "U1" [("A", ("1'b0", None)); ("B", ("1'b1", None)); ("Z", ("n1", None))] "Z" "n1") by (cbn; try reflexivity; try discriminate; auto 12). cbn [library].
      unfold pin_value, at_pin. cbn [String.eqb Ascii.eqb Bool.eqb net fst snd]. destruct (ob_const _ _ _ OB 0%nat) as (_ & -> & ->). reflexivity.
    + match type of C with consistent ?c _ _ => assert (WF : well_formed c) by (apply well_formedb_ok; vm_compute; reflexivity) end.
      rewrite (value_is _ _ _ 0 2 WF C) by (vm_compute; split; congruence). vm_compute. reflexivity.
Qed.

(** * C50 Order of assignments *)
Definition late_module (late : bool) : list stmt := [
  Other ["module"; "late"; "g_input"; "o"]; Input (Some 1%nat) ["g_input"]; Output (Some 1%nat) ["o"];
  Cell XOR "U1" [("A", ("g_input[0]", None)); ("B", ("g_input[1]", None)); ("Z", ("n1", None))]] ++
  (if late then [Assign "o[0]" "n9"; Assign "n9" "n1"] else [Assign "n9" "n1"; Assign "o[0]" "n9"]) ++
  [Assign "o[1]" "n1"].
Definition late_verilog (late : bool) : string := String.append
"module late ( g_input, o );
  input [1:0] g_input;
  output [1:0] o;
  XOR U1 ( .A(g_input[0]), .B(g_input[1]), .Z(n1) );
" (String.append (if late then "assign o[0] = n9; assign n9 = n1;" else "assign n9 = n1; assign o[0] = n9;")
"
  assign o[1] = n1;
endmodule").
Lemma late_written late : written (module_words (late_module late)) (list_ascii_of_string (late_verilog late)).
Proof. assert (E : words (list_ascii_of_string (late_verilog late)) = module_words (late_module late)) by (destruct late; vm_compute; reflexivity). rewrite <- E. apply written_words. Qed.
Lemma late_built : well_built (late_module false).
Proof. apply well_builtb_ok. vm_compute. reflexivity. Qed.
Lemma late_perm : Permutation.Permutation (late_module true) (late_module false).
Proof. unfold late_module. apply Permutation.Permutation_app_head. apply Permutation.Permutation_app_tail. apply Permutation.perm_swap. Qed.

Theorem assign_order_refuted : exists m m' t file, Permutation.Permutation m m' /\ well_built m' /\ ~ comb_loop m' /\ written (module_words m) t /\
  Verilog2SCD true (Some t) = Failed /\ Verilog2SCD false (Some t) = Done file /\
  forall junk, exists x U, obeys m x U /\ obeys m' x U /\
    forall V, consistent (ReadSCD junk file) x V -> exists w, nth_error (outputs (ReadSCD junk file)) 0 = Some w /\ V O w <> U O "o[0]".
Proof.
  exists (late_module true), (late_module false), (list_ascii_of_string (late_verilog true)).
  destruct (ok_text false (list_ascii_of_string (late_verilog true))) as [file|] eqn:E; [|vm_compute in E; discriminate]. exists file.
  assert (NL : ~ comb_loop (late_module false)) by (apply (loop_free _ _ late_built (late_written false)); vm_compute; reflexivity).
  split; [apply late_perm|]. split; [apply late_built|]. split; [exact NL|]. split; [apply (late_written true)|]. split; [vm_compute; reflexivity|].
  split; [apply ok_text_done; exact E|]. intros junk. exists (mkInputs 0 0 0 0 2 0).
  destruct (verilog_ok _ _ late_built ltac:(vm_compute; reflexivity) NL (late_written false)) as (f & _ & RM).
  destruct (rm_some _ _ (RM junk) (mkInputs 0 0 0 0 2 0)) as [U OB]. exists U.
  assert (OB' : obeys (late_module true) (mkInputs 0 0 0 0 2 0) U).
  { assert (P : forall st, In st (late_module true) -> In st (late_module false)) by (intros st; apply Permutation.Permutation_in; apply late_perm).
    destruct OB as [C1 C2 C3 C4 C5 C6 C7]. split; auto.
    - intros cy k i cs p n I. apply C4 with (i := i). auto.
    - intros i cs n I. apply C5 with (i := i). auto.
    - intros cy i cs n I. apply C6 with (i := i). auto. }
  split; [exact OB'|]. split; [exact OB|]. intros V C.
  assert (EC : ReadSCD junk file = ReadSCD (fun _ _ => 0) file) by (vm_compute in E; injection E as <-; vm_compute; reflexivity).
  rewrite EC in *. clear EC. vm_compute in E. injection E as <-. vm_compute (ReadSCD _ _) in C. vm_compute (ReadSCD _ _).
  exists 0. split; [reflexivity|].
  match type of C with consistent ?c _ _ => assert (WF : well_formed c) by (apply well_formedb_ok; vm_compute; reflexivity) end.
  rewrite (value_is _ _ _ 0 0 WF C) by (vm_compute; split; congruence).
  rewrite (ob_assign _ _ _ OB 0%nat "o[0]" "n9"), (ob_assign _ _ _ OB 0%nat "n9" "n1") by (cbn; auto 12).
  rewrite (ob_cell _ _ _ OB 0%nat XOR "U1" [("A", ("g_input[0]", None)); ("B", ("g_input[1]", None)); ("Z", ("n1", None))] "Z" "n1") by (cbn; try reflexivity; try discriminate; auto 12).
  cbn [library]. unfold pin_value, at_pin. cbn [String.eqb Ascii.eqb Bool.eqb net fst snd].
  destruct (ob_input _ _ _ OB 0%nat) as (_ & [PV _] & _).
  assert (P0 : U 0%nat "g_input[0]" = false) by (apply (PV 0%nat); vm_compute; lia).
  assert (P1 : U 0%nat "g_input[1]" = true) by (apply (PV 1%nat); vm_compute; lia).
  rewrite P0, P1.
  vm_compute. discriminate.
Qed.

(** * C51 Names without a driver *)
Definition typo_verilog : string :=
"module typo ( g_input, e_input, o );
  input [1:0] g_input;
  input [1:0] e_input;
  output [1:0] o;
  AND U1 ( .A(e_input[0]), .B(e_input[1]), .Z(o[0]) );
  AND U2 ( .A(e_imput[0]), .B(1'b1), .Z(o[1]) );
endmodule".
Theorem undriven_refuted : exists file, let t := list_ascii_of_string typo_verilog in
  Verilog2SCD true (Some t) = Failed /\ Verilog2SCD false (Some t) = Done file /\
  forall junk x V, consistent (ReadSCD junk file) x V -> exists w, nth_error (outputs (ReadSCD junk file)) 1 = Some w /\
    forall cy, V cy w = bit (Spec.g_input x) (cy * 2).
Proof.
  destruct (ok_text false (list_ascii_of_string typo_verilog)) as [file|] eqn:E; [|vm_compute in E; discriminate]. exists file. cbv zeta.
  split; [vm_compute; reflexivity|]. split; [apply ok_text_done; exact E|]. intros junk x V C.
  assert (EC : ReadSCD junk file = ReadSCD (fun _ _ => 0) file) by (vm_compute in E; injection E as <-; vm_compute; reflexivity).
  rewrite EC in *. clear EC. vm_compute in E. injection E as <-. vm_compute (ReadSCD _ _) in C. vm_compute (ReadSCD _ _).
  exists 5. split; [reflexivity|]. intros cy.
  pose proof (cons_gate _ _ _ C cy 1%nat _ _ eq_refl eq_refl) as G. cbn in G. rewrite G, andb_true_r.
  pose proof (cons_input _ _ _ C cy 0%nat ltac:(cbn; lia)) as N. cbn in N. rewrite N. unfold input_value. cbn. f_equal. lia.
Qed.

(** * C52 Files that end early *)
Lemma step_ends log st w : step log st w <> Hangs.
Proof.
  unfold step, in_word, out_word, right_word, semicolon, check, cell_done.
  repeat match goal with |- context [match ?c with _ => _ end] => destruct c; try discriminate end.
Qed.
Lemma parse_ends log : forall ws st, log = true \/ In "endmodule" ws -> parse log st ws <> Hangs.
Proof.
  induction ws as [|w ws IH]; intros st H; cbn [parse].
  - destruct H as [->|[]]. discriminate.
  - destruct (String.eqb_spec w "endmodule") as [->|N]; [discriminate|]. pose proof (step_ends log st w) as S.
    destruct (step log st w); try discriminate. apply IH. destruct H as [H|[H|H]]; auto. congruence.
Qed.
Theorem parser_ends log t : log = true \/ In "endmodule" (words t) -> ParseNetlist log (Some t) <> Hangs.
Proof. apply parse_ends. Qed.
Theorem unfinished_hangs m t : Forall legal m -> written (flat_map stmt_words m) t ->
  ParseNetlist true (Some t) = Failed /\ ParseNetlist false (Some t) = Hangs.
Proof.
  assert (R : forall log ws a b, runs log a ws b -> parse log a ws = if log then Failed else Hangs).
  { intros log. induction ws as [|w ws IH]; intros a b R; cbn [parse runs] in *; [reflexivity|]. destruct R as (N & a' & E & R).
    destruct (String.eqb_spec w "endmodule"); [congruence|]. rewrite E. eapply IH. exact R. }
  intros F W. unfold ParseNetlist. rewrite (words_written _ _ W).
  split; [eapply (R true)|eapply (R false)]; apply run_module; exact F.
Qed.
