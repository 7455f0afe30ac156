(** From the text of a Verilog netlist to the circuit the programs run. *)
From Coq Require Import ZArith NArith List Bool Ascii String Lia Permutation.
From Verif Require Import Base Gate Circuit Spec Sort Text Netlist Parse ParseOk.
Import ListNotations.
Open Scope Z_scope.
Open Scope string_scope.
Open Scope list_scope.

(** * What a module becomes *)
Definition stmt_gates (n : nat) (st : stmt) : list ReadGateString :=
  match st with Cell k _ cs => cell_gates k n (wiring cs) | _ => [] end.
Fixpoint gates_from (n : nat) (m : list stmt) : list ReadGateString :=
  match m with
  | [] => []
  | st :: m' => stmt_gates n st ++ gates_from (n + List.length (stmt_gates n st)) m'
  end.
Definition reg_of (cs : list (string * netref)) : ReadGateString := mkRGS (pval (wiring cs) "D") (pval (wiring cs) "I") (pval (wiring cs) "Q") DFFGATE.
Definition regs (m : list stmt) : list ReadGateString := flat_map (fun st => match st with Cell DFF _ cs => [reg_of cs] | _ => [] end) m.

Definition size_of (s : ReadCircuitString) (p : string) : nat :=
  if p =? "p_init" then s_p_init s else if p =? "g_init" then s_g_init s else if p =? "e_init" then s_e_init s
  else if p =? "p_input" then s_p_input s else if p =? "g_input" then s_g_input s else if p =? "e_input" then s_e_input s else 0%nat.
Definition or_else (n d : nat) : nat := match n with O => d | _ => n end.

Lemma declare_rest hi s n : gate_list_string (declare hi s n) = gate_list_string s /\ dff_list_string (declare hi s n) = dff_list_string s /\
  assignment_list_string (declare hi s n) = assignment_list_string s /\ s_output (declare hi s n) = s_output s /\ has_terminate (declare hi s n) = has_terminate s.
Proof.
  unfold declare, with_input. destruct s; cbn. repeat match goal with |- context [if ?b then _ else _] => destruct b; cbn; auto end.
Qed.
Lemma declare_size hi s n p : In p in_ports -> size_of (declare hi s n) p = if p =? n then bits_of hi else size_of s p.
Proof.
  intros P. destruct (String.eqb_spec p n) as [<-|N].
  - cbn in P. decompose [or] P; try contradiction; subst p; reflexivity.
  - unfold declare, with_input.
    repeat match goal with |- context [if (n =? ?x) then _ else _] => destruct (String.eqb_spec n x);
      [subst n; cbn in P; decompose [or] P; try contradiction; subst p; try congruence; reflexivity|] end.
    reflexivity.
Qed.
Lemma elab_stmt_fields s st : legal st ->
  gate_list_string (elab_stmt s st) = gate_list_string s ++ stmt_gates (List.length (gate_list_string s)) st /\
  dff_list_string (elab_stmt s st) = dff_list_string s ++ regs [st] /\
  assignment_list_string (elab_stmt s st) = assignment_list_string s ++ assigns [st] /\
  s_output (elab_stmt s st) = or_else (out_width [st]) (s_output s) /\
  (has_terminate (elab_stmt s st) = true <-> has_terminate s = true \/ terminates [st]) /\
  forall p, In p in_ports -> size_of (elab_stmt s st) p = or_else (in_width [st] p) (size_of s p).
Proof.
  intros LG.
  assert (NT : forall st, (forall hi ns, st <> Output hi ns) -> ~ terminates [st]).
  { intros st' H (hi & ns & [E|[]] & _). apply (H hi ns). exact E. }
  assert (TT : forall st b, (forall hi ns, st <> Output hi ns) -> (b = true <-> b = true \/ terminates [st])).
  { intros st' b H. split; [auto|]. intros [X|X]; [exact X|]. exfalso. apply (NT st' H X). }
  destruct st as [ws|hi ns|hi ns|a b|k i cs]; cbn [elab_stmt stmt_gates].
  - cbn [regs assigns flat_map out_width in_width or_else]. rewrite !app_nil_r. repeat split; auto; apply TT; discriminate.
  - cbn [regs assigns flat_map out_width or_else in_width]. rewrite !app_nil_r. clear LG.
    assert (T : forall b, b = true <-> b = true \/ terminates [Input hi ns]) by (intros b; split; [auto|intros [H|H]; [auto|exfalso; eapply NT; [|exact H]; discriminate]]).
    enough (X : gate_list_string (fold_left (declare hi) ns s) = gate_list_string s /\ dff_list_string (fold_left (declare hi) ns s) = dff_list_string s /\
      assignment_list_string (fold_left (declare hi) ns s) = assignment_list_string s /\ s_output (fold_left (declare hi) ns s) = s_output s /\
      has_terminate (fold_left (declare hi) ns s) = has_terminate s /\
      forall p, In p in_ports -> size_of (fold_left (declare hi) ns s) p = or_else (if existsb (String.eqb p) ns then bits_of hi else 0%nat) (size_of s p)).
    { destruct X as (A & B & C & D & E & F). rewrite A, B, C, D, E. repeat split; auto; apply T. }
    clear T. revert s. induction ns as [|n ns IH]; intros s; cbn [fold_left existsb]; [repeat split|].
    destruct (IH (declare hi s n)) as (A & B & C & D & E & F). destruct (declare_rest hi s n) as (A' & B' & C' & D' & E').
    rewrite A, B, C, D, E. repeat split; auto. intros p P. rewrite (F p P), (declare_size hi s n p P).
    destruct (existsb (String.eqb p) ns); [rewrite orb_true_r; destruct hi; reflexivity|]. rewrite orb_false_r. destruct (p =? n); [destruct hi|]; reflexivity.
  - cbn [regs assigns flat_map out_width or_else in_width]. rewrite !app_nil_r. destruct LG as [_ LG].
    enough (X : gate_list_string (fold_left (declare_out hi) ns s) = gate_list_string s /\ dff_list_string (fold_left (declare_out hi) ns s) = dff_list_string s /\
      assignment_list_string (fold_left (declare_out hi) ns s) = assignment_list_string s /\
      s_output (fold_left (declare_out hi) ns s) = or_else (if existsb (String.eqb "o") ns then bits_of hi else 0%nat) (s_output s) /\
      (has_terminate (fold_left (declare_out hi) ns s) = true <-> has_terminate s = true \/ In "terminate" ns) /\
      forall p, In p in_ports -> size_of (fold_left (declare_out hi) ns s) p = size_of s p).
    { destruct X as (A & B & C & D & E & F). rewrite A, B, C, D, E. repeat split; auto; intros [H|H]; auto; right.
      - exists hi, ns. split; [left; reflexivity|exact H].
      - destruct H as (hi' & ns' & [H|[]] & H'). injection H as -> ->. exact H'. }
    revert s. induction LG as [|n ns H LG IH]; intros s; cbn [fold_left existsb]; [cbn; repeat split; tauto|].
    destruct (IH (declare_out hi s n)) as (A & B & C & D & E & F). rewrite A, B, C, D, E.
    destruct H as [->|[-> ->]]; cbn [In].
    + change (declare_out hi s "o") with (with_output s (bits_of hi)) in *. cbn [with_output gate_list_string dff_list_string assignment_list_string s_output has_terminate orb].
      repeat (split; [solve [reflexivity|destruct (existsb (String.eqb "o") ns), hi; reflexivity]|]). split; [|exact F].
      assert ("o" <> "terminate") by discriminate. tauto.
    + change (declare_out None s "terminate") with (with_terminate s) in *. cbn [with_terminate gate_list_string dff_list_string assignment_list_string s_output has_terminate].
      repeat (split; [reflexivity|]). split; [tauto|exact F].
  - cbn [regs assigns flat_map out_width or_else in_width app]. rewrite !app_nil_r. repeat split; auto; apply TT; discriminate.
  - assert (T : forall b, b = true <-> b = true \/ terminates [Cell k i cs]) by (intros b; split; [auto|intros [H|H]; [auto|exfalso; eapply NT; [|exact H]; discriminate]]).
    destruct k; cbn [regs assigns flat_map out_width or_else in_width app add_gates add_dff gate_list_string dff_list_string assignment_list_string s_output has_terminate cell_gates];
      rewrite ?app_nil_r; repeat split; auto; apply T.
Qed.
Lemma in_width_cons st m p : in_width (st :: m) p = or_else (in_width m p) (in_width [st] p).
Proof. cbn. destruct (in_width m p); reflexivity. Qed.
Lemma out_width_cons st m : out_width (st :: m) = or_else (out_width m) (out_width [st]).
Proof. cbn. destruct (out_width m); reflexivity. Qed.
Lemma elab_from : forall m s, Forall legal m -> let r := fold_left elab_stmt m s in
  gate_list_string r = gate_list_string s ++ gates_from (List.length (gate_list_string s)) m /\
  dff_list_string r = dff_list_string s ++ regs m /\
  assignment_list_string r = assignment_list_string s ++ assigns m /\
  s_output r = or_else (out_width m) (s_output s) /\
  (has_terminate r = true <-> has_terminate s = true \/ terminates m) /\
  forall p, In p in_ports -> size_of r p = or_else (in_width m p) (size_of s p).
Proof.
  induction m as [|st m IH]; intros s F; cbn [fold_left].
  - cbn. rewrite !app_nil_r. repeat split; auto. intros [H|(hi & ns & [] & _)]. exact H.
  - inversion F as [|? ? L F']; subst. destruct (IH (elab_stmt s st) F') as (A & B & C & D & E & G). destruct (elab_stmt_fields s st L) as (A' & B' & C' & D' & E' & G').
    cbv zeta. rewrite A, B, C, D, E, A', B', C', D', E'. cbn [gates_from]. rewrite app_length, <- !app_assoc. repeat split.
    + unfold regs. cbn [flat_map]. rewrite app_nil_r. reflexivity.
    + unfold assigns. cbn [flat_map]. rewrite app_nil_r. reflexivity.
    + rewrite (out_width_cons st m). destruct (out_width m); reflexivity.
    + intros [[H|(hi & ns & [H|[]] & H')]|(hi & ns & H & H')]; auto; right; exists hi, ns; split; cbn; auto.
    + intros [H|(hi & ns & [H|H] & H')]; auto; [left; right|right]; exists hi, ns; split; cbn; auto.
    + intros p P. rewrite (G p P), (G' p P), (in_width_cons st m p). destruct (in_width m p); reflexivity.
Qed.
Lemma elab_fields m : Forall legal m ->
  gate_list_string (elab m) = gates_from 0 m /\ dff_list_string (elab m) = regs m /\ assignment_list_string (elab m) = assigns m /\
  s_output (elab m) = out_width m /\ (has_terminate (elab m) = true <-> terminates m) /\
  s_p_init (elab m) = in_width m "p_init" /\ s_g_init (elab m) = in_width m "g_init" /\ s_e_init (elab m) = in_width m "e_init" /\
  s_p_input (elab m) = in_width m "p_input" /\ s_g_input (elab m) = in_width m "g_input" /\ s_e_input (elab m) = in_width m "e_input".
Proof.
  intros F. destruct (elab_from m empty_netlist F) as (A & B & C & D & E & G). fold (elab m) in *. cbn [empty_netlist gate_list_string dff_list_string assignment_list_string app List.length] in *.
  assert (G' : forall p, In p in_ports -> size_of (elab m) p = in_width m p).
  { intros p P. rewrite (G p P). cbn in P. decompose [or] P; try contradiction; subst p; cbn; destruct (in_width m _); reflexivity. }
  repeat split; auto.
  - rewrite D. destruct (out_width m); reflexivity.
  - intros H. apply E in H as [H|H]; [discriminate|exact H].
  - intros H. apply E. auto.
  - apply (G' "p_init"). cbn; tauto.
  - apply (G' "g_init"). cbn; tauto.
  - apply (G' "e_init"). cbn; tauto.
  - apply (G' "p_input"). cbn; tauto.
  - apply (G' "g_input"). cbn; tauto.
  - apply (G' "e_input"). cbn; tauto.
Qed.
