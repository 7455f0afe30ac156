(** The parser reads back what a module says. *)
From Coq Require Import ZArith NArith List Bool Ascii String Lia.
From Verif Require Import Base Gate Circuit Spec Sort Text Netlist Parse.
Import ListNotations.
Open Scope Z_scope.
Open Scope string_scope.
Open Scope list_scope.

(** * Words *)
Lemma scan_chars : forall l cur t, Forall (fun c => separator c = false /\ c <> ";"%char) l -> scan cur (l ++ t) = scan (cur ++ l) t.
Proof.
  induction l as [|c l IH]; intros cur t F; [rewrite app_nil_r; reflexivity|]. inversion F as [|? ? [A B] F']; subst.
  cbn [app scan]. rewrite A. destruct (Ascii.eqb_spec c ";"); [congruence|]. rewrite IH by exact F'. rewrite <- app_assoc. reflexivity.
Qed.
Lemma words_written ws t : written ws t -> words t = ws.
Proof.
  unfold words. induction 1 as [|c ws t S W IH|ws t W IH|w ws t NE F ST W IH].
  - reflexivity.
  - cbn [scan]. rewrite S. exact IH.
  - cbn [scan]. change (separator ";") with false. cbv iota. change (Ascii.eqb ";" ";") with true. cbv iota. cbn [flush]. f_equal. exact IH.
  - rewrite scan_chars by exact F. cbn [app].
    assert (FL : forall l, flush (list_ascii_of_string w) l = w :: l).
    { intros l. destruct w as [|a w]; [congruence|]. unfold flush. cbn [list_ascii_of_string]. f_equal.
      change (a :: list_ascii_of_string w) with (list_ascii_of_string (String a w)). apply string_of_list_ascii_of_string. }
    destruct t as [|c t].
    + cbn [scan] in *. rewrite FL. cbn [flush] in IH. congruence.
    + cbn [scan] in *. destruct ST as [ST| ->].
      * rewrite ST in *. cbn [flush] in IH. rewrite FL. congruence.
      * change (separator ";") with false in *. cbv iota in *. change (Ascii.eqb ";" ";") with true in *. cbv iota in *.
        cbn [flush] in IH. rewrite FL. congruence.
Qed.

Lemma range_bits_ok h : Z.of_nat h < 2 ^ 31 - 1 -> range_bits ("[" ++ to_string h ++ ":0]")%string = Some (S h).
Proof.
  intros H. unfold range_bits, to_string.
  assert (LA : forall a b, list_ascii_of_string (a ++ b)%string = list_ascii_of_string a ++ list_ascii_of_string b).
  { induction a; intros b; cbn; [reflexivity|]. rewrite IHa. reflexivity. }
  rewrite !LA, list_ascii_of_string_of_list_ascii. destruct (dec_ok (N.of_nat h)) as (NE & F & V).
  assert (D : forall c, is_digit c -> is_punct c || is_space c = false).
  { intros c H'. rewrite (digit_not_space c H'), orb_false_r. destruct H' as [d H']. unfold char_digit in H'. unfold is_punct.
    destruct (N.leb_spec 48 (N_of_ascii c)); [|discriminate]. destruct (N.leb_spec (N_of_ascii c) 57); [|discriminate].
    destruct (N.leb_spec (N_of_ascii c) 47); [lia|]. destruct (N.leb_spec 58 (N_of_ascii c)); [lia|].
    destruct (N.leb_spec 91 (N_of_ascii c)); [lia|]. destruct (N.leb_spec 123 (N_of_ascii c)); [lia|]. rewrite !andb_false_r. reflexivity. }
  assert (R : first_word (list_ascii_of_string "[" ++ dec (N.of_nat h) ++ list_ascii_of_string ":0]") = dec (N.of_nat h)).
  { change (list_ascii_of_string "[" ++ dec (N.of_nat h) ++ list_ascii_of_string ":0]") with ("["%char :: dec (N.of_nat h) ++ list_ascii_of_string ":0]").
    cbn [first_word]. change (is_punct "[" || is_space "[") with true. cbv iota. destruct (dec (N.of_nat h)) as [|c ds]; [congruence|].
    inversion F as [|? ? C F']; subst. cbn [app first_word]. rewrite !(D c C). f_equal. clear - D F'. induction ds as [|c ds IH].
    - reflexivity.
    - inversion F' as [|? ? C F'']; subst. cbn [app]. rewrite (D c C). f_equal. apply IH. exact F''. }
  rewrite R. specialize (V [] Logic.I). rewrite app_nil_r in V. destruct (dec (N.of_nat h)) as [|c ds]; [congruence|]. rewrite V.
  destruct (N.ltb_spec (N.of_nat h) (2 ^ 31 - 1)) as [L|L]; [rewrite Nat2N.id; reflexivity|]. exfalso. clear - H L.
  assert (2 ^ 31 - 1 <= Z.of_N (N.of_nat h)) by (change (2 ^ 31 - 1) with (Z.of_N (2 ^ 31 - 1)); lia). rewrite nat_N_Z in *. lia.
Qed.

(** * Statements *)
Definition declare (hi : option nat) (s : ReadCircuitString) (n : string) : ReadCircuitString :=
  match with_input s n (bits_of hi) with Some s' => s' | None => s end.
Definition declare_out (hi : option nat) (s : ReadCircuitString) (n : string) : ReadCircuitString :=
  if n =? "o" then with_output s (bits_of hi) else with_terminate s.
(** The nets at the pins, except clock and reset. *)
Definition wiring (cs : list (string * netref)) : ports := map (fun c => (fst c, net (snd c))) cs.
Definition kind_type (k : kind) : Z :=
  match k with
  | AND => ANDGATE | ANDN => ANDNGATE | NAND => NANDGATE | NANDN => NANDNGATE | OR => ORGATE | ORN => ORNGATE | NOR => NORGATE | NORN => NORNGATE
  | XOR => XORGATE | XNOR => XNORGATE | IV => NOTGATE | DFF => DFFGATE | MUX => MUXGATE | HADDER => HADDERGATE | FADDER => FADDERGATE
  end.
Definition cell_gates (k : kind) (n : nat) (p : ports) : list ReadGateString :=
  match k with
  | IV => [mkRGS (pval p "A") "" (pval p "Z") NOTGATE]
  | DFF => []
  | MUX => mux_gates n p
  | HADDER => hadder_gates p
  | FADDER => fadder_gates n p
  | _ => [mkRGS (pval p "A") (pval p "B") (pval p "Z") (kind_type k)]
  end.
Definition elab_stmt (s : ReadCircuitString) (st : stmt) : ReadCircuitString :=
  match st with
  | Other _ => s
  | Input hi ns => fold_left (declare hi) ns s
  | Output hi ns => fold_left (declare_out hi) ns s
  | Assign a b => with_assign s (assignment_list_string s ++ [(a, b)])
  | Cell DFF _ cs => add_dff s (mkRGS (pval (wiring cs) "D") (pval (wiring cs) "I") (pval (wiring cs) "Q") DFFGATE)
  | Cell k _ cs => add_gates s (cell_gates k (List.length (gate_list_string s)) (wiring cs))
  end.
Definition elab (m : list stmt) : ReadCircuitString := fold_left elab_stmt m empty_netlist.

(** * Running the parser over words *)
Section Run.
Variable log : bool.
Fixpoint runs (st : pstate) (ws : list string) (st' : pstate) : Prop :=
  match ws with
  | [] => st = st'
  | w :: ws => w <> "endmodule" /\ exists st1, step log st w = Done st1 /\ runs st1 ws st'
  end.
Lemma runs_app : forall ws1 ws2 a b c, runs a ws1 b -> runs b ws2 c -> runs a (ws1 ++ ws2) c.
Proof. induction ws1; cbn [runs app]; intros ws2 x y z H1 H2; [subst; auto|]. destruct H1 as (N & s1 & S & H1). eauto. Qed.
Lemma runs_parse : forall ws r a b, runs a ws b -> parse log a (ws ++ r) = parse log b r.
Proof.
  induction ws; cbn [runs app]; intros r x y H; [subst; auto|]. destruct H as (N & s1 & S & H). cbn [parse].
  destruct (String.eqb_spec a "endmodule"); [congruence|]. rewrite S. auto.
Qed.

Definition clean (s : ReadCircuitString) : pstate := mkP INVALGATE 0 false false false false [] "" s.

Lemma get_notin : forall (t : list (string * Z)) n, ~ In n (map fst t) -> get t n = None.
Proof.
  induction t as [|[m k] t IH]; cbn; intros n H; [reflexivity|]. destruct (String.eqb_spec n m); [subst; tauto|]. apply IH. tauto.
Qed.
Lemma pget_notin : forall (t : ports) n, ~ In n (map fst t) -> pget t n = None.
Proof.
  induction t as [|[m k] t IH]; cbn; intros n H; [reflexivity|]. destruct (String.eqb_spec n m); [subst; tauto|]. apply IH. tauto.
Qed.
Lemma not_reserved w : ~ In w reserved ->
  (w =? ";") = false /\ w <> "endmodule" /\ (w =? "input") = false /\ (w =? "output") = false /\ (w =? "assign") = false /\ (w =? "=") = false /\
  get cell_words w = None /\ pget pin_words w = None.
Proof.
  unfold reserved. rewrite !in_app_iff. intros H.
  assert (E : forall x, In x [";"; "endmodule"; "input"; "output"; "assign"; "="] -> w <> x) by (intros x X ->; apply H; left; exact X).
  repeat split; first [apply String.eqb_neq; apply E; cbn [In]; tauto | apply E; cbn [In]; tauto | apply get_notin; tauto | apply pget_notin; tauto].
Qed.
Lemma bracket_not_reserved w : starts_with "[" w = true -> ~ In w reserved.
Proof.
  intros H I. assert (F : Forall (fun w => starts_with "[" w = false) reserved) by (repeat (constructor; [reflexivity|]); constructor).
  rewrite Forall_forall in F. rewrite (F w I) in H. discriminate.
Qed.
(** A word that means nothing by itself, between statements or in a cell. *)
Lemma step_word st w : ~ In w reserved -> is_inport st = false -> is_outport st = false -> is_left st = false -> is_right st = false ->
  step log st w = if port_key st =? "" then Done st
      else if starts_with "[" w
      then Done (mkP (gate_type st) (no_of_bits st) false false false false
                            ((port_key st, (pval (port st) (port_key st) ++ w)%string) :: port st) "" (circ st))
      else Done (mkP (gate_type st) (no_of_bits st) false false false false ((port_key st, w) :: port st) (port_key st) (circ st)).
Proof.
  intros N I O L R. destruct (not_reserved w N) as (A & B & C & D & E & F & G & H). unfold step.
  rewrite A, C, I, D, O, E, L, F, R, G, H. destruct st; cbn in *; subst. reflexivity.
Qed.

Lemma run_other s ws : Forall (fun w => ~ In w reserved) ws -> runs (clean s) (ws ++ [";"]) (clean s).
Proof.
  intros F. apply runs_app with (clean s).
  - induction F as [|w ws N F IH]; cbn [runs]; [reflexivity|]. split; [apply (not_reserved w N)|]. exists (clean s).
    rewrite step_word by (auto; reflexivity). split; [reflexivity|exact IH].
  - cbn [runs]. split; [discriminate|]. eexists. split; reflexivity.
Qed.

Definition in_decl (n : nat) (s : ReadCircuitString) : pstate := mkP INVALGATE n false false true false [] "" s.
Definition out_decl (n : nat) (s : ReadCircuitString) : pstate := mkP INVALGATE n false false false true [] "" s.
Definition no_bits (hi : option nat) : nat := match hi with None => 0%nat | Some h => S h end.

Lemma range_word_ok h : Z.of_nat h < 2 ^ 31 - 1 ->
  let w := ("[" ++ to_string h ++ ":0]")%string in starts_with "[" w = true /\ ~ In w reserved /\ range_bits w = Some (S h).
Proof.
  intros H w. split; [reflexivity|]. split; [apply bracket_not_reserved; reflexivity|]. apply range_bits_ok. exact H.
Qed.
Lemma run_input hi ns s : legal (Input hi ns) -> runs (clean s) (stmt_words (Input hi ns)) (clean (fold_left (declare hi) ns s)).
Proof.
  intros [HI F]. cbn [stmt_words]. cbn [runs]. split; [discriminate|]. exists (in_decl 0 s). split; [reflexivity|].
  apply runs_app with (in_decl (no_bits hi) s).
  - destruct hi as [h|]; cbn [range_word runs no_bits]; [|reflexivity]. destruct (range_word_ok h (HI h eq_refl)) as (A & B & C).
    destruct (not_reserved _ B) as (B1 & B2 & B3 & _). split; [exact B2|]. exists (in_decl (S h) s). split; [|reflexivity].
    unfold step. rewrite B1, B3. cbn [is_inport in_decl]. unfold in_word. rewrite A, C. reflexivity.
  - apply runs_app with (in_decl (no_bits hi) (fold_left (declare hi) ns s)).
    + clear HI. revert s. induction F as [|n ns H F IH]; intros s; cbn [runs fold_left]; [reflexivity|].
      cbn in H. decompose [or] H; try contradiction; subst n; (split; [discriminate|]); eexists; (split; [|apply IH]);
        unfold declare, step, in_word; cbn; destruct hi; reflexivity.
    + cbn [runs]. split; [discriminate|]. eexists. split; reflexivity.
Qed.
Lemma run_output hi ns s : legal (Output hi ns) -> runs (clean s) (stmt_words (Output hi ns)) (clean (fold_left (declare_out hi) ns s)).
Proof.
  intros [HI F]. cbn [stmt_words]. cbn [runs]. split; [discriminate|]. exists (out_decl 0 s). split; [reflexivity|].
  apply runs_app with (out_decl (no_bits hi) s).
  - destruct hi as [h|]; cbn [range_word runs no_bits]; [|reflexivity]. destruct (range_word_ok h (HI h eq_refl)) as (A & B & C).
    destruct (not_reserved _ B) as (B1 & B2 & B3 & B4 & _). split; [exact B2|]. exists (out_decl (S h) s). split; [|reflexivity].
    unfold step. rewrite B1, B3, B4. cbn [is_inport is_outport out_decl]. unfold out_word. rewrite A, C. reflexivity.
  - apply runs_app with (out_decl (no_bits hi) (fold_left (declare_out hi) ns s)).
    + clear HI. revert s. induction F as [|n ns H F IH]; intros s; cbn [runs fold_left]; [reflexivity|].
      destruct H as [->|[-> ->]]; (split; [discriminate|]); eexists; (split; [|apply IH]); unfold declare_out, step, out_word; cbn; [destruct hi|]; reflexivity.
    + cbn [runs]. split; [discriminate|]. eexists. split; reflexivity.
Qed.
Lemma run_assign a b s : legal (Assign a b) -> runs (clean s) (stmt_words (Assign a b)) (clean (with_assign s (assignment_list_string s ++ [(a, b)]))).
Proof.
  intros [[A _] [B _]]. destruct (not_reserved a A) as (A1 & A2 & A3 & A4 & A5 & A6 & _). destruct (not_reserved b B) as (B1 & B2 & B3 & B4 & B5 & B6 & _).
  cbn [stmt_words runs]. split; [discriminate|]. eexists. split; [reflexivity|]. split; [exact A2|]. eexists. split.
  { unfold step. rewrite A1, A3. cbn [is_inport clean set_flags is_outport]. rewrite A4, A5. cbn [is_left]. reflexivity. }
  split; [discriminate|]. eexists. split; [reflexivity|]. split; [exact B2|]. eexists. split.
  { unfold step. rewrite B1, B3. cbn [is_inport clean set_flags is_outport set_circ]. rewrite B4, B5. cbn [is_left]. rewrite B6. cbn [is_right].
    unfold right_word. cbn [circ with_assign assignment_list_string set_circ set_flags clean]. rewrite rev_unit. rewrite rev_involutive. reflexivity. }
  split; [discriminate|]. eexists. split; reflexivity.
Qed.

(** ** Cells *)
Definition in_cell (t : Z) (p : ports) (k : string) (s : ReadCircuitString) : pstate := mkP t 0 false false false false p k s.
Definition all_pins : list string := ["A"; "B"; "D"; "I"; "Z"; "Q"; "IN0"; "IN1"; "CIN"; "SEL"; "COUT"; "SUM"; "F"].
Lemma run_conns t s : forall cs p key,
  Forall (fun c => In (fst c) (["CLK"; "RST"] ++ all_pins) /\ ordinary (fst (snd c)) /\ forall i, snd (snd c) = Some i -> starts_with "[" i = true) cs ->
  NoDup (map fst cs) -> (forall q, In q (map fst cs) -> pget p q = None) ->
  exists p' key', runs (in_cell t p key s) (flat_map conn_words cs) (in_cell t p' key' s) /\
    forall q, In q all_pins -> pget p' q = match at_pin cs q with Some n => Some n | None => pget p q end.
Proof.
  induction cs as [|[pin [n i]] cs IH]; intros p key F ND FR; cbn [flat_map].
  - exists p, key. split; [reflexivity|]. reflexivity.
  - inversion F as [|? ? (P & (N & NE & NB) & BI) F']; subst. cbn [fst snd] in *. inversion ND as [|? ? NI ND']; subst.
    assert (KEY : exists k, step log (in_cell t p key s) ("." ++ pin)%string = Done (in_cell t p k s) /\ ("." ++ pin)%string <> "endmodule" /\
              (k = "" /\ ~ In pin all_pins \/ k = pin /\ In pin all_pins /\ (k =? "") = false)).
    { assert (NP : forall q, In q ["CLK"; "RST"] -> ~ In q all_pins) by (intros q [<-|[<-|[]]]; vm_compute; intuition discriminate).
      apply in_app_or in P as [P|P].
      - exists "". pose proof (NP _ P). cbn in P. decompose [or] P; try contradiction; subst pin; (split; [reflexivity|split; [discriminate|auto]]).
      - exists pin. pose proof P as P'. unfold all_pins in P. cbn [In] in P. decompose [or] P; try contradiction; subst pin; (split; [reflexivity|split; [discriminate|auto]]). }
    destruct KEY as (k & SK & NEND & KC).
    destruct (not_reserved n N) as (_ & NEn & _).
    set (p1 := if k =? "" then p else (k, n) :: p).
    assert (S1 : step log (in_cell t p k s) n = Done (in_cell t p1 k s)).
    { rewrite step_word by (auto; reflexivity). cbn [port_key in_cell]. rewrite NB. unfold p1. destruct (k =? ""); reflexivity. }
    assert (S2 : forall i0, i = Some i0 -> exists k2, step log (in_cell t p1 k s) i0 = Done (in_cell t (if k =? "" then p else (k, (n ++ i0)%string) :: p1) k2 s) /\ i0 <> "endmodule").
    { intros i0 E. specialize (BI i0 E). pose proof (bracket_not_reserved _ BI) as NR. exists (if k =? "" then k else ""). split; [|apply (not_reserved _ NR)].
      rewrite step_word by (auto; reflexivity). cbn [port_key in_cell]. rewrite BI. unfold p1. destruct (k =? "") eqn:EK; [reflexivity|].
      cbn [port in_cell]. unfold pval. cbn [pget]. rewrite String.eqb_refl. reflexivity. }
    set (p2 := match i with None => p1 | Some i0 => if k =? "" then p else (k, (n ++ i0)%string) :: p1 end).
    assert (R : exists k2, runs (in_cell t p key s) (conn_words (pin, (n, i))) (in_cell t p2 k2 s)).
    { unfold conn_words. cbn [fst snd]. destruct i as [i0|].
      - destruct (S2 i0 eq_refl) as (k2 & S2' & NE2). exists k2. cbn [runs]. split; [exact NEND|]. eexists. split; [exact SK|].
        split; [exact NEn|]. eexists. split; [exact S1|]. split; [exact NE2|]. eexists. split; [exact S2'|reflexivity].
      - exists k. cbn [runs]. split; [exact NEND|]. eexists. split; [exact SK|]. split; [exact NEn|]. eexists. split; [exact S1|reflexivity]. }
    destruct R as [k2 R].
    assert (G : forall q, pget p2 q = if (In_dec string_dec pin all_pins) then (if q =? pin then Some (net (n, i)) else pget p q) else pget p q).
    { intros q. unfold p2, p1, net. cbn [fst snd]. destruct (in_dec string_dec pin all_pins) as [IN|NIN].
      - destruct KC as [[-> NO]|(-> & _ & EK)]; [contradiction|]. rewrite EK. destruct i as [i0|]; cbn [pget]; destruct (String.eqb_spec q pin); reflexivity.
      - destruct KC as [[-> NO]|(-> & IN & EK)]; [|contradiction]. cbn [String.eqb]. destruct i; reflexivity. }
    destruct (IH p2 k2 F' ND') as (p' & k' & R' & V').
    { intros q Q. rewrite G. assert (q <> pin) by (intros ->; contradiction). destruct (String.eqb_spec q pin); [contradiction|].
      destruct (in_dec string_dec pin all_pins); apply FR; cbn; auto. }
    exists p', k'. split; [eapply runs_app; eauto|]. intros q Q. rewrite (V' q Q). cbn [at_pin]. rewrite G.
    destruct (String.eqb_spec q pin) as [->|NQ].
    + assert (AN : at_pin cs pin = None).
      { clear - NI. induction cs as [|[x r] cs IH]; [reflexivity|]. cbn in *. destruct (String.eqb_spec pin x); [subst; tauto|]. apply IH. tauto. }
      rewrite AN. destruct (in_dec string_dec pin all_pins); [reflexivity|contradiction].
    + destruct (at_pin cs q); [reflexivity|]. destruct (in_dec string_dec pin all_pins); reflexivity.
Qed.
Lemma at_pin_wiring cs p : pget (wiring cs) p = at_pin cs p.
Proof. unfold wiring. induction cs as [|[q r] cs IH]; [reflexivity|]. cbn [map fst snd pget at_pin]. rewrite IH. reflexivity. Qed.
Lemma at_pin_nonempty cs p n : Forall (fun c => ordinary (fst (snd c))) cs -> at_pin cs p = Some n -> n <> "".
Proof.
  induction cs as [|[q [a i]] cs IH]; cbn [at_pin]; intros F E; [discriminate|]. inversion F as [|? ? (_ & NE & _) F']; subst. cbn [fst snd] in NE.
  destruct (p =? q); [|auto]. injection E as <-. unfold net. cbn [fst snd]. destruct i; [|exact NE]. destruct a; [congruence|discriminate].
Qed.
Lemma run_cell k i cs s : legal (Cell k i cs) -> runs (clean s) (stmt_words (Cell k i cs)) (clean (elab_stmt s (Cell k i cs))).
Proof.
  intros ((NI & _ & _) & ND & F & IN & OUT). cbn [stmt_words].
  assert (PA : forall p, In p (pins_in k ++ pins_out k) -> In p all_pins).
  { intros p H. destruct k; cbn in H; decompose [or] H; try contradiction; subst p; cbn; tauto. }
  assert (F' : Forall (fun c => In (fst c) (["CLK"; "RST"] ++ all_pins) /\ ordinary (fst (snd c)) /\ forall i, snd (snd c) = Some i -> starts_with "[" i = true) cs).
  { eapply Forall_impl; [|exact F]. intros c (A & B). split; [|exact B]. rewrite in_app_iff in *. destruct A as [A|A]; [auto|right; apply PA; exact A]. }
  assert (FO : Forall (fun c => ordinary (fst (snd c))) cs) by (eapply Forall_impl; [|exact F]; intros c (_ & B & _); exact B).
  destruct (run_conns (kind_type k) s cs [] "" F' ND (fun _ _ => eq_refl)) as (p' & key' & R & V).
  assert (V' : forall q, In q all_pins -> pget p' q = pget (wiring cs) q).
  { intros q Q. rewrite (V q Q), at_pin_wiring. destruct (at_pin cs q); reflexivity. }
  cbn [runs]. split; [destruct k; discriminate|]. exists (in_cell (kind_type k) [] "" s). split; [destruct k; reflexivity|].
  split; [apply (not_reserved i NI)|]. exists (in_cell (kind_type k) [] "" s). split; [rewrite step_word by (auto; reflexivity); reflexivity|].
  eapply runs_app; [exact R|]. cbn [runs]. split; [discriminate|]. eexists. split; [|reflexivity].
  unfold step. cbn [String.eqb Ascii.eqb Bool.eqb].
  change ((";" =? ";")%string) with true. cbv iota.
  assert (PV : forall q, In q all_pins -> pval p' q = pval (wiring cs) q) by (intros q Q; unfold pval; rewrite (V' q Q); reflexivity).
  assert (HV : forall q, In q all_pins -> has p' q = has (wiring cs) q) by (intros q Q; unfold has; rewrite (V' q Q); reflexivity).
  assert (FI : forall q, In q all_pins -> at_pin cs q <> None -> filled p' q = true).
  { intros q Q N. unfold filled. rewrite (V' q Q), at_pin_wiring. destruct (at_pin cs q) as [n|] eqn:E; [|congruence].
    pose proof (at_pin_nonempty cs q n FO E). destruct (String.eqb_spec n ""); [congruence|reflexivity]. }
  assert (CK : forall b r, b = true -> check log b r = r) by (intros b r ->; unfold check; rewrite andb_false_r; reflexivity).
  assert (FIN : forall q, In q (pins_in k) -> filled p' q = true) by (intros q Q; apply FI; [apply PA; apply in_or_app; auto|apply IN; exact Q]).
  destruct OUT as (po & PO & AO). assert (FOUT : filled p' po = true) by (apply FI; [apply PA; apply in_or_app; auto|exact AO]).
  unfold semicolon. cbn [gate_type in_cell port circ].
  destruct k; cbn [kind_type pins_in pins_out] in *; cbn -[check filled cell_done add_gates add_dff mux_gates hadder_gates fadder_gates all_pins];
  try (destruct PO as [<-|[]]; rewrite CK by (rewrite ?FIN, ?FOUT by (cbn; tauto); reflexivity);
       cbn [elab_stmt cell_gates]; unfold mux_gates; rewrite !PV by (cbn; tauto); reflexivity).
  - destruct PO as [<-|[<-|[]]]; rewrite CK by (rewrite !FIN, ?FOUT by (cbn; tauto); rewrite ?orb_true_r; reflexivity);
      cbn [elab_stmt cell_gates]; unfold hadder_gates; rewrite !PV, !HV by (cbn; tauto); reflexivity.
  - destruct PO as [<-|[<-|[]]]; rewrite CK by (rewrite !FIN, ?FOUT by (cbn; tauto); rewrite ?orb_true_r; reflexivity);
      cbn [elab_stmt cell_gates]; unfold fadder_gates; rewrite !PV, !HV by (cbn; tauto); reflexivity.
Qed.
Lemma run_stmt st s : legal st -> runs (clean s) (stmt_words st) (clean (elab_stmt s st)).
Proof. destruct st; [apply run_other|apply run_input|apply run_output|apply run_assign|apply run_cell]. Qed.
Lemma run_module : forall m s, Forall legal m -> runs (clean s) (flat_map stmt_words m) (clean (fold_left elab_stmt m s)).
Proof.
  induction m as [|st m IH]; intros s F; [reflexivity|]. inversion F; subst. cbn [flat_map fold_left].
  eapply runs_app; [apply run_stmt; auto|apply IH; auto].
Qed.
Theorem parse_module m t : Forall legal m -> written (module_words m) t -> ParseNetlist log (Some t) = Done (elab m).
Proof.
  intros F W. unfold ParseNetlist. rewrite (words_written _ _ W). unfold module_words, start.
  rewrite (runs_parse _ _ _ _ (run_module m empty_netlist F)). reflexivity.
Qed.
End Run.
