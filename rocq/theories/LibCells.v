(** The cells of the two libraries that the synthesis scripts hand to yosys
    (circuit_synthesis/lib/asic_cell_yosys_extended.lib and asic_cell_yosys.lib), and what
    the translator of netlists (Parse.v) takes them for. *)
From Coq Require Import ZArith List Bool Ascii String.
From Verif Require Import Base Gate Circuit Spec Sort Text Netlist Parse.
Import ListNotations.
Open Scope string_scope.
Open Scope list_scope.

(** * The libraries *)

(** A cell: its name, its input pins and, for each output pin, the attribute function. *)
Record cell := mkCell { cell_name : string; cell_ins : list string; cell_outs : list (string * string) }.
Definition gate2 (n z f : string) : cell := mkCell n ["A"; "B"] [(z, f)].

(** asic_cell_yosys_extended.lib:2-74 (the attribute area is left out). *)
Definition extended : list cell :=
  [mkCell "IV" ["A"] [("Z", "A'")];
   gate2 "XOR" "Z" "(A^B)"; gate2 "XNOR" "Z" "(A^B)'";
   gate2 "NOR" "Z" "(A+B)'"; gate2 "OR" "Z" "(A+B)";
   gate2 "NAND" "Z" "(A&B)'"; gate2 "AND" "Z" "(A&B)";
   gate2 "NORN" "Z" "(A+B')'"; gate2 "ORN" "Z" "(A+B')";
   gate2 "NANDN" "Z" "(A&B')'"; gate2 "ANDN" "Z" "(A&B')";
   mkCell "FADDER" ["IN0"; "IN1"; "CIN"]
     [("COUT", "((CIN*IN0)+(CIN*IN1)+(IN0*IN1))"); ("SUM", "IN0^IN1^CIN")]].
(** asic_cell_yosys.lib:2-18 *)
Definition small : list cell :=
  [mkCell "IV" ["A"] [("Y", "A'")]; gate2 "XOR" "Y" "(A^B)"; gate2 "NOR" "Y" "(A+B)'"].

(** The language of the attribute function (it belongs to the Liberty format, whose readers
    are not in /repo): a quote after an operand negates it; [^] is exclusive or, [&] and [*]
    are and, [+] and [|] are or, and bind in this order. *)
Inductive expr := Pin (p : string) | Not (e : expr) | Xor (a b : expr) | And (a b : expr) | Or (a b : expr).
Fixpoint eval (e : expr) (v : string -> bool) : bool :=
  match e with
  | Pin p => v p
  | Not e => negb (eval e v)
  | Xor a b => xorb (eval a v) (eval b v)
  | And a b => eval a v && eval b v
  | Or a b => eval a v || eval b v
  end.
Definition letter (c : ascii) : bool := negb (existsb (Ascii.eqb c) ["'"; "^"; "&"; "*"; "+"; "|"; "("; ")"; " "]%char).
Fixpoint name (t : text) : text * text :=
  match t with
  | c :: t' => if letter c then let (n, r) := name t' in (c :: n, r) else ([], t)
  | [] => ([], [])
  end.
Fixpoint quotes (e : expr) (t : text) : expr * text :=
  match t with c :: t' => if Ascii.eqb c "'" then quotes (Not e) t' else (e, t) | [] => (e, []) end.
(** The operator of a level: 1 exclusive or, 2 and, 3 or. *)
Definition operator (level : nat) (c : ascii) : option (expr -> expr -> expr) :=
  match level with
  | 1%nat => if Ascii.eqb c "^" then Some Xor else None
  | 2%nat => if Ascii.eqb c "&" || Ascii.eqb c "*" then Some And else None
  | 3%nat => if Ascii.eqb c "+" || Ascii.eqb c "|" then Some Or else None
  | _ => None
  end.
Fixpoint read (fuel level : nat) (t : text) : option (expr * text) :=
  match fuel with
  | O => None
  | S fuel =>
    match level with
    | O =>
      match t with
      | [] => None
      | c :: t' =>
        if Ascii.eqb c "("
        then match read fuel 3%nat t' with
             | Some (e, c :: r) => if Ascii.eqb c ")" then Some (quotes e r) else None
             | _ => None
             end
        else match name t with ([], _) => None | (n, r) => Some (quotes (Pin (string_of_list_ascii n)) r) end
      end
    | S below =>
      match read fuel below t with
      | None => None
      | Some (e, []) => Some (e, [])
      | Some (e, c :: r) =>
        match operator level c with
        | None => Some (e, c :: r)
        | Some op => match read fuel level r with Some (e', r') => Some (op e e', r') | None => None end
        end
      end
    end
  end.
(** The value of a function; [None]: not a function. *)
Definition value (f : string) (v : string -> bool) : option bool :=
  match read (4 * S (String.length f))%nat 3%nat (list_ascii_of_string f) with
  | Some (e, []) => Some (eval e v)
  | _ => None
  end.

(** * The flip-flop
    asic_cell_yosys_extended.lib:75-88: ff with next_state D, preset I and clear RST; the
    function of Q is the state.  [None]: not determined (preset and clear both active,
    without clear_preset_var1). *)
Definition forced (q : option bool) (i rst : bool) : option bool :=
  match i, rst with
  | true, true => None
  | true, false => Some true
  | false, true => Some false
  | false, false => q
  end.
(** Q in each cycle after RST was active, with I held; [ds] are the values of D at the
    clock edges. *)
Fixpoint lib_cycles (q : option bool) (i : bool) (ds : list bool) : list (option bool) :=
  let q := forced q i false in
  q :: match ds with [] => [] | d :: ds => lib_cycles (Some d) i ds end.
Definition lib_dff (i : bool) (ds : list bool) : list (option bool) := lib_cycles (forced None i true) i ds.

(** * Specification *)

(** Q of the register the translator makes of a DFF (and of the module DFF in
    dff_full.v:206-228): I first, then D of the cycle before. *)
Definition register (i : bool) (ds : list bool) : list bool := i :: ds.

(** A word inside of a cell statement: none that the grammar reserves, no cell, not [.Z]. *)
Definition plain (w : string) : Prop :=
  ~ In w [";"; "input"; "output"; "assign"; "="; "endmodule"; ".Z"] /\ ~ In w (map fst cell_words).
(** The parser between two statements. *)
Definition idle (st : pstate) : Prop :=
  is_right st = false /\ is_left st = false /\ is_inport st = false /\ is_outport st = false /\ port st = [] /\ port_key st = "".

(** * Proofs *)

Ltac each H := repeat match type of H with _ \/ _ => destruct H as [H|H] | False => contradiction end.

Ltac computed :=
  unfold value; match goal with |- context [read ?a ?b ?c] =>
    let r := eval vm_compute in (read a b c) in replace (read a b c) with r by (vm_compute; reflexivity) end;
  cbn [eval library String.eqb Ascii.eqb Bool.eqb].

(** Every cell of the extended library with its pins is one the translator knows, and its
    outputs are what the translator takes them for. *)
Lemma extended_means : forall c, In c extended -> exists k, kind_name k = cell_name c /\ cell_ins c = pins_in k /\
  (forall z, In z (map fst (cell_outs c)) <-> In z (pins_out k)) /\
  forall z f v, In (z, f) (cell_outs c) -> value f v = Some (library k z v).
Proof.
  intros c H; simpl in H; each H; subst c.
  1: exists IV. 2: exists XOR. 3: exists XNOR. 4: exists NOR. 5: exists OR. 6: exists NAND. 7: exists AND.
  8: exists NORN. 9: exists ORN. 10: exists NANDN. 11: exists ANDN. 12: exists FADDER.
  all: (split; [reflexivity|]); (split; [reflexivity|]); (split; [simpl; tauto|]);
    intros z f v H; simpl in H; each H; injection H as <- <-; computed;
    first [reflexivity | destruct (v "IN0"), (v "IN1"), (v "CIN"); reflexivity].
Qed.

(** Which cells the translator knows and the library lacks. *)
Lemma extended_lacks : forall k, (forall c, In c extended -> cell_name c <> kind_name k) <-> k = MUX \/ k = HADDER \/ k = DFF.
Proof.
  intros k; split.
  - intros H; destruct (in_dec string_dec (kind_name k) (map cell_name extended)) as [I|I].
    + apply in_map_iff in I; destruct I as (c & E & Hc); exfalso; exact (H c Hc E).
    + destruct k; try tauto; exfalso; apply I; simpl; tauto.
  - intros H c Hc; simpl in Hc; each Hc; subst c; destruct H as [->|[->| ->]]; discriminate.
Qed.

Lemma get_none : forall (l : list (string * Z)) w, ~ In w (map fst l) -> get l w = None.
Proof. induction l as [|[k z] l IH]; intros w H; simpl; [reflexivity|]. destruct (String.eqb_spec w k); [subst; exfalso; apply H; now left|]. apply IH; intros ?; apply H; now right. Qed.

(** The state inside of a cell statement without [.Z]. *)
Definition inside (t : Z) (st : pstate) : Prop :=
  gate_type st = t /\ is_right st = false /\ is_left st = false /\ is_inport st = false /\ is_outport st = false /\
  pget (port st) "Z" = None /\ port_key st <> "Z".

Lemma pin_key : forall w k, pget pin_words w = Some k -> w <> ".Z" -> k <> "Z".
Proof.
  intros w k H N E; subst k; unfold pin_words in H; cbn [pget] in H.
  repeat match type of H with context [String.eqb w ?x] => destruct (String.eqb_spec w x); [solve [discriminate|contradiction]|] end; discriminate.
Qed.

Lemma step_inside : forall log t st w, inside t st -> plain w -> exists st', step log st w = Done st' /\ inside t st'.
Proof.
  intros log t st w (Ht & Hr & Hl & Hi & Ho & Hz & Hk) (P1 & P2); unfold step.
  assert (N : forall x, In x [";"; "input"; "output"; "assign"; "="; "endmodule"; ".Z"] -> (w =? x) = false)
    by (intros x Hx; destruct (String.eqb_spec w x); [subst; contradiction|reflexivity]).
  rewrite (N ";"), (N "input"), (N "output"), (N "assign"), (N "=") by (simpl; tauto).
  rewrite Hi, Ho, Hl, Hr, (get_none _ _ P2).
  assert (NZ : w <> ".Z") by (intros ->; apply P1; simpl; tauto).
  destruct (pget pin_words w) as [k|] eqn:E.
  - eexists; split; [reflexivity|]; unfold inside; cbn; repeat split; auto; eapply pin_key; eauto.
  - destruct (port_key st =? ""); [exists st; split; [reflexivity|unfold inside; tauto]|].
    assert (K : ("Z" =? port_key st) = false) by (destruct (String.eqb_spec "Z" (port_key st)); congruence).
    destruct (starts_with "[" w); (eexists; split; [reflexivity|]); unfold inside; cbn -[String.eqb]; rewrite ?K; repeat split; auto; discriminate.
Qed.

Lemma parse_inside : forall log t ws st rest, inside t st -> Forall plain ws ->
  exists st', inside t st' /\ parse log st (ws ++ rest) = parse log st' rest.
Proof.
  intros log t; induction ws as [|w ws IH]; intros st rest I F; [exists st; auto|].
  inversion F; subst. destruct (step_inside log t st w I) as (st' & E & I'); [assumption|].
  destruct (IH st' rest I') as (st2 & I2 & E2); [assumption|]. exists st2; split; [exact I2|].
  simpl. assert (Hn : (w =? "endmodule") = false).
  { destruct (String.eqb_spec w "endmodule"); [|reflexivity]. subst; exfalso; apply (proj1 H1); simpl; tauto. }
  rewrite Hn, E; exact E2.
Qed.

(** A cell of the small library, whose output is called Y, ends the translation with
    FAILURE wherever it stands, whatever its pins are connected to. *)
Lemma small_fails : forall c st ws rest, In c small -> idle st -> Forall plain ws ->
  parse true st (cell_name c :: ws ++ ";" :: rest) = Failed.
Proof.
  intros c st ws rest Hc (Hr & Hl & Hi & Ho & Hp & Hk) F.
  assert (G : exists t, In t [NOTGATE; XORGATE; NORGATE] /\
    forall r, parse true st (cell_name c :: r) = parse true (set_type st t) r).
  { simpl in Hc; each Hc; subst c; cbn [cell_name gate2 parse];
      [exists NOTGATE|exists XORGATE|exists NORGATE]; (split; [simpl; tauto|]); intros r;
      unfold step; rewrite Hi, Ho, Hl, Hr; reflexivity. }
  destruct G as (t & Ht & G); rewrite G.
  destruct (parse_inside true t ws (set_type st t) (";" :: rest)) as (st' & (T & _ & _ & _ & _ & Z & _) & E); [|exact F|].
  { unfold inside; destruct st; cbn in *; subst; repeat split; auto; discriminate. }
  rewrite E; cbn [parse]. change (";" =? "endmodule") with false; cbv iota.
  unfold step; change (";" =? ";") with true; cbv iota.
  unfold semicolon; rewrite T; unfold check, filled; rewrite Z.
  simpl in Ht; each Ht; subst t; cbn -[pget]; rewrite ?andb_false_r; reflexivity.
Qed.

Definition text_of (s : string) : text := list_ascii_of_string s.
(** One XOR of each library, with the same nets. *)
Definition xor_with (z : string) : string :=
  "module m ( g_input , e_input , o ) ; input g_input ; input e_input ; output o ; XOR u ( .A ( g_input ) , .B ( e_input ) , ." ++ z ++ " ( o ) ) ; endmodule".
Definition gates_of (r : result ReadCircuitString) : option (list ReadGateString) :=
  match r with Done s => Some (gate_list_string s) | _ => None end.
Example small_case :
  gates_of (ParseNetlist true (Some (text_of (xor_with "Z")))) = Some [mkRGS "g_input" "e_input" "o" XORGATE] /\
  ParseNetlist true (Some (text_of (xor_with "Y"))) = Failed /\
  gates_of (ParseNetlist false (Some (text_of (xor_with "Y")))) = Some [mkRGS "g_input" "o" "" XORGATE].
Proof. repeat split; vm_compute; reflexivity. Qed.

Example small_words : idle start /\ Forall plain ["u"; ".A"; "g_input"; ".B"; "e_input"; ".Y"; "o"] /\
  parse true start ["XOR"; "u"; ".A"; "g_input"; ".B"; "e_input"; ".Y"; "o"; ";"; "endmodule"] = Failed.
Proof.
  split; [repeat split|]. split; [|vm_compute; reflexivity].
  repeat constructor; intros H; cbn in H; repeat (destruct H as [H|H]; [discriminate|]); exact H.
Qed.

(** Refuted: both libraries can be used. *)
Theorem small_refuted : ~ forall c, In c (extended ++ small) -> exists k, kind_name k = cell_name c /\
  forall z, In z (map fst (cell_outs c)) -> In z (pins_out k).
Proof.
  intros H. destruct (H (gate2 "XOR" "Y" "(A^B)")) as (k & K & P); [simpl; tauto|].
  specialize (P "Y" (or_introl eq_refl)). destruct k; try discriminate K. simpl in P. destruct P as [P|[]]; discriminate.
Qed.

Lemma dff_zero : forall ds, lib_dff false ds = map Some (register false ds).
Proof.
  intros ds; unfold lib_dff, register; cbn [forced]; generalize false at 1 3.
  induction ds as [|d ds IH]; intros q; cbn; [reflexivity|]. f_equal; apply IH.
Qed.
Lemma dff_one : forall ds, lib_dff true ds = repeat (Some true) (S (List.length ds)).
Proof.
  intros ds; unfold lib_dff; generalize (forced None true true).
  induction ds as [|d ds IH]; intros q; cbn; [reflexivity|]. f_equal; apply IH.
Qed.
(** Refuted: the flip-flop of the library is the register. *)
Theorem dff_refuted : ~ forall i ds, lib_dff i ds = map Some (register i ds).
Proof. intros H; specialize (H true [false]); discriminate. Qed.

Example cells_case : forall v, value "IN0^IN1^CIN" v = Some (xorb (v "IN0") (xorb (v "IN1") (v "CIN"))) /\
  value "A^B&C+D'" v = Some (xorb (v "A") (v "B") && v "C" || negb (v "D")) /\ value "(A+B" v = None.
Proof. intros v; repeat split; computed; reflexivity. Qed.
Example dff_case : lib_dff false [true; false; true] = [Some false; Some true; Some false; Some true] /\
  lib_dff true [false; false] = [Some true; Some true; Some true] /\ register true [false; false] = [true; false; false].
Proof. repeat split. Qed.
