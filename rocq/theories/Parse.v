(** Structural Verilog netlists: the parser (ParseNetlist in scd/parse_netlist.cpp)
    and, apart from it, the syntax and meaning of the netlists it is for. *)
From Coq Require Import ZArith NArith List Bool Ascii String.
From Verif Require Import Base Gate Circuit Spec Sort Text Netlist.
Import ListNotations.
Open Scope Z_scope.
Open Scope string_scope.
Open Scope list_scope.

(** * Words
    parse_netlist.cpp:89-93: every line is cut at blanks, commas, parentheses, tabs
    and carriage returns; a semicolon is a word of its own.  Lines are cut one after
    the other, so the line feed works as one more separator. *)
Definition separator (c : ascii) : bool :=
  existsb (Ascii.eqb c) [" "; ","; "("; ")"; "009"; "013"; "010"]%char.
Definition flush (cur : text) (l : list string) : list string :=
  match cur with [] => l | _ => string_of_list_ascii cur :: l end.
Fixpoint scan (cur : text) (t : text) : list string :=
  match t with
  | [] => flush cur []
  | c :: t => if separator c then flush cur (scan [] t)
              else if Ascii.eqb c ";" then flush cur (";" :: scan [] t)
              else scan (cur ++ [c]) t
  end.
Definition words (t : text) : list string := scan [] t.

(** ispunct in the C locale *)
Definition is_punct (c : ascii) : bool :=
  let n := N_of_ascii c in
  (((33 <=? n) && (n <=? 47)) || ((58 <=? n) && (n <=? 64)) || ((91 <=? n) && (n <=? 96)) || ((123 <=? n) && (n <=? 126)))%N.
(** The first word of boost::tokenizer<> (cut at blanks and punctuation). *)
Fixpoint first_word (t : text) : text :=
  match t with
  | [] => []
  | c :: t' => if is_punct c || is_space c then first_word t'
               else (fix run (t : text) := match t with
                                           | [] => []
                                           | c :: t' => if is_punct c || is_space c then [] else c :: run t'
                                           end) t
  end.
(** 282-285, 310-313: [atoi(first word) + 1]; [None]: no word (the end iterator is
    read) or a number that does not fit an int. *)
Definition range_bits (w : string) : option nat :=
  match first_word (list_ascii_of_string w) with
  | [] => None
  | f => let '(v, _, _) := span_digits 0 f in if (v <? 2 ^ 31 - 1)%N then Some (S (N.to_nat v)) else None
  end.
Definition starts_with (c : ascii) (w : string) : bool :=
  match w with String a _ => Ascii.eqb a c | EmptyString => false end.

(** * The parser *)

(** util/common.h:53-59 *)
Definition DFFGATE : Z := -1.
Definition MUXGATE : Z := 15.
Definition HADDERGATE : Z := 16.
Definition FADDERGATE : Z := 17.
Definition INVALGATE : Z := 18.

(** std::map<string, string> *)
Notation ports := (list (string * string)).
Fixpoint pget (p : ports) (k : string) : option string :=
  match p with [] => None | (m, v) :: p' => if String.eqb k m then Some v else pget p' k end.
(** operator[] *)
Definition pval (p : ports) (k : string) : string := match pget p k with Some v => v | None => "" end.

(** Variables of ParseNetlist (76-85) and the netlist read so far. *)
Record pstate := mkP {
  gate_type : Z; no_of_bits : nat; is_right : bool; is_left : bool; is_inport : bool; is_outport : bool;
  port : ports; port_key : string; circ : ReadCircuitString }.

(** What the parser does: it ends with SUCCESS and a netlist, with FAILURE, never, or
    has undefined behaviour. *)
Inductive result (A : Type) := Done (a : A) | Failed | Hangs | Undefined.
Arguments Done {A}. Arguments Failed {A}. Arguments Hangs {A}. Arguments Undefined {A}.

Definition empty_netlist : ReadCircuitString := mkRCS [] [] [] 0 0 0 0 0 0 0 false.
Definition start : pstate := mkP INVALGATE 0 false false false false [] "" empty_netlist.

Definition add_gates (s : ReadCircuitString) (gs : list ReadGateString) : ReadCircuitString :=
  mkRCS (gate_list_string s ++ gs) (dff_list_string s) (assignment_list_string s)
    (s_p_init s) (s_g_init s) (s_e_init s) (s_p_input s) (s_g_input s) (s_e_input s) (s_output s) (has_terminate s).
Definition add_dff (s : ReadCircuitString) (d : ReadGateString) : ReadCircuitString :=
  mkRCS (gate_list_string s) (dff_list_string s ++ [d]) (assignment_list_string s)
    (s_p_init s) (s_g_init s) (s_e_init s) (s_p_input s) (s_g_input s) (s_e_input s) (s_output s) (has_terminate s).
Definition with_assign (s : ReadCircuitString) (a : list (string * string)) : ReadCircuitString :=
  mkRCS (gate_list_string s) (dff_list_string s) a
    (s_p_init s) (s_g_init s) (s_e_init s) (s_p_input s) (s_g_input s) (s_e_input s) (s_output s) (has_terminate s).
Definition with_output (s : ReadCircuitString) (n : nat) : ReadCircuitString :=
  mkRCS (gate_list_string s) (dff_list_string s) (assignment_list_string s)
    (s_p_init s) (s_g_init s) (s_e_init s) (s_p_input s) (s_g_input s) (s_e_input s) n (has_terminate s).
Definition with_terminate (s : ReadCircuitString) : ReadCircuitString :=
  mkRCS (gate_list_string s) (dff_list_string s) (assignment_list_string s)
    (s_p_init s) (s_g_init s) (s_e_init s) (s_p_input s) (s_g_input s) (s_e_input s) (s_output s) true.
(** 287-304: the size of an input port; [None] is an unknown name. *)
Definition with_input (s : ReadCircuitString) (name : string) (n : nat) : option ReadCircuitString :=
  let mk a b c d e f := Some (mkRCS (gate_list_string s) (dff_list_string s) (assignment_list_string s) a b c d e f (s_output s) (has_terminate s)) in
  let '(a, b, c, d, e, f) := (s_p_init s, s_g_init s, s_e_init s, s_p_input s, s_g_input s, s_e_input s) in
  if name =? "p_init" then mk n b c d e f
  else if name =? "g_init" then mk a n c d e f
  else if name =? "e_init" then mk a b n d e f
  else if name =? "p_input" then mk a b c n e f
  else if name =? "g_input" then mk a b c d n f
  else if name =? "e_input" then mk a b c d e n
  else None.

(** 157-178: three gates for a MUX; [n] is the number of gates so far. *)
Definition mux_gates (n : nat) (p : ports) : list ReadGateString :=
  let m1 := ("MUX_MID_1_" ++ to_string n)%string in
  let m2 := ("MUX_MID_2_" ++ to_string n)%string in
  [mkRGS (pval p "IN0") (pval p "IN1") m1 XORGATE;
   mkRGS (pval p "SEL") m1 m2 ANDGATE;
   mkRGS (pval p "IN0") m2 (pval p "F") XORGATE].
(** [port.count(k) > 0] *)
Definition has (p : ports) (k : string) : bool := match pget p k with Some _ => true | None => false end.
(** 193-208 *)
Definition hadder_gates (p : ports) : list ReadGateString :=
  (if has p "SUM" then [mkRGS (pval p "IN0") (pval p "IN1") (pval p "SUM") XORGATE] else []) ++
  (if has p "COUT" then [mkRGS (pval p "IN0") (pval p "IN1") (pval p "COUT") ANDGATE] else []).
(** 224-263 *)
Definition fadder_gates (n : nat) (p : ports) : list ReadGateString :=
  let m1 := ("FADDER_MID_1_" ++ to_string n)%string in
  let m2 := ("FADDER_MID_2_" ++ to_string n)%string in
  let m3 := ("FADDER_MID_3_" ++ to_string n)%string in
  [mkRGS (pval p "IN0") (pval p "CIN") m1 XORGATE] ++
  (if has p "SUM" then [mkRGS (pval p "IN1") m1 (pval p "SUM") XORGATE] else []) ++
  (if has p "COUT" then [mkRGS (pval p "IN1") (pval p "CIN") m2 XORGATE;
                         mkRGS m1 m2 m3 ANDGATE;
                         mkRGS (pval p "CIN") m3 (pval p "COUT") XORGATE] else []).

Section Parse.
Variable log : bool.       (* built with ENABLE_LOG *)

(** [port.count(k) > 0 && port[k] != ""] *)
Definition filled (p : ports) (k : string) : bool := match pget p k with Some v => negb (v =? "") | None => false end.
(** CHECK_EXPR_MSG returns FAILURE with logging and does nothing without. *)
Definition check (b : bool) (r : result pstate) : result pstate := if log && negb b then Failed else r.

(** 115, 129, ..., 274: the state after a cell. *)
Definition cell_done (st : pstate) (s : ReadCircuitString) : result pstate :=
  Done (mkP INVALGATE (no_of_bits st) (is_right st) (is_left st) (is_inport st) (is_outport st) [] "" s).
(** 94-274: a semicolon. *)
Definition semicolon (st : pstate) : result pstate :=
  let t := gate_type st in let p := port st in let s := circ st in
  if existsb (Z.eqb t) [ANDGATE; ANDNGATE; NANDGATE; NANDNGATE; ORGATE; ORNGATE; NORGATE; NORNGATE; XORGATE; XNORGATE] then
    check (filled p "A" && filled p "B" && filled p "Z")
      (cell_done st (add_gates s [mkRGS (pval p "A") (pval p "B") (pval p "Z") t]))
  else if (t =? NOTGATE)%Z then
    check (filled p "A" && filled p "Z") (cell_done st (add_gates s [mkRGS (pval p "A") "" (pval p "Z") t]))
  else if (t =? DFFGATE)%Z then
    check (filled p "D" && filled p "I" && filled p "Q")
      (cell_done st (add_dff s (mkRGS (pval p "D") (pval p "I") (pval p "Q") t)))
  else if (t =? MUXGATE)%Z then
    check (filled p "IN0" && filled p "IN1" && filled p "SEL" && filled p "F")
      (cell_done st (add_gates s (mux_gates (List.length (gate_list_string s)) p)))
  else if (t =? HADDERGATE)%Z then
    check (filled p "IN0" && filled p "IN1" && (filled p "SUM" || filled p "COUT"))
      (cell_done st (add_gates s (hadder_gates p)))
  else if (t =? FADDERGATE)%Z then
    check (filled p "IN0" && filled p "IN1" && filled p "CIN" && (filled p "SUM" || filled p "COUT"))
      (cell_done st (add_gates s (fadder_gates (List.length (gate_list_string s)) p)))
  else Done (mkP t 0 false false false false p "" s).

Definition set_type (st : pstate) (t : Z) : pstate :=
  mkP t (no_of_bits st) (is_right st) (is_left st) (is_inport st) (is_outport st) (port st) (port_key st) (circ st).
Definition set_key (st : pstate) (k : string) : pstate :=
  mkP (gate_type st) (no_of_bits st) (is_right st) (is_left st) (is_inport st) (is_outport st) (port st) k (circ st).
Definition set_circ (st : pstate) (s : ReadCircuitString) : pstate :=
  mkP (gate_type st) (no_of_bits st) (is_right st) (is_left st) (is_inport st) (is_outport st) (port st) (port_key st) s.
Definition set_bits (st : pstate) (n : nat) : pstate :=
  mkP (gate_type st) n (is_right st) (is_left st) (is_inport st) (is_outport st) (port st) (port_key st) (circ st).
Definition set_flags (st : pstate) (r l i o : bool) : pstate :=
  mkP (gate_type st) (no_of_bits st) r l i o (port st) (port_key st) (circ st).
(** [(no_of_bits > 0) ? no_of_bits : 1] *)
Definition width (st : pstate) : nat := match no_of_bits st with O => 1%nat | n => n end.

(** 280-305: a word in an input declaration. *)
Definition in_word (st : pstate) (w : string) : result pstate :=
  if starts_with "[" w then match range_bits w with Some n => Done (set_bits st n) | None => Undefined end
  else if (w =? "clk") || (w =? "rst") then Done st
  else match with_input (circ st) w (width st) with Some s => Done (set_circ st s) | None => Failed end.
(** 308-326: a word in an output declaration. *)
Definition out_word (st : pstate) (w : string) : result pstate :=
  if starts_with "[" w then match range_bits w with Some n => Done (set_bits st n) | None => Undefined end
  else if w =? "terminate" then
    if (no_of_bits st =? 0)%nat then Done (set_circ st (with_terminate (circ st))) else Failed
  else if w =? "o" then Done (set_circ st (with_output (circ st) (width st)))
  else Failed.
(** 335-340: the right side of an assignment; back() of an empty vector is undefined. *)
Definition right_word (st : pstate) (w : string) : result pstate :=
  match rev (assignment_list_string (circ st)) with
  | [] => Undefined
  | (a, _) :: r => Done (set_flags (set_circ st (with_assign (circ st) (rev r ++ [(a, w)]))) false (is_left st) (is_inport st) (is_outport st))
  end.

(** 341-370 *)
Definition cell_words : list (string * Z) :=
  [("AND", ANDGATE); ("ANDN", ANDNGATE); ("NAND", NANDGATE); ("NANDN", NANDNGATE); ("OR", ORGATE); ("ORN", ORNGATE);
   ("NOR", NORGATE); ("NORN", NORNGATE); ("XOR", XORGATE); ("XNOR", XNORGATE); ("IV", NOTGATE); ("DFF", DFFGATE);
   ("MUX", MUXGATE); ("HADDER", HADDERGATE); ("FADDER", FADDERGATE)].
(** 371-400 *)
Definition pin_words : list (string * string) :=
  [(".A", "A"); (".B", "B"); (".D", "D"); (".I", "I"); (".Z", "Z"); (".Q", "Q"); (".IN0", "IN0"); (".IN1", "IN1");
   (".CIN", "CIN"); (".SEL", "SEL"); (".COUT", "COUT"); (".SUM", "SUM"); (".F", "F"); (".CLK", ""); (".RST", "")].

(** 94-410: one word (except "endmodule"). *)
Definition step (st : pstate) (w : string) : result pstate :=
  if w =? ";" then semicolon st
  else if w =? "input" then Done (set_flags st (is_right st) (is_left st) true (is_outport st))
  else if is_inport st then in_word st w
  else if w =? "output" then Done (set_flags st (is_right st) (is_left st) (is_inport st) true)
  else if is_outport st then out_word st w
  else if w =? "assign" then Done (set_flags st (is_right st) true (is_inport st) (is_outport st))
  else if is_left st then
    Done (set_flags (set_circ st (with_assign (circ st) (assignment_list_string (circ st) ++ [(w, "")]))) (is_right st) false (is_inport st) (is_outport st))
  else if w =? "=" then Done (set_flags st true (is_left st) (is_inport st) (is_outport st))
  else if is_right st then right_word st w
  else match get cell_words w with
  | Some t => Done (set_type st t)
  | None =>
    match pget pin_words w with
    | Some k => Done (set_key st k)
    | None =>
      if port_key st =? "" then Done st
      else if starts_with "[" w
      then Done (set_key (mkP (gate_type st) (no_of_bits st) (is_right st) (is_left st) (is_inport st) (is_outport st)
                            ((port_key st, (pval (port st) (port_key st) ++ w)%string) :: port st) (port_key st) (circ st)) "")
      else Done (mkP (gate_type st) (no_of_bits st) (is_right st) (is_left st) (is_inport st) (is_outport st)
                   ((port_key st, w) :: port st) (port_key st) (circ st))
    end
  end.

(** 87-413.  When the file ends without "endmodule", 88 returns FAILURE with logging;
    without, getline keeps failing and the loop never ends. *)
Fixpoint parse (st : pstate) (ws : list string) : result ReadCircuitString :=
  match ws with
  | [] => if log then Failed else Hangs
  | w :: ws =>
    if w =? "endmodule" then Done (circ st)
    else match step st w with Done st' => parse st' ws | Failed => Failed | Hangs => Hangs | Undefined => Undefined end
  end.

(** 67-414 ParseNetlist; [None]: the file cannot be opened. *)
Definition ParseNetlist (file : option text) : result ReadCircuitString :=
  match file with None => Failed | Some t => parse start (words t) end.
End Parse.

(** * Specification: netlists and their meaning *)

(** Cells of the library circuit_synthesis/lib/dff_full/dff_full.v. *)
Inductive kind := AND | ANDN | NAND | NANDN | OR | ORN | NOR | NORN | XOR | XNOR | IV | DFF | MUX | HADDER | FADDER.
Definition kind_name (k : kind) : string :=
  match k with
  | AND => "AND" | ANDN => "ANDN" | NAND => "NAND" | NANDN => "NANDN" | OR => "OR" | ORN => "ORN" | NOR => "NOR" | NORN => "NORN"
  | XOR => "XOR" | XNOR => "XNOR" | IV => "IV" | DFF => "DFF" | MUX => "MUX" | HADDER => "HADDER" | FADDER => "FADDER"
  end.
(** Input and output pins of a cell (without clock and reset). *)
Definition pins_in (k : kind) : list string :=
  match k with
  | IV => ["A"] | DFF => ["D"; "I"] | MUX => ["IN0"; "IN1"; "SEL"] | HADDER => ["IN0"; "IN1"] | FADDER => ["IN0"; "IN1"; "CIN"]
  | _ => ["A"; "B"]
  end.
Definition pins_out (k : kind) : list string :=
  match k with DFF => ["Q"] | MUX => ["F"] | HADDER | FADDER => ["SUM"; "COUT"] | _ => ["Z"] end.
(** The library: value of an output pin from the values of the input pins
    (dff_full.v; the register DFF is not combinational). *)
Definition library (k : kind) (out : string) (v : string -> bool) : bool :=
  match k with
  | AND => v "A" && v "B"
  | ANDN => v "A" && negb (v "B")
  | NAND => negb (v "A" && v "B")
  | NANDN => negb (v "A" && negb (v "B"))
  | OR => v "A" || v "B"
  | ORN => v "A" || negb (v "B")
  | NOR => negb (v "A" || v "B")
  | NORN => negb (v "A" || negb (v "B"))
  | XOR => xorb (v "A") (v "B")
  | XNOR => negb (xorb (v "A") (v "B"))
  | IV => negb (v "A")
  | MUX => (negb (v "SEL") && v "IN0") || (v "SEL" && v "IN1")
  | HADDER => if out =? "SUM" then xorb (v "IN0") (v "IN1") else v "IN0" && v "IN1"
  | FADDER => if out =? "SUM" then xorb (xorb (v "IN0") (v "IN1")) (v "CIN")
              else (v "CIN" && v "IN0") || (v "CIN" && v "IN1") || (v "IN0" && v "IN1")
  | DFF => false
  end.

(** A net as written: a name, with the index possibly set apart as a second word. *)
Notation netref := (string * option string)%type.
Definition net (r : netref) : string := match snd r with None => fst r | Some i => (fst r ++ i)%string end.

(** Statements of a module. *)
Inductive stmt :=
| Other (ws : list string)                                  (* module header, wire declarations *)
| Input (hi : option nat) (names : list string)             (* input [hi:0] names; *)
| Output (hi : option nat) (names : list string)
| Assign (a b : string)                                     (* assign a = b; *)
| Cell (k : kind) (name : string) (conns : list (string * netref)).  (* k name (.pin(net), ...); *)

(** The net at a pin. *)
Fixpoint at_pin (cs : list (string * netref)) (p : string) : option string :=
  match cs with [] => None | (q, r) :: cs' => if String.eqb p q then Some (net r) else at_pin cs' p end.

(** ** The words of a module, and the texts they can be written as *)
Definition range_word (hi : option nat) : list string :=
  match hi with None => [] | Some h => [("[" ++ to_string h ++ ":0]")%string] end.
Definition conn_words (c : string * netref) : list string :=
  ("." ++ fst c)%string :: fst (snd c) :: match snd (snd c) with None => [] | Some i => [i] end.
Definition stmt_words (st : stmt) : list string :=
  match st with
  | Other ws => ws ++ [";"]
  | Input hi ns => "input" :: range_word hi ++ ns ++ [";"]
  | Output hi ns => "output" :: range_word hi ++ ns ++ [";"]
  | Assign a b => ["assign"; a; "="; b; ";"]
  | Cell k i cs => kind_name k :: i :: flat_map conn_words cs ++ [";"]
  end.
Definition module_words (m : list stmt) : list string := flat_map stmt_words m ++ ["endmodule"].

(** [written ws t]: the text [t] is the words [ws] with separators around them; two
    words need a separator between them unless one is a semicolon. *)
Inductive written : list string -> text -> Prop :=
| w_end : written [] []
| w_sep c ws t : separator c = true -> written ws t -> written ws (c :: t)
| w_semi ws t : written ws t -> written (";" :: ws) (";"%char :: t)
| w_word w ws t : w <> "" -> Forall (fun c => separator c = false /\ c <> ";"%char) (list_ascii_of_string w) ->
    match t with [] => True | c :: _ => separator c = true \/ c = ";"%char end ->
    written ws t -> written (w :: ws) (list_ascii_of_string w ++ t).

(** ** Legal modules *)
Definition reserved : list string :=
  [";"; "endmodule"; "input"; "output"; "assign"; "="] ++ map fst cell_words ++ map fst pin_words.
Definition ordinary (w : string) : Prop := ~ In w reserved /\ w <> "" /\ starts_with "[" w = false.
Definition in_ports : list string := ["p_init"; "g_init"; "e_init"; "p_input"; "g_input"; "e_input"].
Definition legal (st : stmt) : Prop :=
  match st with
  | Other ws => Forall (fun w => ~ In w reserved) ws
  | Input hi ns => (forall h, hi = Some h -> Z.of_nat h < 2 ^ 31 - 1) /\ Forall (fun n => In n (["clk"; "rst"] ++ in_ports)) ns
  | Output hi ns => (forall h, hi = Some h -> Z.of_nat h < 2 ^ 31 - 1) /\ Forall (fun n => n = "o" \/ n = "terminate" /\ hi = None) ns
  | Assign a b => ordinary a /\ ordinary b
  | Cell k i cs =>
      ordinary i /\ NoDup (map fst cs) /\
      Forall (fun c => In (fst c) (["CLK"; "RST"] ++ pins_in k ++ pins_out k) /\ ordinary (fst (snd c)) /\
                       forall i, snd (snd c) = Some i -> starts_with "[" i = true) cs /\
      (forall p, In p (pins_in k) -> at_pin cs p <> None) /\
      (exists p, In p (pins_out k) /\ at_pin cs p <> None)
  end.

(** ** Meaning *)
(** Width of an input port: what the last declaration of it says. *)
Definition bits_of (hi : option nat) : nat := match hi with None => 1%nat | Some h => S h end.
Fixpoint in_width (m : list stmt) (p : string) : nat :=
  match m with
  | [] => 0%nat
  | st :: m' =>
    match in_width m' p with
    | O => match st with Input hi ns => if existsb (String.eqb p) ns then bits_of hi else 0%nat | _ => 0%nat end
    | n => n
    end
  end.
Fixpoint out_width (m : list stmt) : nat :=
  match m with
  | [] => 0%nat
  | st :: m' =>
    match out_width m' with
    | O => match st with Output hi ns => if existsb (String.eqb "o") ns then bits_of hi else 0%nat | _ => 0%nat end
    | n => n
    end
  end.
Definition terminates (m : list stmt) : Prop := exists hi ns, In (Output hi ns) m /\ In "terminate" ns.
Definition pin_value (U : string -> bool) (cs : list (string * netref)) (p : string) : bool :=
  match at_pin cs p with Some n => U n | None => false end.

(** A valuation of the nets in every clock cycle that obeys the module: library
    cells compute their function, registers take I in the first cycle and D of the
    cycle before later, assignments connect, ports carry the inputs. *)
Record obeys (m : list stmt) (x : inputs) (U : nat -> string -> bool) : Prop := {
  ob_const : forall cy, U cy "" = false /\ U cy "1'b0" = false /\ U cy "1'b1" = true;
  ob_init : port_value (U O) "p_init" (in_width m "p_init") (bit (Spec.p_init x)) /\
            port_value (U O) "g_init" (in_width m "g_init") (bit (Spec.g_init x)) /\
            port_value (U O) "e_init" (in_width m "e_init") (bit (Spec.e_init x));
  ob_input : forall cy,
    port_value (U cy) "p_input" (in_width m "p_input") (fun i => bit (Spec.p_input x) (cy * in_width m "p_input" + i)) /\
    port_value (U cy) "g_input" (in_width m "g_input") (fun i => bit (Spec.g_input x) (cy * in_width m "g_input" + i)) /\
    port_value (U cy) "e_input" (in_width m "e_input") (fun i => bit (Spec.e_input x) (cy * in_width m "e_input" + i));
  ob_cell : forall cy k i cs p n, In (Cell k i cs) m -> k <> DFF -> In p (pins_out k) -> at_pin cs p = Some n ->
    U cy n = library k p (pin_value (U cy) cs);
  ob_dff0 : forall i cs n, In (Cell DFF i cs) m -> at_pin cs "Q" = Some n -> U O n = pin_value (U O) cs "I";
  ob_dffS : forall cy i cs n, In (Cell DFF i cs) m -> at_pin cs "Q" = Some n -> U (S cy) n = pin_value (U cy) cs "D";
  ob_assign : forall cy a b, In (Assign a b) m -> U cy a = U cy b }.

(** ** Modules in order *)
Definition assigns (m : list stmt) : list (string * string) := flat_map (fun st => match st with Assign a b => [(a, b)] | _ => [] end) m.
(** The net that finally drives [n]. *)
Definition driver (m : list stmt) (n : string) : string := root (rev (assigns m)) n.
Definition init_nets (m : list stmt) : list string :=
  port_names "p_init" (in_width m "p_init") ++ port_names "g_init" (in_width m "g_init") ++ port_names "e_init" (in_width m "e_init").
Definition input_nets (m : list stmt) : list string :=
  port_names "p_input" (in_width m "p_input") ++ port_names "g_input" (in_width m "g_input") ++ port_names "e_input" (in_width m "e_input").
Definition outs (k : kind) (cs : list (string * netref)) : list string :=
  flat_map (fun p => match at_pin cs p with Some n => [n] | None => [] end) (pins_out k).
Definition reg_nets (m : list stmt) : list string := flat_map (fun st => match st with Cell DFF _ cs => outs DFF cs | _ => [] end) m.
Definition gate_nets (m : list stmt) : list string :=
  flat_map (fun st => match st with Cell DFF _ _ => [] | Cell k _ cs => outs k cs | _ => [] end) m.
Definition driven (m : list stmt) : list string := init_nets m ++ input_nets m ++ reg_nets m ++ gate_nets m ++ const_names.
(** The net that carries output bit [i]. *)
Definition out_net (m : list stmt) (i : nat) (n : string) : Prop :=
  if (out_width m =? 1)%nat then n = "o[0]" \/ n = "o" /\ ~ In (driver m "o[0]") (driven m) else n = elem "o" i.
(** Names the parser makes up for the inside of MUX and FADDER cells. *)
Definition mid_prefixes : list string := ["MUX_MID_1_"; "MUX_MID_2_"; "FADDER_MID_1_"; "FADDER_MID_2_"; "FADDER_MID_3_"].
Definition mid_name (n : string) : Prop := exists p k, In p mid_prefixes /\ n = (p ++ to_string k)%string.

(** One driver per net; assignments go from nets that have a driver to fresh ones,
    in order; nets that are used have a driver; initial values are read by the I pins
    of registers only, which read nothing else but constants; outputs are not tied to
    constants; terminate comes from a cell; there is an input or register. *)
Record well_built (m : list stmt) : Prop := {
  wb_legal : Forall legal m;
  wb_drivers : NoDup (driven m);
  wb_assign : forall l a b r, assigns m = l ++ (a, b) :: r ->
    ~ In a (driven m ++ map fst l) /\ In b (driven m ++ map fst l) /\ ~ mid_name a /\ ~ mid_name b;
  wb_cell : forall k i cs p n, In (Cell k i cs) m -> at_pin cs p = Some n -> ~ mid_name n;
  wb_gate : forall k i cs p n, In (Cell k i cs) m -> k <> DFF -> In p (pins_in k) -> at_pin cs p = Some n ->
    In (driver m n) (input_nets m ++ reg_nets m ++ gate_nets m ++ const_names);
  wb_dff : forall i cs n, In (Cell DFF i cs) m ->
    (at_pin cs "D" = Some n -> In (driver m n) (input_nets m ++ reg_nets m ++ gate_nets m ++ const_names)) /\
    (at_pin cs "I" = Some n -> In (driver m n) (init_nets m ++ const_names));
  wb_out : forall i n, (i < out_width m)%nat -> out_net m i n -> In (driver m n) (input_nets m ++ reg_nets m ++ gate_nets m);
  wb_some : exists n, In n (init_nets m ++ input_nets m ++ reg_nets m);
  wb_term : terminates m -> In (driver m "terminate") (reg_nets m ++ gate_nets m) /\ exists n, In n (init_nets m ++ input_nets m) }.

(** Combinational loops: a net driven by a combinational cell reads the nets at the
    inputs of the cell. *)
Definition comb_reads (m : list stmt) (a b : string) : Prop :=
  exists k i cs p q n, In (Cell k i cs) m /\ k <> DFF /\ In p (pins_out k) /\ at_pin cs p = Some a /\
    In q (pins_in k) /\ at_pin cs q = Some n /\ driver m n = b /\ In b (gate_nets m).
Inductive comb_path (m : list stmt) : string -> string -> Prop :=
| cp_step a b : comb_reads m a b -> comb_path m a b
| cp_trans a b c : comb_reads m a b -> comb_path m b c -> comb_path m a c.
Definition comb_loop (m : list stmt) : Prop := exists a, comb_path m a a.
