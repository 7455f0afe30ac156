(** Netlists with named wires and the assignment of wire numbers
    (scd/v_2_scd.h, IdAssignment in scd/parse_netlist.cpp). *)
From Coq Require Import ZArith NArith List Bool String Ascii.
From Verif Require Import Base Gate Circuit Spec Sort Text.
Import ListNotations.
Open Scope Z_scope.
Open Scope string_scope.

(** scd/v_2_scd.h:29-34 ReadGateString *)
Record ReadGateString := mkRGS { gs_in0 : string; gs_in1 : string; gs_out : string; gs_type : Z }.
(** scd/v_2_scd.h:36-63 ReadCircuitString *)
Record ReadCircuitString := mkRCS {
  gate_list_string : list ReadGateString; dff_list_string : list ReadGateString;
  assignment_list_string : list (string * string);
  s_p_init : nat; s_g_init : nat; s_e_init : nat; s_p_input : nat; s_g_input : nat; s_e_input : nat;
  s_output : nat; has_terminate : bool }.

(** std::to_string of an unsigned number. *)
Definition to_string (n : nat) : string := string_of_list_ascii (dec (N.of_nat n)).
(** The name of element [i] of an array, as written in a netlist. *)
Definition elem (name : string) (i : nat) : string := name ++ "[" ++ to_string i ++ "]".

(** std::map<string, int64_t> as an association list; the first entry of a name
    counts. *)
Notation table := (list (string * Z)).
Fixpoint get (t : table) (n : string) : option Z :=
  match t with
  | [] => None
  | (m, k) :: t' => if String.eqb n m then Some k else get t' n
  end.
(** map::insert keeps an entry that is already there. *)
Definition insert (t : table) (n : string) (k : Z) : table :=
  match get t n with Some _ => t | None => (n, k) :: t end.
Definition set (t : table) (n : string) (k : Z) : table := (n, k) :: t.

(** parse_netlist.cpp:416-429 AddWireArray *)
Definition AddWireArray (tw : table * Z) (name : string) (size : nat) : table * Z :=
  let (t, w) := tw in
  if (size =? 1)%nat then (insert (insert t name w) (name ++ "[0]") w, w + 1)
  else fold_left (fun (tw : table * Z) i => (insert (fst tw) (elem name i) (snd tw), snd tw + 1)) (seq 0 size) (t, w).
(** 531-541 *)
Definition add_outputs (tw : table * Z) (gs : list ReadGateString) : table * Z :=
  fold_left (fun (tw : table * Z) g => (insert (fst tw) (gs_out g) (snd tw), snd tw + 1)) gs tw.
(** 515-544 *)
Definition base_table (s : ReadCircuitString) : table :=
  let tw := AddWireArray ([], 0) "p_init" (s_p_init s) in
  let tw := AddWireArray tw "g_init" (s_g_init s) in
  let tw := AddWireArray tw "e_init" (s_e_init s) in
  let tw := AddWireArray tw "p_input" (s_p_input s) in
  let tw := AddWireArray tw "g_input" (s_g_input s) in
  let tw := AddWireArray tw "e_input" (s_e_input s) in
  let tw := add_outputs tw (dff_list_string s) in
  let tw := add_outputs tw (gate_list_string s) in
  insert (insert (insert (fst tw) "" (-1)) "1'b0" CONST_ZERO) "1'b1" CONST_ONE.
(** 546-558, one assignment [assign a = b]; when neither name is known an error is
    logged and nothing else happens. *)
Definition assign_step (t : table) (ab : string * string) : table :=
  let (a, b) := ab in
  match get t a with
  | Some k => set t b k
  | None => match get t b with Some k => set t a k | None => t end
  end.

Section IdAssignment.
Variable log : bool.       (* built with ENABLE_LOG *)
(** [CHECK_EXPR(table.count(n) != 0)] followed by [table[n]]: with logging a
    missing name is a FAILURE ([None]); without, operator[] adds it as 0. *)
Definition look (t : table) (n : string) : option (Z * table) :=
  match get t n with
  | Some k => Some (k, t)
  | None => if log then None else Some (0, set t n 0)
  end.
(** 564-586, 588-611: one gate or register. *)
Definition look_gate (t : table) (g : ReadGateString) : option (ReadGate * table) :=
  do '(i0, t) <- look t (gs_in0 g);
  do '(i1, t) <- look t (gs_in1 g);
  do '(o, t) <- look t (gs_out g);
  Some (mkRG i0 i1 o (gs_type g), t).
Fixpoint look_all {A B} (f : table -> A -> option (B * table)) (t : table) (l : list A) : option (list B * table) :=
  match l with
  | [] => Some ([], t)
  | x :: l' => do '(y, t) <- f t x; do '(r, t) <- look_all f t l'; Some (y :: r, t)
  end.
(** 613-629 *)
Definition look_output (size : nat) (t : table) (i : nat) : option (Z * table) :=
  if (size =? 1)%nat
  then match get t "o[0]" with Some k => Some (k, t) | None => look t "o" end
  else look t (elem "o" i).
(** 502-637 IdAssignment; [None] is FAILURE.  (The loops at 423 and 537 count with a
    32-bit number: sizes are taken to be below 2^32.) *)
Definition IdAssignment (s : ReadCircuitString) : option ReadCircuit :=
  let t := fold_left assign_step (assignment_list_string s) (base_table s) in
  do '(gs, t) <- look_all look_gate t (gate_list_string s);
  do '(ds, t) <- look_all look_gate t (dff_list_string s);
  do '(os, t) <- look_all (look_output (s_output s)) t (seq 0 (s_output s));
  let rc := mkRC (s_p_init s) (s_g_init s) (s_e_init s) (s_p_input s) (s_g_input s) (s_e_input s) os gs ds [] in
  if has_terminate s then
    let k := match get t "terminate" with Some k => k | None => 0 end in
    if log && (k =? 0)%Z then None else Some (rc k)
  else Some (rc 0).
End IdAssignment.

(** * Specification: what a netlist with named wires means *)

(** The names of an array port of [n] bits: [name[0]] ... [name[n-1]], and the bare
    name if there is one bit. *)
Definition port_names (name : string) (n : nat) : list string :=
  ((if (n =? 1)%nat then [name] else []) ++ map (elem name) (seq 0 n))%list.
Definition init_names (s : ReadCircuitString) : list string :=
  port_names "p_init" (s_p_init s) ++ port_names "g_init" (s_g_init s) ++ port_names "e_init" (s_e_init s).
Definition input_names (s : ReadCircuitString) : list string :=
  port_names "p_input" (s_p_input s) ++ port_names "g_input" (s_g_input s) ++ port_names "e_input" (s_e_input s).
Definition cell_names (s : ReadCircuitString) : list string :=
  map gs_out (dff_list_string s) ++ map gs_out (gate_list_string s).
Definition const_names : list string := [""; "1'b0"; "1'b1"].
(** Every name that has a driver. *)
Definition declared (s : ReadCircuitString) : list string :=
  init_names s ++ input_names s ++ cell_names s ++ const_names.

(** The name that finally drives [n] when [as_] are the assignments, last one first. *)
Fixpoint root (as_ : list (string * string)) (n : string) : string :=
  match as_ with
  | [] => n
  | (a, b) :: earlier => if String.eqb n a then root earlier b else root earlier n
  end.
Definition root_of (s : ReadCircuitString) (n : string) : string := root (rev (assignment_list_string s)) n.

(** The name that carries output bit [i]. *)
Definition output_name (s : ReadCircuitString) (i : nat) (n : string) : Prop :=
  if (s_output s =? 1)%nat then n = "o[0]" \/ n = "o" /\ ~ In (root_of s "o[0]") (declared s) else n = elem "o" i.

(** A valuation of the names in every clock cycle that obeys the netlist. *)
Definition port_value (U : string -> bool) (name : string) (n : nat) (f : nat -> bool) : Prop :=
  (forall i, (i < n)%nat -> U (elem name i) = f i) /\ (n = 1%nat -> U name = f 0%nat).
Record net_consistent (s : ReadCircuitString) (x : inputs) (U : nat -> string -> bool) : Prop := {
  nc_const : forall cy, U cy "" = false /\ U cy "1'b0" = false /\ U cy "1'b1" = true;
  nc_init : port_value (U O) "p_init" (s_p_init s) (bit (Spec.p_init x)) /\
            port_value (U O) "g_init" (s_g_init s) (bit (Spec.g_init x)) /\
            port_value (U O) "e_init" (s_e_init s) (bit (Spec.e_init x));
  nc_input : forall cy, port_value (U cy) "p_input" (s_p_input s) (fun i => bit (Spec.p_input x) (cy * s_p_input s + i)) /\
            port_value (U cy) "g_input" (s_g_input s) (fun i => bit (Spec.g_input x) (cy * s_g_input s + i)) /\
            port_value (U cy) "e_input" (s_e_input s) (fun i => bit (Spec.e_input x) (cy * s_e_input s + i));
  nc_dff0 : forall d, In d (dff_list_string s) -> U O (gs_out d) = U O (gs_in1 d);
  nc_dffS : forall cy d, In d (dff_list_string s) -> U (S cy) (gs_out d) = U cy (gs_in0 d);
  nc_gate : forall cy g f, In g (gate_list_string s) -> bool_fun (gs_type g) = Some f ->
    U cy (gs_out g) = f (U cy (gs_in0 g)) (U cy (gs_in1 g));
  nc_assign : forall cy a b, In (a, b) (assignment_list_string s) -> U cy a = U cy b }.

(** Gate [i] reads gate [j]. *)
Definition gate_reads (s : ReadCircuitString) (i j : nat) : Prop :=
  exists g h, nth_error (gate_list_string s) i = Some g /\ nth_error (gate_list_string s) j = Some h /\
    (root_of s (gs_in0 g) = gs_out h \/ root_of s (gs_in1 g) = gs_out h).
Inductive gate_depends (s : ReadCircuitString) : nat -> nat -> Prop :=
| gdep_step i j : gate_reads s i j -> gate_depends s i j
| gdep_trans i j k : gate_reads s i j -> gate_depends s j k -> gate_depends s i k.

(** Netlists in order: one driver per name; assignments go from names that have a
    driver to fresh ones, in order; every name used has a driver; the initial
    values are read by the I pins of registers only, which read nothing else but
    constants; outputs are not tied to constants; the terminate signal comes from a
    register or gate and there is an input. *)
Record well_named (s : ReadCircuitString) : Prop := {
  wn_drivers : NoDup (declared s);
  wn_assign : forall l a b r, assignment_list_string s = (l ++ (a, b) :: r)%list ->
    ~ In a (declared s ++ map fst l)%list /\ In b (declared s ++ map fst l)%list;
  wn_some : exists n, In n (init_names s ++ input_names s ++ map gs_out (dff_list_string s))%list;
  wn_gate : forall g, In g (gate_list_string s) -> (exists f, bool_fun (gs_type g) = Some f) /\
    forall n, n = gs_in0 g \/ n = gs_in1 g -> In (root_of s n) (input_names s ++ cell_names s ++ const_names)%list;
  wn_dff : forall d, In d (dff_list_string s) ->
    In (root_of s (gs_in0 d)) (input_names s ++ cell_names s ++ const_names)%list /\
    In (root_of s (gs_in1 d)) (init_names s ++ const_names)%list;
  wn_out : forall i n, (i < s_output s)%nat -> output_name s i n -> In (root_of s n) (input_names s ++ cell_names s)%list;
  wn_term : has_terminate s = true -> In (root_of s "terminate") (cell_names s) /\ exists n, In n (init_names s ++ input_names s)%list }.
Definition combinational_loop (s : ReadCircuitString) : Prop := exists i, gate_depends s i i.
