(** Circuits in Bristol format: the parser (scd/parse_netlist.cpp), what such a file
    means, and the circuit it is translated to. *)
From Coq Require Import ZArith NArith List Bool Lia Ascii String.
From Verif Require Import Base Gate Circuit Spec Text Sort Netlist NetlistOk Scd Front Parse.
Import ListNotations.
Open Scope string_scope.
Open Scope list_scope.
Open Scope Z_scope.

(** uint64_t arithmetic *)
Definition w64 (z : Z) : Z := z mod 2 ^ 64.

(** operator>> into a string holding [old]. *)
Fixpoint span_word (t : text) : text * text :=
  match t with
  | c :: t' => if is_space c then ([], t) else let (w, r) := span_word t' in (c :: w, r)
  | [] => ([], [])
  end.
Definition extract_word (s : stream) (old : text) : text * stream :=
  if negb (good s) then (old, s) else
  match skip_ws (rest s) with
  | [] => (old, mkS [] false)
  | t => let (w, r) := span_word t in (w, mkS r true)
  end.

(** parse_netlist.cpp:431-444 GetBristWire *)
Definition GetBristWire (w wire_size g e o : Z) : string :=
  if w <? g then elem "g_input" (Z.to_nat w)
  else if w <? w64 (g + e) then elem "e_input" (Z.to_nat (w64 (w - g)))
  else if w64 (wire_size - o) <=? w then elem "o" (Z.to_nat (w64 (w - wire_size + o)))
  else ("w" ++ to_string (Z.to_nat w))%string.

(** 463-496, one turn of the loop; [junk] is what the variables hold before they are
    set.  [None]: FAILURE. *)
Definition bris_gate (junk : nat -> Z) (wire_size g e o : Z) (s : stream) : option (ReadGateString * stream) :=
  let '(inpu_num, s) := extract_u64 s (junk 0%nat) in
  let '(output_num, s) := extract_u64 s (junk 1%nat) in
  let '(i0, s) := extract_u64 s (junk 2%nat) in
  let '(i1, o1, g_type, s) :=
    if inpu_num =? 1 then
      let '(o1, s) := extract_u64 s (junk 4%nat) in
      let '(t, s) := extract_word s [] in (0, o1, t, s)
    else if inpu_num =? 2 then
      let '(i1, s) := extract_u64 s (junk 3%nat) in
      let '(o1, s) := extract_u64 s (junk 4%nat) in
      let '(t, s) := extract_word s [] in (i1, o1, t, s)
    else (junk 3%nat, junk 4%nat, [], s) in
  let in0 := GetBristWire i0 wire_size g e o in
  let in1 := if 1 <? inpu_num then GetBristWire i1 wire_size g e o else "" in
  let out := GetBristWire o1 wire_size g e o in
  let t := string_of_list_ascii g_type in
  if String.eqb t "INV" then Some (mkRGS in0 in1 out NOTGATE, s)
  else if String.eqb t "XOR" then Some (mkRGS in0 in1 out XORGATE, s)
  else if String.eqb t "AND" then Some (mkRGS in0 in1 out ANDGATE, s)
  else None.
Fixpoint bris_gates (junk : nat -> nat -> Z) (wire_size g e o : Z) (k : nat) (s : stream) : option (list ReadGateString) :=
  match k with
  | O => Some []
  | S k => match bris_gate (junk k) wire_size g e o s with
           | None => None
           | Some (x, s) => match bris_gates junk wire_size g e o k s with None => None | Some l => Some (x :: l) end
           end
  end.
(** 446-500 ParseBrisNetlist; [file = None]: the file cannot be opened; [log]: built
    with ENABLE_LOG, without it the check at 457 has no effect.  [junk0] is what the
    two local sizes hold before they are read. *)
Definition ParseBrisNetlist (log : bool) (junk0 : nat -> Z) (junk : nat -> nat -> Z) (file : option text) : option ReadCircuitString :=
  match file with
  | None => None
  | Some t =>
    let s := mkS t true in
    let '(gate_size, s) := extract_u64 s (junk0 0%nat) in
    let '(wire_size, s) := extract_u64 s (junk0 1%nat) in
    if log && negb (negb (gate_size =? 0) && negb (wire_size =? 0)) then None else
    let '(g, s) := extract_u64 s 0 in
    let '(e, s) := extract_u64 s 0 in
    let '(o, s) := extract_u64 s 0 in
    match bris_gates junk wire_size g e o (Z.to_nat gate_size) s with
    | None => None
    | Some gs => Some (mkRCS gs [] [] 0 0 0 0 (Z.to_nat g) (Z.to_nat e) (Z.to_nat o) false)
    end
  end.
(** scd/v_2_scd.cpp:60-91 (without the mapping file) *)
Definition Bris2SCD (log : bool) (junk0 : nat -> Z) (junk : nat -> nat -> Z) (file : option text) : result text :=
  match ParseBrisNetlist log junk0 junk file with
  | Some s => match translate log s with None => Undefined | Some None => Failed | Some (Some t) => Done t end
  | None => Failed
  end.

(** * Specification: Bristol format *)

Inductive bgate := INV (a o : nat) | XOR (a b o : nat) | AND (a b o : nat).
Definition bg_out (g : bgate) : nat := match g with INV _ o => o | XOR _ _ o => o | AND _ _ o => o end.
Definition bg_ins (g : bgate) : list nat := match g with INV a _ => [a] | XOR a b _ => [a; b] | AND a b _ => [a; b] end.
(** Wires are numbered; first the garbler's (first party's) inputs, then the
    evaluator's, and the outputs are the last wires. *)
Record bristol := mkBristol { b_wires : nat; b_g : nat; b_e : nat; b_o : nat; b_gates : list bgate }.

(** The words of a file. *)
Definition num (n : nat) : text := dec (N.of_nat n).
Definition gate_words (g : bgate) : list text :=
  match g with
  | INV a o => [num 1; num 1; num a; num o; list_ascii_of_string "INV"]
  | XOR a b o => [num 2; num 1; num a; num b; num o; list_ascii_of_string "XOR"]
  | AND a b o => [num 2; num 1; num a; num b; num o; list_ascii_of_string "AND"]
  end.
Definition bristol_words (b : bristol) : list text :=
  [num (List.length (b_gates b)); num (b_wires b); num (b_g b); num (b_e b); num (b_o b)] ++ flat_map gate_words (b_gates b).
(** [t] consists of the words [ws], in order, separated by white space. *)
Definition blank (t : text) : Prop := Forall (fun c => is_space c = true) t.
Definition stops (t : text) : Prop := match t with [] => True | c :: _ => is_space c = true end.
Inductive spaced : list text -> text -> Prop :=
| spaced_end t : blank t -> spaced [] t
| spaced_word b w ws t : blank b -> w <> [] -> Forall (fun c => is_space c = false) w -> stops t -> spaced ws t -> spaced (w :: ws) (b ++ w ++ t).

(** Executing the gates in the order of the file. *)
Definition b_apply (W : nat -> bool) (g : bgate) : bool :=
  match g with INV a _ => negb (W a) | XOR a b _ => xorb (W a) (W b) | AND a b _ => W a && W b end.
Definition b_step (W : nat -> bool) (g : bgate) : nat -> bool := fun w => if (w =? bg_out g)%nat then b_apply W g else W w.
Definition b_run (b : bristol) (gin ein : nat -> bool) : nat -> bool :=
  fold_left b_step (b_gates b) (fun w => if (w <? b_g b)%nat then gin w else ein (w - b_g b)%nat).
(** Output bit [i]. *)
Definition b_output (b : bristol) (gin ein : nat -> bool) (i : nat) : bool := b_run b gin ein (b_wires b - b_o b + i)%nat.

(** Every gate reads inputs or outputs of earlier gates and drives a wire of its own;
    the outputs are driven by gates. *)
Record b_valid (b : bristol) : Prop := {
  bv_some : b_gates b <> [];
  bv_order : forall l g r, b_gates b = l ++ g :: r -> forall a, In a (bg_ins g) -> (a < b_g b + b_e b)%nat \/ In a (map bg_out l);
  bv_single : NoDup (map bg_out (b_gates b));
  bv_range : forall g, In g (b_gates b) -> (b_g b + b_e b <= bg_out g < b_wires b)%nat;
  bv_outputs : (b_o b <= b_wires b)%nat /\ forall i, (i < b_o b)%nat -> In (b_wires b - b_o b + i)%nat (map bg_out (b_gates b));
  bv_size : Z.of_nat (b_wires b) < 2 ^ 63 }.

(** The circuit [c] computes [b] in every clock cycle. *)
Record runs_bristol (c : GarbledCircuit) (b : bristol) : Prop := {
  rb_wf : well_formed c;
  rb_sizes : p_init_size c = O /\ g_init_size c = O /\ e_init_size c = O /\
             p_input_size c = O /\ g_input_size c = b_g b /\ e_input_size c = b_e b /\
             List.length (outputs c) = b_o b /\ List.length (D c) = O /\ List.length (garbledGates c) = List.length (b_gates b);
  rb_term : terminate_id c = 0;
  rb_values : forall x V, consistent c x V -> forall cy i, (i < b_o b)%nat ->
    V cy (nth i (outputs c) 0) = b_output b (fun j => bit (g_input x) (cy * b_g b + j)) (fun j => bit (e_input x) (cy * b_e b + j)) i }.
