(** A concrete netlist for the translator, with checkers for the conditions the
    theorems put on netlists. *)
From Coq Require Import ZArith NArith List Bool Ascii String Lia.
From Verif Require Import Base Gate Circuit Spec Sort SortOk Text Netlist NetlistOk Scd Front Parse ParseOk Verilog VerilogOk VerilogNet VerilogFront.
Import ListNotations.
Open Scope Z_scope.
Open Scope string_scope.
Open Scope list_scope.

(** ** Texts *)
Lemma written_scan : forall t cur, Forall (fun c => separator c = false /\ c <> ";"%char) cur -> written (scan cur t) (cur ++ t).
Proof.
  assert (FL : forall cur ws t, Forall (fun c => separator c = false /\ c <> ";"%char) cur -> written ws t ->
    match t with [] => True | c :: _ => separator c = true \/ c = ";"%char end -> written (flush cur ws) (cur ++ t)).
  { intros cur ws t F W H. destruct cur as [|c cur]; [exact W|].
    cbn [flush]. pose proof (list_ascii_of_string_of_list_ascii (c :: cur)) as E. rewrite <- E at 2.
    apply w_word; [discriminate|rewrite E; exact F|exact H|exact W]. }
  induction t as [|c t IH]; intros cur F; cbn [scan].
  - apply FL; [exact F|constructor|exact Logic.I].
  - destruct (separator c) eqn:S; [|destruct (Ascii.eqb_spec c ";")].
    + apply FL; [exact F| |auto]. apply w_sep; [exact S|]. apply (IH []). constructor.
    + subst c. apply FL; [exact F| |auto]. apply w_semi. apply (IH []). constructor.
    + change (c :: t) with ([c] ++ t). rewrite app_assoc. apply IH. apply Forall_app. split; [exact F|]. constructor; auto.
Qed.
(** Every text is written as its words. *)
Lemma written_words t : written (words t) t.
Proof. apply (written_scan t []). constructor. Qed.

(** ** Checkers *)
Definition mem (n : string) (l : list string) : bool := existsb (String.eqb n) l.
Lemma mem_in n l : mem n l = true <-> In n l.
Proof.
  unfold mem. rewrite existsb_exists. split.
  - intros (x & I & E). apply String.eqb_eq in E. congruence.
  - intros I. exists n. split; [exact I|]. apply String.eqb_refl.
Qed.
Lemma mem_out n l : mem n l = false -> ~ In n l.
Proof. intros H I. apply mem_in in I. congruence. Qed.
Fixpoint distinct (l : list string) : bool := match l with [] => true | x :: l => negb (mem x l) && distinct l end.
Lemma distinct_ok l : distinct l = true -> NoDup l.
Proof.
  induction l as [|x l IH]; cbn; intros H; constructor; apply andb_true_iff in H as [A B]; auto.
  apply mem_out. apply negb_true_iff. exact A.
Qed.
Definition none {A} (o : option A) : bool := match o with None => true | _ => false end.
Definition ordinaryb (w : string) : bool := negb (mem w reserved) && negb (w =? "") && negb (starts_with "[" w).
Lemma ordinaryb_ok w : ordinaryb w = true -> ordinary w.
Proof.
  unfold ordinaryb, ordinary. rewrite !andb_true_iff, !negb_true_iff. intros [[A B] C].
  split; [apply mem_out; exact A|]. split; [apply String.eqb_neq; exact B|exact C].
Qed.
Definition rangeb (hi : option nat) : bool := match hi with None => true | Some h => (Z.of_nat h <? 2 ^ 31 - 1)%Z end.
Definition legalb (st : stmt) : bool :=
  match st with
  | Other ws => forallb (fun w => negb (mem w reserved)) ws
  | Input hi ns => rangeb hi && forallb (fun n => mem n (["clk"; "rst"] ++ in_ports)) ns
  | Output hi ns => rangeb hi && forallb (fun n => (n =? "o") || ((n =? "terminate") && none hi)) ns
  | Assign a b => ordinaryb a && ordinaryb b
  | Cell k i cs =>
      ordinaryb i && distinct (map fst cs) &&
      forallb (fun c => mem (fst c) (["CLK"; "RST"] ++ pins_in k ++ pins_out k) && ordinaryb (fst (snd c)) &&
                        match snd (snd c) with None => true | Some i => starts_with "[" i end) cs &&
      forallb (fun p => negb (none (at_pin cs p))) (pins_in k) &&
      existsb (fun p => negb (none (at_pin cs p))) (pins_out k)
  end.
Lemma none_false {A} (o : option A) : negb (none o) = true -> o <> None.
Proof. destruct o; cbn; congruence. Qed.
Lemma rangeb_ok hi : rangeb hi = true -> forall h, hi = Some h -> Z.of_nat h < 2 ^ 31 - 1.
Proof. intros H h ->. cbn [rangeb] in H. apply Z.ltb_lt in H. exact H. Qed.
Lemma legalb_ok st : legalb st = true -> legal st.
Proof.
  destruct st as [ws|hi ns|hi ns|a b|k i cs]; unfold legalb, legal; intros H.
  - apply Forall_forall. intros w I. rewrite forallb_forall in H. apply mem_out, negb_true_iff. auto.
  - apply andb_true_iff in H as [A B]. split; [apply rangeb_ok; exact A|]. apply Forall_forall. intros n I. rewrite forallb_forall in B. apply mem_in. auto.
  - apply andb_true_iff in H as [A B]. split; [apply rangeb_ok; exact A|]. apply Forall_forall. intros n I. rewrite forallb_forall in B. specialize (B n I).
    apply orb_true_iff in B as [B|B]; [left; apply String.eqb_eq; exact B|]. apply andb_true_iff in B as [B C]. right. split; [apply String.eqb_eq; exact B|].
    destruct hi; [discriminate|reflexivity].
  - apply andb_true_iff in H as [A B]. split; apply ordinaryb_ok; auto.
  - rewrite !andb_true_iff in H. destruct H as [[[[A B] C] D] E].
    split; [apply ordinaryb_ok; exact A|]. split; [apply distinct_ok; exact B|]. split; [|split].
    + apply Forall_forall. intros c I. rewrite forallb_forall in C. specialize (C c I). rewrite !andb_true_iff in C. destruct C as [[C1 C2] C3].
      split; [apply mem_in; exact C1|]. split; [apply ordinaryb_ok; exact C2|]. intros j J. rewrite J in C3. exact C3.
    + intros p I. rewrite forallb_forall in D. apply none_false. apply D. exact I.
    + apply existsb_exists in E as (p & I & N). exists p. split; [exact I|]. apply none_false. exact N.
Qed.
Definition no_midb (n : string) : bool := forallb (fun p => negb (String.prefix p n)) mid_prefixes.
Lemma prefix_app p n : String.prefix p (p ++ n)%string = true.
Proof. induction p as [|c p IH]; cbn; [destruct n; reflexivity|]. destruct (ascii_dec c c); [exact IH|congruence]. Qed.
Lemma no_midb_ok n : no_midb n = true -> ~ mid_name n.
Proof.
  intros H (p & k & I & ->). unfold no_midb in H. rewrite forallb_forall in H. specialize (H p I). rewrite prefix_app in H. discriminate.
Qed.
(** Assignments in order; [seen]: the names that have a driver so far. *)
Fixpoint assignsb (seen : list string) (l : list (string * string)) : bool :=
  match l with
  | [] => true
  | (a, b) :: l => negb (mem a seen) && mem b seen && no_midb a && no_midb b && assignsb (seen ++ [a]) l
  end.
Lemma assignsb_ok : forall l seen, assignsb seen l = true -> forall l1 a b r, l = l1 ++ (a, b) :: r ->
  ~ In a (seen ++ map fst l1) /\ In b (seen ++ map fst l1) /\ ~ mid_name a /\ ~ mid_name b.
Proof.
  induction l as [|[a' b'] l IH]; intros seen H l1 a b r E; [destruct l1; discriminate|]. cbn [assignsb] in H. rewrite !andb_true_iff in H.
  destruct H as [[[[A B] C] D] F]. destruct l1 as [|x l1]; cbn [app map fst] in *.
  - injection E as -> -> ->. rewrite app_nil_r. split; [apply mem_out, negb_true_iff; exact A|]. split; [apply mem_in; exact B|]. split; apply no_midb_ok; auto.
  - injection E as <- E. cbn [fst]. specialize (IH _ F _ _ _ _ E). rewrite <- app_assoc in IH. exact IH.
Qed.
Definition cellb (m : list stmt) (st : stmt) : bool :=
  match st with
  | Cell k i cs =>
    forallb (fun c => no_midb (net (snd c))) cs &&
    forallb (fun p => match at_pin cs p with
                      | None => true
                      | Some n => match k with
                                  | DFF => if p =? "D" then mem (driver m n) (input_nets m ++ reg_nets m ++ gate_nets m ++ const_names)
                                           else mem (driver m n) (init_nets m ++ const_names)
                                  | _ => mem (driver m n) (input_nets m ++ reg_nets m ++ gate_nets m ++ const_names)
                                  end
                      end) (pins_in k)
  | _ => true
  end.
Definition termb (m : list stmt) : bool :=
  existsb (fun st => match st with Output _ ns => mem "terminate" ns | _ => false end) m.
Definition out_bit (m : list stmt) (i : nat) : string :=
  if (out_width m =? 1)%nat then (if mem (driver m "o[0]") (driven m) then "o[0]" else "o") else elem "o" i.
Definition well_builtb (m : list stmt) : bool :=
  forallb legalb m && distinct (driven m) && assignsb (driven m) (assigns m) && forallb (cellb m) m &&
  forallb (fun i => mem (driver m (out_bit m i)) (input_nets m ++ reg_nets m ++ gate_nets m)) (seq 0 (out_width m)) &&
  negb (none (hd_error (init_nets m ++ input_nets m))) &&
  (negb (termb m) || mem (driver m "terminate") (reg_nets m ++ gate_nets m)) &&
  (negb (out_width m =? 1)%nat || mem (driver m "o[0]") (driven m)).
Lemma at_pin_in cs p n : at_pin cs p = Some n -> exists r, In (p, r) cs /\ n = net r.
Proof.
  induction cs as [|[q r] cs IH]; cbn; [discriminate|]. destruct (String.eqb_spec p q) as [->|N].
  - intros [= <-]. eauto.
  - intros H. destruct (IH H) as (r' & I & E). eauto.
Qed.
Lemma well_builtb_ok m : well_builtb m = true -> well_built m.
Proof.
  unfold well_builtb. rewrite !andb_true_iff. intros [[[[[[[LG ND] AS] CE] OU] SO] TE] O1].
  rewrite forallb_forall in CE.
  assert (HD : exists n, In n (init_nets m ++ input_nets m)).
  { destruct (init_nets m ++ input_nets m) as [|n l]; [discriminate|]. exists n. left. reflexivity. }
  assert (CP : forall k i cs p n, In (Cell k i cs) m -> In p (pins_in k) -> at_pin cs p = Some n ->
    match k with
    | DFF => if p =? "D" then mem (driver m n) (input_nets m ++ reg_nets m ++ gate_nets m ++ const_names) else mem (driver m n) (init_nets m ++ const_names)
    | _ => mem (driver m n) (input_nets m ++ reg_nets m ++ gate_nets m ++ const_names)
    end = true).
  { intros k i cs p n I P E. specialize (CE _ I). cbn [cellb] in CE. apply andb_true_iff in CE as [_ CE]. rewrite forallb_forall in CE. specialize (CE p P).
    rewrite E in CE. exact CE. }
  split.
  - apply Forall_forall. intros st I. apply legalb_ok. rewrite forallb_forall in LG. auto.
  - apply distinct_ok. exact ND.
  - intros l a b r E. exact (assignsb_ok _ _ AS _ _ _ _ E).
  - intros k i cs p n I E. specialize (CE _ I). cbn [cellb] in CE. apply andb_true_iff in CE as [CE _]. rewrite forallb_forall in CE.
    destruct (at_pin_in _ _ _ E) as (r & J & ->). apply no_midb_ok. exact (CE _ J).
  - intros k i cs p n I K P E. apply mem_in. specialize (CP _ _ _ _ _ I P E). destruct k; try exact CP. congruence.
  - intros i cs n I. split; intros E; apply mem_in.
    + exact (CP DFF i cs "D" n I (or_introl eq_refl) E).
    + exact (CP DFF i cs "I" n I (or_intror (or_introl eq_refl)) E).
  - intros i n Hi ON. rewrite forallb_forall in OU. specialize (OU i). rewrite in_seq in OU. specialize (OU ltac:(lia)). unfold out_bit in OU. unfold out_net in ON.
    destruct (out_width m =? 1)%nat.
    + cbn in O1. rewrite O1 in OU. apply mem_in in OU. apply mem_in in O1. destruct ON as [->|[-> N]]; [exact OU|contradiction].
    + subst n. apply mem_in. exact OU.
  - destruct HD as [n I]. exists n. rewrite in_app_iff in *. rewrite in_app_iff. tauto.
  - intros (hi & ns & I & T). split; [|exact HD]. apply mem_in.
    apply orb_true_iff in TE as [TE|TE]; [|exact TE]. exfalso. apply negb_true_iff in TE. assert (termb m = true); [|congruence].
    apply existsb_exists. eexists. split; [exact I|]. cbn. apply mem_in. exact T.
Qed.

(** ** The example: a 2-bit accumulator
    Adds the garbler's and the evaluator's 2-bit numbers to a register that starts
    with the garbler's initial value, when the evaluator's third bit selects it; the
    carry is kept; it stops when the register reads 3. *)
Definition demo_module : list stmt := [
  Other ["module"; "acc"; "clk"; "rst"; "g_init"; "g_input"; "e_input"; "o"; "terminate"];
  Input None ["clk"; "rst"];
  Input (Some 1%nat) ["g_init"; "g_input"];
  Input (Some 2%nat) ["e_input"];
  Output (Some 2%nat) ["o"];
  Output None ["terminate"];
  Other ["wire"; "n1"; "n2"; "n3"; "n4"; "n5"; "n6"; "n7"; "\acc"; "[0]"];
  Cell AND "U9" [("A", ("n1", None)); ("B", ("n2", None)); ("Z", ("terminate", None))];
  Cell DFF "r0" [("D", ("n3", None)); ("CLK", ("clk", None)); ("RST", ("rst", None)); ("I", ("g_init[0]", None)); ("Q", ("n1", None))];
  Cell DFF "r1" [("D", ("n5", None)); ("CLK", ("clk", None)); ("RST", ("rst", None)); ("I", ("g_init[1]", None)); ("Q", ("n2", None))];
  Cell DFF "r2" [("D", ("n7", None)); ("CLK", ("clk", None)); ("RST", ("rst", None)); ("I", ("1'b0", None)); ("Q", ("\carry", Some "[0]"))];
  Cell MUX "U3" [("IN0", ("n1", None)); ("IN1", ("n4", None)); ("SEL", ("e_input[2]", None)); ("F", ("n3", None))];
  Cell MUX "U4" [("IN0", ("n2", None)); ("IN1", ("n6", None)); ("SEL", ("e_input[2]", None)); ("F", ("n5", None))];
  Cell HADDER "U1" [("IN0", ("g_input[0]", None)); ("IN1", ("e_input[0]", None)); ("COUT", ("n8", None)); ("SUM", ("n4", None))];
  Cell FADDER "U2" [("IN0", ("g_input[1]", None)); ("IN1", ("e_input[1]", None)); ("CIN", ("n8", None)); ("COUT", ("n7", None)); ("SUM", ("n6", None))];
  Assign "o[0]" "n1";
  Assign "o[1]" "n2";
  Assign "o[2]" "\carry[0]" ].
Definition demo_verilog : string :=
"module acc ( clk, rst, g_init, g_input, e_input, o, terminate );
  input clk, rst;
  input [1:0] g_init, g_input;
  input [2:0] e_input;
  output [2:0] o;
  output terminate;
  wire   n1, n2, n3, n4, n5, n6, n7, \acc [0];

  AND U9 ( .A(n1), .B(n2), .Z(terminate) );
  DFF r0 ( .D(n3), .CLK(clk), .RST(rst), .I(g_init[0]), .Q(n1) );
  DFF r1 ( .D(n5), .CLK(clk), .RST(rst), .I(g_init[1]), .Q(n2) );
  DFF r2 ( .D(n7), .CLK(clk), .RST(rst), .I(1'b0), .Q(\carry [0]) );
  MUX U3 ( .IN0(n1), .IN1(n4), .SEL(e_input[2]), .F(n3) );
  MUX U4 ( .IN0(n2), .IN1(n6), .SEL(e_input[2]), .F(n5) );
  HADDER U1 ( .IN0(g_input[0]), .IN1(e_input[0]), .COUT(n8), .SUM(n4) );
  FADDER U2 ( .IN0(g_input[1]), .IN1(e_input[1]), .CIN(n8),
        .COUT(n7), .SUM(n6) );
  assign o[0] = n1;
  assign o[1] = n2;
  assign o[2] = \carry[0] ;
endmodule
".
Definition demo_text : text := list_ascii_of_string demo_verilog.
Lemma demo_built : well_built demo_module.
Proof. apply well_builtb_ok. vm_compute. reflexivity. Qed.
Lemma demo_written : written (module_words demo_module) demo_text.
Proof.
  assert (E : words demo_text = module_words demo_module) by (vm_compute; reflexivity).
  rewrite <- E. apply written_words.
Qed.
Lemma demo_size : Z.of_nat (List.length demo_module) < 2 ^ 60.
Proof. vm_compute. reflexivity. Qed.
Lemma demo_no_loop : ~ comb_loop demo_module.
Proof.
  intros L. pose proof (verilog_loop _ _ demo_built L demo_written true) as F.
  assert (E : match Verilog2SCD true (Some demo_text) with Failed => false | _ => true end = true) by (vm_compute; reflexivity).
  rewrite F in E. discriminate.
Qed.
(** What the translator writes for it. *)
Definition demo_scd : string :=
"0 2 0 0 2 3 3 3 10 14
7 2 7 6 7 2 3 5 8 6 8 5 16 15 
8 4 11 12 13 4 15 16 17 18 19 15 21 22 
8 6 6 8 6 8 6 6 6 8 6 6 8 6 
7 8 9 
14 20 23 
0 1 -2 
".
Lemma demo_translated log : Verilog2SCD log (Some demo_text) = Done (list_ascii_of_string demo_scd).
Proof. destruct log; vm_compute; reflexivity. Qed.
