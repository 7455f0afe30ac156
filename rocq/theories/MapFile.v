(** The mapping file: which wire of the SCD file carries which net of the netlist. *)
From Coq Require Import ZArith NArith List Bool Lia Ascii String Permutation.
From Verif Require Import Base Gate Circuit Spec Plain Sort SortOk Text Netlist NetlistOk Scd Front.
Import ListNotations.
Open Scope Z_scope.

(** * Model *)

(** scheduling.cpp:512-513: [f << name << " " << number << endl] *)
Definition map_line (n : string) (w : Z) : text := list_ascii_of_string n ++ [sp] ++ dec_Z w ++ [nl].

(** scheduling.cpp:501-527 WriteMapping; [None]: an index out of range.  The last
    line prints a uint64_t. *)
Definition WriteMapping (s : ReadCircuitString) (rc : ReadCircuit) : option text :=
  do ds <- omap (fun i => do d <- rd (dff_list_string s) (Z.of_nat i); do d' <- rd (dff_list rc) (Z.of_nat i);
                          Some (map_line (gs_out d) (rg_out d'))) (seq 0 (List.length (dff_list rc)));
  do gs <- omap (fun i => do gid <- rd (task_schedule rc) (Z.of_nat i); do g <- rd (gate_list_string s) gid;
                          do g' <- rd (gate_list rc) gid; Some (map_line (gs_out g) (rg_out g')))
                (seq 0 (List.length (gate_list rc)));
  Some (List.concat ds ++ List.concat gs ++ map_line "terminate" (rc_terminate_id rc)).

(** v_2_scd.cpp:37-57, 70-90: what becomes of a parsed netlist.  The files are taken
    to be writable.  [None] undefined behaviour, [Some None] FAILURE, otherwise
    mapping file and SCD file. *)
Definition translate_files (log : bool) (s : ReadCircuitString) : option (option (text * text)) :=
  match IdAssignment log s with
  | None => Some None
  | Some rc =>
    do r <- SortNetlist log rc;
    match r with
    | None => Some None
    | Some rc' => do mp <- WriteMapping s rc'; do file <- WriteSCD rc'; Some (Some (mp, file))
    end
  end.

(** * Specification *)

(** A mapping file with the entries [es] (name and wire) and terminate wire [t]. *)
Definition map_file (es : list (string * Z)) (t : Z) : text :=
  flat_map (fun e => map_line (fst e) (snd e)) es ++ map_line "terminate" t.
(** The entries [es] name the wires of the circuit [c] made from the netlist [s]:
    every register and gate has one entry, the wires are listed in order, registers
    first, and a wire has the value of the net of its name. *)
Record names_wires (s : ReadCircuitString) (c : GarbledCircuit) (es : list (string * Z)) : Prop := {
  nw_all : Permutation (map fst es) (cell_names s);
  nw_regs : firstn (List.length (dff_list_string s)) (map fst es) = map gs_out (dff_list_string s);
  nw_order : map snd es = map (fun k => first_dff c + Z.of_nat k) (seq 0 (dff_size c + gate_size c));
  nw_value : forall x U V, net_consistent s x U -> consistent c x V ->
    forall cy n w, In (n, w) es -> V cy w = U cy n }.

(** * Proof *)
Section MapOk.
Variable s : ReadCircuitString.
Hypothesis WN : well_named s.
Hypothesis NL : ~ combinational_loop s.
Notation rc := (numbered s).
Notation b := (init_input_dff_size rc).

Section Renumbered.
Variables p q : Z -> Z.
Hypothesis RN : renumbering rc p q.
Notation rc' := (sorted_circuit rc p q).
Notation c := (circuit_with rc' (sorted_gates rc p q)).

Definition dff_entry (d : ReadGateString) : string * Z := (gs_out d, p (id s (gs_out d))).
Definition gate_entry (k : nat) : string * Z :=
  (match nth_error (gate_list_string s) (Z.to_nat (q (Z.of_nat b + Z.of_nat k) - Z.of_nat b)) with Some g => gs_out g | None => ""%string end,
   Z.of_nat b + Z.of_nat k).
Definition entries : list (string * Z) :=
  map dff_entry (dff_list_string s) ++ map gate_entry (seq 0 (List.length (gate_list_string s))).

Lemma rc_gates : List.length (gate_list rc) = List.length (gate_list_string s).
Proof. cbn. apply map_length. Qed.
Lemma rc_dffs : List.length (dff_list rc) = List.length (dff_list_string s).
Proof. cbn. apply map_length. Qed.
Lemma seq_add m d : seq d m = map (fun k => (d + k)%nat) (seq 0 m).
Proof. revert d; induction m as [|m IH]; intros d; cbn [seq map]; [reflexivity|]. rewrite Nat.add_0_r. f_equal. rewrite (IH (S d)), <- seq_shift, map_map. apply map_ext. intros; lia. Qed.
Lemma omap_seq {A B} (f : nat -> option B) (g : A -> B) : forall l k,
  (forall i x, nth_error l i = Some x -> f (k + i)%nat = Some (g x)) -> omap f (seq k (List.length l)) = Some (map g l).
Proof.
  induction l as [|x l IH]; intros k H; cbn [List.length seq omap map]; [reflexivity|].
  pose proof (H 0%nat x eq_refl) as H0. rewrite Nat.add_0_r in H0. rewrite H0. cbn [obind]. rewrite (IH (S k)); [reflexivity|].
  intros i y E. rewrite <- (H (S i) y E). f_equal. lia.
Qed.

Lemma mapping_is : WriteMapping s rc' = Some (map_file entries (p (rc_terminate_id rc))).
Proof.
  unfold WriteMapping. cbn [dff_list gate_list task_schedule rc_terminate_id sorted_circuit].
  rewrite !map_length, combine_seq_length, rc_dffs.
  rewrite (omap_seq _ (fun d => map_line (gs_out d) (p (id s (gs_out d)))) (dff_list_string s)).
  2:{ intros i d E. cbn [Nat.add]. rewrite !rd_nat, E. cbn [obind]. rewrite nth_error_map. cbn [dff_list numbered]. rewrite nth_error_map, E. reflexivity. }
  cbn [obind]. rewrite rc_gates.
  pose proof (seq_length (List.length (gate_list_string s)) 0) as SL. rewrite <- SL at 1.
  rewrite (omap_seq _ (fun k => map_line (fst (gate_entry k)) (snd (gate_entry k))) (seq 0 (List.length (gate_list_string s)))).
  2:{ intros i k E. pose proof (nth_error_lt _ _ _ E) as L. rewrite seq_length in L.
      rewrite (nth_error_nth' _ 0%nat), seq_nth in E by (rewrite ?seq_length; exact L). injection E as <-. cbn [Nat.add].
      rewrite rd_nat, nth_error_map, (nth_error_nth' _ 0%nat), seq_nth by (rewrite ?seq_length; exact L). cbn [option_map obind Nat.add].
      destruct (sched_index rc p q RN i) as (j & g & EQ & EG & EP); [rewrite rc_gates; exact L|].
      unfold gate_entry. rewrite EQ. replace (Z.of_nat b + Z.of_nat j - Z.of_nat b) with (Z.of_nat j) by lia. rewrite !rd_nat, Nat2Z.id.
      destruct (nth_error (gate_list_string s) j) as [h|] eqn:EH.
      2:{ apply nth_error_None in EH. apply nth_error_lt in EG. rewrite rc_gates in EG. lia. }
      cbn [obind fst snd]. rewrite nth_error_map. rewrite <- rc_gates, (nth_combine_seq _ _ _ 0 EG). cbn [option_map obind].
      unfold sorted_gate. cbn [fst snd rg_out Nat.add]. rewrite EP. reflexivity. }
  cbn [obind]. f_equal. unfold map_file, entries. rewrite flat_map_app, !flat_map_concat_map, !map_map, <- app_assoc. reflexivity.
Qed.

Lemma dff_id i d : nth_error (dff_list_string s) i = Some d -> id s (gs_out d) = fdff s + Z.of_nat i.
Proof.
  intros E. apply (id_declared s WN). unfold ids. rewrite !in_app_iff. right. right. left.
  pose proof (dff_id_in s i d E) as Q. rewrite in_app_iff in Q. exact Q.
Qed.
Lemma p_dff i d : nth_error (dff_list_string s) i = Some d -> p (id s (gs_out d)) = fdff s + Z.of_nat i.
Proof.
  intros E. rewrite (dff_id i d E). apply (rn_low _ _ _ RN). rewrite (numbered_b s). pose proof (nth_error_lt _ _ _ E). lia.
Qed.
Lemma first_dff_c : first_dff c = fdff s.
Proof. unfold first_dff, first_input, fdff. cbn. lia. Qed.

Lemma map_nth_seq {A B} (f : A -> B) (h : nat -> B) : forall l k,
  (forall i x, nth_error l i = Some x -> f x = h (k + i)%nat) -> map f l = map h (seq k (List.length l)).
Proof.
  induction l as [|x l IH]; intros k H; cbn [List.length seq map]; [reflexivity|]. f_equal.
  - rewrite (H 0%nat x eq_refl). f_equal. lia.
  - apply IH. intros i y E. rewrite (H (S i) y E). f_equal. lia.
Qed.
Lemma entries_order : map snd entries = map (fun k => first_dff c + Z.of_nat k) (seq 0 (dff_size c + gate_size c)).
Proof.
  unfold entries. rewrite map_app, !map_map. unfold dff_size, gate_size. rewrite gates_length, sorted_gates_length.
  cbn [D circuit_with dff_list sorted_circuit]. rewrite !map_length, rc_dffs, rc_gates, seq_app, map_app. f_equal.
  - apply map_nth_seq. intros i d E. cbn [dff_entry snd]. rewrite (p_dff i d E), first_dff_c. reflexivity.
  - rewrite first_dff_c, (seq_add _ (0 + _)), map_map. apply map_ext. intros k. cbn [gate_entry snd]. rewrite (numbered_b s). lia.
Qed.

Lemma names_perm : Permutation (map fst entries) (cell_names s).
Proof.
  unfold entries, cell_names. rewrite map_app, !map_map. apply Permutation_app_head.
  set (f := fun k => Z.to_nat (q (Z.of_nat b + Z.of_nat k) - Z.of_nat b)).
  set (h := fun i => match nth_error (gate_list_string s) i with Some g => gs_out g | None => ""%string end).
  change (map (fun k => fst (gate_entry k)) (seq 0 (List.length (gate_list_string s)))) with (map (fun k => h (f k)) (seq 0 (List.length (gate_list_string s)))).
  rewrite <- (map_map f h).
  replace (map gs_out (gate_list_string s)) with (map h (seq 0 (List.length (gate_list_string s)))).
  2:{ symmetry. apply map_nth_seq. intros i g E. unfold h. cbn [Nat.add]. rewrite E. reflexivity. }
  apply Permutation_map. apply Permutation_sym, NoDup_Permutation_bis.
  - apply seq_NoDup.
  - rewrite map_length. apply le_n.
  - intros i I. apply in_seq in I. apply in_map_iff.
    destruct (nth_error (gate_list rc) i) as [g|] eqn:EG; [|apply nth_error_None in EG; rewrite rc_gates in EG; lia].
    destruct (cs_gate_ex rc p q RN i g EG) as (k & EP & EK).
    exists k. split.
    + unfold f. rewrite <- EP. destruct (rn_range _ _ _ RN (Z.of_nat b + Z.of_nat i)) as [_ ->]; [rewrite rc_gates; lia|]. lia.
    + apply nth_error_lt in EK. rewrite gates_length, sorted_gates_length, rc_gates in EK. apply in_seq. lia.
Qed.
Lemma names_regs : firstn (List.length (dff_list_string s)) (map fst entries) = map gs_out (dff_list_string s).
Proof.
  unfold entries. rewrite map_app, !map_map.
  rewrite <- (map_length (fun x => fst (dff_entry x)) (dff_list_string s)), firstn_app, firstn_all, Nat.sub_diag. cbn [firstn]. rewrite app_nil_r. reflexivity.
Qed.

Lemma entry_wire n w : In (n, w) entries -> In n (cell_names s) /\ w = p (id s n).
Proof.
  unfold entries. rewrite in_app_iff, !in_map_iff. intros [(d & E & I)|(k & E & I)]; injection E as <- <-.
  - split; [|reflexivity]. apply dff_out_declared. exact I.
  - apply in_seq in I. destruct (sched_index rc p q RN k) as (j & g & EQ & EG & EP); [rewrite rc_gates; lia|].
    rewrite EQ. replace (Z.to_nat (Z.of_nat b + Z.of_nat j - Z.of_nat b)) with j by lia.
    destruct (nth_error (gate_list_string s) j) as [h|] eqn:EH.
    2:{ apply nth_error_None in EH. apply nth_error_lt in EG. rewrite rc_gates in EG. lia. }
    assert (IN : In (gs_out h) (cell_names s)) by (apply gate_out_declared; eapply nth_error_In; eauto).
    split; [exact IN|]. rewrite (gate_id s WN h j EH) by (apply (root_of_declared s WN), part_declared; auto).
    rewrite <- (numbered_b s), EP. reflexivity.
Qed.

Lemma entry_value x U V : net_consistent s x U -> consistent c x V -> forall cy n w, In (n, w) entries -> V cy w = U cy n.
Proof.
  intros NC CV cy n w I. destruct (entry_wire n w I) as [IN ->].
  pose proof (numbered_translatable s WN NL) as TR. pose proof (sorted_well_formed rc TR p q RN) as WF.
  assert (RT : root_of s n = n) by (apply (root_of_declared s WN), part_declared; auto).
  pose proof (id_cell s WN n ltac:(rewrite RT; exact IN)) as ID. pose proof (fdff_ge s) as FG.
  rewrite (consistent_unique _ x WF V _ CV (to_sorted rc TR p q RN x _ (net_to_num s WN x U NC))).
  - destruct (rn_range _ _ _ RN (id s n)) as [_ ->]; [rewrite numbered_n; lia|].
    rewrite <- (W_operand s WN x U NC cy n) by (rewrite RT, !in_app_iff; auto).
    unfold operand. destruct (Z.eqb_spec (id s n) (-3)); [lia|]. destruct (Z.ltb_spec (id s n) 0); [lia|reflexivity].
  - rewrite (last_wire_cs rc p q). pose proof (wire_ref_id s WN n ltac:(rewrite RT, !in_app_iff; auto)) as WR.
    destruct (p_ref rc p q RN (id s n) WR) as [[A B] C]. split; [|lia]. destruct B; [lia|auto].
Qed.
End Renumbered.
End MapOk.

Theorem names_ok s : well_named s -> small s -> ~ combinational_loop s ->
  exists file c es, (forall log, translate_files log s = Some (Some (map_file es (terminate_id c), file))) /\
    (forall log, translate log s = Some (Some file)) /\ (forall junk, ReadSCD junk file = c) /\ implements c s /\ names_wires s c es.
Proof.
  intros WN SM NL. pose proof (numbered_translatable s WN NL) as TR.
  destruct (translate_reads s WN SM NL) as (file & c & T & R & IM). 
  destruct (sort_netlist_meaning _ TR) as (rc' & gs & ES & EG & _).
  destruct (sort_netlist_is _ TR false) as (p & q & RN & E). rewrite (ES false) in E. injection E as ->.
  assert (EW : WriteSCD (sorted_circuit (numbered s) p q) = Some file).
  { specialize (T false). unfold translate in T. rewrite (IdAssignment_is s WN), ES in T. cbn [obind] in T.
    destruct (WriteSCD _); cbn [obind] in T; [|discriminate]. congruence. }
  assert (EC : c = circuit_with (sorted_circuit (numbered s) p q) (sorted_gates (numbered s) p q)).
  { pose proof (scheduled_is _ p q RN) as SI.
    destruct (scd_round_trip _ _ (fun _ _ => 0) SI (numbered_fits s p q WN SM TR RN)) as (f' & EF & ER).
    rewrite EW in EF. injection EF as <-. rewrite (R (fun _ _ => 0)) in ER. exact ER. }
  exists file, c, (entries s p q). split; [|split; [exact T|split; [exact R|split; [exact IM|]]]].
  - intros log. unfold translate_files. rewrite (IdAssignment_is s WN), ES. cbn [obind]. rewrite (mapping_is s p q RN). cbn [obind].
    rewrite EW. cbn [obind]. subst c. reflexivity.
  - subst c. split.
    + apply (names_perm s p q RN).
    + apply names_regs.
    + apply (entries_order s WN p q RN).
    + apply (entry_value s WN NL p q RN).
Qed.
