(** Verilog2SCD: text of a netlist to text of an SCD file. *)
From Coq Require Import ZArith NArith List Bool Ascii String Lia Permutation.
From Verif Require Import Base Gate Circuit Spec Sort Text Netlist NetlistOk Scd Front Parse ParseOk Verilog VerilogOk VerilogNet.
Import ListNotations.
Open Scope Z_scope.
Open Scope string_scope.
Open Scope list_scope.

(** scd/v_2_scd.cpp:27-58 (without the mapping file) *)
Definition Verilog2SCD (log : bool) (file : option text) : result text :=
  match ParseNetlist log file with
  | Done s => match translate log s with None => Undefined | Some None => Failed | Some (Some t) => Done t end
  | Failed => Failed
  | Hangs => Hangs
  | Undefined => Undefined
  end.

Lemma nodup_right {A} (a b : list A) : NoDup (a ++ b) -> NoDup b.
Proof. induction a; cbn; [auto|]. intros H. inversion H. auto. Qed.
Lemma nodup_left {A} (a b : list A) : NoDup (a ++ b) -> NoDup a.
Proof. induction a; cbn; intros H; [constructor|]. inversion H as [|? ? N ND]; subst. constructor; [|auto]. intros I. apply N. apply in_or_app. auto. Qed.

Section Loops.
Variable m : list stmt.
Hypothesis WB : well_built m.
Let s := elab m.
Let WN : well_named s := elab_well_named m WB.
Let gs := gates_from 0 m.

Lemma gates_nodup : NoDup (map gs_out gs).
Proof.
  assert (P : Permutation (map gs_out gs) (gate_nets m ++ map fst (mids m))) by (apply gates_perm; apply (wb_legal m WB)).
  apply (Permutation_NoDup (Permutation_sym P)). apply nodup_app.
  - pose proof (wb_drivers m WB) as N. unfold driven in N. do 3 apply nodup_right in N. apply nodup_left in N. exact N.
  - apply mids_nodup.
  - intros n A B. apply (driven_not_mid m WB n); [|apply (mids_mid m); exact B]. unfold driven. rewrite !in_app_iff. auto.
Qed.
Lemma out_inj i j g h : nth_error gs i = Some g -> nth_error gs j = Some h -> gs_out g = gs_out h -> i = j.
Proof.
  intros A B E. apply (proj1 (NoDup_nth_error (map gs_out gs)) gates_nodup).
  - rewrite map_length. apply nth_error_Some. congruence.
  - rewrite !nth_error_map, A, B. cbn. congruence.
Qed.
Lemma gate_out_in j h : nth_error gs j = Some h -> In (gs_out h) (gate_nets m) \/ mid_name (gs_out h).
Proof.
  intros H. pose proof (in_map gs_out _ _ (nth_error_In _ _ H)) as I. apply (Permutation_in _ (gates_perm m 0 (wb_legal m WB))) in I.
  apply in_app_or in I as [I|I]; [auto|right; apply (mids_mid m); exact I].
Qed.
Lemma user_not_mid n : In n (gate_nets m) -> ~ mid_name n.
Proof. intros H. apply (driven_not_mid m WB). unfold driven. rewrite !in_app_iff. auto. Qed.
Lemma user_gate n : In n (gate_nets m) -> exists j h, nth_error gs j = Some h /\ gs_out h = n.
Proof.
  intros H. assert (I : In n (map gs_out gs)) by (apply (Permutation_in _ (Permutation_sym (gates_perm m 0 (wb_legal m WB)))); apply in_or_app; auto).
  apply in_map_iff in I as (h & E & I). apply In_nth_error in I as [j I]. eauto.
Qed.
Let legal_placed k i cs b : placed m k i cs b -> legal (Cell k i cs).
Proof. intros P. apply (proj1 (Forall_forall _ _) (wb_legal m WB)). eapply placed_in; eauto. Qed.
Lemma cell_nonempty k (b j : nat) p g : nth_error (cell_gates k b p) j = Some g -> k <> DFF.
Proof. intros H ->. destruct j; discriminate H. Qed.

(** What a gate of a cell reads. *)
Lemma read_cases k i cs b j' g n j h : placed m k i cs b -> nth_error (cell_gates k b (wiring cs)) j' = Some g -> n = gs_in0 g \/ n = gs_in1 g ->
  nth_error gs j = Some h -> root_of s n = gs_out h ->
  (In (gs_out h) (gate_nets m) /\ exists p, In p (pins_in k) /\ at_pin cs p = Some n) \/
  (mid_name (gs_out h) /\ exists j'', (j'' < j')%nat /\ j = (b + j'')%nat /\ nth_error (cell_gates k b (wiring cs)) j'' = Some h).
Proof.
  intros P G N H R. pose proof (legal_placed _ _ _ _ P) as L. pose proof (cell_nonempty _ _ _ _ _ G) as K.
  unfold s in R. rewrite (e_root m WB) in R.
  destruct (cell_gate_reads k i cs b j' g n L K G N) as [->|[(p & PI & A)|(j'' & h' & LT & H' & O & M)]].
  - exfalso. rewrite (driver_driven m WB) in R by (unfold driven; rewrite !in_app_iff; cbn [const_names In]; tauto).
    assert (C : In "" (cell_names s)).
    { rewrite R. unfold cell_names, s. rewrite in_app_iff, (e_gates m WB). right. apply in_map. eapply nth_error_In; eauto. }
    pose proof (wn_drivers _ WN) as ND. unfold declared in ND. do 2 apply nodup_right in ND.
    apply in_split in C as (l & r & E). rewrite E in ND. rewrite <- app_assoc in ND. cbn [app] in ND. apply NoDup_remove_2 in ND.
    apply ND. rewrite !in_app_iff. cbn. tauto.
  - left. split; [|eauto]. destruct (gate_out_in j h H) as [X|X]; [exact X|]. exfalso. rewrite <- R in X. revert X. apply (driver_not_mid m WB). eapply wb_cell; [exact WB|eapply placed_in; eauto|exact A].
  - right. assert (MM : mid_name n).
    { apply (mids_mid m). apply in_map_iff in M as (e & <- & M). apply in_map. apply (placed_mids _ _ _ _ _ P). exact M. }
    rewrite (driver_mid m WB n MM) in R. split; [rewrite <- R; exact MM|]. exists j''. split; [exact LT|].
    pose proof (placed_gate _ _ _ _ _ P _ _ H') as PG. assert (E : j = (b + j'')%nat) by (eapply out_inj; [exact H|exact PG|congruence]).
    split; [exact E|]. rewrite E in H. unfold gs in H. rewrite PG in H. congruence.
Qed.
Lemma out_pin k i cs b j g : placed m k i cs b -> nth_error (cell_gates k b (wiring cs)) j = Some g -> ~ mid_name (gs_out g) ->
  exists p, In p (pins_out k) /\ at_pin cs p = Some (gs_out g).
Proof.
  intros P G N. pose proof (in_map gs_out _ _ (nth_error_In _ _ G)) as I.
  apply (Permutation_in _ (cell_outs_perm k i cs b (legal_placed _ _ _ _ P) (cell_nonempty _ _ _ _ _ G))) in I.
  apply in_app_or in I as [I|I]; [apply outs_in; exact I|]. exfalso. apply N. apply (mids_mid m). apply in_map_iff in I as (e & <- & I). apply in_map.
  apply (placed_mids _ _ _ _ _ P). exact I.
Qed.

Definition user (j : nat) : Prop := exists h, nth_error gs j = Some h /\ In (gs_out h) (gate_nets m).
Lemma reads_gs i j : gate_reads s i j -> exists g h n, nth_error gs i = Some g /\ nth_error gs j = Some h /\ (n = gs_in0 g \/ n = gs_in1 g) /\ root_of s n = gs_out h.
Proof.
  intros (g & h & G & H & R). unfold s in G, H. rewrite (e_gates m WB) in G, H. destruct R as [R|R]; [exists g, h, (gs_in0 g)|exists g, h, (gs_in1 g)]; auto.
Qed.
Lemma path_user : forall i j, gate_depends s i j -> forall k c cs b j', placed m k c cs b -> i = (b + j')%nat -> nth_error gs i = nth_error (cell_gates k b (wiring cs)) j' ->
  forall h, nth_error gs j = Some h -> In (gs_out h) (gate_nets m) -> forall p F, In p (pins_out k) -> at_pin cs p = Some F -> comb_path m F (gs_out h).
Proof.
  induction 1 as [i j R|i j l R D IH]; intros k c cs b j' P Ei EN h H U p F PO A; destruct (reads_gs _ _ R) as (g & hj & n & G & Hj & N & RN).
  - rewrite Hj in H. injection H as <-. rewrite G in EN. symmetry in EN.
    destruct (read_cases _ _ _ _ _ _ _ _ _ P EN N Hj RN) as [[_ (q & Q & AQ)]|[M _]]; [|exfalso; exact (user_not_mid _ U M)].
    apply cp_step. exists k, c, cs, p, q, n. split; [eapply placed_in; eauto|]. split; [eapply cell_nonempty; eauto|].
    rewrite <- (e_root m WB). auto 10.
  - rewrite G in EN. symmetry in EN. destruct (read_cases _ _ _ _ _ _ _ _ _ P EN N Hj RN) as [[UJ (q & Q & AQ)]|[_ (j'' & LT & Ej & NJ)]].
    + apply cp_trans with (gs_out hj).
      * exists k, c, cs, p, q, n. split; [eapply placed_in; eauto|]. split; [eapply cell_nonempty; eauto|]. rewrite <- (e_root m WB). auto 10.
      * destruct (gate_placed m j hj Hj) as (k2 & c2 & cs2 & b2 & j2 & P2 & E2 & N2).
        destruct (out_pin _ _ _ _ _ _ P2 N2 (user_not_mid _ UJ)) as (p2 & PO2 & A2).
        refine (IH _ _ _ _ _ P2 E2 _ h H U p2 _ PO2 A2). congruence.
    + refine (IH _ _ _ _ _ P Ej _ h H U p _ PO A). congruence.
Qed.
Lemma depends_trans i j k : gate_depends s i j -> gate_depends s j k -> gate_depends s i k.
Proof. induction 1; intros D; [eapply gdep_trans; eauto|eapply gdep_trans; [eassumption|auto]]. Qed.
Lemma through_user i j : gate_depends s i j -> (exists u, user u /\ gate_depends s i u /\ (u = j \/ gate_depends s u j)) \/ (j < i)%nat.
Proof.
  induction 1 as [i j R|i j l R D IH]; destruct (reads_gs _ _ R) as (g & hj & n & G & Hj & N & RN);
    destruct (gate_placed m i g G) as (k & c & cs & b & j' & P & Ei & EN);
    destruct (read_cases _ _ _ _ _ _ _ _ _ P EN N Hj RN) as [[UJ _]|[_ (j'' & LT & Ej & NJ)]].
  - left. exists j. split; [exists hj; auto|]. split; [constructor; exact R|auto].
  - right. lia.
  - left. exists j. split; [exists hj; auto|]. split; [constructor; exact R|auto].
  - destruct IH as [(u & U & D1 & D2)|L]; [|right; lia]. left. exists u. split; [exact U|]. split; [eapply gdep_trans; eauto|exact D2].
Qed.
Lemma loop_to_nets : combinational_loop s -> comb_loop m.
Proof.
  intros [i D]. destruct (through_user i i D) as [(u & (h & H & U) & D1 & D2)|L]; [|lia].
  assert (DU : gate_depends s u u) by (destruct D2 as [->|D2]; [exact D|eapply depends_trans; eauto]).
  destruct (gate_placed m u h H) as (k & c & cs & b & j' & P & E & N). destruct (out_pin _ _ _ _ _ _ P N (user_not_mid _ U)) as (p & PO & A).
  exists (gs_out h). refine (path_user u u DU k c cs b j' P E _ h H U p _ PO A). congruence.
Qed.

(** In the other direction: inside a cell every output depends on every input. *)
Lemma inner_read k i cs b j' j'' g h n : placed m k i cs b -> nth_error (cell_gates k b (wiring cs)) j' = Some g -> nth_error (cell_gates k b (wiring cs)) j'' = Some h ->
  n = gs_in0 g \/ n = gs_in1 g -> n = gs_out h -> mid_name n -> gate_reads s (b + j') (b + j'').
Proof.
  intros P G H N O M. exists g, h. unfold s. rewrite (e_gates m WB). split; [eapply placed_gate; eauto|]. split; [eapply placed_gate; eauto|].
  rewrite !(e_root m WB). pose proof (driver_mid m WB n M) as D. destruct N as [<-|<-]; [left|right]; congruence.
Qed.
Lemma cell_path k i cs b p q a : placed m k i cs b -> k <> DFF -> In p (pins_out k) -> at_pin cs p = Some a -> In q (pins_in k) ->
  exists j' g j'' g2, nth_error (cell_gates k b (wiring cs)) j' = Some g /\ gs_out g = a /\ nth_error (cell_gates k b (wiring cs)) j'' = Some g2 /\
    (pval (wiring cs) q = gs_in0 g2 \/ pval (wiring cs) q = gs_in1 g2) /\ (j' = j'' \/ gate_depends s (b + j') (b + j'')).
Proof.
  intros P K PO A Q. pose proof (pval_pin _ _ _ A) as PV. pose proof (has_pin cs p) as HP. rewrite A in HP.
  assert (MID : forall x, In x mid_prefixes -> mid_name (x ++ to_string b)%string) by (intros x X; exists x, b; auto).
  pose proof (fun j1 j2 g h n => inner_read k i cs b j1 j2 g h n P) as IR.
  destruct k; try congruence; cbn [pins_out In] in PO; decompose [or] PO; try contradiction; subst p; cbn [cell_gates kind_type] in *; unfold mux_gates, hadder_gates, fadder_gates in *;
    rewrite ?HP in *; cbn [app] in *.
  all: try (exists 0%nat; eexists; exists 0%nat; eexists; split; [reflexivity|]; split; [exact PV|]; split; [reflexivity|]; split; [|auto];
            cbn [gs_in0 gs_in1 pins_in In] in *; decompose [or] Q; try contradiction; subst q; auto; fail).
  - (* MUX *)
    assert (R21 : gate_reads s (b + 2) (b + 1)) by (eapply (IR 2%nat 1%nat); [reflexivity|reflexivity|right; reflexivity|reflexivity|apply MID; cbn; tauto]).
    assert (R10 : gate_reads s (b + 1) (b + 0)) by (eapply (IR 1%nat 0%nat); [reflexivity|reflexivity|right; reflexivity|reflexivity|apply MID; cbn; tauto]).
    cbn [pins_in In] in Q. decompose [or] Q; try contradiction; subst q.
    + exists 2%nat. eexists. exists 2%nat. eexists. split; [reflexivity|]. split; [exact PV|]. split; [reflexivity|]. cbn. auto.
    + exists 2%nat. eexists. exists 0%nat. eexists. split; [reflexivity|]. split; [exact PV|]. split; [reflexivity|]. split; [cbn; auto|]. right. eapply gdep_trans; [exact R21|]. constructor. exact R10.
    + exists 2%nat. eexists. exists 1%nat. eexists. split; [reflexivity|]. split; [exact PV|]. split; [reflexivity|]. split; [cbn; auto|]. right. constructor. exact R21.
  - (* HADDER COUT *)
    destruct (has (wiring cs) "SUM"); cbn [app] in *; [exists 1%nat; eexists; exists 1%nat|exists 0%nat; eexists; exists 0%nat]; eexists;
      (split; [reflexivity|]; split; [exact PV|]; split; [reflexivity|]; split; [|auto]); cbn [gs_in0 gs_in1 pins_in In] in *; decompose [or] Q; try contradiction; subst q; auto.
  - (* FADDER SUM *)
    assert (R10 : gate_reads s (b + 1) (b + 0)) by (eapply (IR 1%nat 0%nat); [reflexivity|reflexivity|right; reflexivity|reflexivity|apply MID; cbn; tauto]).
    cbn [pins_in In] in Q. decompose [or] Q; try contradiction; subst q.
    + exists 1%nat. eexists. exists 0%nat. eexists. split; [reflexivity|]. split; [exact PV|]. split; [reflexivity|]. split; [cbn; auto|]. right. constructor. exact R10.
    + exists 1%nat. eexists. exists 1%nat. eexists. split; [reflexivity|]. split; [exact PV|]. split; [reflexivity|]. cbn. auto.
    + exists 1%nat. eexists. exists 0%nat. eexists. split; [reflexivity|]. split; [exact PV|]. split; [reflexivity|]. split; [cbn; auto|]. right. constructor. exact R10.
  - (* FADDER COUT *)
    destruct (has (wiring cs) "SUM"); cbn [app] in *.
    + assert (R43 : gate_reads s (b + 4) (b + 3)) by (eapply (IR 4%nat 3%nat); [reflexivity|reflexivity|right; reflexivity|reflexivity|apply MID; cbn; tauto]).
      assert (R30 : gate_reads s (b + 3) (b + 0)) by (eapply (IR 3%nat 0%nat); [reflexivity|reflexivity|left; reflexivity|reflexivity|apply MID; cbn; tauto]).
      assert (R32 : gate_reads s (b + 3) (b + 2)) by (eapply (IR 3%nat 2%nat); [reflexivity|reflexivity|right; reflexivity|reflexivity|apply MID; cbn; tauto]).
      cbn [pins_in In] in Q. decompose [or] Q; try contradiction; subst q.
      * exists 4%nat. eexists. exists 0%nat. eexists. split; [reflexivity|]. split; [exact PV|]. split; [reflexivity|]. split; [cbn; auto|]. right. eapply gdep_trans; [exact R43|]. constructor. exact R30.
      * exists 4%nat. eexists. exists 2%nat. eexists. split; [reflexivity|]. split; [exact PV|]. split; [reflexivity|]. split; [cbn; auto|]. right. eapply gdep_trans; [exact R43|]. constructor. exact R32.
      * exists 4%nat. eexists. exists 4%nat. eexists. split; [reflexivity|]. split; [exact PV|]. split; [reflexivity|]. cbn. auto.
    + assert (R43 : gate_reads s (b + 3) (b + 2)) by (eapply (IR 3%nat 2%nat); [reflexivity|reflexivity|right; reflexivity|reflexivity|apply MID; cbn; tauto]).
      assert (R30 : gate_reads s (b + 2) (b + 0)) by (eapply (IR 2%nat 0%nat); [reflexivity|reflexivity|left; reflexivity|reflexivity|apply MID; cbn; tauto]).
      assert (R32 : gate_reads s (b + 2) (b + 1)) by (eapply (IR 2%nat 1%nat); [reflexivity|reflexivity|right; reflexivity|reflexivity|apply MID; cbn; tauto]).
      cbn [pins_in In] in Q. decompose [or] Q; try contradiction; subst q.
      * exists 3%nat. eexists. exists 0%nat. eexists. split; [reflexivity|]. split; [exact PV|]. split; [reflexivity|]. split; [cbn; auto|]. right. eapply gdep_trans; [exact R43|]. constructor. exact R30.
      * exists 3%nat. eexists. exists 1%nat. eexists. split; [reflexivity|]. split; [exact PV|]. split; [reflexivity|]. split; [cbn; auto|]. right. eapply gdep_trans; [exact R43|]. constructor. exact R32.
      * exists 3%nat. eexists. exists 3%nat. eexists. split; [reflexivity|]. split; [exact PV|]. split; [reflexivity|]. cbn. auto.
Qed.
Lemma reads_path a b : comb_reads m a b -> exists i j g h, nth_error gs i = Some g /\ gs_out g = a /\ nth_error gs j = Some h /\ gs_out h = b /\ gate_depends s i j.
Proof.
  intros (k & c & cs & p & q & n & I & K & PO & A & Q & AQ & D & B). destruct (in_placed _ _ _ _ I) as [b0 P].
  destruct (cell_path k c cs b0 p q a P K PO A Q) as (j' & g & j'' & g2 & G & EA & G2 & R & DD). rewrite (pval_pin _ _ _ AQ) in R.
  destruct (user_gate b B) as (j & h & H & EB). exists (b0 + j')%nat, j, g, h. split; [eapply placed_gate; eauto|]. split; [exact EA|]. split; [exact H|]. split; [exact EB|].
  assert (RD : gate_reads s (b0 + j'') j).
  { exists g2, h. unfold s. rewrite (e_gates m WB). split; [eapply placed_gate; eauto|]. split; [exact H|]. rewrite !(e_root m WB). destruct R as [<-|<-]; [left|right]; congruence. }
  destruct DD as [->|DD]; [constructor; exact RD|]. eapply depends_trans; [exact DD|]. constructor. exact RD.
Qed.
Lemma path_gates a b : comb_path m a b -> exists i j g h, nth_error gs i = Some g /\ gs_out g = a /\ nth_error gs j = Some h /\ gs_out h = b /\ gate_depends s i j.
Proof.
  induction 1 as [a b R|a b c R P IH]; [apply reads_path; exact R|].
  destruct (reads_path a b R) as (i & j & g & h & G & EA & H & EB & D). destruct IH as (j2 & l & h2 & hl & H2 & EB2 & HL & EC & D2).
  assert (j = j2) by (eapply out_inj; [exact H|exact H2|congruence]). subst j2. exists i, l, g, hl. repeat (split; [assumption|]). eapply depends_trans; eauto.
Qed.
Theorem loops_agree : combinational_loop s <-> comb_loop m.
Proof.
  split; [apply loop_to_nets|]. intros [a P]. destruct (path_gates a a P) as (i & j & g & h & G & EA & H & EB & D).
  assert (i = j) by (eapply out_inj; [exact G|exact H|congruence]). subst j. exists i. exact D.
Qed.
End Loops.

(** * The translation *)
Lemma in_width_bound m p : Forall legal m -> Z.of_nat (in_width m p) < 2 ^ 31.
Proof.
  induction 1 as [|st m L F IH]; [cbn; lia|]. rewrite in_width_cons. destruct (in_width m p); [|cbn [or_else]; exact IH]. cbn [or_else in_width].
  destruct st as [|hi ns| | |]; try lia. destruct (existsb (String.eqb p) ns); [|lia]. destruct hi as [h|]; cbn [bits_of]; [|lia]. destruct L as [L _]. specialize (L h eq_refl). lia.
Qed.
Lemma out_width_bound m : Forall legal m -> Z.of_nat (out_width m) < 2 ^ 31.
Proof.
  induction 1 as [|st m L F IH]; [cbn; lia|]. rewrite out_width_cons. destruct (out_width m); [|cbn [or_else]; exact IH]. cbn [or_else out_width].
  destruct st as [| |hi ns| |]; try lia. destruct (existsb (String.eqb "o") ns); [|lia]. destruct hi as [h|]; cbn [bits_of]; [|lia]. destruct L as [L _]. specialize (L h eq_refl). lia.
Qed.
Lemma stmt_gates_bound n st : (List.length (stmt_gates n st) <= 5)%nat.
Proof.
  destruct st as [| | | |k i cs]; cbn [stmt_gates List.length]; try lia. destruct k; cbn; try lia.
  - unfold hadder_gates. destruct (has (wiring cs) "SUM"), (has (wiring cs) "COUT"); cbn; lia.
  - unfold fadder_gates. destruct (has (wiring cs) "SUM"), (has (wiring cs) "COUT"); cbn; lia.
Qed.
Lemma gates_bound : forall m n, (List.length (gates_from n m) <= 5 * List.length m)%nat.
Proof.
  induction m as [|st m IH]; intros n; cbn [gates_from List.length]; [lia|]. rewrite app_length. pose proof (stmt_gates_bound n st).
  pose proof (IH (n + List.length (stmt_gates n st))%nat). lia.
Qed.
Lemma regs_bound m : (List.length (regs m) <= List.length m)%nat.
Proof.
  unfold regs. induction m as [|st m IH]; cbn [flat_map List.length]; [lia|]. rewrite app_length. destruct st as [| | | |k i cs]; cbn [List.length]; try lia. destruct k; cbn [List.length]; lia.
Qed.

(** The circuit [c] computes what the module [m] says. *)
Record runs_module (c : GarbledCircuit) (m : list stmt) : Prop := {
  rm_wf : well_formed c;
  rm_sizes : p_init_size c = in_width m "p_init" /\ g_init_size c = in_width m "g_init" /\ e_init_size c = in_width m "e_init" /\
             p_input_size c = in_width m "p_input" /\ g_input_size c = in_width m "g_input" /\ e_input_size c = in_width m "e_input" /\
             List.length (outputs c) = out_width m;
  rm_term : terminate_id c <> 0 <-> terminates m;
  rm_some : forall x, exists U, obeys m x U;
  rm_values : forall x U V, obeys m x U -> consistent c x V -> forall cy,
    (forall i n, (i < out_width m)%nat -> out_net m i n -> exists w, nth_error (outputs c) i = Some w /\ V cy w = U cy n) /\
    (terminates m -> V cy (terminate_id c) = U cy "terminate") }.

Theorem verilog_reads m t : well_built m -> Z.of_nat (List.length m) < 2 ^ 60 -> ~ comb_loop m -> written (module_words m) t ->
  exists file c, (forall log, Verilog2SCD log (Some t) = Done file) /\ (forall junk, ReadSCD junk file = c) /\ runs_module c m.
Proof.
  intros WB SM NL W. pose proof (wb_legal m WB) as LG. pose proof (elab_well_named m WB) as WN.
  destruct (elab_fields m LG) as (EG & ED & EA & EO & ET & S1 & S2 & S3 & S4 & S5 & S6).
  assert (SMA : small (elab m)).
  { unfold small. rewrite S1, S2, S3, S4, S5, S6, EG, ED, EO. pose proof (gates_bound m 0). pose proof (regs_bound m). pose proof (out_width_bound m LG).
    pose proof (in_width_bound m "p_init" LG). pose proof (in_width_bound m "g_init" LG). pose proof (in_width_bound m "e_init" LG).
    pose proof (in_width_bound m "p_input" LG). pose proof (in_width_bound m "g_input" LG). pose proof (in_width_bound m "e_input" LG). lia. }
  destruct (translate_reads (elab m) WN SMA) as (file & c & T & RD & IM). { intros L. apply NL. apply (loops_agree m WB). exact L. }
  exists file, c. split; [|split; [exact RD|]].
  - intros log. unfold Verilog2SCD. rewrite (parse_module log m t LG W), (T log). reflexivity.
  - destruct IM as [WF (Z1 & Z2 & Z3 & Z4 & Z5 & Z6 & Z7 & _) TM SO VA]. split; [exact WF| | | |].
    + rewrite Z1, Z2, Z3, Z4, Z5, Z6, Z7. auto 10.
    + rewrite TM, <- ET. destruct (has_terminate (elab m)); intuition congruence.
    + intros x. destruct (SO x) as [U NC]. exists U. apply (net_obeys m WB x U NC).
    + intros x U V OB C cy. destruct (VA x _ V (obeys_net m WB x U OB) C cy) as [VO VT]. split.
      * intros i n Hi ON. rewrite <- EO in Hi. destruct (VO i n Hi (proj2 (output_name_iff m WB i n) ON)) as (w & A & B). exists w. split; [exact A|]. rewrite B.
        apply (ext_other m). rewrite EO in Hi. intros M. pose proof ON as ON'. unfold out_net in ON'. apply mid_first in M.
        destruct (out_width m =? 1)%nat; [destruct ON' as [->|[-> _]]|subst n]; cbn in M; intuition discriminate.
      * intros TR. rewrite (VT (proj2 ET TR)). apply (ext_other m). apply not_mid; reflexivity.
Qed.
Theorem verilog_ok m t : well_built m -> Z.of_nat (List.length m) < 2 ^ 60 -> ~ comb_loop m -> written (module_words m) t ->
  exists file, (forall log, Verilog2SCD log (Some t) = Done file) /\ forall junk, runs_module (ReadSCD junk file) m.
Proof.
  intros WB SM NL W. destruct (verilog_reads m t WB SM NL W) as (f & c & T & R & M). exists f. split; [exact T|]. intros junk. rewrite R. exact M.
Qed.
Theorem verilog_loop m t : well_built m -> comb_loop m -> written (module_words m) t -> forall log, Verilog2SCD log (Some t) = Failed.
Proof.
  intros WB L W log. unfold Verilog2SCD. rewrite (parse_module log m t (wb_legal m WB) W).
  rewrite (translate_loop (elab m) (elab_well_named m WB) (proj2 (loops_agree m WB) L) log). reflexivity.
Qed.
