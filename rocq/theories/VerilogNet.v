(** A module in order gives a netlist in order with the same meaning. *)
From Coq Require Import ZArith NArith List Bool Ascii String Lia Permutation.
From Verif Require Import Base Gate Circuit Spec Sort Text Netlist NetlistOk Parse ParseOk Verilog VerilogOk.
Import ListNotations.
Open Scope Z_scope.
Open Scope string_scope.
Open Scope list_scope.

(** * Outputs of the gates *)
Lemma cell_outs_perm k i cs b : legal (Cell k i cs) -> k <> DFF ->
  Permutation (map gs_out (cell_gates k b (wiring cs))) (outs k cs ++ map fst (cell_mids k b (wiring cs))).
Proof.
  intros L ND.
  assert (OUT1 : forall p, pins_out k = [p] -> outs k cs = [pval (wiring cs) p]).
  { intros p E. destruct L as (_ & _ & _ & _ & q & Q & A). unfold outs. rewrite E in *. destruct Q as [<-|[]]. cbn. destruct (at_pin cs p) as [n|] eqn:AP; [|congruence].
    rewrite (pval_pin _ _ _ AP). reflexivity. }
  assert (OUT2 : forall p, match at_pin cs p with Some n => [n] | None => [] end = if has (wiring cs) p then [pval (wiring cs) p] else []).
  { intros p. rewrite has_pin. destruct (at_pin cs p) as [n|] eqn:AP; [rewrite (pval_pin _ _ _ AP)|]; reflexivity. }
  destruct k; try congruence; cbn [cell_gates cell_mids map gs_out].
  all: try (rewrite (OUT1 "Z" eq_refl); apply Permutation_refl).
  - rewrite (OUT1 "F" eq_refl). unfold mux_gates. cbn. apply Permutation_sym. eapply perm_trans; [apply perm_swap|]. apply perm_skip. apply perm_swap.
  - unfold outs, hadder_gates. cbn [pins_out flat_map]. rewrite !OUT2, !app_nil_r, map_app. destruct (has (wiring cs) "SUM"), (has (wiring cs) "COUT"); apply Permutation_refl.
  - unfold outs, fadder_gates. cbn [pins_out flat_map]. rewrite !OUT2, !app_nil_r, !map_app. destruct (has (wiring cs) "SUM"), (has (wiring cs) "COUT"); cbn.
    + eapply perm_trans; [apply perm_swap|]. apply perm_skip.
      change (?a :: ?b :: ?c :: [?d]) with ([a; b; c] ++ [d]). apply Permutation_sym. apply (Permutation_cons_app [_; _; _] []). apply Permutation_refl.
    + apply perm_swap.
    + apply Permutation_sym. apply (Permutation_cons_app [_; _; _] []). apply Permutation_refl.
    + apply Permutation_refl.
Qed.
Lemma gates_perm : forall m n, Forall legal m -> Permutation (map gs_out (gates_from n m)) (gate_nets m ++ map fst (mids_from n m)).
Proof.
  induction m as [|st m IH]; intros n F; [constructor|]. inversion F as [|? ? L F']; subst.
  cbn [gates_from mids_from gate_nets flat_map]. fold (gate_nets m). rewrite !map_app.
  eapply perm_trans; [apply Permutation_app_head; apply IH; exact F'|].
  assert (X : Permutation (map gs_out (stmt_gates n st)) (match st with Cell DFF _ _ => [] | Cell k _ cs => outs k cs | _ => [] end ++ map fst (stmt_mids n st))).
  { destruct st as [| | | |k i cs]; cbn [stmt_gates stmt_mids]; try constructor.
    destruct (match k with DFF => true | _ => false end) eqn:K.
    - destruct k; try discriminate. constructor.
    - destruct k; try discriminate; (eapply cell_outs_perm; [exact L|discriminate]). }
  eapply perm_trans; [apply Permutation_app_tail; exact X|]. rewrite <- !app_assoc. apply Permutation_app_head.
  rewrite !app_assoc. apply Permutation_app_tail. apply Permutation_app_comm.
Qed.
Lemma regs_outs m : Forall legal m -> map gs_out (regs m) = reg_nets m.
Proof.
  induction 1 as [|st m L F IH]; [reflexivity|]. unfold regs, reg_nets in *. cbn [flat_map]. rewrite map_app, IH. f_equal.
  destruct st as [| | | |k i cs]; try reflexivity. destruct k; try reflexivity.
  destruct L as (_ & _ & _ & _ & q & [<-|[]] & A). cbn. destruct (at_pin cs "Q") as [n|] eqn:AP; [|congruence]. rewrite (pval_pin _ _ _ AP). reflexivity.
Qed.

Section Module.
Variable m : list stmt.
Hypothesis WB : well_built m.
Let s := elab m.
Let LG : Forall legal m := wb_legal m WB.
Let legal_in st : In st m -> legal st.
Proof. intros H. apply (proj1 (Forall_forall _ _) LG). exact H. Qed.

Lemma e_gates : gate_list_string s = gates_from 0 m. Proof. apply (elab_fields m LG). Qed.
Lemma e_dffs : dff_list_string s = regs m. Proof. apply (elab_fields m LG). Qed.
Lemma e_assigns : assignment_list_string s = assigns m. Proof. apply (elab_fields m LG). Qed.
Lemma e_output : s_output s = out_width m. Proof. apply (elab_fields m LG). Qed.
Lemma e_term : has_terminate s = true <-> terminates m. Proof. apply (elab_fields m LG). Qed.
Lemma e_init : init_names s = init_nets m.
Proof. destruct (elab_fields m LG) as (_ & _ & _ & _ & _ & A & B & C & _). unfold init_names, init_nets, s. rewrite A, B, C. reflexivity. Qed.
Lemma e_input : input_names s = input_nets m.
Proof. destruct (elab_fields m LG) as (_ & _ & _ & _ & _ & _ & _ & _ & A & B & C). unfold input_names, input_nets, s. rewrite A, B, C. reflexivity. Qed.
Lemma e_root n : root_of s n = driver m n. Proof. unfold root_of, driver. rewrite e_assigns. reflexivity. Qed.
Definition mids : mid_list := mids_from 0 m.
Lemma e_cells : Permutation (cell_names s) ((reg_nets m ++ gate_nets m) ++ map fst mids).
Proof.
  unfold cell_names. rewrite e_gates, e_dffs, (regs_outs m LG). rewrite <- app_assoc. apply Permutation_app_head. apply gates_perm. exact LG.
Qed.
Lemma in_cells n : In n (cell_names s) <-> In n (reg_nets m) \/ In n (gate_nets m) \/ In n (map fst mids).
Proof.
  split; intros H.
  - apply (Permutation_in _ e_cells) in H. rewrite !in_app_iff in H. tauto.
  - apply (Permutation_in _ (Permutation_sym e_cells)). rewrite !in_app_iff. tauto.
Qed.
Lemma e_declared : Permutation (declared s) (driven m ++ map fst mids).
Proof.
  unfold declared, driven. rewrite e_init, e_input. rewrite <- !app_assoc. do 2 apply Permutation_app_head.
  eapply perm_trans; [apply Permutation_app_tail; apply e_cells|]. rewrite <- !app_assoc. do 2 apply Permutation_app_head. apply Permutation_app_comm.
Qed.
Lemma in_declared n : In n (declared s) <-> In n (driven m) \/ In n (map fst mids).
Proof.
  split; intros H.
  - apply (Permutation_in _ e_declared) in H. rewrite in_app_iff in H. tauto.
  - apply (Permutation_in _ (Permutation_sym e_declared)). rewrite in_app_iff. tauto.
Qed.
Lemma mids_mid n : In n (map fst mids) -> mid_name n.
Proof. intros H. apply in_map_iff in H as (e & <- & H). destruct (mids_index _ _ _ H) as (p & j & P & _ & E). exists p, j. auto. Qed.
Lemma outs_in k cs n : In n (outs k cs) <-> exists p, In p (pins_out k) /\ at_pin cs p = Some n.
Proof.
  unfold outs. rewrite in_flat_map. split.
  - intros (p & P & H). destruct (at_pin cs p) as [x|] eqn:A; [|contradiction]. destruct H as [<-|[]]. eauto.
  - intros (p & P & A). exists p. rewrite A. cbn. auto.
Qed.
Lemma gate_nets_in n : In n (gate_nets m) <-> exists k i cs p, In (Cell k i cs) m /\ k <> DFF /\ In p (pins_out k) /\ at_pin cs p = Some n.
Proof.
  unfold gate_nets. rewrite in_flat_map. split.
  - intros (st & I & H). destruct st as [| | | |k i cs]; try contradiction.
    assert (X : k <> DFF /\ In n (outs k cs)) by (destruct k; try contradiction; (split; [discriminate|exact H])).
    destruct X as [X1 X2]. apply outs_in in X2 as (p & P & A). exists k, i, cs, p. auto.
  - intros (k & i & cs & p & I & K & P & A). exists (Cell k i cs). split; [exact I|]. assert (In n (outs k cs)) by (apply outs_in; eauto). destruct k; congruence || assumption.
Qed.
Lemma reg_nets_in n : In n (reg_nets m) <-> exists i cs, In (Cell DFF i cs) m /\ at_pin cs "Q" = Some n.
Proof.
  unfold reg_nets. rewrite in_flat_map. split.
  - intros (st & I & H). destruct st as [| | | |k i cs]; try contradiction. destruct k; try contradiction.
    apply outs_in in H as (p & [<-|[]] & A). eauto.
  - intros (i & cs & I & A). exists (Cell DFF i cs). split; [exact I|]. apply outs_in. exists "Q". cbn. auto.
Qed.
Lemma driven_not_mid n : In n (driven m) -> ~ mid_name n.
Proof.
  unfold driven, init_nets, input_nets. rewrite !in_app_iff. intros H.
  assert (PT : forall p w, In p in_ports -> In n (port_names p w) -> ~ mid_name n) by (intros; eapply port_not_mid; eauto).
  destruct H as [H|[H|[H|[H|H]]]].
  - destruct H as [H|[H|H]]; (eapply PT; [|exact H]; cbn; tauto).
  - destruct H as [H|[H|H]]; (eapply PT; [|exact H]; cbn; tauto).
  - apply reg_nets_in in H as (i & cs & I & A). eapply wb_cell; eauto.
  - apply gate_nets_in in H as (k & i & cs & p & I & K & P & A). eapply wb_cell; eauto.
  - cbn in H. destruct H as [<-|[<-|[<-|[]]]]; apply not_mid; reflexivity.
Qed.
Lemma assign_split a b : In (a, b) (assigns m) -> exists l r, assigns m = l ++ (a, b) :: r.
Proof. apply in_split. Qed.
Lemma assign_not_mid a b : In (a, b) (assigns m) -> ~ mid_name a /\ ~ mid_name b.
Proof. intros H. apply in_split in H as (l & r & E). destruct (wb_assign m WB _ _ _ _ E) as (_ & _ & X). exact X. Qed.
Lemma root_not_mid as_ n : (forall p, In p as_ -> In p (assigns m)) -> ~ mid_name n -> ~ mid_name (root as_ n).
Proof.
  revert n. induction as_ as [|[a b] as_ IH]; intros n H N; cbn [root]; [exact N|].
  destruct (n =? a); apply IH; try (intros p P; apply H; cbn; auto); auto. apply (assign_not_mid a b). apply H. cbn. auto.
Qed.
Lemma driver_not_mid n : ~ mid_name n -> ~ mid_name (driver m n).
Proof. apply root_not_mid. intros p P. apply in_rev. exact P. Qed.
Lemma root_mid as_ n : (forall p, In p as_ -> In p (assigns m)) -> mid_name n -> root as_ n = n.
Proof.
  intros H N. apply root_other. intros I. apply in_map_iff in I as ([a b] & <- & I). destruct (assign_not_mid a b (H _ I)) as [X _]. contradiction.
Qed.
Lemma driver_mid n : mid_name n -> driver m n = n.
Proof. apply root_mid. intros p P. apply in_rev. exact P. Qed.
Lemma driver_driven n : In n (driven m) -> driver m n = n.
Proof.
  intros D. apply root_other. rewrite map_rev. intros I. apply in_rev, in_map_iff in I as ([a b] & <- & I). apply in_split in I as (l & r & E).
  destruct (wb_assign m WB _ _ _ _ E) as [X _]. apply X. apply in_or_app. auto.
Qed.
Lemma output_name_iff i n : output_name s i n <-> out_net m i n.
Proof.
  unfold output_name, out_net. rewrite e_output, e_root. destruct (out_width m =? 1)%nat; [|tauto].
  rewrite in_declared. assert (~ In (driver m "o[0]") (map fst mids)); [|tauto].
  intros H. apply mids_mid in H. revert H. apply driver_not_mid. apply not_mid; reflexivity.
Qed.
Lemma cell_gate_types k b p g : k <> DFF -> In g (cell_gates k b p) -> exists f, bool_fun (gs_type g) = Some f.
Proof.
  intros K H. destruct k; try congruence; cbn [cell_gates kind_type] in H; unfold mux_gates, hadder_gates, fadder_gates in H;
    repeat match goal with H : In _ (_ ++ _) |- _ => apply in_app_or in H as [H|H] | H : In _ (if ?b then _ else _) |- _ => destruct b end;
    cbn in H; decompose [or] H; try contradiction; subst g; eexists; reflexivity.
Qed.
(** Inputs of a gate: a pin of its cell, an earlier net inside it, or nothing. *)
Lemma cell_gate_reads k i cs b j g n : legal (Cell k i cs) -> k <> DFF -> nth_error (cell_gates k b (wiring cs)) j = Some g -> n = gs_in0 g \/ n = gs_in1 g ->
  n = "" \/ (exists p, In p (pins_in k) /\ at_pin cs p = Some n) \/
  (exists j' h, (j' < j)%nat /\ nth_error (cell_gates k b (wiring cs)) j' = Some h /\ gs_out h = n /\ In n (map fst (cell_mids k b (wiring cs)))).
Proof.
  intros L K H N.
  assert (PIN : forall p, In p (pins_in k) -> n = pval (wiring cs) p -> exists p, In p (pins_in k) /\ at_pin cs p = Some n).
  { intros p P E. destruct (legal_pin k i cs p L P) as (x & A & B). exists p. rewrite E, B. auto. }
  destruct k; try congruence; cbn [cell_gates kind_type] in H |- *; unfold mux_gates, hadder_gates, fadder_gates in H |- *.
  all: try (destruct j as [|[|j]]; try discriminate H; try (destruct j; discriminate H); injection H as <-; cbn [gs_in0 gs_in1] in N; destruct N as [N|N]; auto; right; left; (eapply PIN; [|exact N]; all_in)).
  - destruct j as [|[|[|j]]]; try (destruct j; discriminate H); injection H as <-; cbn [gs_in0 gs_in1] in N; destruct N as [N|N];
      try (right; left; eapply PIN; [|exact N]; all_in); right; right.
    + exists 0%nat. eexists. split; [lia|]. split; [reflexivity|]. cbn. auto.
    + exists 1%nat. eexists. split; [lia|]. split; [reflexivity|]. cbn. auto.
  - apply nth_error_In in H. apply in_app_or in H. right. left.
    destruct H as [H|H]; destruct (has (wiring cs) _); try contradiction; destruct H as [<-|[]]; cbn [gs_in0 gs_in1] in N; destruct N as [N|N]; (eapply PIN; [|exact N]; all_in).
  - cbn [cell_mids]. destruct (has (wiring cs) "SUM"), (has (wiring cs) "COUT"); cbn [app] in H |- *;
    (destruct j as [|[|[|[|[|j]]]]]; try discriminate H; try (destruct j; discriminate H)); injection H as <-; cbn [gs_in0 gs_in1] in N; destruct N as [N|N];
      try (right; left; eapply PIN; [|exact N]; all_in); right; right; subst n.
    all: first [ exists 0%nat; eexists; split; [lia|]; split; [reflexivity|]; cbn [gs_out map fst In]; split; [reflexivity|tauto]
               | exists 1%nat; eexists; split; [lia|]; split; [reflexivity|]; cbn [gs_out map fst In]; split; [reflexivity|tauto]
               | exists 2%nat; eexists; split; [lia|]; split; [reflexivity|]; cbn [gs_out map fst In]; split; [reflexivity|tauto]
               | exists 3%nat; eexists; split; [lia|]; split; [reflexivity|]; cbn [gs_out map fst In]; split; [reflexivity|tauto] ].
Qed.
Lemma gate_cell g : In g (gates_from 0 m) -> exists k i cs b j, placed m k i cs b /\ In (Cell k i cs) m /\ legal (Cell k i cs) /\ k <> DFF /\ nth_error (cell_gates k b (wiring cs)) j = Some g.
Proof.
  intros H. apply In_nth_error in H as [j H]. destruct (gate_placed m j g H) as (k & i & cs & b & j' & P & _ & N).
  exists k, i, cs, b, j'. pose proof (placed_in _ _ _ _ _ P). split; [exact P|]. split; [assumption|]. split; [apply legal_in; assumption|]. split; [|exact N]. intros ->. destruct j'; discriminate N.
Qed.

Theorem elab_well_named : well_named s.
Proof.
  split.
  - apply (Permutation_NoDup (Permutation_sym e_declared)). apply nodup_app; [apply (wb_drivers m WB)|apply mids_nodup|].
    intros x X Y. apply (driven_not_mid x X). apply mids_mid. exact Y.
  - intros l a b r E. rewrite e_assigns in E. destruct (wb_assign m WB _ _ _ _ E) as (A & B & C & D).
    rewrite !in_app_iff in *. rewrite !in_declared. split; [|tauto]. intros [[X|X]|X]; try tauto. apply C. apply mids_mid. exact X.
  - destruct (wb_some m WB) as [n H]. exists n. rewrite e_init, e_input, e_dffs, (regs_outs m LG). exact H.
  - intros g G. rewrite e_gates in G. destruct (gate_cell g G) as (k & i & cs & b & j & P & I & L & K & N).
    split; [eapply cell_gate_types; [exact K|eapply nth_error_In; exact N]|]. intros n E. rewrite e_root.
    rewrite !in_app_iff, in_cells, e_input.
    destruct (cell_gate_reads k i cs b j g n L K N E) as [->|[(p & PI & A)|(j' & h & _ & H & O & M)]].
    + right. right. rewrite driver_driven; [cbn; auto|]. unfold driven. rewrite !in_app_iff. cbn [const_names In]. tauto.
    + pose proof (wb_gate m WB k i cs p n I K PI A) as X. rewrite !in_app_iff in X. tauto.
    + assert (MM : In n (map fst mids)).
      { apply in_map_iff in M as (e & <- & M). apply in_map. apply (placed_mids _ _ _ _ _ P). exact M. }
      rewrite driver_mid by (apply mids_mid; exact MM). auto.
  - intros d D. rewrite e_dffs in D. unfold regs in D. apply in_flat_map in D as (st & I & D). destruct st as [| | | |k i cs]; try contradiction.
    destruct k; try contradiction. destruct D as [<-|[]]. unfold reg_of. cbn [gs_in0 gs_in1]. rewrite !e_root, !in_app_iff, in_cells, e_input, e_init.
    destruct (legal_pin DFF i cs "D" (legal_in _ I)) as (nd & A & ->); [cbn; auto|]. destruct (legal_pin DFF i cs "I" (legal_in _ I)) as (ni & B & ->); [cbn; auto|].
    pose proof (proj1 (wb_dff m WB i cs nd I) A) as X. pose proof (proj2 (wb_dff m WB i cs ni I) B) as Y. rewrite !in_app_iff in X. rewrite !in_app_iff in Y. tauto.
  - intros i n H O. rewrite e_output in H. apply output_name_iff in O. pose proof (wb_out m WB i n H O) as X. rewrite e_root, in_app_iff, in_cells, e_input.
    rewrite !in_app_iff in X. tauto.
  - intros T. apply e_term in T. destruct (wb_term m WB T) as [A B]. rewrite e_root, in_cells, e_init, e_input. rewrite in_app_iff in A. tauto.
Qed.

(** * Meaning *)
Variable x : inputs.
Lemma sizes_are : s_p_init s = in_width m "p_init" /\ s_g_init s = in_width m "g_init" /\ s_e_init s = in_width m "e_init" /\
  s_p_input s = in_width m "p_input" /\ s_g_input s = in_width m "g_input" /\ s_e_input s = in_width m "e_input".
Proof. apply (elab_fields m LG). Qed.
Theorem net_obeys U : net_consistent s x U -> obeys m x U.
Proof.
  intros NC. destruct sizes_are as (S1 & S2 & S3 & S4 & S5 & S6). split.
  - apply (nc_const _ _ _ NC).
  - rewrite <- S1, <- S2, <- S3. apply (nc_init _ _ _ NC).
  - rewrite <- S4, <- S5, <- S6. apply (nc_input _ _ _ NC).
  - intros cy k i cs p n I K P A. destruct (in_placed _ _ _ _ I) as [b PL].
    refine (cell_means k i cs b (U cy) (legal_in _ I) K _ p n P A). intros g G f F. apply (nc_gate _ _ _ NC); [|exact F].
    rewrite e_gates. apply In_nth_error in G as [j G]. eapply nth_error_In. eapply placed_gate; eauto.
  - intros i cs n I A. assert (R : In (reg_of cs) (dff_list_string s)) by (rewrite e_dffs; apply in_flat_map; exists (Cell DFF i cs); cbn; auto).
    pose proof (nc_dff0 _ _ _ NC _ R) as H. cbn [reg_of gs_out gs_in1] in H. rewrite (pval_pin _ _ _ A) in H. rewrite H.
    rewrite (pin_value_pval DFF i cs "I" _ (legal_in _ I)) by (cbn; auto). reflexivity.
  - intros cy i cs n I A. assert (R : In (reg_of cs) (dff_list_string s)) by (rewrite e_dffs; apply in_flat_map; exists (Cell DFF i cs); cbn; auto).
    pose proof (nc_dffS _ _ _ NC cy _ R) as H. cbn [reg_of gs_out gs_in0] in H. rewrite (pval_pin _ _ _ A) in H. rewrite H.
    rewrite (pin_value_pval DFF i cs "D" _ (legal_in _ I)) by (cbn; auto). reflexivity.
  - intros cy a b I. apply (nc_assign _ _ _ NC). rewrite e_assigns. unfold assigns. apply in_flat_map. exists (Assign a b). cbn. auto.
Qed.

Section Extend.
Variable U : nat -> string -> bool.
Hypothesis OB : obeys m x U.
(** The valuation with the nets inside the cells. *)
Definition ext (cy : nat) (n : string) : bool :=
  match find (fun e => String.eqb n (fst e)) mids with Some e => snd e (U cy) | None => U cy n end.
Lemma ext_other cy n : ~ mid_name n -> ext cy n = U cy n.
Proof.
  intros H. unfold ext. destruct (find _ mids) as [e|] eqn:E; [|reflexivity]. apply find_some in E as [I E]. apply String.eqb_eq in E. subst n.
  exfalso. apply H. apply mids_mid. apply in_map. exact I.
Qed.
Lemma ext_mid cy e : In e mids -> ext cy (fst e) = snd e (U cy).
Proof.
  intros H. unfold ext. destruct (find _ mids) as [e'|] eqn:E.
  - apply find_some in E as [I E]. apply String.eqb_eq in E. f_equal. f_equal.
    assert (ND : NoDup (map fst mids)) by apply mids_nodup. clear - H I E ND. induction mids as [|a l IH]; [contradiction|]. cbn in ND. inversion ND as [|? ? NI ND']; subst.
    destruct H as [->|H], I as [->|I]; auto.
    + exfalso. apply NI. rewrite E. apply in_map. exact I.
    + exfalso. apply NI. rewrite <- E. apply in_map. exact H.
  - exfalso. pose proof (find_none _ _ E _ H) as X. cbn in X. rewrite String.eqb_refl in X. discriminate.
Qed.
Lemma ext_port p w f cy : In p in_ports -> port_value (U cy) p w f -> port_value (ext cy) p w f.
Proof.
  intros P [A B]. split.
  - intros i H. rewrite ext_other; [auto|]. apply (port_not_mid p _ w P). unfold port_names. apply in_or_app. right. apply in_map. apply in_seq. lia.
  - intros E. rewrite ext_other; [auto|]. apply (port_not_mid p _ w P). unfold port_names. subst w. cbn. auto.
Qed.
Lemma ext_pin k i cs cy p : In (Cell k i cs) m -> pin_value (ext cy) cs p = pin_value (U cy) cs p.
Proof. intros I. unfold pin_value. destruct (at_pin cs p) as [n|] eqn:A; [|reflexivity]. apply ext_other. eapply wb_cell; eauto. Qed.
Theorem obeys_net : net_consistent s x ext.
Proof.
  destruct sizes_are as (S1 & S2 & S3 & S4 & S5 & S6). split.
  - intros cy. rewrite !ext_other by (apply not_mid; reflexivity). apply (ob_const _ _ _ OB).
  - rewrite S1, S2, S3. destruct (ob_init _ _ _ OB) as (A & B & C). split; [|split]; (apply ext_port; [cbn; tauto|assumption]).
  - intros cy. rewrite S4, S5, S6. destruct (ob_input _ _ _ OB cy) as (A & B & C). split; [|split]; (apply ext_port; [cbn; tauto|assumption]).
  - intros d D. rewrite e_dffs in D. unfold regs in D. apply in_flat_map in D as (st & I & D). destruct st as [| | | |k i cs]; try contradiction.
    destruct k; try contradiction. destruct D as [<-|[]]. cbn [reg_of gs_out gs_in1].
    destruct (legal_in _ I) as (_ & _ & _ & _ & q & [<-|[]] & A). destruct (at_pin cs "Q") as [n|] eqn:AQ; [|congruence].
    rewrite (pval_pin _ _ _ AQ), <- (pin_value_pval DFF i cs "I" _ (legal_in _ I)) by (cbn; auto). rewrite ext_other by (eapply wb_cell; eauto).
    rewrite (ext_pin _ _ _ _ _ I). eapply ob_dff0; eauto.
  - intros cy d D. rewrite e_dffs in D. unfold regs in D. apply in_flat_map in D as (st & I & D). destruct st as [| | | |k i cs]; try contradiction.
    destruct k; try contradiction. destruct D as [<-|[]]. cbn [reg_of gs_out gs_in0].
    destruct (legal_in _ I) as (_ & _ & _ & _ & q & [<-|[]] & A). destruct (at_pin cs "Q") as [n|] eqn:AQ; [|congruence].
    rewrite (pval_pin _ _ _ AQ), <- (pin_value_pval DFF i cs "D" _ (legal_in _ I)) by (cbn; auto). rewrite ext_other by (eapply wb_cell; eauto).
    rewrite (ext_pin _ _ _ _ _ I). eapply ob_dffS; eauto.
  - intros cy g f G F. rewrite e_gates in G. destruct (gate_cell g G) as (k & i & cs & b & j & P & I & L & K & N).
    refine (cell_holds k i cs b (ext cy) L K _ _ g (nth_error_In _ _ N) f F).
    + intros p n Q A. rewrite ext_other by (eapply wb_cell; eauto). rewrite (ob_cell _ _ _ OB cy k i cs p n I K Q A).
      assert (X : forall q, pin_value (ext cy) cs q = pin_value (U cy) cs q) by (intros q; eapply ext_pin; eauto).
      clear - X. destruct k; cbn [library]; rewrite ?X; reflexivity.
    + intros e E. rewrite (ext_mid cy e (placed_mids _ _ _ _ _ P e E)).
      assert (X : forall q, In q (pins_in k) -> ext cy (pval (wiring cs) q) = U cy (pval (wiring cs) q)).
      { intros q Q. destruct (legal_pin k i cs q L Q) as (n & A & ->). apply ext_other. eapply wb_cell; eauto. }
      clear - X E. destruct k; cbn [cell_mids] in E; try contradiction.
      * destruct E as [<-|[<-|[]]]; cbn [snd]; rewrite !X by all_in; reflexivity.
      * apply in_app_or in E as [[<-|[]]|E]; [cbn [snd]; rewrite !X by all_in; reflexivity|]. destruct (has (wiring cs) "COUT"); [|contradiction].
        destruct E as [<-|[<-|[]]]; cbn [snd]; rewrite !X by all_in; reflexivity.
  - intros cy a b I. rewrite e_assigns in I. destruct (assign_not_mid a b I). rewrite !ext_other by auto.
    unfold assigns in I. apply in_flat_map in I as (st & I & H'). destruct st; try contradiction. destruct H' as [[= -> ->]|[]]. apply (ob_assign _ _ _ OB). exact I.
Qed.
End Extend.
End Module.
