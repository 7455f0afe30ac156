(** Wire numbering keeps the meaning of a netlist. *)
From Coq Require Import ZArith NArith List Bool String Lia.
From Verif Require Import Base Gate Circuit Spec Plain Sort SortOk Netlist.
Import ListNotations.
Open Scope Z_scope.
Open Scope list_scope.

(** ** Tables *)
Ltac destruct_all H := repeat (destruct H as [H|H]).
Lemma get_app a b n : get (a ++ b) n = match get a n with Some k => Some k | None => get b n end.
Proof. induction a as [|[m k] a IH]; cbn; [auto|]. destruct (String.eqb n m); auto. Qed.
Lemma get_in t n k : get t n = Some k -> In (n, k) t.
Proof. induction t as [|[m j] t IH]; cbn; [discriminate|]. destruct (String.eqb_spec n m) as [->|]; [intros [= ->]; auto|auto]. Qed.
Lemma get_iff t n k : NoDup (map fst t) -> get t n = Some k <-> In (n, k) t.
Proof.
  intros ND. split; [apply get_in|]. induction t as [|[m j] t IH]; cbn; [tauto|]. inversion ND as [|? ? NI ND']; subst.
  intros [[= -> ->]|H]; [rewrite String.eqb_refl; auto|]. destruct (String.eqb_spec n m) as [->|]; auto.
  destruct NI. change m with (fst (m, k)). apply in_map. exact H.
Qed.
Lemma get_none t n : get t n = None <-> ~ In n (map fst t).
Proof.
  induction t as [|[m j] t IH]; cbn; [tauto|]. destruct (String.eqb_spec n m) as [->|].
  - split; [discriminate|tauto].
  - rewrite IH. intuition congruence.
Qed.
Lemma get_some t n : In n (map fst t) <-> exists k, get t n = Some k.
Proof.
  destruct (get t n) eqn:E.
  - split; [eauto|]. intros _. apply get_in in E. apply (in_map fst) in E. exact E.
  - apply get_none in E. split; [tauto|]. intros [k [=]].
Qed.
Definition insert_all (t : table) (l : table) : table := fold_left (fun t p => insert t (fst p) (snd p)) l t.
Lemma get_insert t n k m : get (insert t n k) m = match get t m with Some j => Some j | None => if String.eqb m n then Some k else None end.
Proof.
  unfold insert. destruct (get t n) eqn:E; cbn.
  - destruct (get t m) eqn:F; [auto|]. destruct (String.eqb_spec m n) as [->|]; [congruence|auto].
  - destruct (String.eqb_spec m n) as [->|]; [rewrite E; auto|]. destruct (get t m); auto.
Qed.
Lemma get_insert_all l : forall t n, get (insert_all t l) n = match get t n with Some k => Some k | None => get l n end.
Proof.
  unfold insert_all. induction l as [|[m k] l IH]; intros t n; cbn; [destruct (get t n); auto|].
  rewrite IH, get_insert. destruct (get t n); [auto|]. destruct (String.eqb n m); auto.
Qed.
Lemma insert_all_app t a b : insert_all t (a ++ b) = insert_all (insert_all t a) b.
Proof. apply fold_left_app. Qed.

(** ** The numbers of the declared names *)
Definition arr_ids (name : string) (n : nat) (w : Z) : table :=
  (if (n =? 1)%nat then [(name, w)] else []) ++ map (fun i => (elem name i, w + Z.of_nat i)) (seq 0 n).
Definition cell_ids (l : list ReadGateString) (w : Z) : table :=
  map (fun kg => (gs_out (snd kg), w + Z.of_nat (fst kg))) (combine (seq 0 (List.length l)) l).
Lemma add_seq (name : string) : forall n k t w,
  fold_left (fun (tw : table * Z) i => (insert (fst tw) (elem name i) (snd tw), snd tw + 1)) (seq k n) (t, w) =
  (insert_all t (map (fun i => (elem name i, w + Z.of_nat (i - k))) (seq k n)), w + Z.of_nat n).
Proof.
  induction n; intros k t w; cbn [seq fold_left map].
  - f_equal. lia.
  - cbn [fst snd]. rewrite IHn. f_equal; [|lia]. rewrite Nat.sub_diag, Z.add_0_r. cbn [insert_all fold_left fst snd].
    change (fold_left (fun t p => insert t (fst p) (snd p)) ?l ?t) with (insert_all t l). f_equal.
    apply map_ext_in. intros i Hi. apply in_seq in Hi. f_equal. lia.
Qed.
Lemma AddWireArray_is t w name n : AddWireArray (t, w) name n = (insert_all t (arr_ids name n w), w + Z.of_nat n).
Proof.
  unfold AddWireArray, arr_ids. destruct (Nat.eqb_spec n 1) as [->|N].
  - cbn. rewrite Z.add_0_r. reflexivity.
  - rewrite add_seq. cbn [app]. f_equal. f_equal. apply map_ext. intros i. f_equal. lia.
Qed.
Lemma add_outputs_is l : forall t w, add_outputs (t, w) l = (insert_all t (cell_ids l w), w + Z.of_nat (List.length l)).
Proof.
  assert (H : forall l k t w, fold_left (fun (tw : table * Z) g => (insert (fst tw) (gs_out g) (snd tw), snd tw + 1)) l (t, w) =
    (insert_all t (map (fun kg => (gs_out (snd kg), w + Z.of_nat (fst kg - k))) (combine (seq k (List.length l)) l)), w + Z.of_nat (List.length l))).
  { clear. induction l as [|g l IH]; intros k t w; cbn [fold_left seq combine map List.length].
    - f_equal. lia.
    - cbn [fst snd]. rewrite (IH (S k)). f_equal; [|lia]. cbn [insert_all fold_left fst snd]. rewrite Nat.sub_diag, Z.add_0_r.
      change (fold_left (fun t p => insert t (fst p) (snd p)) ?l ?t) with (insert_all t l). f_equal.
      apply map_ext_in. intros [i h] Hi. apply in_combine_l in Hi. apply in_seq in Hi. cbn [fst snd]. f_equal. lia. }
  intros t w. unfold add_outputs, cell_ids. rewrite (H l 0%nat). f_equal. f_equal. apply map_ext. intros [i g]. cbn [fst snd]. f_equal. lia.
Qed.

Section Ids.
Variable s : ReadCircuitString.
Notation np := (Z.of_nat (s_p_init s)). Notation ng := (Z.of_nat (s_g_init s)). Notation ne := (Z.of_nat (s_e_init s)).
Notation mp := (Z.of_nat (s_p_input s)). Notation mg := (Z.of_nat (s_g_input s)). Notation me := (Z.of_nat (s_e_input s)).
Notation nd := (Z.of_nat (List.length (dff_list_string s))).
Notation ngt := (Z.of_nat (List.length (gate_list_string s))).
Definition init_ids : table := arr_ids "p_init" (s_p_init s) 0 ++ arr_ids "g_init" (s_g_init s) np ++ arr_ids "e_init" (s_e_init s) (np + ng).
Definition input_ids : table :=
  arr_ids "p_input" (s_p_input s) (np + ng + ne) ++ arr_ids "g_input" (s_g_input s) (np + ng + ne + mp) ++ arr_ids "e_input" (s_e_input s) (np + ng + ne + mp + mg).
Definition fdff : Z := np + ng + ne + mp + mg + me.
Definition dff_ids : table := cell_ids (dff_list_string s) fdff.
Definition gate_ids : table := cell_ids (gate_list_string s) (fdff + nd).
Definition const_ids : table := [(""%string, -1); ("1'b0"%string, -2); ("1'b1"%string, -3)].
Definition ids : table := init_ids ++ input_ids ++ (dff_ids ++ gate_ids) ++ const_ids.

Lemma base_table_is n : get (base_table s) n = get ids n.
Proof.
  assert (E : base_table s = insert_all [] ids).
  { unfold base_table. rewrite !AddWireArray_is, !add_outputs_is. cbn [fst].
    unfold ids, init_ids, input_ids, dff_ids, gate_ids. rewrite !insert_all_app.
    rewrite !Z.add_0_l. reflexivity. }
  rewrite E, get_insert_all. reflexivity.
Qed.
Lemma arr_names name n w : map fst (arr_ids name n w) = port_names name n.
Proof. unfold arr_ids, port_names. rewrite map_app, map_map. destruct (n =? 1)%nat; reflexivity. Qed.
Lemma cell_names_is l w : map fst (cell_ids l w) = map gs_out l.
Proof.
  unfold cell_ids. rewrite map_map. cbn [fst]. generalize 0%nat. induction l as [|g l IH]; intros k; cbn; [auto|]. f_equal. apply IH.
Qed.
Lemma init_ids_names : map fst init_ids = init_names s.
Proof. unfold init_ids, init_names. rewrite !map_app, !arr_names. reflexivity. Qed.
Lemma input_ids_names : map fst input_ids = input_names s.
Proof. unfold input_ids, input_names. rewrite !map_app, !arr_names. reflexivity. Qed.
Lemma cell_ids_names : map fst (dff_ids ++ gate_ids) = cell_names s.
Proof. unfold dff_ids, gate_ids, cell_names. rewrite !map_app, !cell_names_is. reflexivity. Qed.
Lemma ids_names : map fst ids = declared s.
Proof. unfold ids, declared. rewrite !map_app, init_ids_names, input_ids_names, <- cell_ids_names, map_app. reflexivity. Qed.

Lemma arr_in name n w m k : In (m, k) (arr_ids name n w) -> exists i, (i < n)%nat /\ k = w + Z.of_nat i /\ (m = elem name i \/ n = 1%nat /\ m = name).
Proof.
  unfold arr_ids. intros H. apply in_app_or in H as [H|H].
  - destruct (Nat.eqb_spec n 1) as [->|]; [|destruct H]. destruct H as [[= -> ->]|[]]. exists 0%nat. repeat split; auto; lia.
  - apply in_map_iff in H as (i & [= <- <-] & Hi). apply in_seq in Hi. exists i. repeat split; auto; lia.
Qed.
Lemma arr_elem name n w i : (i < n)%nat -> In (elem name i, w + Z.of_nat i) (arr_ids name n w).
Proof. intros H. unfold arr_ids. apply in_or_app. right. apply in_map_iff. exists i. split; auto. apply in_seq. lia. Qed.
Lemma cell_in l w m k : In (m, k) (cell_ids l w) -> exists i g, nth_error l i = Some g /\ k = w + Z.of_nat i /\ m = gs_out g.
Proof.
  unfold cell_ids. intros H. apply in_map_iff in H as ([i g] & [= <- <-] & Hi). apply In_nth_error in Hi as [j Hj].
  apply nth_combine_seq_inv in Hj as [E1 E2]. cbn in *. subst i. exists j, g. auto.
Qed.
Lemma cell_nth l w i g : nth_error l i = Some g -> In (gs_out g, w + Z.of_nat i) (cell_ids l w).
Proof.
  intros H. unfold cell_ids. apply in_map_iff. exists (i, g). split; [reflexivity|]. eapply nth_error_In. apply (nth_combine_seq _ _ _ 0 H).
Qed.
Lemma init_range m k : In (m, k) init_ids -> 0 <= k < np + ng + ne.
Proof.
  unfold init_ids. intros H. rewrite !in_app_iff in H; destruct_all H; apply arr_in in H as (i & L & -> & _); lia.
Qed.
Lemma input_range m k : In (m, k) input_ids -> np + ng + ne <= k < fdff.
Proof.
  unfold input_ids, fdff. intros H. rewrite !in_app_iff in H; destruct_all H; apply arr_in in H as (i & L & -> & _); lia.
Qed.
Lemma dff_range m k : In (m, k) dff_ids -> fdff <= k < fdff + nd.
Proof. unfold dff_ids. intros H. apply cell_in in H as (i & g & E & -> & _). apply nth_error_lt in E. lia. Qed.
Lemma gate_range m k : In (m, k) gate_ids -> fdff + nd <= k < fdff + nd + ngt.
Proof. unfold gate_ids. intros H. apply cell_in in H as (i & g & E & -> & _). apply nth_error_lt in E. lia. Qed.
Lemma const_range m k : In (m, k) const_ids -> -3 <= k < 0.
Proof. cbn. intros [[= <- <-]|[[= <- <-]|[[= <- <-]|[]]]]; lia. Qed.
Lemma fdff_ge : np + ng + ne <= fdff /\ 0 <= np + ng + ne.
Proof. unfold fdff. lia. Qed.

Hypothesis WN : well_named s.
Lemma ids_nodup : NoDup (map fst ids).
Proof. rewrite ids_names. apply (wn_drivers _ WN). Qed.

(** ** Assignments *)
Lemma root_other as_ n : ~ In n (map fst as_) -> root as_ n = n.
Proof.
  induction as_ as [|[a b] l IH]; cbn; [auto|]. intros H. destruct (String.eqb_spec n a); [subst; tauto|]. apply IH. tauto.
Qed.
Notation assigns := (assignment_list_string s).
Lemma root_declared : forall l r, assigns = l ++ r -> forall n, In n (declared s ++ map fst l) -> In (root (rev l) n) (declared s).
Proof.
  induction l as [|[a b] l IH] using rev_ind; intros r E n H.
  - cbn in *. rewrite app_nil_r in H. exact H.
  - rewrite rev_app_distr. cbn. rewrite <- app_assoc in E. cbn in E. pose proof (wn_assign _ WN _ _ _ _ E) as [NA IB].
    destruct (String.eqb_spec n a) as [->|NE].
    + apply (IH _ E). exact IB.
    + apply (IH _ E). rewrite map_app in H. rewrite app_assoc in H. apply in_app_or in H as [H|[H|[]]]; [exact H|cbn in H; congruence].
Qed.
(** An assignment between two names of which one has a wire gives both this wire
    (the left one's if both have one), and no other name changes. *)
Lemma assign_joins t a b : get t a <> None \/ get t b <> None ->
  exists k, get (assign_step t (a, b)) a = Some k /\ get (assign_step t (a, b)) b = Some k /\
    get t (match get t a with Some _ => a | None => b end) = Some k /\
    forall n, n <> a -> n <> b -> get (assign_step t (a, b)) n = get t n.
Proof.
  intros H. unfold assign_step. destruct (get t a) as [k|] eqn:EA.
  - exists k. split; [|split; [|split; [exact EA|]]].
    + unfold set. cbn [get]. destruct (String.eqb_spec a b); auto.
    + unfold set. cbn [get]. rewrite String.eqb_refl. reflexivity.
    + intros n N1 N2. unfold set. cbn [get]. destruct (String.eqb_spec n b); congruence.
  - destruct (get t b) as [k|] eqn:EB; [|destruct H; congruence]. exists k. split; [|split; [|split; [first [exact EB|reflexivity]|]]].
    + unfold set. cbn [get]. rewrite String.eqb_refl. reflexivity.
    + unfold set. cbn [get]. destruct (String.eqb_spec b a); auto.
    + intros n N1 N2. unfold set. cbn [get]. destruct (String.eqb_spec n a); congruence.
Qed.
Lemma assign_new t a b k : get t a = None -> get t b = Some k -> assign_step t (a, b) = set t a k.
Proof. unfold assign_step. intros -> ->. reflexivity. Qed.
Lemma table_get : forall l r, assigns = l ++ r -> forall n,
  get (fold_left assign_step l (base_table s)) n = get ids (root (rev l) n).
Proof.
  induction l as [|[a b] l IH] using rev_ind; intros r E n.
  - cbn. apply base_table_is.
  - rewrite fold_left_app, rev_app_distr. cbn [fold_left rev app root].
    rewrite <- app_assoc in E. cbn in E. pose proof (wn_assign _ WN _ _ _ _ E) as [NA IB].
    assert (GA : get (fold_left assign_step l (base_table s)) a = None).
    { rewrite (IH _ E). apply get_none. rewrite ids_names. rewrite root_other; [|rewrite map_rev, <- in_rev]; intros C; apply NA; apply in_or_app; auto. }
    assert (GB : exists k, get (fold_left assign_step l (base_table s)) b = Some k).
    { rewrite (IH _ E). apply get_some. rewrite ids_names. apply (root_declared _ _ E). exact IB. }
    destruct GB as [k GB]. rewrite (assign_new _ _ _ _ GA GB). cbn [set get]. destruct (String.eqb_spec n a) as [->|NE].
    + rewrite <- (IH _ E). auto.
    + apply (IH _ E).
Qed.
Lemma lhs_fresh n : In n (declared s) -> ~ In n (map fst assigns).
Proof.
  intros D H. apply in_map_iff in H as ([a b] & <- & H). apply in_split in H as (l & r & E).
  destruct (wn_assign _ WN _ _ _ _ E) as [NA _]. apply NA. apply in_or_app. auto.
Qed.
Lemma root_of_declared n : In n (declared s) -> root_of s n = n.
Proof. intros D. unfold root_of. apply root_other. rewrite map_rev, <- in_rev. apply lhs_fresh. exact D. Qed.
Definition T : table := fold_left assign_step assigns (base_table s).
Lemma T_get n : get T n = get ids (root_of s n).
Proof. unfold T, root_of. apply (table_get _ []). rewrite app_nil_r. reflexivity. Qed.
Definition id (n : string) : Z := match get ids (root_of s n) with Some k => k | None => 0 end.
Lemma id_in n : In (root_of s n) (declared s) -> In (root_of s n, id n) ids.
Proof.
  intros D. rewrite <- ids_names in D. apply get_some in D as [k D]. unfold id. rewrite D. apply get_in. exact D.
Qed.
Lemma look_id log n : In (root_of s n) (declared s) -> look log T n = Some (id n, T).
Proof.
  intros D. unfold look. rewrite T_get. rewrite <- ids_names in D. apply get_some in D as [k D]. unfold id. rewrite D. reflexivity.
Qed.

(** Where a name lives. *)
Lemma in_part (a b : table) m k : NoDup (map fst (a ++ b)) -> In m (map fst a) -> In (m, k) (a ++ b) -> In (m, k) a.
Proof.
  rewrite map_app. intros ND I H. apply in_app_or in H as [H|H]; [exact H|]. exfalso. apply (in_map fst) in H. cbn in H.
  apply in_split in I as (l & r & E). rewrite E in ND. rewrite <- app_assoc in ND. cbn in ND. apply NoDup_remove_2 in ND.
  apply ND. apply in_or_app. right. apply in_or_app. auto.
Qed.
Lemma in_part_r (a b : table) m k : NoDup (map fst (a ++ b)) -> In m (map fst b) -> In (m, k) (a ++ b) -> In (m, k) b.
Proof.
  rewrite map_app. intros ND I H. apply in_app_or in H as [H|H]; [|exact H]. exfalso. apply (in_map fst) in H. cbn in H.
  apply in_split in H as (l & r & E). rewrite E in ND. rewrite <- app_assoc in ND. cbn in ND. apply NoDup_remove_2 in ND.
  apply ND. apply in_or_app. right. apply in_or_app. auto.
Qed.
Lemma nodup_r (a b : table) : NoDup (map fst (a ++ b)) -> NoDup (map fst b).
Proof. rewrite map_app. induction (map fst a); cbn; auto. intros H. inversion H; auto. Qed.
Lemma init_id m k : In m (init_names s) -> In (m, k) ids -> In (m, k) init_ids.
Proof. intros I H. eapply in_part; [apply ids_nodup|rewrite init_ids_names; exact I|exact H]. Qed.
Lemma input_id m k : In m (input_names s) -> In (m, k) ids -> In (m, k) input_ids.
Proof.
  intros I H. unfold ids in H. eapply in_part with (b := (dff_ids ++ gate_ids) ++ const_ids).
  - eapply nodup_r. apply ids_nodup.
  - rewrite input_ids_names. exact I.
  - eapply in_part_r; [apply ids_nodup| |exact H]. rewrite map_app, input_ids_names. apply in_or_app. auto.
Qed.
Lemma cell_id m k : In m (cell_names s) -> In (m, k) ids -> In (m, k) (dff_ids ++ gate_ids).
Proof.
  intros I H. unfold ids in H. eapply in_part with (b := const_ids).
  - eapply nodup_r. eapply nodup_r. apply ids_nodup.
  - rewrite cell_ids_names. exact I.
  - eapply in_part_r with (a := input_ids); [eapply nodup_r; apply ids_nodup| |eapply in_part_r; [apply ids_nodup| |exact H]]; rewrite !map_app, <- map_app, cell_ids_names;
    repeat (apply in_or_app; auto; right); apply in_or_app; auto.
Qed.
Lemma const_id m k : In m const_names -> In (m, k) ids -> In (m, k) const_ids.
Proof.
  intros I H. unfold ids in H.
  eapply in_part_r with (a := dff_ids ++ gate_ids); [eapply nodup_r; eapply nodup_r; apply ids_nodup|exact I|].
  eapply in_part_r with (a := input_ids); [eapply nodup_r; apply ids_nodup| |].
  - rewrite !map_app. apply in_or_app. right. exact I.
  - eapply in_part_r; [apply ids_nodup| |exact H]. rewrite !map_app. apply in_or_app. right. apply in_or_app. right. exact I.
Qed.

(** ** The numbered netlist *)
Definition num_gate (g : ReadGateString) : ReadGate := mkRG (id (gs_in0 g)) (id (gs_in1 g)) (id (gs_out g)) (gs_type g).
Definition out_nm (i : nat) : string :=
  if (s_output s =? 1)%nat then match get T "o[0]" with Some _ => "o[0]"%string | None => "o"%string end else elem "o" i.
Definition numbered : ReadCircuit :=
  mkRC (s_p_init s) (s_g_init s) (s_e_init s) (s_p_input s) (s_g_input s) (s_e_input s)
    (map (fun i => id (out_nm i)) (seq 0 (s_output s))) (map num_gate (gate_list_string s)) (map num_gate (dff_list_string s)) []
    (if has_terminate s then id "terminate" else 0).

Lemma part_declared n : (In n (init_names s) \/ In n (input_names s) \/ In n (cell_names s) \/ In n const_names) -> In n (declared s).
Proof. intros H. unfold declared. rewrite !in_app_iff. tauto. Qed.
Lemma look_all_map {A B} log (f : bool -> table -> A -> option (B * table)) (g : A -> B) l :
  (forall x, In x l -> f log T x = Some (g x, T)) -> look_all (f log) T l = Some (map g l, T).
Proof. induction l as [|x l IH]; cbn; intros H; [auto|]. rewrite (H x) by auto. cbn. rewrite IH by auto. reflexivity. Qed.
Lemma gate_out_declared g : In g (gate_list_string s) -> In (gs_out g) (cell_names s).
Proof. intros H. unfold cell_names. apply in_or_app. right. apply in_map. exact H. Qed.
Lemma dff_out_declared g : In g (dff_list_string s) -> In (gs_out g) (cell_names s).
Proof. intros H. unfold cell_names. apply in_or_app. left. apply in_map. exact H. Qed.
Lemma look_gate_ok log g : In (root_of s (gs_in0 g)) (declared s) -> In (root_of s (gs_in1 g)) (declared s) -> In (gs_out g) (declared s) ->
  look_gate log T g = Some (num_gate g, T).
Proof.
  intros A B C. unfold look_gate. rewrite !look_id by (try rewrite (root_of_declared (gs_out g)); auto). cbn [obind].
  rewrite !look_id by (try rewrite (root_of_declared (gs_out g)); auto). cbn [obind].
  rewrite !look_id by (try rewrite (root_of_declared (gs_out g)); auto). reflexivity.
Qed.
Lemma out_nm_is i : (i < s_output s)%nat -> output_name s i (out_nm i).
Proof.
  intros H. unfold output_name, out_nm. destruct (s_output s =? 1)%nat; [|auto].
  rewrite T_get. destruct (get ids (root_of s "o[0]")) eqn:E; [auto|]. right. split; [auto|]. apply get_none in E. rewrite <- ids_names. exact E.
Qed.
Lemma output_name_unique i n m : output_name s i n -> output_name s i m -> In (root_of s n) (declared s) -> In (root_of s m) (declared s) -> n = m.
Proof. unfold output_name. destruct (s_output s =? 1)%nat; [|congruence]. intuition (subst; tauto). Qed.
Lemma out_nm_declared i : (i < s_output s)%nat -> In (root_of s (out_nm i)) (input_names s ++ cell_names s).
Proof. intros H. eapply (wn_out _ WN); [exact H|]. apply out_nm_is. exact H. Qed.

Lemma id_cell n : In (root_of s n) (cell_names s) -> fdff <= id n < fdff + nd + ngt.
Proof.
  intros H. pose proof (id_in n ltac:(apply part_declared; auto)) as I. apply cell_id in I; [|exact H].
  apply in_app_or in I as [I|I]; [apply dff_range in I|apply gate_range in I]; lia.
Qed.
Lemma id_input n : In (root_of s n) (input_names s) -> np + ng + ne <= id n < fdff.
Proof. intros H. pose proof (id_in n ltac:(apply part_declared; auto)) as I. apply input_id in I; [|exact H]. apply input_range in I. exact I. Qed.
Lemma id_init n : In (root_of s n) (init_names s) -> 0 <= id n < np + ng + ne.
Proof. intros H. pose proof (id_in n ltac:(apply part_declared; auto)) as I. apply init_id in I; [|exact H]. apply init_range in I. exact I. Qed.
Lemma id_const n : In (root_of s n) const_names -> -3 <= id n < 0.
Proof. intros H. pose proof (id_in n ltac:(apply part_declared; auto)) as I. apply const_id in I; [|exact H]. apply const_range in I. exact I. Qed.

Lemma terminate_pos : has_terminate s = true -> fdff <= id "terminate" < fdff + nd + ngt /\ 0 < id "terminate".
Proof.
  intros H. destruct (wn_term _ WN H) as [C [n I]]. pose proof (id_cell _ C) as R. split; [exact R|].
  assert (0 < fdff); [|lia].
  assert (In n (map fst (init_ids ++ input_ids))) as J by (rewrite map_app, init_ids_names, input_ids_names; exact I).
  apply get_some in J as [k J]. apply get_in in J. apply in_app_or in J as [J|J]; [apply init_range in J|apply input_range in J]; pose proof fdff_ge; lia.
Qed.

Theorem IdAssignment_is log : IdAssignment log s = Some numbered.
Proof.
  unfold IdAssignment. fold T.
  rewrite (look_all_map log look_gate num_gate).
  2:{ intros g H. destruct (wn_gate _ WN g H) as [_ R]. apply look_gate_ok.
      - specialize (R (gs_in0 g) (or_introl eq_refl)). apply part_declared. rewrite !in_app_iff in R. tauto.
      - specialize (R (gs_in1 g) (or_intror eq_refl)). apply part_declared. rewrite !in_app_iff in R. tauto.
      - apply part_declared. pose proof (gate_out_declared _ H). tauto. }
  cbn [obind]. rewrite (look_all_map log look_gate num_gate).
  2:{ intros g H. destruct (wn_dff _ WN g H) as [R0 R1]. apply look_gate_ok.
      - apply part_declared. rewrite !in_app_iff in R0. tauto.
      - apply part_declared. rewrite !in_app_iff in R1. tauto.
      - apply part_declared. pose proof (dff_out_declared _ H). tauto. }
  cbn [obind]. rewrite (look_all_map log (fun log => look_output log (s_output s)) (fun i => id (out_nm i))).
  2:{ intros i H. apply in_seq in H. pose proof (out_nm_declared i ltac:(lia)) as D. apply in_app_iff in D.
      unfold look_output. unfold out_nm in *. destruct (s_output s =? 1)%nat.
      - destruct (get T "o[0]") as [k|] eqn:E.
        + unfold id. rewrite T_get in E. rewrite E. reflexivity.
        + apply look_id. apply part_declared. tauto.
      - apply look_id. apply part_declared. tauto. }
  cbn [obind]. unfold numbered. destruct (has_terminate s) eqn:HT; [|reflexivity].
  destruct (terminate_pos HT) as [_ P]. rewrite T_get. fold (id "terminate"). destruct (Z.eqb_spec (id "terminate") 0); [lia|].
  rewrite andb_false_r. reflexivity.
Qed.

Lemma numbered_b : Z.of_nat (init_input_dff_size numbered) = fdff + nd.
Proof. unfold init_input_dff_size, get_init_input_size, fdff. cbn. rewrite map_length. lia. Qed.
Lemma numbered_n : Z.of_nat (init_input_dff_size numbered + List.length (gate_list numbered)) = fdff + nd + ngt.
Proof. rewrite Nat2Z.inj_add, numbered_b. cbn. rewrite map_length. reflexivity. Qed.

Lemma wire_ref_id n : In (root_of s n) (input_names s ++ cell_names s ++ const_names) -> wire_ref numbered (id n).
Proof.
  intros H. unfold wire_ref. rewrite numbered_n. cbn [rc_p_init rc_g_init rc_e_init numbered]. pose proof fdff_ge.
  rewrite !in_app_iff in H. destruct H as [H|[H|H]]; [apply id_input in H|apply id_cell in H|apply id_const in H]; lia.
Qed.

Lemma id_gate_name n j : id n = fdff + nd + Z.of_nat j -> In (root_of s n) (declared s) -> exists h, nth_error (gate_list_string s) j = Some h /\ root_of s n = gs_out h.
Proof.
  intros E D. pose proof (id_in n D) as I. rewrite E in I. pose proof fdff_ge. unfold ids in I.
  rewrite !in_app_iff in I; destruct I as [I|[I|[[I|I]|I]]].
  - apply init_range in I. lia.
  - apply input_range in I. lia.
  - apply dff_range in I. lia.
  - apply cell_in in I as (i & g & EG & EK & EM). assert (i = j) by lia. subst. eauto.
  - apply const_range in I. lia.
Qed.
Lemma gate_id h j : nth_error (gate_list_string s) j = Some h -> forall n, root_of s n = gs_out h -> id n = fdff + nd + Z.of_nat j.
Proof.
  intros H n E. pose proof (gate_out_declared h (nth_error_In _ _ H)) as C. pose proof (id_in n) as I. rewrite E in I.
  specialize (I ltac:(apply part_declared; auto)). apply (get_iff _ _ _ ids_nodup) in I.
  assert (J : In (gs_out h, fdff + nd + Z.of_nat j) ids).
  { unfold ids. rewrite !in_app_iff. right. right. left. right. apply cell_nth. exact H. }
  apply (get_iff _ _ _ ids_nodup) in J. congruence.
Qed.
Lemma in_declared3 n : In n (input_names s ++ cell_names s ++ const_names) -> In n (declared s).
Proof. intros H. apply part_declared. rewrite !in_app_iff in H. tauto. Qed.

Lemma reads_gate_reads i j : reads numbered (fdff + nd + Z.of_nat i) (fdff + nd + Z.of_nat j) <-> gate_reads s i j.
Proof.
  pose proof fdff_ge. split.
  - intros (i' & g & E & EV & W & P). rewrite numbered_b in EV. assert (i' = i) by lia. subst i'.
    cbn [gate_list numbered] in E. rewrite nth_error_map in E. destruct (nth_error (gate_list_string s) i) as [g0|] eqn:E0; [|discriminate].
    cbn in E. injection E as <-. cbn [rg_in0 rg_in1 num_gate] in W.
    destruct (wn_gate _ WN g0 (nth_error_In _ _ E0)) as [_ R].
    destruct W as [W|W]; symmetry in W; apply id_gate_name in W as (h & EH & RH); try (apply in_declared3; apply R; auto);
      exists g0, h; auto.
  - intros (g & h & EG & EH & R). exists i, (num_gate g). cbn [gate_list numbered]. rewrite nth_error_map, EG, numbered_b.
    repeat split; auto; [|lia]. cbn [rg_in0 rg_in1 num_gate]. destruct R as [R|R]; rewrite (gate_id h j EH _ R); auto.
Qed.
Lemma reads_src v w : reads numbered v w -> exists i, v = fdff + nd + Z.of_nat i.
Proof. intros (i & g & _ & -> & _). exists i. rewrite numbered_b. reflexivity. Qed.
Lemma depends_src v w : depends numbered v w -> exists i, v = fdff + nd + Z.of_nat i.
Proof. intros H. inversion H; subst; eapply reads_src; eauto. Qed.
Lemma depends_gate v w : depends numbered v w -> forall i j, v = fdff + nd + Z.of_nat i -> w = fdff + nd + Z.of_nat j -> gate_depends s i j.
Proof.
  induction 1 as [v w R|v u w R H IH]; intros i j -> ->.
  - apply gdep_step. apply reads_gate_reads. exact R.
  - destruct (depends_src _ _ H) as [k ->]. apply gdep_trans with k; [apply reads_gate_reads; exact R|]. apply IH; auto.
Qed.
Lemma gate_depends_num i j : gate_depends s i j -> depends numbered (fdff + nd + Z.of_nat i) (fdff + nd + Z.of_nat j).
Proof.
  induction 1 as [i j R|i j k R H IH].
  - apply dep_one. apply reads_gate_reads. exact R.
  - eapply dep_more; [apply reads_gate_reads; exact R|exact IH].
Qed.
Theorem loop_iff : has_loop numbered <-> combinational_loop s.
Proof.
  split.
  - intros [v H]. destruct (depends_src _ _ H) as [i ->]. exists i. eapply depends_gate; eauto.
  - intros [i H]. eexists. apply gate_depends_num. exact H.
Qed.
Lemma numbered_range : in_range numbered.
Proof.
  intros g H. cbv zeta. cbn [gate_list numbered] in H. apply in_map_iff in H as (g0 & <- & H). destruct (wn_gate _ WN g0 H) as [_ R].
  split; [apply (wire_ref_id (gs_in0 g0)); apply R; auto|apply (wire_ref_id (gs_in1 g0)); apply R; auto].
Qed.
Theorem numbered_translatable : ~ combinational_loop s -> translatable numbered.
Proof.
  intros NL. pose proof fdff_ge as FD. split.
  - destruct (wn_some _ WN) as [n I]. assert (0 < fdff + nd); [|rewrite <- numbered_b in *; lia].
    assert (In n (map fst (init_ids ++ input_ids ++ dff_ids))) as J.
    { rewrite !map_app, init_ids_names, input_ids_names. unfold dff_ids. rewrite cell_names_is. exact I. }
    apply get_some in J as [k J]. apply get_in in J. rewrite !in_app_iff in J; destruct_all J;
      [apply init_range in J|apply input_range in J|apply dff_range in J]; lia.
  - intros g H. cbn [gate_list numbered] in H. apply in_map_iff in H as (g0 & <- & H). destruct (wn_gate _ WN g0 H) as [TY R].
    cbn [rg_type rg_in0 rg_in1 num_gate]. split; [exact TY|]. split; apply wire_ref_id; apply R; auto.
  - intros d H. cbn [dff_list numbered] in H. apply in_map_iff in H as (d0 & <- & H). destruct (wn_dff _ WN d0 H) as [R0 R1].
    cbn [rg_out rg_in0 rg_in1 num_gate]. split; [apply wire_ref_id; exact R0|]. rewrite numbered_n. split.
    + apply in_app_or in R1 as [R|R]; [apply id_init in R|apply id_const in R]; lia.
    + assert (C : In (root_of s (gs_out d0)) (cell_names s)).
      { rewrite root_of_declared; [|apply part_declared]; pose proof (dff_out_declared _ H); auto. }
      apply id_cell in C. lia.
  - intros w H. cbn [output_list numbered] in H. apply in_map_iff in H as (i & <- & H). apply in_seq in H.
    pose proof (out_nm_declared i ltac:(lia)) as C. split; [apply wire_ref_id; rewrite !in_app_iff in *; tauto|].
    apply in_app_or in C as [C|C]; [apply id_input in C|apply id_cell in C]; lia.
  - cbn [rc_terminate_id numbered]. destruct (has_terminate s) eqn:HT; [|auto]. right. destruct (terminate_pos HT) as [R P].
    destruct (wn_term _ WN HT) as [C _]. split; [apply wire_ref_id; rewrite !in_app_iff; auto|lia].
  - intros H. apply loop_iff in H. auto.
Qed.

(** ** Meaning *)
Notation cu := (unsorted numbered).
Section Down.
Variable x : inputs.
Variable U : nat -> string -> bool.
Hypothesis NC : net_consistent s x U.

Lemma U_root as_ : (forall p, In p as_ -> In p assigns) -> forall cy n, U cy n = U cy (root as_ n).
Proof.
  induction as_ as [|[a b] l IH]; intros H cy n; cbn; [auto|].
  destruct (String.eqb_spec n a) as [->|]; [|apply IH; intros; apply H; cbn; auto].
  rewrite (nc_assign _ _ _ NC cy a b) by (apply H; cbn; auto). apply IH. intros; apply H; cbn; auto.
Qed.
Lemma U_root_of cy n : U cy n = U cy (root_of s n).
Proof. unfold root_of. apply U_root. intros p H. apply in_rev in H. exact H. Qed.
(** The value of each wire number. *)
Definition W (cy : nat) (k : Z) : bool :=
  if k <? fdff then input_value cu x cy (Z.to_nat (k - (np + ng + ne)))
  else U cy (nth (Z.to_nat (k - fdff)) (cell_names s) ""%string).

Lemma W_cell cy m k : In (m, k) (dff_ids ++ gate_ids) -> W cy k = U cy m.
Proof.
  intros H. unfold W. pose proof fdff_ge. apply in_app_or in H as [H|H].
  - pose proof (dff_range _ _ H). destruct (Z.ltb_spec k fdff); [lia|]. apply cell_in in H as (i & g & E & -> & ->).
    f_equal. replace (Z.to_nat (fdff + Z.of_nat i - fdff)) with i by lia. apply nth_error_nth. unfold cell_names.
    rewrite nth_error_app1 by (rewrite map_length; eapply nth_error_lt; eauto). rewrite nth_error_map, E. reflexivity.
  - pose proof (gate_range _ _ H). destruct (Z.ltb_spec k fdff); [lia|]. apply cell_in in H as (i & g & E & -> & ->).
    f_equal. replace (Z.to_nat (fdff + nd + Z.of_nat i - fdff)) with (List.length (dff_list_string s) + i)%nat by lia. apply nth_error_nth. unfold cell_names.
    rewrite nth_error_app2 by (rewrite map_length; lia). rewrite map_length. replace (List.length (dff_list_string s) + i - List.length (dff_list_string s))%nat with i by lia.
    rewrite nth_error_map, E. reflexivity.
Qed.
Lemma port_in (V : string -> bool) name n f w m k : port_value V name n f -> In (m, k) (arr_ids name n w) -> V m = f (Z.to_nat (k - w)).
Proof.
  intros [P1 P2] H. apply arr_in in H as (i & L & -> & [->|[-> ->]]).
  - rewrite P1 by exact L. f_equal. lia.
  - rewrite P2 by reflexivity. f_equal. lia.
Qed.
Lemma W_input cy m k : In (m, k) input_ids -> W cy k = U cy m.
Proof.
  intros H. unfold W. pose proof (input_range _ _ H). destruct (Z.ltb_spec k fdff); [|lia].
  destruct (nc_input _ _ _ NC cy) as (P & G & E). unfold input_value. cbn [p_input_size g_input_size e_input_size unsorted circuit_with numbered rc_p_input rc_g_input rc_e_input].
  unfold input_ids in H. rewrite !in_app_iff in H; destruct_all H; pose proof (arr_in _ _ _ _ _ H) as (i & L & -> & _).
  - rewrite (port_in _ _ _ _ _ _ _ P H). destruct (Nat.ltb_spec (Z.to_nat (np + ng + ne + Z.of_nat i - (np + ng + ne))) (s_p_input s)); [|lia]. f_equal.
  - rewrite (port_in _ _ _ _ _ _ _ G H). destruct (Nat.ltb_spec (Z.to_nat (np + ng + ne + mp + Z.of_nat i - (np + ng + ne))) (s_p_input s)); [lia|].
    destruct (Nat.ltb_spec (Z.to_nat (np + ng + ne + mp + Z.of_nat i - (np + ng + ne))) (s_p_input s + s_g_input s)); [|lia]. f_equal. lia.
  - rewrite (port_in _ _ _ _ _ _ _ E H). destruct (Nat.ltb_spec (Z.to_nat (np + ng + ne + mp + mg + Z.of_nat i - (np + ng + ne))) (s_p_input s)); [lia|].
    destruct (Nat.ltb_spec (Z.to_nat (np + ng + ne + mp + mg + Z.of_nat i - (np + ng + ne))) (s_p_input s + s_g_input s)); [lia|]. f_equal. lia.
Qed.
Lemma W_operand cy n : In (root_of s n) (input_names s ++ cell_names s ++ const_names) -> operand (W cy) (id n) = U cy n.
Proof.
  intros H. rewrite U_root_of. pose proof (id_in n (in_declared3 _ H)) as I. pose proof fdff_ge. rewrite !in_app_iff in H. destruct H as [H|[H|H]].
  - apply input_id in I; [|exact H]. pose proof (input_range _ _ I). unfold operand. destruct (Z.eqb_spec (id n) (-3)); [lia|]. destruct (Z.ltb_spec (id n) 0); [lia|].
    apply W_input. exact I.
  - apply cell_id in I; [|exact H]. pose proof (id_cell n H). unfold operand. destruct (Z.eqb_spec (id n) (-3)); [lia|]. destruct (Z.ltb_spec (id n) 0); [lia|].
    apply W_cell. exact I.
  - apply const_id in I; [|exact H]. destruct (nc_const _ _ _ NC cy) as (A & B & C).
    cbn in I. destruct I as [[= <- <-]|[[= <- <-]|[[= <- <-]|[]]]]; auto.
Qed.
Lemma init_value n : In (root_of s n) (init_names s ++ const_names) -> initial_value cu x (id n) = U O n.
Proof.
  intros H. rewrite U_root_of. pose proof (id_in n) as I. apply in_app_or in H as [H|H].
  - specialize (I ltac:(apply part_declared; auto)). apply init_id in I; [|exact H]. destruct (nc_init _ _ _ NC) as (P & G & E).
    pose proof (init_range _ _ I). unfold initial_value. cbn [p_init_size g_init_size e_init_size unsorted circuit_with numbered rc_p_init rc_g_init rc_e_init].
    destruct (Z.eqb_spec (id n) (-3)); [lia|]. destruct (Z.ltb_spec (id n) 0); [lia|].
    unfold init_ids in I. rewrite !in_app_iff in I; destruct_all I; pose proof (arr_in _ _ _ _ _ I) as (i & L & EI & _).
    + rewrite (port_in _ _ _ _ _ _ _ P I). destruct (Z.ltb_spec (id n) np); [|lia]. f_equal. lia.
    + rewrite (port_in _ _ _ _ _ _ _ G I). destruct (Z.ltb_spec (id n) np); [lia|]. destruct (Z.ltb_spec (id n) (np + ng)); [|lia]. f_equal.
    + rewrite (port_in _ _ _ _ _ _ _ E I). destruct (Z.ltb_spec (id n) np); [lia|]. destruct (Z.ltb_spec (id n) (np + ng)); [lia|]. destruct (Z.ltb_spec (id n) (np + ng + ne)); [|lia]. f_equal. lia.
  - specialize (I ltac:(apply part_declared; auto)). apply const_id in I; [|exact H]. destruct (nc_const _ _ _ NC 0%nat) as (A & B & C).
    cbn in I. destruct I as [[= <- <-]|[[= <- <-]|[[= <- <-]|[]]]]; rewrite ?A, ?B, ?C; reflexivity.
Qed.
Lemma cu_first_dff : first_dff cu = fdff.
Proof. unfold first_dff, first_input, fdff. cbn. lia. Qed.
Lemma dff_id_in i d : nth_error (dff_list_string s) i = Some d -> In (gs_out d, fdff + Z.of_nat i) (dff_ids ++ gate_ids).
Proof. intros H. apply in_or_app. left. apply cell_nth. exact H. Qed.
Theorem net_to_num : consistent cu x W.
Proof.
  pose proof fdff_ge as FD. split.
  - intros cy i Hi. unfold W. unfold first_input, fdff in *. cbn in *. destruct (Z.ltb_spec (Z.of_nat (s_p_init s + s_g_init s + s_e_init s) + Z.of_nat i) (np + ng + ne + mp + mg + me)); [|lia].
    f_equal. lia.
  - intros i idx HI HD. cbn [D I unsorted circuit_with dff_list numbered] in *. rewrite !nth_error_map in HI.
    destruct (nth_error (dff_list_string s) i) as [d|] eqn:E; [|discriminate]. cbn in HI. injection HI as <-.
    rewrite cu_first_dff, (W_cell _ _ _ (dff_id_in _ _ E)), init_value by (apply (wn_dff _ WN d (nth_error_In _ _ E))).
    apply (nc_dff0 _ _ _ NC). eapply nth_error_In; eauto.
  - intros cy i idx HI. cbn [D I unsorted circuit_with dff_list numbered] in *. rewrite !nth_error_map in HI.
    destruct (nth_error (dff_list_string s) i) as [d|] eqn:E; [|discriminate]. cbn in HI. injection HI as <-.
    rewrite cu_first_dff, (W_cell _ _ _ (dff_id_in _ _ E)), W_operand by (apply (wn_dff _ WN d (nth_error_In _ _ E))).
    apply (nc_dffS _ _ _ NC). eapply nth_error_In; eauto.
  - intros cy i g f HG HT. apply cu_gate in HG as (g0 & HG & ->). cbn [gate_list numbered] in HG. rewrite nth_error_map in HG.
    destruct (nth_error (gate_list_string s) i) as [h|] eqn:E; [|discriminate]. cbn in HG. injection HG as <-. cbn [type input0 input1 rg_type rg_in0 rg_in1 num_gate] in *.
    destruct (wn_gate _ WN h (nth_error_In _ _ E)) as [_ R]. rewrite !W_operand by (apply R; auto).
    rewrite first_gate_cu, numbered_b. rewrite (W_cell _ (gs_out h)) by (apply in_or_app; right; apply cell_nth; exact E).
    apply (nc_gate _ _ _ NC); [eapply nth_error_In; eauto|exact HT].
Qed.
End Down.

Lemma id_assign a b : In (a, b) assigns -> id a = id b.
Proof.
  intros H.
    apply in_split in H as (l & r & E). destruct (wn_assign _ WN _ _ _ _ E) as [NA IB].
    assert (NR : ~ In a (map fst r) /\ ~ In b (map fst ((a, b) :: r))).
    { split.
      - intros I. apply in_map_iff in I as ([a' b'] & EA & I). cbn in EA. subst a'. apply in_split in I as (l' & r' & ->).
        destruct (wn_assign _ WN (l ++ (a, b) :: l') a b' r') as [NA' _]; [rewrite E, <- app_assoc; reflexivity|].
        apply NA'. rewrite map_app, !in_app_iff. cbn. auto.
      - intros I. apply in_map_iff in I as ([a' b'] & EA & I). cbn in EA. subst a'. destruct I as [[= -> ->]|I].
        + apply NA. exact IB.
        + apply in_split in I as (l' & r' & ->).
          destruct (wn_assign _ WN (l ++ (a, b) :: l') b b' r') as [NA' _]; [rewrite E, <- app_assoc; reflexivity|].
          apply NA'. rewrite map_app. rewrite app_assoc. apply in_or_app. left. exact IB. }
    assert (RA : forall l1 l2 n, ~ In n (map fst l1) -> root (l1 ++ l2) n = root l2 n).
    { clear. induction l1 as [|[p q] l1 IH]; cbn; intros l2 n H; [auto|]. destruct (String.eqb_spec n p); [subst; tauto|]. apply IH. tauto. }
    assert (ER : root_of s a = root_of s b).
    { unfold root_of. rewrite E, rev_app_distr. cbn [rev]. destruct NR as [N1 N2]. cbn in N2. rewrite <- app_assoc.
      rewrite (RA (rev r) _ a) by (rewrite map_rev, <- in_rev; exact N1). rewrite (RA (rev r) _ b) by (rewrite map_rev, <- in_rev; tauto).
      cbn. rewrite String.eqb_refl. destruct (String.eqb_spec b a); [subst; tauto|reflexivity]. }
    unfold id. rewrite ER. reflexivity.
Qed.
Section Up.
Variable x : inputs.
Variable V : nat -> Z -> bool.
Hypothesis C : consistent cu x V.
(** Values of names from values of wires. *)
Definition Un (cy : nat) (n : string) : bool :=
  let k := id n in if (0 <=? k) && (k <? np + ng + ne) then initial_value cu x k else operand (V cy) k.
Lemma id_declared m k : In (m, k) ids -> id m = k.
Proof.
  intros H. unfold id. rewrite root_of_declared by (rewrite <- ids_names; apply (in_map fst) in H; exact H).
  apply (get_iff _ _ _ ids_nodup) in H. rewrite H. reflexivity.
Qed.
Lemma port_from (F : string -> bool) name n f w : (forall m i, (i < n)%nat -> In (m, w + Z.of_nat i) (arr_ids name n w) -> F m = f i) -> port_value F name n f.
Proof.
  intros H. split.
  - intros i L. apply H; [exact L|]. apply arr_elem. exact L.
  - intros ->. apply H; [lia|]. rewrite Z.add_0_r. left. reflexivity.
Qed.
Lemma Un_wire cy n : id n < 0 \/ np + ng + ne <= id n -> Un cy n = operand (V cy) (id n).
Proof. intros H. unfold Un. destruct (Z.leb_spec 0 (id n)); destruct (Z.ltb_spec (id n) (np + ng + ne)); auto; lia. Qed.
Lemma Un_init cy n : 0 <= id n < np + ng + ne -> Un cy n = initial_value cu x (id n).
Proof. intros H. unfold Un. destruct (Z.leb_spec 0 (id n)); destruct (Z.ltb_spec (id n) (np + ng + ne)); auto; lia. Qed.
Lemma Un_input cy m i : (i < s_p_input s + s_g_input s + s_e_input s)%nat -> In (m, np + ng + ne + Z.of_nat i) ids -> Un cy m = input_value cu x cy i.
Proof.
  intros L H. pose proof (id_declared _ _ H) as E. rewrite Un_wire by lia. rewrite E. unfold operand.
  destruct (Z.eqb_spec (np + ng + ne + Z.of_nat i) (-3)); [lia|]. destruct (Z.ltb_spec (np + ng + ne + Z.of_nat i) 0); [lia|].
  rewrite <- (cons_input _ _ _ C cy i) by exact L. f_equal. unfold first_input. cbn. lia.
Qed.
Lemma Un_ini cy m k : In (m, k) init_ids -> Un cy m = initial_value cu x k.
Proof.
  intros H. pose proof (init_range _ _ H). assert (E : id m = k) by (apply id_declared; unfold ids; apply in_or_app; auto).
  rewrite Un_init by lia. rewrite E. reflexivity.
Qed.
Lemma id_root n : id n = id (root_of s n) \/ ~ In (root_of s n) (declared s).
Proof.
  destruct (get ids (root_of s n)) as [k|] eqn:E.
  - left. apply get_in in E. unfold id at 1. rewrite (proj2 (get_iff _ _ _ ids_nodup) E). symmetry. apply id_declared. exact E.
  - right. rewrite <- ids_names. apply get_none. exact E.
Qed.
Theorem num_to_net : net_consistent s x Un.
Proof.
  pose proof fdff_ge as FD. split.
  - intros cy. assert (K : forall m k, In (m, k) const_ids -> Un cy m = operand (V cy) k).
    { intros m k H. assert (E : id m = k) by (apply id_declared; unfold ids; rewrite !in_app_iff; auto). pose proof (const_range _ _ H).
      rewrite Un_wire by lia. rewrite E. reflexivity. }
    rewrite (K ""%string (-1)), (K "1'b0"%string (-2)), (K "1'b1"%string (-3)) by (cbn; auto). auto.
  - assert (K : forall m k, In (m, k) init_ids -> Un 0 m = initial_value cu x k) by (intros; apply Un_ini; auto).
    unfold initial_value in K. cbn [p_init_size g_init_size e_init_size unsorted circuit_with numbered rc_p_init rc_g_init rc_e_init] in K.
    split; [|split]; eapply port_from; intros m i L H; (rewrite (K m _ ltac:(unfold init_ids; rewrite !in_app_iff; eauto)));
      repeat match goal with |- context [if ?c then _ else _] => destruct c eqn:?Q; try lia end; f_equal; lia.
  - intros cy. assert (K : forall m i, (i < s_p_input s + s_g_input s + s_e_input s)%nat -> In (m, np + ng + ne + Z.of_nat i) ids -> Un cy m = input_value cu x cy i) by (intros; apply Un_input; auto).
    unfold input_value in K. cbn [p_input_size g_input_size e_input_size unsorted circuit_with numbered rc_p_input rc_g_input rc_e_input] in K.
    split; [|split].
    + apply (port_from _ _ _ _ (np + ng + ne)). intros m i L H. rewrite (K m i); [|lia|unfold ids, input_ids; rewrite !in_app_iff; auto].
      destruct (Nat.ltb_spec i (s_p_input s)); [reflexivity|lia].
    + apply (port_from _ _ _ _ (np + ng + ne + mp)). intros m i L H. rewrite (K m (s_p_input s + i)%nat); [|lia|].
      2:{ rewrite Nat2Z.inj_add, Z.add_assoc. unfold ids, input_ids; rewrite !in_app_iff; auto. }
      destruct (Nat.ltb_spec (s_p_input s + i) (s_p_input s)); [lia|]. destruct (Nat.ltb_spec (s_p_input s + i) (s_p_input s + s_g_input s)); [|lia]. f_equal. lia.
    + apply (port_from _ _ _ _ (np + ng + ne + mp + mg)). intros m i L H. rewrite (K m (s_p_input s + s_g_input s + i)%nat); [|lia|].
      2:{ rewrite !Nat2Z.inj_add, !Z.add_assoc. unfold ids, input_ids; rewrite !in_app_iff; auto. }
      destruct (Nat.ltb_spec (s_p_input s + s_g_input s + i) (s_p_input s)); [lia|]. destruct (Nat.ltb_spec (s_p_input s + s_g_input s + i) (s_p_input s + s_g_input s)); [lia|]. f_equal. lia.
  - intros d H. apply In_nth_error in H as [i H]. pose proof (id_declared _ (fdff + Z.of_nat i) ltac:(unfold ids; rewrite !in_app_iff; pose proof (dff_id_in _ _ H) as Q; apply in_app_or in Q; right; right; left; exact Q)) as E.
    rewrite Un_wire by lia. rewrite E. unfold operand. destruct (Z.eqb_spec (fdff + Z.of_nat i) (-3)); [lia|]. destruct (Z.ltb_spec (fdff + Z.of_nat i) 0); [lia|].
    rewrite <- cu_first_dff. rewrite (cons_dff0 _ _ _ C i (id (gs_in1 d))).
    2:{ cbn. rewrite !nth_error_map, H. reflexivity. }
    2:{ cbn. rewrite !map_length. eapply nth_error_lt; eauto. }
    destruct (wn_dff _ WN d (nth_error_In _ _ H)) as [_ R]. apply in_app_or in R as [R|R].
    + rewrite Un_init by (apply id_init; exact R). reflexivity.
    + pose proof (id_const _ R). rewrite Un_wire by lia. unfold initial_value, operand. destruct (id (gs_in1 d) =? -3); [auto|]. destruct (Z.ltb_spec (id (gs_in1 d)) 0); [auto|lia].
  - intros cy d H. apply In_nth_error in H as [i H]. pose proof (id_declared _ (fdff + Z.of_nat i) ltac:(unfold ids; rewrite !in_app_iff; pose proof (dff_id_in _ _ H) as Q; apply in_app_or in Q; right; right; left; exact Q)) as E.
    rewrite Un_wire by lia. rewrite E. unfold operand at 1. destruct (Z.eqb_spec (fdff + Z.of_nat i) (-3)); [lia|]. destruct (Z.ltb_spec (fdff + Z.of_nat i) 0); [lia|].
    rewrite <- cu_first_dff. rewrite (cons_dffS _ _ _ C cy i (id (gs_in0 d))).
    2:{ cbn. rewrite !nth_error_map, H. reflexivity. }
    destruct (wn_dff _ WN d (nth_error_In _ _ H)) as [R _]. apply wire_ref_id in R. destruct R as [_ R]. cbn [rc_p_init rc_g_init rc_e_init numbered] in R.
    rewrite Un_wire by lia. reflexivity.
  - intros cy g f H HT. apply In_nth_error in H as [i H].
    pose proof (id_declared _ (fdff + nd + Z.of_nat i) ltac:(unfold ids; rewrite !in_app_iff; right; right; left; right; apply cell_nth; exact H)) as E.
    rewrite (Un_wire cy (gs_out g)) by lia. rewrite E. unfold operand at 1. destruct (Z.eqb_spec (fdff + nd + Z.of_nat i) (-3)); [lia|]. destruct (Z.ltb_spec (fdff + nd + Z.of_nat i) 0); [lia|].
    rewrite <- numbered_b. rewrite <- (first_gate_cu numbered).
    rewrite (cons_gate _ _ _ C cy i (mkGate (id (gs_in0 g)) (id (gs_in1 g)) (Z.of_nat (init_input_dff_size numbered + (0 + i))) (gs_type g)) f); [| |exact HT].
    2:{ unfold unsorted. cbn [garbledGates circuit_with gate_list numbered]. rewrite nth_error_map.
        rewrite (nth_combine_seq _ _ (num_gate g) 0) by (rewrite nth_error_map, H; reflexivity). reflexivity. }
    cbn [input0 input1]. destruct (wn_gate _ WN g (nth_error_In _ _ H)) as [_ R].
    assert (O : forall m, m = gs_in0 g \/ m = gs_in1 g -> Un cy m = operand (V cy) (id m)).
    { intros m Q. apply R in Q. apply wire_ref_id in Q. destruct Q as [_ Q]. cbn [rc_p_init rc_g_init rc_e_init numbered] in Q. apply Un_wire. lia. }
    rewrite !O by auto. reflexivity.
  - intros cy a b H. unfold Un. rewrite (id_assign a b H). reflexivity.
Qed.
End Up.
End Ids.
