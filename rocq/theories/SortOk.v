(** What SortNetlist makes of a netlist. *)
From Coq Require Import ZArith NArith List Bool Lia FinFun.
From Verif Require Import Base Gate Circuit Spec Plain Sort.
Import ListNotations.
Open Scope Z_scope.

(** The circuit whose gates are [gs], in this order. *)
Definition circuit_with (rc : ReadCircuit) (gs : list ReadGate) : GarbledCircuit :=
  mkCircuit (rc_p_init rc) (rc_g_init rc) (rc_e_init rc) (rc_p_input rc) (rc_g_input rc) (rc_e_input rc)
    (map (fun kg => mkGate (rg_in0 (snd kg)) (rg_in1 (snd kg)) (Z.of_nat (init_input_dff_size rc + fst kg)) (rg_type (snd kg)))
         (combine (seq 0 (length gs)) gs))
    (output_list rc) (map rg_in0 (dff_list rc)) (map rg_in1 (dff_list rc)) (rc_terminate_id rc).
(** The netlist as it stands: gate [i] drives wire [init_input_dff_size + i]. *)
Definition unsorted (rc : ReadCircuit) : GarbledCircuit := circuit_with rc (gate_list rc).
(** The gates in the order of the task schedule, as WriteSCD goes through them
    (scd/scd.cpp:138-158). *)
Definition scheduled (rc : ReadCircuit) : option (list ReadGate) := omap (rd (gate_list rc)) (task_schedule rc).

(** Netlists the translator is meant for. *)
Definition wire_ref (rc : ReadCircuit) (w : Z) : Prop :=
  w < Z.of_nat (init_input_dff_size rc + length (gate_list rc)) /\
  (w < 0 \/ Z.of_nat (rc_p_init rc + rc_g_init rc + rc_e_init rc) <= w).
Record translatable (rc : ReadCircuit) : Prop := {
  tr_some : (0 < init_input_dff_size rc)%nat;
  tr_gate : forall g, In g (gate_list rc) -> (exists f, bool_fun (rg_type g) = Some f) /\ wire_ref rc (rg_in0 g) /\ wire_ref rc (rg_in1 g);
  tr_dff : forall d, In d (dff_list rc) -> wire_ref rc (rg_in0 d) /\
     rg_in1 d < Z.of_nat (init_input_dff_size rc + length (gate_list rc)) /\
     0 <= rg_out d < Z.of_nat (init_input_dff_size rc + length (gate_list rc));
  tr_out : forall w, In w (output_list rc) -> wire_ref rc w /\ 0 <= w;
  tr_term : rc_terminate_id rc = 0 \/ wire_ref rc (rc_terminate_id rc) /\ 0 <= rc_terminate_id rc;
  tr_loop : ~ has_loop rc }.

Lemma translatable_range rc : translatable rc -> in_range rc.
Proof. intros T g G. destruct (tr_gate _ T g G) as (_ & [A _] & [B _]). cbv zeta. auto. Qed.

Lemma omap_nth {A B} (f : A -> option B) : forall l r, omap f l = Some r ->
  length r = length l /\ forall i x, nth_error l i = Some x -> exists y, nth_error r i = Some y /\ f x = Some y.
Proof.
  induction l as [|a l IH]; cbn; intros r E.
  - injection E as <-. split; auto. intros [|i] x H; discriminate.
  - apply obind_some in E as (y & E1 & E). apply obind_some in E as (r' & E2 & E). injection E as <-.
    destruct (IH _ E2) as [L H]. cbn. split; [lia|]. intros [|i] x; cbn; [intros [= <-]; eauto|apply H].
Qed.
Lemma omap_ok {A B} (f : A -> option B) l : (forall x, In x l -> exists y, f x = Some y) -> exists r, omap f l = Some r.
Proof.
  induction l as [|a l IH]; cbn; intros H; [eauto|].
  destruct (H a) as [y ->]; auto. destruct IH as [r ->]; eauto. cbn. eauto.
Qed.
Lemma omap_map {A B} (f : A -> option B) (g : A -> B) l : (forall x, In x l -> f x = Some (g x)) -> omap f l = Some (map g l).
Proof. induction l as [|a l IH]; cbn; intros H; [auto|]. rewrite (H a), IH by auto. reflexivity. Qed.

Lemma nth_combine_seq {A} (l : list A) i x k : nth_error l i = Some x -> nth_error (combine (seq k (length l)) l) i = Some ((k + i)%nat, x).
Proof.
  revert i k. induction l as [|a l IH]; intros [|i] k H; cbn in *; try discriminate.
  - injection H as ->. do 2 f_equal. lia.
  - rewrite (IH _ (S k) H). do 2 f_equal. lia.
Qed.
Lemma combine_seq_length {A} (l : list A) k : length (combine (seq k (length l)) l) = length l.
Proof. rewrite combine_length, seq_length. lia. Qed.
Lemma nth_combine_seq_inv {A} (l : list A) i p k : nth_error (combine (seq k (length l)) l) i = Some p ->
  fst p = (k + i)%nat /\ nth_error l i = Some (snd p).
Proof.
  intros H. assert (L : (i < length l)%nat) by (rewrite <- (combine_seq_length l k); apply nth_error_Some; congruence).
  destruct (nth_error l i) as [x|] eqn:E; [|apply nth_error_None in E; lia].
  rewrite (nth_combine_seq _ _ _ _ E) in H. injection H as <-. auto.
Qed.

(** ** Inverting a permutation *)
Section Invert.
Variable l : list Z.
Hypothesis ND : NoDup l.
Hypothesis M : forall w, In w l <-> 0 <= w < Z.of_nat (length l).

Lemma invert_ok : exists inv, invert l = Some inv /\ length inv = length l /\
  forall w i, rd inv w = Some i <-> rd l i = Some w.
Proof.
  unfold invert.
  destruct (for_inv (fun k inv => length inv = length l /\ forall i w, 0 <= i < Z.of_nat k -> rd l i = Some w -> rd inv w = Some i)
    (length l) (invert_body l) (repeat 0 (length l))) as (inv & E & L & H).
  - split; [apply repeat_length|]. intros; lia.
  - intros i inv Hi [L H]. unfold invert_body.
    destruct (proj2 (rd_some_iff l (Z.of_nat i))) as [w Ew]; [lia|]. rewrite Ew. cbn [obind].
    assert (W : 0 <= w < Z.of_nat (length l)). { apply M. rewrite rd_nat in Ew. eapply nth_error_In; eauto. }
    destruct (wr_ok inv w (Z.of_nat i)) as [inv' Wr]; [rewrite L; lia|]. exists inv'. split; [exact Wr|].
    split; [rewrite (wr_length _ _ _ _ Wr); exact L|]. intros j v J Ev. rewrite (rd_wr _ _ _ _ v Wr).
    destruct (Z.eqb_spec v w) as [->|NE].
    + f_equal. destruct (Z.eq_dec j (Z.of_nat i)) as [->|NJ]; [reflexivity|]. exfalso.
      rewrite rd_nat in Ew. replace j with (Z.of_nat (Z.to_nat j)) in Ev by lia. rewrite rd_nat in Ev.
      assert (Z.to_nat j = i); [|lia]. eapply NoDup_nth_error; [exact ND| |congruence]. apply nth_error_Some. congruence.
    + apply H; [|exact Ev]. destruct (Z.eq_dec j (Z.of_nat i)) as [->|NJ]; [congruence|lia].
  - exists inv. split; [exact E|]. split; [exact L|].
    assert (F : forall w i, rd l i = Some w -> rd inv w = Some i).
    { intros w i Ew. apply H; [|exact Ew]. apply rd_bound in Ew. lia. }
    intros w i. split; [|apply F].
    intros Ei. assert (W : 0 <= w < Z.of_nat (length l)) by (apply rd_bound in Ei; lia).
    apply M in W. apply In_nth_error in W as [j Ej]. rewrite <- rd_nat in Ej. pose proof (F _ _ Ej). congruence.
Qed.
End Invert.

Section SortOk.
Variable rc : ReadCircuit.
Hypothesis TR : translatable rc.
Notation b := (init_input_dff_size rc).
Notation n := (b + length (gate_list rc))%nat.

(** The renumbering: a bijection of the wires that keeps inputs and registers and
    under which every gate comes after what it reads. *)
Record renumbering (p q : Z -> Z) : Prop := {
  rn_range : forall w, 0 <= w < Z.of_nat n -> 0 <= p w < Z.of_nat n /\ q (p w) = w;
  rn_range' : forall w, 0 <= w < Z.of_nat n -> 0 <= q w < Z.of_nat n /\ p (q w) = w;
  rn_neg : forall w, w < 0 -> p w = w /\ q w = w;
  rn_low : forall w, w < Z.of_nat b -> p w = w /\ q w = w;
  rn_high : forall w, Z.of_nat b <= w < Z.of_nat n -> Z.of_nat b <= p w < Z.of_nat n /\ Z.of_nat b <= q w < Z.of_nat n;
  rn_topo : forall v w, reads rc v w -> p w < p v }.

Definition sorted_gate (p : Z -> Z) (ig : nat * ReadGate) : ReadGate :=
  mkRG (p (rg_in0 (snd ig))) (p (rg_in1 (snd ig))) (p (Z.of_nat b + Z.of_nat (fst ig))) (rg_type (snd ig)).
Definition sorted_circuit (p q : Z -> Z) : ReadCircuit :=
  mkRC (rc_p_init rc) (rc_g_init rc) (rc_e_init rc) (rc_p_input rc) (rc_g_input rc) (rc_e_input rc)
    (map p (output_list rc))
    (map (sorted_gate p) (combine (seq 0 (length (gate_list rc))) (gate_list rc)))
    (map (fun d => mkRG (p (rg_in0 d)) (p (rg_in1 d)) (p (rg_out d)) (rg_type d)) (dff_list rc))
    (map (fun k => q (Z.of_nat b + Z.of_nat k) - Z.of_nat b) (seq 0 (length (gate_list rc))))
    (p (rc_terminate_id rc)).

(** A sorting of the wires is the list of a renumbering. *)
Lemma sorting_renumbering l : sorting rc l -> exists p q iv, renumbering p q /\ invert l = Some iv /\
  (forall w, w < Z.of_nat n -> renumber iv w = Some (p w)) /\ (forall w, 0 <= w < Z.of_nat n -> rd iv w = Some (p w)) /\
  skipn b l = map (fun k => q (Z.of_nat b + Z.of_nat k)) (seq 0 (length (gate_list rc))).
Proof.
  intros H. pose proof (sorting_length _ _ H) as LEN. destruct H as (ND & M & RE & ext & EX).
  destruct (invert_ok l ND) as (iv & EI & LI & IV); [intros w; rewrite LEN; apply M|].
  set (p := fun w => if w <? 0 then w else match rd iv w with Some i => i | None => w end).
  set (q := fun w => if w <? 0 then w else match rd l w with Some i => i | None => w end).
  assert (RI : forall w, 0 <= w < Z.of_nat n -> exists i, rd iv w = Some i /\ p w = i /\ rd l i = Some w /\ q i = w /\ 0 <= i < Z.of_nat n).
  { intros w W. destruct (proj2 (rd_some_iff iv w)) as [i Ei]; [lia|]. exists i. split; [exact Ei|].
    pose proof (proj1 (IV _ _) Ei) as El. pose proof (rd_bound _ _ _ El) as Bi. rewrite LEN in Bi.
    unfold p, q. destruct (Z.ltb_spec w 0); [lia|]. destruct (Z.ltb_spec i 0); [lia|]. rewrite Ei, El. auto. }
  assert (RL : forall i, 0 <= i < Z.of_nat n -> exists w, rd l i = Some w /\ q i = w /\ p w = i /\ 0 <= w < Z.of_nat n).
  { intros i W. destruct (proj2 (rd_some_iff l i)) as [w Ew]; [lia|]. exists w. split; [exact Ew|].
    pose proof (proj2 (IV _ _) Ew) as Ei. pose proof (rd_bound _ _ _ Ei) as Bi. rewrite LI, LEN in Bi.
    unfold p, q. destruct (Z.ltb_spec w 0); [lia|]. destruct (Z.ltb_spec i 0); [lia|]. rewrite Ei, Ew. auto. }
  assert (LOW : forall i, 0 <= i < Z.of_nat b -> rd l i = Some i).
  { intros i Hi. rewrite EX, rd_app_l by (rewrite map_length, seq_length; lia).
    replace i with (Z.of_nat (Z.to_nat i)) by lia. rewrite rd_nat. rewrite nth_error_map, (nth_error_nth' _ 0%nat) by (rewrite seq_length; lia).
    rewrite seq_nth by lia. reflexivity. }
  assert (RN : renumbering p q).
  { split.
    - intros w W. destruct (RI w W) as (i & _ & -> & _ & -> & B). auto.
    - intros w W. destruct (RL w W) as (i & _ & -> & -> & B). auto.
    - intros w W. unfold p, q. destruct (Z.ltb_spec w 0); [auto|lia].
    - intros w W. destruct (Z.lt_ge_cases w 0) as [N|N]; [unfold p, q; destruct (Z.ltb_spec w 0); [auto|lia]|].
      pose proof (LOW w ltac:(lia)) as E. pose proof (proj2 (IV _ _) E) as E'. unfold p, q.
      destruct (Z.ltb_spec w 0); [lia|]. rewrite E, E'. auto.
    - intros w W. destruct (RI w ltac:(lia)) as (i & Ei & -> & El & Q & B). destruct (RL w ltac:(lia)) as (j & Ej & -> & Pj & Bj).
      split; split; try lia.
      + destruct (Z.lt_ge_cases i (Z.of_nat b)); auto. rewrite LOW in El by lia. injection El as ->. lia.
      + destruct (Z.lt_ge_cases j (Z.of_nat b)); auto. pose proof (LOW j ltac:(lia)) as EJ.
        pose proof (proj2 (IV _ _) EJ) as F. pose proof (proj2 (IV _ _) Ej) as F'. rewrite F in F'. injection F'. lia.
    - intros v w R. assert (V : 0 <= v < Z.of_nat n).
      { destruct R as (i & g & E & -> & _). apply nth_error_lt in E. lia. }
      destruct (RI v V) as (i & _ & -> & El & _ & B). apply rd_nth in El. apply nth_error_split in El as (l1 & l2 & E & L1).
      pose proof (RE _ _ _ E _ R) as I. apply In_nth_error in I as [j Ej]. assert (J : (j < length l1)%nat) by (apply nth_error_Some; congruence).
      assert (Ew : rd l (Z.of_nat j) = Some w) by (rewrite rd_nat, E, nth_error_app1 by lia; exact Ej).
      apply IV in Ew. unfold p. destruct (Z.ltb_spec w 0); [destruct R as (? & ? & ? & ? & ? & ?); lia|]. rewrite Ew. lia. }
  assert (RNB : forall w, w < Z.of_nat n -> renumber iv w = Some (p w)).
  { intros w W. unfold renumber. destruct (Z.ltb_spec 0 w).
    - destruct (RI w ltac:(lia)) as (i & -> & -> & _). reflexivity.
    - f_equal. symmetry. apply (rn_low _ _ RN). pose proof (tr_some _ TR). lia. }
  assert (RDI : forall w, 0 <= w < Z.of_nat n -> rd iv w = Some (p w)).
  { intros w W. destruct (RI w W) as (i & -> & -> & _). reflexivity. }
  exists p, q, iv. split; [exact RN|]. split; [exact EI|]. split; [exact RNB|]. split; [exact RDI|].
  apply list_ext_rd. intros i. destruct (Z.lt_ge_cases i 0) as [N|N].
    - unfold rd. destruct (Z.ltb_spec i 0); [reflexivity|lia].
    - replace i with (Z.of_nat (Z.to_nat i)) by lia. rewrite !rd_nat. set (k := Z.to_nat i).
      destruct (le_lt_dec (length (gate_list rc)) k) as [G|G].
      + rewrite (proj2 (nth_error_None _ _)), (proj2 (nth_error_None _ _)); [reflexivity| |].
        * rewrite map_length, seq_length. lia.
        * rewrite skipn_length. lia.
      + rewrite nth_error_map, (nth_error_nth' _ 0%nat), seq_nth by (rewrite ?seq_length; lia). cbn [option_map].
        assert (ES : nth_error (skipn b l) k = nth_error l (b + k)).
        { clear. revert l. induction b as [|m IH]; intros l; [reflexivity|]. destruct l; [destruct k; reflexivity|]. apply IH. }
        rewrite ES, <- rd_nat. destruct (RL (Z.of_nat (b + k)) ltac:(lia)) as (w & -> & Q & _). f_equal. rewrite <- Q. f_equal. lia.
Qed.

Lemma sort_netlist_is log : exists p q, renumbering p q /\ SortNetlist log rc = Some (Some (sorted_circuit p q)).
Proof.
  pose proof (translatable_range _ TR) as RG.
  destruct (topological_sort rc RG) as ([l|] & ET & SO); [|destruct (tr_loop _ TR SO)].
  destruct (sorting_renumbering l SO) as (p & q & iv & RN & EI & RNB & RDI & EQ). exists p, q. split; [exact RN|].
  unfold SortNetlist. rewrite ET. cbn [obind]. rewrite EI. cbn [obind].
  rewrite (omap_map _ (fun d => mkRG (p (rg_in0 d)) (p (rg_in1 d)) (p (rg_out d)) (rg_type d))).
  2:{ intros d Hd. destruct (tr_dff _ TR d Hd) as ([A _] & B & C). unfold sort_dff. rewrite (RNB _ A). cbn [obind]. rewrite (RNB _ B). cbn [obind]. rewrite RDI by lia. reflexivity. }
  cbn [obind].
  rewrite (omap_map _ (sorted_gate p)).
  2:{ intros [i g] Hg. pose proof (in_combine_r _ _ _ _ Hg) as G. pose proof (in_combine_l _ _ _ _ Hg) as I. apply in_seq in I.
      destruct (tr_gate _ TR g G) as (_ & [A _] & [B _]). unfold sort_gate. rewrite RDI by lia. cbn [obind].
      rewrite (RNB _ A). cbn [obind]. rewrite (RNB _ B). reflexivity. }
  cbn [obind].
  replace (gate_checks (gate_list rc) (map (sorted_gate p) (combine (seq 0 (length (gate_list rc))) (gate_list rc)))) with true.
  2:{ symmetry. unfold gate_checks. apply forallb_forall. intros [g g'] H.
      apply In_nth_error in H as [i Hi].
      assert (Li : (i < length (gate_list rc))%nat).
      { apply nth_error_lt in Hi. rewrite combine_length in Hi. lia. }
      destruct (nth_error (gate_list rc) i) as [g0|] eqn:Eg; [|apply nth_error_None in Eg; lia].
      assert (nth_error (map (sorted_gate p) (combine (seq 0 (length (gate_list rc))) (gate_list rc))) i = Some (sorted_gate p (i, g0))) as Eg'.
      { rewrite nth_error_map, (nth_combine_seq _ _ _ 0 Eg). reflexivity. }
      assert (NC : forall (A B : Type) (la : list A) (lb : list B) i a c, nth_error la i = Some a -> nth_error lb i = Some c ->
                   nth_error (combine la lb) i = Some (a, c)).
      { clear. induction la as [|x la IH]; intros [|y lb] [|i] a c H1 H2; cbn in *; try discriminate; [congruence|auto]. }
      rewrite (NC _ _ _ _ _ _ _ Eg Eg') in Hi. injection Hi as <- <-. cbn [fst snd sorted_gate rg_in0 rg_in1 rg_out].
      assert (RD : forall w, 0 < w -> w = rg_in0 g0 \/ w = rg_in1 g0 -> p w < p (Z.of_nat b + Z.of_nat i)).
      { intros w W O. apply (rn_topo _ _ RN). exists i, g0. repeat split; auto; lia. }
      apply andb_true_iff. split.
      - destruct (Z.ltb_spec 0 (rg_in0 g0)); [|reflexivity]. cbn. apply Z.ltb_lt. auto.
      - destruct (Z.ltb_spec 0 (rg_in1 g0)); [|reflexivity]. cbn. apply Z.ltb_lt. auto. }
  rewrite andb_false_r. rewrite (omap_map _ p).
  2:{ intros w Hw. destruct (tr_out _ TR w Hw) as [[A _] B]. apply RDI. lia. }
  cbn [obind].
  replace (if rc_terminate_id rc =? 0 then Some 0 else rd iv (rc_terminate_id rc)) with (Some (p (rc_terminate_id rc))).
  2:{ destruct (Z.eqb_spec (rc_terminate_id rc) 0) as [->|NZ].
      - f_equal. apply (rn_low _ _ RN). pose proof (tr_some _ TR). lia.
      - destruct (tr_term _ TR) as [?|[[A _] B]]; [congruence|]. symmetry. apply RDI. lia. }
  cbn [obind]. do 2 f_equal. unfold sorted_circuit. f_equal.
  rewrite EQ, map_map. reflexivity.
Qed.

(** ** Meaning *)
Section Meaning.
Variables p q : Z -> Z.
Hypothesis RN : renumbering p q.
Notation rc' := (sorted_circuit p q).
Definition sorted_gates : list ReadGate :=
  map (fun k => match nth_error (gate_list rc) (Z.to_nat (q (Z.of_nat b + Z.of_nat k) - Z.of_nat b)) with
                | Some g => mkRG (p (rg_in0 g)) (p (rg_in1 g)) (Z.of_nat b + Z.of_nat k) (rg_type g)
                | None => mkRG 0 0 0 0
                end) (seq 0 (length (gate_list rc))).

Lemma sched_index k : (k < length (gate_list rc))%nat -> exists i g,
  q (Z.of_nat b + Z.of_nat k) = Z.of_nat b + Z.of_nat i /\ nth_error (gate_list rc) i = Some g /\
  p (Z.of_nat b + Z.of_nat i) = Z.of_nat b + Z.of_nat k.
Proof.
  intros K. destruct (rn_high _ _ RN (Z.of_nat b + Z.of_nat k)) as [_ Q]; [lia|].
  destruct (rn_range' _ _ RN (Z.of_nat b + Z.of_nat k)) as [_ P]; [lia|].
  exists (Z.to_nat (q (Z.of_nat b + Z.of_nat k) - Z.of_nat b)).
  destruct (nth_error (gate_list rc) (Z.to_nat (q (Z.of_nat b + Z.of_nat k) - Z.of_nat b))) as [g|] eqn:E.
  2:{ apply nth_error_None in E. lia. }
  exists g. split; [lia|]. split; auto.
  replace (Z.of_nat b + Z.of_nat (Z.to_nat (q (Z.of_nat b + Z.of_nat k) - Z.of_nat b))) with (q (Z.of_nat b + Z.of_nat k)) by lia. exact P.
Qed.

Lemma scheduled_is : scheduled rc' = Some sorted_gates.
Proof.
  unfold scheduled, sorted_gates. cbn [gate_list task_schedule sorted_circuit].
  assert (H : forall ks, (forall k, In k ks -> (k < length (gate_list rc))%nat) ->
    omap (rd (map (sorted_gate p) (combine (seq 0 (length (gate_list rc))) (gate_list rc))))
      (map (fun k => q (Z.of_nat b + Z.of_nat k) - Z.of_nat b) ks) =
    Some (map (fun k => match nth_error (gate_list rc) (Z.to_nat (q (Z.of_nat b + Z.of_nat k) - Z.of_nat b)) with
                | Some g => mkRG (p (rg_in0 g)) (p (rg_in1 g)) (Z.of_nat b + Z.of_nat k) (rg_type g)
                | None => mkRG 0 0 0 0
                end) ks)).
  { induction ks as [|k ks IH]; intros H; cbn [map omap]; [reflexivity|].
    rewrite IH by (intros; apply H; cbn; auto).
    destruct (sched_index k) as (i & g & EQ & EG & EP); [apply H; cbn; auto|].
    rewrite EQ. replace (Z.of_nat b + Z.of_nat i - Z.of_nat b) with (Z.of_nat i) by lia.
    rewrite rd_nat, nth_error_map, (nth_combine_seq _ _ _ 0 EG), Nat2Z.id, EG. cbn [option_map obind].
    unfold sorted_gate. cbn [fst snd]. rewrite Nat.add_0_l, EP. reflexivity. }
  apply H. intros k K. apply in_seq in K. lia.
Qed.

Notation cs := (circuit_with rc' sorted_gates).
Notation cu := (unsorted rc).
Lemma sorted_gates_length : length sorted_gates = length (gate_list rc).
Proof. unfold sorted_gates. rewrite map_length, seq_length. reflexivity. Qed.
Lemma init_input_dff_sorted : init_input_dff_size rc' = b.
Proof. unfold init_input_dff_size, get_init_input_size. cbn. rewrite map_length. reflexivity. Qed.
Lemma gates_length r gs : length (garbledGates (circuit_with r gs)) = length gs.
Proof. cbn. rewrite map_length. apply combine_seq_length. Qed.
Lemma cs_gate k g : nth_error (garbledGates cs) k = Some g -> exists i g0,
  nth_error (gate_list rc) i = Some g0 /\ q (Z.of_nat b + Z.of_nat k) = Z.of_nat b + Z.of_nat i /\
  p (Z.of_nat b + Z.of_nat i) = Z.of_nat b + Z.of_nat k /\
  g = mkGate (p (rg_in0 g0)) (p (rg_in1 g0)) (Z.of_nat b + Z.of_nat k) (rg_type g0).
Proof.
  intros H. assert (K : (k < length (gate_list rc))%nat).
  { apply nth_error_lt in H. rewrite gates_length, sorted_gates_length in H. exact H. }
  destruct (sched_index k K) as (i & g0 & EQ & EG & EP). exists i, g0. repeat split; auto.
  cbn [garbledGates circuit_with] in H. rewrite nth_error_map in H.
  assert (E : nth_error sorted_gates k = Some (mkRG (p (rg_in0 g0)) (p (rg_in1 g0)) (Z.of_nat b + Z.of_nat k) (rg_type g0))).
  { unfold sorted_gates. rewrite nth_error_map, (nth_error_nth' _ 0%nat), seq_nth by (rewrite ?seq_length; auto). cbn [option_map].
    rewrite Nat.add_0_l, EQ. replace (Z.to_nat (Z.of_nat b + Z.of_nat i - Z.of_nat b)) with i by lia. rewrite EG. reflexivity. }
  rewrite (nth_combine_seq _ _ _ 0 E) in H. cbn [option_map fst snd rg_in0 rg_in1 rg_type] in H. injection H as <-. f_equal. rewrite init_input_dff_sorted. lia.
Qed.
Lemma cs_gate_ex i g0 : nth_error (gate_list rc) i = Some g0 -> exists k,
  p (Z.of_nat b + Z.of_nat i) = Z.of_nat b + Z.of_nat k /\
  nth_error (garbledGates cs) k = Some (mkGate (p (rg_in0 g0)) (p (rg_in1 g0)) (Z.of_nat b + Z.of_nat k) (rg_type g0)).
Proof.
  intros H. pose proof (nth_error_lt _ _ _ H) as L.
  destruct (rn_high _ _ RN (Z.of_nat b + Z.of_nat i)) as [P _]; [lia|].
  destruct (rn_range _ _ RN (Z.of_nat b + Z.of_nat i)) as [_ Q]; [lia|].
  set (k := Z.to_nat (p (Z.of_nat b + Z.of_nat i) - Z.of_nat b)).
  assert (EK : p (Z.of_nat b + Z.of_nat i) = Z.of_nat b + Z.of_nat k) by lia.
  exists k. split; [exact EK|].
  destruct (nth_error (garbledGates cs) k) as [g|] eqn:E.
  2:{ apply nth_error_None in E. rewrite gates_length, sorted_gates_length in E. lia. }
  destruct (cs_gate _ _ E) as (i' & g0' & EG & EQ & _ & ->). rewrite <- EK, Q in EQ.
  assert (i' = i) by lia. subst i'. congruence.
Qed.
Lemma cu_gate i g : nth_error (garbledGates cu) i = Some g -> exists g0,
  nth_error (gate_list rc) i = Some g0 /\ g = mkGate (rg_in0 g0) (rg_in1 g0) (Z.of_nat b + Z.of_nat i) (rg_type g0).
Proof.
  unfold unsorted. cbn [garbledGates circuit_with]. rewrite nth_error_map. intros H.
  destruct (nth_error (combine _ _) i) as [pr|] eqn:E in H; [|discriminate]. apply nth_combine_seq_inv in E as [E1 E2].
  exists (snd pr). split; auto. cbn in H. injection H as <-. rewrite E1. f_equal. lia.
Qed.
Lemma first_gate_cs : first_gate cs = Z.of_nat b.
Proof. unfold first_gate, first_dff, first_input, init_input_dff_size, get_init_input_size. cbn. rewrite !map_length. lia. Qed.
Lemma first_gate_cu : first_gate cu = Z.of_nat b.
Proof. unfold first_gate, first_dff, first_input, init_input_dff_size, get_init_input_size. cbn. rewrite !map_length. lia. Qed.
Lemma last_wire_cs : last_wire cs = Z.of_nat n.
Proof. unfold last_wire. rewrite first_gate_cs, gates_length, sorted_gates_length. lia. Qed.
Lemma first_input_b : first_input cu <= Z.of_nat b.
Proof. unfold first_input, init_input_dff_size, get_init_input_size. cbn. lia. Qed.

Lemma p_ref w : wire_ref rc w -> ref_ok cs (Z.of_nat n) (p w) /\ (0 <= w -> 0 <= p w).
Proof.
  intros [A B]. unfold ref_ok. change (first_input cs) with (first_input cu). pose proof first_input_b as FB.
  unfold first_input in *. cbn [p_init_size g_init_size e_init_size unsorted circuit_with] in *.
  destruct (Z.lt_ge_cases w (Z.of_nat b)) as [L|L].
  - destruct (rn_low _ _ RN w L) as [-> _]. auto.
  - destruct (rn_high _ _ RN w) as [P _]; lia.
Qed.

Lemma sorted_well_formed : well_formed cs.
Proof.
  pose proof first_input_b as FB. split.
  - intros k g H. destruct (cs_gate _ _ H) as (i & g0 & EG & EQ & EP & ->). cbn [output type input0 input1].
    rewrite first_gate_cs. split; [reflexivity|].
    destruct (tr_gate _ TR g0 (nth_error_In _ _ EG)) as (T & R0 & R1). split; [exact T|].
    assert (RO : forall w, wire_ref rc w -> w = rg_in0 g0 \/ w = rg_in1 g0 -> ref_ok cs (Z.of_nat b + Z.of_nat k) (p w)).
    { intros w R O. destruct (p_ref w R) as [[_ X] P]. split; [|exact X].
      destruct (Z.lt_ge_cases w 0) as [N|N]; [destruct (rn_neg _ _ RN w N); lia|].
      rewrite <- EP. apply (rn_topo _ _ RN). exists i, g0. repeat split; auto. }
    split; apply RO; auto.
  - intros i w H. cbn [D circuit_with dff_list sorted_circuit] in H. rewrite !nth_error_map in H.
    destruct (nth_error (dff_list rc) i) as [d|] eqn:E; [|discriminate]. cbn in H. injection H as <-.
    destruct (tr_dff _ TR d (nth_error_In _ _ E)) as (R & _). rewrite last_wire_cs. apply p_ref. exact R.
  - cbn. rewrite !map_length. reflexivity.
  - intros i w H. cbn [outputs circuit_with output_list sorted_circuit] in H. rewrite nth_error_map in H.
    destruct (nth_error (output_list rc) i) as [o|] eqn:E; [|discriminate]. cbn in H. injection H as <-.
    destruct (tr_out _ TR o (nth_error_In _ _ E)) as (R & P). rewrite last_wire_cs. destruct (p_ref o R) as [[A B] C]. split; [|lia].
    destruct B; [specialize (C P); lia|auto].
  - cbn [terminate_id circuit_with rc_terminate_id sorted_circuit]. destruct (tr_term _ TR) as [->|[R P]].
    + left. apply (rn_low _ _ RN). pose proof (tr_some _ TR). lia.
    + right. rewrite last_wire_cs. destruct (p_ref _ R) as [[A B] C]. split; [|lia]. destruct B; [specialize (C P); lia|auto].
Qed.

Lemma operand_p (V W : Z -> bool) w : (forall u, 0 <= u < Z.of_nat n -> V (p u) = W u) -> w < Z.of_nat n ->
  operand V (p w) = operand W w.
Proof.
  intros H L. destruct (Z.lt_ge_cases w 0) as [N|N].
  - destruct (rn_neg _ _ RN w N) as [-> _]. unfold operand. destruct (w =? -3); [reflexivity|]. destruct (Z.ltb_spec w 0); [reflexivity|lia].
  - destruct (rn_range _ _ RN w) as [P _]; [lia|]. unfold operand. destruct (Z.eqb_spec w (-3)); [lia|]. destruct (Z.eqb_spec (p w) (-3)); [lia|].
    destruct (Z.ltb_spec w 0); [lia|]. destruct (Z.ltb_spec (p w) 0); [lia|]. apply H. lia.
Qed.
Lemma initial_p x w : w < Z.of_nat n -> initial_value cs x (p w) = initial_value cu x w.
Proof.
  intros L. pose proof first_input_b as FB. unfold first_input in FB. cbn [p_init_size g_init_size e_init_size unsorted circuit_with] in FB.
  destruct (Z.lt_ge_cases w (Z.of_nat b)) as [N|N].
  - destruct (rn_low _ _ RN w N) as [-> _]. reflexivity.
  - destruct (rn_high _ _ RN w) as [P _]; [lia|]. unfold initial_value. cbn [p_init_size g_init_size e_init_size unsorted circuit_with rc_p_init rc_g_init rc_e_init sorted_circuit].
    repeat match goal with |- context [if ?c then _ else _] => destruct c eqn:?C; try reflexivity; try lia end.
Qed.

Lemma to_sorted x W : consistent cu x W -> consistent cs x (fun cy w => W cy (q w)).
Proof.
  intros C. pose proof (tr_some _ TR) as SP.
  assert (LOW : forall w, w < Z.of_nat b -> q w = w) by (intros w L; apply (rn_low _ _ RN w L)).
  assert (FD : first_dff cs + Z.of_nat (length (dff_list rc)) = Z.of_nat b).
  { rewrite <- first_gate_cs. unfold first_gate. cbn. rewrite !map_length. reflexivity. }
  assert (PQ : forall (V : Z -> bool) u, 0 <= u < Z.of_nat n -> V (q (p u)) = V u).
  { intros V u U. destruct (rn_range _ _ RN u U) as [_ ->]. reflexivity. }
  split.
  - intros cy i Hi. rewrite LOW; [apply (cons_input _ _ _ C); exact Hi|].
    unfold first_input, init_input_dff_size, get_init_input_size. cbn in *. lia.
  - intros i idx HI HD. cbn [D I circuit_with dff_list sorted_circuit] in *. rewrite !map_length in HD. rewrite !nth_error_map in HI.
    destruct (nth_error (dff_list rc) i) as [d|] eqn:E; [|discriminate]. cbn in HI. injection HI as <-.
    rewrite LOW by lia. rewrite initial_p by (apply (tr_dff _ TR d (nth_error_In _ _ E))).
    apply (cons_dff0 _ _ _ C). cbn. rewrite nth_error_map, E. reflexivity. cbn. rewrite map_length. exact HD.
  - intros cy i idx HI. pose proof (nth_error_lt _ _ _ HI) as HD. cbn [D I circuit_with dff_list sorted_circuit] in *. rewrite !map_length in HD. rewrite !nth_error_map in HI.
    destruct (nth_error (dff_list rc) i) as [d|] eqn:E; [|discriminate]. cbn in HI. injection HI as <-.
    rewrite LOW by lia. rewrite (operand_p _ (W cy)) by (try apply PQ; apply (tr_dff _ TR d (nth_error_In _ _ E))).
    apply (cons_dffS _ _ _ C). cbn. rewrite nth_error_map, E. reflexivity.
  - intros cy k g f HG HT. destruct (cs_gate _ _ HG) as (i & g0 & EG & EQ & EP & ->). cbn [type input0 input1] in *.
    destruct (tr_gate _ TR g0 (nth_error_In _ _ EG)) as (_ & [R0 _] & [R1 _]).
    rewrite first_gate_cs, EQ. rewrite !(operand_p _ (W cy)) by (try apply PQ; auto).
    rewrite <- first_gate_cu.
    rewrite (cons_gate _ _ _ C cy i (mkGate (rg_in0 g0) (rg_in1 g0) (Z.of_nat (b + (0 + i))) (rg_type g0)) f); [reflexivity| |exact HT].
    unfold unsorted. cbn [garbledGates circuit_with]. rewrite nth_error_map, (nth_combine_seq _ _ _ 0 EG). reflexivity.
Qed.

Lemma to_unsorted x V : consistent cs x V -> consistent cu x (fun cy w => V cy (p w)).
Proof.
  intros C. pose proof (tr_some _ TR) as SP.
  assert (LOW : forall w, w < Z.of_nat b -> p w = w) by (intros w L; apply (rn_low _ _ RN w L)).
  assert (FD : first_dff cu + Z.of_nat (length (dff_list rc)) = Z.of_nat b).
  { rewrite <- first_gate_cu. unfold first_gate. cbn. rewrite !map_length. reflexivity. }
  split.
  - intros cy i Hi. rewrite LOW; [apply (cons_input _ _ _ C); exact Hi|].
    unfold first_input, init_input_dff_size, get_init_input_size. cbn in *. lia.
  - intros i idx HI HD. cbn [D I unsorted circuit_with] in *. rewrite !map_length in HD. rewrite !nth_error_map in HI.
    destruct (nth_error (dff_list rc) i) as [d|] eqn:E; [|discriminate]. cbn in HI. injection HI as <-.
    rewrite LOW by lia. rewrite <- initial_p by (apply (tr_dff _ TR d (nth_error_In _ _ E))).
    apply (cons_dff0 _ _ _ C). cbn. rewrite !nth_error_map, E. reflexivity. cbn. rewrite !map_length. exact HD.
  - intros cy i idx HI. pose proof (nth_error_lt _ _ _ HI) as HD. cbn [D I unsorted circuit_with] in *. rewrite !map_length in HD. rewrite !nth_error_map in HI.
    destruct (nth_error (dff_list rc) i) as [d|] eqn:E; [|discriminate]. cbn in HI. injection HI as <-.
    rewrite LOW by lia. rewrite <- (operand_p (V cy)) by (try reflexivity; apply (tr_dff _ TR d (nth_error_In _ _ E))).
    apply (cons_dffS _ _ _ C). cbn. rewrite !nth_error_map, E. reflexivity.
  - intros cy i g f HG HT. destruct (cu_gate _ _ HG) as (g0 & EG & ->). cbn [type input0 input1] in *.
    destruct (tr_gate _ TR g0 (nth_error_In _ _ EG)) as (_ & [R0 _] & [R1 _]).
    destruct (cs_gate_ex _ _ EG) as (k & EP & HK).
    rewrite first_gate_cu, EP. rewrite <- (operand_p (V cy) (fun w => V cy (p w)) (rg_in0 g0)), <- (operand_p (V cy) (fun w => V cy (p w)) (rg_in1 g0)) by (try reflexivity; auto).
    rewrite <- first_gate_cs. rewrite (cons_gate _ _ _ C cy k _ f HK HT). reflexivity.
Qed.
End Meaning.

Lemma sorted_meaning p q : renumbering p q -> let rc' := sorted_circuit p q in let gs := sorted_gates p q in scheduled rc' = Some gs /\
  let c := circuit_with rc' gs in
  well_formed c /\
  p_init_size c = rc_p_init rc /\ g_init_size c = rc_g_init rc /\ e_init_size c = rc_e_init rc /\
  p_input_size c = rc_p_input rc /\ g_input_size c = rc_g_input rc /\ e_input_size c = rc_e_input rc /\
  length (D c) = length (dff_list rc) /\ length (garbledGates c) = length (gate_list rc) /\ length (outputs c) = length (output_list rc) /\
  (terminate_id c = 0 <-> rc_terminate_id rc = 0) /\
  forall x, (exists W, consistent (unsorted rc) x W) /\
    forall V W, consistent c x V -> consistent (unsorted rc) x W ->
    forall cy, (forall i w, nth_error (output_list rc) i = Some w -> exists w', nth_error (outputs c) i = Some w' /\ V cy w' = W cy w) /\
      (rc_terminate_id rc <> 0 -> V cy (terminate_id c) = W cy (rc_terminate_id rc)).
Proof.
  intros RN rc' gs. subst rc' gs.
  split; [apply scheduled_is; exact RN|]. cbv zeta.
  pose proof (sorted_well_formed p q RN) as WF. split; [exact WF|].
  repeat (split; [reflexivity|]). split; [cbn; rewrite !map_length; reflexivity|].
  split; [rewrite gates_length; apply sorted_gates_length|]. split; [cbn; apply map_length|].
  split. { cbn. pose proof (tr_some _ TR). destruct (rn_low _ _ RN 0) as [P0 _]; [lia|].
    split; [|intros ->; exact P0]. intros PT. destruct (tr_term _ TR) as [T|[[R _] P]]; [exact T|].
    destruct (rn_range _ _ RN (rc_terminate_id rc)) as [_ Q]; [lia|]. rewrite PT in Q. destruct (rn_low _ _ RN 0) as [_ Q0]; lia. }
  intros x. destruct (consistent_exists _ x WF) as [V0 C0]. split; [exists (fun cy w => V0 cy (p w)); apply (to_unsorted p q RN x V0 C0)|].
  intros V W CV CW cy.
  assert (U : forall w, wire_ref rc w -> 0 <= w -> V cy (p w) = W cy w).
  { intros w R P. rewrite (consistent_unique _ x WF V _ CV (to_sorted p q RN x W CW)).
    - destruct R as [R _]. destruct (rn_range _ _ RN w) as [_ ->]; [lia|reflexivity].
    - rewrite (last_wire_cs p q). destruct (p_ref p q RN w R) as [[A B] C]. split; [|lia]. destruct B; [specialize (C P); lia|auto]. }
  split.
  - intros i w H. exists (p w). cbn [outputs circuit_with output_list sorted_circuit]. rewrite nth_error_map, H. split; [reflexivity|].
    destruct (tr_out _ TR w (nth_error_In _ _ H)). auto.
  - intros NZ. cbn. destruct (tr_term _ TR) as [T|[R P]]; [congruence|]. auto.
Qed.
(** SortNetlist succeeds, with and without logging; what it produces is a
    well-formed circuit with the interface of the netlist, and the valuations of
    the one and of the other agree on the outputs and the terminate wire. *)
Theorem sort_netlist_meaning : exists rc' gs,
  (forall log, SortNetlist log rc = Some (Some rc')) /\ scheduled rc' = Some gs /\
  let c := circuit_with rc' gs in
  well_formed c /\
  p_init_size c = rc_p_init rc /\ g_init_size c = rc_g_init rc /\ e_init_size c = rc_e_init rc /\
  p_input_size c = rc_p_input rc /\ g_input_size c = rc_g_input rc /\ e_input_size c = rc_e_input rc /\
  length (D c) = length (dff_list rc) /\ length (garbledGates c) = length (gate_list rc) /\ length (outputs c) = length (output_list rc) /\
  (terminate_id c = 0 <-> rc_terminate_id rc = 0) /\
  forall x, (exists W, consistent (unsorted rc) x W) /\
    forall V W, consistent c x V -> consistent (unsorted rc) x W ->
    forall cy, (forall i w, nth_error (output_list rc) i = Some w -> exists w', nth_error (outputs c) i = Some w' /\ V cy w' = W cy w) /\
      (rc_terminate_id rc <> 0 -> V cy (terminate_id c) = W cy (rc_terminate_id rc)).
Proof.
  destruct (sort_netlist_is false) as (p & q & RN & E).
  exists (sorted_circuit p q), (sorted_gates p q).
  split. { intros log. destruct log; [|exact E]. destruct (sort_netlist_is true) as (p' & q' & _ & E'). revert E E'. unfold SortNetlist.
    destruct (TopologicalSort rc) as [[l|]|]; cbn [obind]; try discriminate.
    destruct (invert l); cbn [obind]; [|discriminate]. destruct (omap _ (dff_list rc)); cbn [obind]; [|discriminate].
    destruct (omap _ (combine _ _)); cbn [obind andb]; [|discriminate]. destruct (negb _); [discriminate|auto]. }
  apply sorted_meaning. exact RN.
Qed.
End SortOk.
