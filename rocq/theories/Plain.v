(** The plaintext evaluator (scd/scd_evaluator.cpp). *)
From Coq Require Import ZArith NArith List Bool Lia.
From Verif Require Import Base Gate Circuit Spec Fanout GateFacts Phase1 Phase2 Prefix.
Import ListNotations.
Open Scope Z_scope.

(** * Model *)
Section Model.
Variable c : GarbledCircuit.
Variable x : inputs.

(** scd_evaluator.cpp:77-105: initial value of a register. *)
Definition pl_init_val (wi : Z) : bool :=
  if wi =? CONST_ZERO then false
  else if wi =? CONST_ONE then true
  else if (0 <=? wi) && (wi <? Z.of_nat (get_init_size c)) then
    if wi <? get_p_init_hi_index c then BN_is_bit_set (p_init x) wi
    else if wi <? Z.of_nat (p_init_size c + g_init_size c) then
      BN_is_bit_set (g_init x) (wi - Z.of_nat (p_init_size c))
    else BN_is_bit_set (e_init x) (wi - Z.of_nat (p_init_size c + g_init_size c))
  else false.
Definition pl_init_body (i : nat) (wl : list bool) : option (list bool) :=
  do wi <- rd (I c) (Z.of_nat i);
  wr wl (get_dff_lo_index c + Z.of_nat i) (pl_init_val wi).

(** scd_evaluator.cpp:107-122 latch, 123-125 copy. *)
Definition pl_ref (wl : list bool) (wi : Z) : option bool :=
  if wi =? CONST_ZERO then Some false
  else if wi =? CONST_ONE then Some true
  else if (0 <=? wi) && (wi <? wsz c) then rd wl wi
  else Some false.
Definition pl_latch_body (wl : list bool) (i : nat) (ll : list bool) : option (list bool) :=
  do wi <- rd (D c) (Z.of_nat i);
  do b <- pl_ref wl wi;
  wr ll (Z.of_nat i) b.
Definition pl_copy_body (ll : list bool) (i : nat) (wl : list bool) : option (list bool) :=
  do b <- rd ll (Z.of_nat i);
  wr wl (get_dff_lo_index c + Z.of_nat i) b.

(** scd_evaluator.cpp:129-148: inputs. *)
Definition pl_input_bit (cid i : nat) : bool :=
  let w := Z.of_nat (get_init_size c) + Z.of_nat i in
  if w <? get_g_input_lo_index c then
    BN_is_bit_set (p_input x) (Z.of_nat (cid * p_input_size c) + w - get_p_input_lo_index c)
  else if w <? get_e_input_lo_index c then
    BN_is_bit_set (g_input x) (Z.of_nat (cid * g_input_size c) + w - get_g_input_lo_index c)
  else
    BN_is_bit_set (e_input x) (Z.of_nat (cid * e_input_size c) + w - get_e_input_lo_index c).
Definition pl_input_body (cid i : nat) (wl : list bool) : option (list bool) :=
  wr wl (Z.of_nat (get_init_size c) + Z.of_nat i) (pl_input_bit cid i).

(** scd_evaluator.cpp:150-188: gates.  For a NOT gate the second operand is not
    used (it may be uninitialised). *)
Definition pl_gate_body (i : nat) (wl : list bool) : option (list bool) :=
  do g <- rd (garbledGates c) (Z.of_nat i);
  do b0 <- pl_ref wl (input0 g);
  do b1 <- pl_ref wl (input1 g);
  wr wl (output g) (GateOperator (type g) b0 b1).

Definition pl_cycle (cid : nat) (st : list bool * list bool) : option (list bool * list bool) :=
  let (wl, ll) := st in
  do '(wl1, ll1) <-
    (match cid with
     | O => do wl1 <- for_ (dff_size c) pl_init_body wl; Some (wl1, ll)
     | S _ =>
       do ll1 <- for_ (dff_size c) (pl_latch_body wl) ll;
       do wl1 <- for_ (dff_size c) (pl_copy_body ll1) wl; Some (wl1, ll1)
     end);
  do wl2 <- for_ (get_input_size c) (pl_input_body cid) wl1;
  do wl3 <- for_ (gate_size c) pl_gate_body wl2;
  Some (wl3, ll1).

(** scd_evaluator.cpp:190-195.  BN_clear_bit on a bit beyond the top word fails
    without effect, which is clearing a bit that is 0. *)
Definition pl_out_body (wl : list bool) (cid i : nat) (out : N) : option N :=
  do w <- rd (outputs c) (Z.of_nat i);
  do b <- rd wl w;
  let pos := N.of_nat (cid * output_size c + i) in
  Some (if b then N.setbit out pos else N.clearbit out pos).

(** scd_evaluator.cpp:197-207, low_mem.cpp:149-150, high_mem.cpp:401-402: is the
    terminate signal inspected in cycle [cid]?  [terminate_period] is int64_t,
    [cid] uint64_t, so the modulus is unsigned.  [None]: modulus by zero cannot
    happen since the period is non-zero. *)
Definition inspected (period : Z) (cid : nat) : bool :=
  negb (period =? 0) && (terminate_id c >? 0) &&
  (Z.of_nat cid mod (period mod 2 ^ 64) =? 0).

(** scd_evaluator.cpp:73-243: [n] cycles left, cycle number [cid].  Result:
    outputs and the number of cycles executed. *)
Fixpoint pl_loop (period : Z) (n cid : nat) (st : list bool * list bool) (out : N)
  : option (N * nat) :=
  match n with
  | O => Some (out, cid)
  | S n' =>
    do st' <- pl_cycle cid st;
    do out' <- for_ (output_size c) (pl_out_body (fst st') cid) out;
    if inspected period cid then
      do t <- rd (fst st') (terminate_id c);
      if t then Some (out', S cid) else pl_loop period n' (S cid) st' out'
    else pl_loop period n' (S cid) st' out'
  end.

(** EvalauatePlaintext, scd_evaluator.cpp:32-252; [wl0], [ll0]: the uninitialised
    arrays.  [files]: the .map and .csv files could be opened.  Writing the .csv
    file is in Trace.v.  Result: whether SUCCESS is returned, outputs, cycles. *)
Definition EvalauatePlaintext (files : bool) (clock_cycles : nat) (period : Z)
    (wl0 ll0 : list bool) : option (bool * N * nat) :=
  if files then
    do '(out, n) <- pl_loop period clock_cycles 0 (wl0, ll0) 0%N; Some (true, out, n)
  else Some (false, 0%N, clock_cycles).
End Model.

(** * Facts *)
Notation bz := (lz false).

Section Facts.
Variable c : GarbledCircuit.
Variable x : inputs.
Hypothesis WF : well_formed c.
Notation gs := (garbledGates c).

Lemma pl_ref_ok wl w : Z.of_nat (length wl) = wsz c -> w < wsz c -> pl_ref c wl w = Some (operand (bz wl) w).
Proof.
  intros HL H. unfold pl_ref, operand, CONST_ZERO, CONST_ONE.
  destruct (Z.eqb_spec w (-2)) as [->|]; [reflexivity|].
  destruct (Z.eqb_spec w (-3)) as [->|]; [reflexivity|].
  destruct (Z.leb_spec 0 w); cbn [andb].
  - destruct (Z.ltb_spec w (wsz c)); [|lia]. destruct (Z.ltb_spec w 0); [lia|]. apply rd_lz; lia.
  - destruct (Z.ltb_spec w 0); [auto|lia].
Qed.

Lemma pl_init_val_ok wi : pl_init_val c x wi = initial_value c x wi.
Proof.
  unfold pl_init_val, initial_value, CONST_ZERO, CONST_ONE, get_init_size, get_p_init_hi_index, BN_is_bit_set, bit.
  destruct (Z.eqb_spec wi (-2)) as [->|]; [reflexivity|].
  destruct (Z.eqb_spec wi (-3)) as [->|]; [reflexivity|].
  destruct (Z.leb_spec 0 wi); cbn [andb]; destruct (Z.ltb_spec wi 0); auto; try lia.
  destruct (Z.ltb_spec wi (Z.of_nat (p_init_size c + g_init_size c + e_init_size c))).
  - destruct (Z.ltb_spec wi (Z.of_nat (p_init_size c))).
    { f_equal. lia. }
    destruct (Z.ltb_spec wi (Z.of_nat (p_init_size c + g_init_size c)));
    destruct (Z.ltb_spec wi (Z.of_nat (p_init_size c) + Z.of_nat (g_init_size c))); try lia.
    + destruct (Z.ltb_spec (wi - Z.of_nat (p_init_size c)) 0); [lia|]. f_equal. lia.
    + destruct (Z.ltb_spec wi (Z.of_nat (p_init_size c) + Z.of_nat (g_init_size c) + Z.of_nat (e_init_size c))); [|lia].
      destruct (Z.ltb_spec (wi - Z.of_nat (p_init_size c + g_init_size c)) 0); [lia|]. f_equal. lia.
  - destruct (Z.ltb_spec wi (Z.of_nat (p_init_size c))); [lia|].
    destruct (Z.ltb_spec wi (Z.of_nat (p_init_size c) + Z.of_nat (g_init_size c))); [lia|].
    destruct (Z.ltb_spec wi (Z.of_nat (p_init_size c) + Z.of_nat (g_init_size c) + Z.of_nat (e_init_size c))); [lia|].
    auto.
Qed.

Lemma pl_input_ok cid i : (i < get_input_size c)%nat -> pl_input_bit c x cid i = input_value c x cid i.
Proof.
  intros H. unfold pl_input_bit, input_value, get_input_size, get_init_size, get_p_input_lo_index,
    get_g_input_lo_index, get_e_input_lo_index, get_init_size, BN_is_bit_set, bit in *.
  set (s := (p_init_size c + g_init_size c + e_init_size c)%nat) in *.
  destruct (Nat.ltb_spec i (p_input_size c)).
  - destruct (Z.ltb_spec (Z.of_nat s + Z.of_nat i) (Z.of_nat (s + p_input_size c))); [|lia].
    set (q := (cid * p_input_size c)%nat). destruct (Z.ltb_spec (Z.of_nat q + (Z.of_nat s + Z.of_nat i) - Z.of_nat s) 0); [lia|].
    f_equal. lia.
  - destruct (Z.ltb_spec (Z.of_nat s + Z.of_nat i) (Z.of_nat (s + p_input_size c))); [lia|].
    destruct (Nat.ltb_spec i (p_input_size c + g_input_size c)).
    + destruct (Z.ltb_spec (Z.of_nat s + Z.of_nat i) (Z.of_nat (s + p_input_size c + g_input_size c))); [|lia].
      set (q := (cid * g_input_size c)%nat).
      destruct (Z.ltb_spec (Z.of_nat q + (Z.of_nat s + Z.of_nat i) - Z.of_nat (s + p_input_size c)) 0); [lia|].
      f_equal. lia.
    + destruct (Z.ltb_spec (Z.of_nat s + Z.of_nat i) (Z.of_nat (s + p_input_size c + g_input_size c))); [lia|].
      set (q := (cid * e_input_size c)%nat).
      destruct (Z.ltb_spec (Z.of_nat q + (Z.of_nat s + Z.of_nat i) - Z.of_nat (s + p_input_size c + g_input_size c)) 0); [lia|].
      f_equal. lia.
Qed.

(** A loop that writes consecutive cells. *)
Lemma fill_loop {A} (d : A) (n : nat) (lo : Z) (v : nat -> A) body wl :
  0 <= lo -> lo + Z.of_nat n <= Z.of_nat (length wl) ->
  (forall i wl', (i < n)%nat -> length wl' = length wl -> body i wl' = wr wl' (lo + Z.of_nat i) (v i)) ->
  exists wl', for_ n body wl = Some wl' /\ length wl' = length wl /\
    (forall i, (i < n)%nat -> lz d wl' (lo + Z.of_nat i) = v i) /\
    (forall u, 0 <= u < lo \/ lo + Z.of_nat n <= u -> lz d wl' u = lz d wl u).
Proof.
  intros H1 H2 HB.
  destruct (for_inv (fun i wl' => length wl' = length wl /\
     (forall j, (j < i)%nat -> lz d wl' (lo + Z.of_nat j) = v j) /\
     (forall u, 0 <= u < lo \/ lo + Z.of_nat n <= u -> lz d wl' u = lz d wl u)) n body wl) as (wl' & E & P).
  - split; [auto|]. split; [lia|auto].
  - intros i s Hi (L & P1 & P2).
    destruct (wr_ok s (lo + Z.of_nat i) (v i)) as [s' W]; [lia|].
    exists s'. rewrite HB by auto. split; [auto|].
    split; [rewrite (wr_length _ _ _ _ W); auto|]. split.
    + intros j Hj. rewrite (lz_wr d _ _ _ _ _ W) by lia.
      destruct (Z.eqb_spec (lo + Z.of_nat j) (lo + Z.of_nat i)).
      * f_equal. lia.
      * apply P1. lia.
    + intros u Hu.
      assert (rd s' u = rd s u) by (apply (rd_wr_other _ _ _ _ _ W); lia).
      rewrite <- (P2 u Hu). apply rd_eq_lz; auto; lia.
  - eauto.
Qed.

Lemma pl_gates_ok wl : Z.of_nat (length wl) = wsz c ->
  exists wl', for_ (gate_size c) (pl_gate_body c) wl = Some wl' /\ length wl' = length wl /\
    (forall u, 0 <= u < first_gate c -> bz wl' u = bz wl u) /\
    (forall i g f, nth_error gs i = Some g -> bool_fun (type g) = Some f ->
       bz wl' (first_gate c + Z.of_nat i) = f (operand (bz wl') (input0 g)) (operand (bz wl') (input1 g))).
Proof.
  intros HL. pose proof (wsz_gate c) as WG. pose proof (first_order c) as FO.
  pose proof (first_input_nonneg c) as FN. unfold gate_size.
  destruct (for_inv (fun i wl' => length wl' = length wl /\
     (forall u, 0 <= u < first_gate c -> bz wl' u = bz wl u) /\
     (forall j g f, (j < i)%nat -> nth_error gs j = Some g -> bool_fun (type g) = Some f ->
       bz wl' (first_gate c + Z.of_nat j) = f (operand (bz wl') (input0 g)) (operand (bz wl') (input1 g))))
     (length gs) (pl_gate_body c) wl) as (wl' & E & L & P1 & P2).
  - split; [auto|]. split; [auto|]. intros; lia.
  - intros i s Hi (L & P1 & P2). unfold pl_gate_body.
    destruct (nth_error gs i) as [g|] eqn:Hg; [|apply nth_error_None in Hg; lia].
    rewrite rd_nat, Hg. cbn [obind].
    destruct (wf_gate c WF i g Hg) as (HO & [f HT] & [R0 R0'] & [R1 R1']).
    rewrite !pl_ref_ok by lia. cbn [obind]. rewrite HO.
    destruct (wr_ok s (first_gate c + Z.of_nat i)
      (GateOperator (type g) (operand (bz s) (input0 g)) (operand (bz s) (input1 g)))) as [s' W]; [lia|].
    rewrite W. exists s'. split; [auto|]. split; [rewrite (wr_length _ _ _ _ W); auto|].
    assert (SAME : forall u, 0 <= u -> u <> first_gate c + Z.of_nat i -> bz s' u = bz s u).
    { intros u Hu Hn. apply rd_eq_lz; auto. apply (rd_wr_other _ _ _ _ _ W). auto. }
    assert (OPS : forall u, u < first_gate c + Z.of_nat i -> operand (bz s') u = operand (bz s) u).
    { intros u Hu. unfold operand. destruct (u =? -3); [auto|]. destruct (Z.ltb_spec u 0); [auto|].
      apply SAME; lia. }
    split.
    { intros u Hu. rewrite SAME by lia. auto. }
    intros j g' f' Hj Hg' HT'.
    destruct (Nat.eq_dec j i) as [->|].
    + rewrite Hg in Hg'. injection Hg' as <-. rewrite HT in HT'. injection HT' as <-.
      rewrite !OPS by lia. rewrite (rd_lz_inv false _ _ _ (rd_wr_same _ _ _ _ W)).
      apply GateOperator_spec; auto.
    + destruct (wf_gate c WF j g' Hg') as (_ & _ & [Q0 _] & [Q1 _]).
      rewrite !OPS by lia. rewrite SAME by lia. apply P2; auto; lia.
  - exists wl'. split; [auto|]. split; [auto|]. split; [auto|].
    intros i g f Hg. apply P2; auto. apply nth_error_Some. congruence.
Qed.

(** One cycle. *)
Lemma pl_cycle_ok cid wl ll :
  Z.of_nat (length wl) = wsz c -> length ll = dff_size c ->
  exists wl' ll', pl_cycle c x cid (wl, ll) = Some (wl', ll') /\
    Z.of_nat (length wl') = wsz c /\ length ll' = dff_size c /\
    (forall i, (i < get_input_size c)%nat -> bz wl' (first_input c + Z.of_nat i) = input_value c x cid i) /\
    (cid = O -> forall i idx, nth_error (I c) i = Some idx -> (i < length (D c))%nat ->
       bz wl' (first_dff c + Z.of_nat i) = initial_value c x idx) /\
    (cid <> O -> forall i idx, nth_error (D c) i = Some idx ->
       bz wl' (first_dff c + Z.of_nat i) = operand (bz wl) idx) /\
    (forall i g f, nth_error gs i = Some g -> bool_fun (type g) = Some f ->
       bz wl' (first_gate c + Z.of_nat i) = f (operand (bz wl') (input0 g)) (operand (bz wl') (input1 g))).
Proof.
  intros HW HLL. pose proof (wsz_gate c) as WG. pose proof (first_order c) as FO.
  pose proof (first_input_nonneg c) as FN. pose proof (dff_lo c) as DL. pose proof (dff_eq c) as DE.
  pose proof (gate_eq c) as GE. pose proof (wf_I c WF) as LI.
  assert (IL : Z.of_nat (get_init_size c) = first_input c) by reflexivity.
  assert (DE' : first_dff c = first_input c + Z.of_nat (get_input_size c)) by reflexivity.
  assert (A : exists wl1 ll1,
    (match cid with
     | O => do wl1 <- for_ (dff_size c) (pl_init_body c x) wl; Some (wl1, ll)
     | S _ =>
       do ll1 <- for_ (dff_size c) (pl_latch_body c wl) ll;
       do wl1 <- for_ (dff_size c) (pl_copy_body c ll1) wl; Some (wl1, ll1)
     end) = Some (wl1, ll1) /\ length wl1 = length wl /\ length ll1 = dff_size c /\
    (cid = O -> forall i idx, nth_error (I c) i = Some idx -> (i < length (D c))%nat ->
       bz wl1 (first_dff c + Z.of_nat i) = initial_value c x idx) /\
    (cid <> O -> forall i idx, nth_error (D c) i = Some idx ->
       bz wl1 (first_dff c + Z.of_nat i) = operand (bz wl) idx)).
  { destruct cid.
    - destruct (fill_loop false (dff_size c) (first_dff c) (fun i => initial_value c x (nthz (I c) i))
        (pl_init_body c x) wl) as (wl1 & E & L & P1 & _); [lia|lia| |].
      { intros i wl' Hi _. unfold pl_init_body. rewrite rd_nat.
        rewrite (nth_error_nth' (I c) 0) by (rewrite LI; exact Hi). cbn [obind].
        rewrite DL, pl_init_val_ok. reflexivity. }
      rewrite E. exists wl1, ll. cbn [obind]. split; [auto|]. split; [auto|]. split; [auto|].
      split; [|congruence]. intros _ i idx Hi HD. rewrite P1 by auto. f_equal. apply nth_error_nth. auto.
    - destruct (fill_loop false (dff_size c) 0 (fun i => operand (bz wl) (nthz (D c) i))
        (pl_latch_body c wl) ll) as (ll1 & E & L & P1 & _); [lia|lia| |].
      { intros i wl' Hi _. unfold pl_latch_body. rewrite rd_nat.
        rewrite (nth_error_nth' (D c) 0) by exact Hi. cbn [obind].
        pose proof (wf_D _ WF i (nthz (D c) i) (nth_error_nth' (D c) 0 Hi)) as [Q _].
        pose proof (wsz_last c).
        fold (nthz (D c) i). rewrite pl_ref_ok by lia. cbn [obind]. f_equal. }
      rewrite E. cbn [obind].
      destruct (fill_loop false (dff_size c) (first_dff c) (fun i => bz ll1 (0 + Z.of_nat i))
        (pl_copy_body c ll1) wl) as (wl1 & E1 & L1 & P2 & _); [lia|lia| |].
      { intros i wl' Hi _. unfold pl_copy_body. rewrite (rd_lz false) by lia. cbn [obind].
        rewrite DL. reflexivity. }
      rewrite E1. exists wl1, ll1. cbn [obind]. split; [auto|]. split; [auto|]. split; [lia|].
      split; [discriminate|]. intros _ i idx Hi.
      assert (i < dff_size c)%nat by (apply nth_error_Some; congruence).
      rewrite P2, P1 by auto. f_equal. apply nth_error_nth. auto. }
  destruct A as (wl1 & ll1 & EA & L1 & LL1 & PA & PB).
  destruct (fill_loop false (get_input_size c) (first_input c) (input_value c x cid)
    (pl_input_body c x cid) wl1) as (wl2 & E2 & L2 & P2 & P2'); [lia|lia| |].
  { intros i wl' Hi _. unfold pl_input_body. rewrite pl_input_ok by auto. rewrite IL. reflexivity. }
  destruct (pl_gates_ok wl2) as (wl3 & E3 & L3 & P3 & P3'); [lia|].
  exists wl3, ll1. unfold pl_cycle. rewrite EA. cbn [obind]. rewrite E2. cbn [obind]. rewrite E3. cbn [obind].
  split; [auto|]. split; [lia|]. split; [auto|].
  split; [intros; rewrite P3 by lia; auto|].
  split.
  { intros H0 i idx Hi HD. unfold dff_size in *. rewrite P3, P2' by lia. apply PA; auto. }
  split; [|auto].
  intros H0 i idx Hi. assert (i < length (D c))%nat by (apply nth_error_Some; congruence).
  unfold dff_size in *. rewrite P3, P2' by lia. apply PB; auto.
Qed.

(** ** A consistent valuation exists and is unique. *)
Fixpoint pl_states (cy : nat) (st : list bool * list bool) : option (list bool * list bool) :=
  match cy with
  | O => pl_cycle c x 0 st
  | S k => do st' <- pl_states k st; pl_cycle c x (S k) st'
  end.
Lemma pl_states_ok cy wl ll : Z.of_nat (length wl) = wsz c -> length ll = dff_size c ->
  exists wl' ll', pl_states cy (wl, ll) = Some (wl', ll') /\ Z.of_nat (length wl') = wsz c /\ length ll' = dff_size c.
Proof.
  intros H1 H2. induction cy.
  - destruct (pl_cycle_ok 0 wl ll H1 H2) as (wl' & ll' & E & L1 & L2 & _). simpl. eauto.
  - destruct IHcy as (wl1 & ll1 & E & L1 & L2). simpl. rewrite E. cbn [obind].
    destruct (pl_cycle_ok (S cy) wl1 ll1 L1 L2) as (wl' & ll' & E' & L1' & L2' & _). eauto.
Qed.

Definition pl_V (st : list bool * list bool) (cy : nat) (w : Z) : bool :=
  match pl_states cy st with Some (wl, _) => bz wl w | None => false end.

Lemma pl_V_consistent wl ll : Z.of_nat (length wl) = wsz c -> length ll = dff_size c ->
  consistent c x (pl_V (wl, ll)).
Proof.
  intros H1 H2.
  assert (STEP : forall cy, exists wl0 ll0 wl' ll',
    pl_states cy (wl, ll) = Some (wl', ll') /\ pl_cycle c x cy (wl0, ll0) = Some (wl', ll') /\
    Z.of_nat (length wl0) = wsz c /\ length ll0 = dff_size c /\
    (forall k, cy = S k -> pl_states k (wl, ll) = Some (wl0, ll0))).
  { intros [|k].
    - destruct (pl_cycle_ok 0 wl ll H1 H2) as (wl' & ll' & E & _).
      exists wl, ll, wl', ll'. simpl. repeat split; auto. discriminate.
    - destruct (pl_states_ok k wl ll H1 H2) as (wl0 & ll0 & E & L1 & L2).
      destruct (pl_cycle_ok (S k) wl0 ll0 L1 L2) as (wl' & ll' & E' & _).
      exists wl0, ll0, wl', ll'. simpl. rewrite E. cbn [obind]. repeat split; auto.
      intros k' [= <-]. auto. }
  constructor.
  - intros cy i Hi. destruct (STEP cy) as (wl0 & ll0 & wl' & ll' & E & EC & L1 & L2 & _).
    destruct (pl_cycle_ok cy wl0 ll0 L1 L2) as (wl2 & ll2 & E2 & _ & _ & P & _).
    rewrite EC in E2. injection E2 as <- <-. unfold pl_V. rewrite E. apply P. auto.
  - intros i idx Hi HD. destruct (STEP 0%nat) as (wl0 & ll0 & wl' & ll' & E & EC & L1 & L2 & _).
    destruct (pl_cycle_ok 0 wl0 ll0 L1 L2) as (wl2 & ll2 & E2 & _ & _ & _ & P & _).
    rewrite EC in E2. injection E2 as <- <-. unfold pl_V. rewrite E. apply P; auto.
  - intros cy i idx Hi. destruct (STEP (S cy)) as (wl0 & ll0 & wl' & ll' & E & EC & L1 & L2 & PR).
    destruct (pl_cycle_ok (S cy) wl0 ll0 L1 L2) as (wl2 & ll2 & E2 & _ & _ & _ & _ & P & _).
    rewrite EC in E2. injection E2 as <- <-. unfold pl_V at 1. rewrite E.
    rewrite (P ltac:(discriminate) i idx Hi). unfold operand, pl_V. rewrite (PR cy eq_refl). auto.
  - intros cy i g f Hg HT. destruct (STEP cy) as (wl0 & ll0 & wl' & ll' & E & EC & L1 & L2 & _).
    destruct (pl_cycle_ok cy wl0 ll0 L1 L2) as (wl2 & ll2 & E2 & _ & _ & _ & _ & _ & P).
    rewrite EC in E2. injection E2 as <- <-. unfold operand, pl_V. rewrite E. apply P; auto.
Qed.

Theorem consistent_exists : exists V, consistent c x V.
Proof.
  exists (pl_V (repeat false (get_wire_size c), repeat false (dff_size c))).
  apply pl_V_consistent; rewrite repeat_length; auto.
Qed.

Theorem consistent_unique V V' : consistent c x V -> consistent c x V' ->
  forall cy w, first_input c <= w < last_wire c -> V cy w = V' cy w.
Proof.
  intros C C'. pose proof (first_order c) as FO. pose proof (first_input_nonneg c) as FN.
  pose proof (wf_I c WF) as LI.
  assert (CYC : forall cy, (forall w, first_input c <= w < first_gate c -> V cy w = V' cy w) ->
     forall w, first_input c <= w < last_wire c -> V cy w = V' cy w).
  { intros cy B.
    assert (G : forall n w, first_input c <= w < first_gate c + Z.of_nat n -> (n <= length gs)%nat -> V cy w = V' cy w).
    { induction n; intros w Hw Hn; [apply B; lia|].
      destruct (Z_lt_le_dec w (first_gate c + Z.of_nat n)); [apply IHn; lia|].
      replace w with (first_gate c + Z.of_nat n) by lia.
      destruct (nth_error gs n) as [g|] eqn:Hg; [|apply nth_error_None in Hg; lia].
      destruct (wf_gate c WF n g Hg) as (_ & [f HT] & [R0 R0'] & [R1 R1']).
      rewrite (cons_gate _ _ _ C cy n g f Hg HT), (cons_gate _ _ _ C' cy n g f Hg HT).
      assert (OP : forall u, u < first_gate c + Z.of_nat n -> (u < 0 \/ first_input c <= u) ->
        operand (V cy) u = operand (V' cy) u).
      { intros u Hu Hu'. unfold operand. destruct (u =? -3); [auto|]. destruct (Z.ltb_spec u 0); [auto|].
        apply IHn; lia. }
      rewrite !OP by auto. auto. }
    intros w Hw. apply (G (length gs)); auto. }
  assert (IN : forall cy w, first_input c <= w < first_dff c -> V cy w = V' cy w).
  { intros cy w Hw. replace w with (first_input c + Z.of_nat (Z.to_nat (w - first_input c))) by lia.
    rewrite (cons_input _ _ _ C), (cons_input _ _ _ C'); auto; unfold first_dff in Hw; lia. }
  induction cy; apply CYC; intros w Hw; (destruct (Z_lt_le_dec w (first_dff c)); [apply IN; lia|]);
    set (i := Z.to_nat (w - first_dff c));
    assert (HI : (i < length (D c))%nat) by (unfold first_gate in Hw; lia);
    replace w with (first_dff c + Z.of_nat i) by lia.
  - destruct (nth_error (I c) i) as [idx|] eqn:E; [|apply nth_error_None in E; lia].
    rewrite (cons_dff0 _ _ _ C i idx), (cons_dff0 _ _ _ C' i idx); auto.
  - destruct (nth_error (D c) i) as [idx|] eqn:E; [|apply nth_error_None in E; lia].
    rewrite (cons_dffS _ _ _ C cy i idx), (cons_dffS _ _ _ C' cy i idx); auto.
    pose proof (wf_D _ WF i idx E) as [Q1 Q2].
    unfold operand. destruct (idx =? -3); [auto|]. destruct (Z.ltb_spec idx 0); [auto|]. apply IHcy. lia.
Qed.

(** ** The whole run. *)
Lemma pl_out_ok wl cid out V :
  Z.of_nat (length wl) = wsz c ->
  (forall w, first_input c <= w < last_wire c -> bz wl w = V w) ->
  exists out', for_ (output_size c) (pl_out_body c wl cid) out = Some out' /\
    (forall i u, nth_error (outputs c) i = Some u ->
       N.testbit out' (N.of_nat (cid * output_size c + i)) = V u) /\
    (forall p, (p < N.of_nat (cid * output_size c) \/ N.of_nat (S cid * output_size c) <= p)%N ->
       N.testbit out' p = N.testbit out p).
Proof.
  intros HW HV. pose proof (wsz_last c) as WL. pose proof (first_input_nonneg c) as FN.
  destruct (for_inv (fun n o =>
     (forall i u, (i < n)%nat -> nth_error (outputs c) i = Some u ->
       N.testbit o (N.of_nat (cid * output_size c + i)) = V u) /\
     (forall p, (p < N.of_nat (cid * output_size c) \/ N.of_nat (S cid * output_size c) <= p)%N ->
       N.testbit o p = N.testbit out p)) (output_size c) (pl_out_body c wl cid) out) as (out' & E & P1 & P2).
  - split; [intros; lia|auto].
  - intros i o Hi (P1 & P2). unfold pl_out_body. rewrite rd_nat.
    destruct (nth_error (outputs c) i) as [u|] eqn:Hu; [|apply nth_error_None in Hu; unfold output_size in Hi; lia].
    pose proof (wf_out _ WF i u Hu). cbn [obind].
    rewrite (rd_lz false) by lia. cbn [obind]. eexists. split; [reflexivity|].
    rewrite HV by auto. split.
    + intros j u' Hj Hu'. destruct (Nat.eq_dec j i) as [->|].
      * assert (u' = u) by congruence. subst u'. destruct (V u).
        -- apply N.setbit_eq.
        -- apply N.clearbit_eq.
      * assert (N.of_nat (cid * output_size c + i) <> N.of_nat (cid * output_size c + j)) by lia.
        destruct (V u); [rewrite N.setbit_neq by auto|rewrite N.clearbit_neq by auto]; apply P1; auto; lia.
    + intros p Hp. assert (N.of_nat (cid * output_size c + i) <> p).
      { simpl in Hp. lia. }
      destruct (V u); [rewrite N.setbit_neq by auto|rewrite N.clearbit_neq by auto]; apply P2; auto.
  - exists out'. split; [auto|]. split; [|auto].
    intros i u Hu. apply (P1 i u); auto. unfold output_size. apply nth_error_Some. congruence.
Qed.
End Facts.

(** ** When does a run stop?  Specification: the first inspected cycle in which
    the terminate signal is 1, if there is one among the first [n]. *)
Definition stops_at (c : GarbledCircuit) (V : nat -> Z -> bool) (period : Z) (cy : nat) : bool :=
  negb (period =? 0) && (terminate_id c >? 0) && (Z.of_nat cy mod (period mod 2 ^ 64) =? 0) &&
  V cy (terminate_id c).
Fixpoint executed_from (c : GarbledCircuit) (V : nat -> Z -> bool) (period : Z) (n cid : nat) : nat :=
  match n with
  | O => cid
  | S n' => if stops_at c V period cid then S cid else executed_from c V period n' (S cid)
  end.
Definition executed c V period n := executed_from c V period n 0.

Lemma executed_from_bounds c V period n cid :
  (cid <= executed_from c V period n cid <= cid + n)%nat.
Proof.
  revert cid; induction n; intros cid; simpl; [lia|].
  destruct (stops_at _ _ _ _); [lia|]. specialize (IHn (S cid)). lia.
Qed.
(** [executed] is characterised by: at most [n]; no cycle before the last one
    stops; and if fewer than [n] were executed the last one stops. *)
Lemma executed_from_spec c V period n cid :
  let m := executed_from c V period n cid in
  (forall cy, (cid <= cy)%nat -> (S cy < m)%nat -> stops_at c V period cy = false) /\
  (m < cid + n -> exists cy, m = S cy /\ stops_at c V period cy = true)%nat.
Proof.
  revert cid; induction n; intros cid; cbn [executed_from].
  - simpl. split; intros; lia.
  - destruct (stops_at c V period cid) eqn:E; cbv zeta.
    + split; [intros; lia|]. intros _. eauto.
    + destruct (IHn (S cid)) as [A B]. split.
      * intros cy H1 H2. destruct (Nat.eq_dec cy cid) as [->|]; [auto|]. apply A; auto; lia.
      * intros H. apply B. lia.
Qed.

(** One cycle of the evaluator computes the values of that cycle. *)
Lemma pl_cycle_values c x V : well_formed c -> consistent c x V -> forall cid wl ll,
  Z.of_nat (length wl) = wsz c -> length ll = dff_size c ->
  (forall k w, cid = S k -> first_input c <= w < last_wire c -> bz wl w = V k w) ->
  exists wl' ll', pl_cycle c x cid (wl, ll) = Some (wl', ll') /\ Z.of_nat (length wl') = wsz c /\ length ll' = dff_size c /\
    forall w, first_input c <= w < last_wire c -> bz wl' w = V cid w.
Proof.
  intros WF CV cid wl ll HW HL HV.
  destruct (pl_cycle_ok c x WF cid wl ll HW HL) as (wl' & ll' & E & LW & LL & PI & P0 & PS & PG).
  exists wl', ll'. split; [exact E|]. split; [exact LW|]. split; [exact LL|].
  pose proof (first_order c) as FO. pose proof (first_input_nonneg c) as FN.
  assert (G : forall m w, first_input c <= w < first_gate c + Z.of_nat m -> (m <= length (garbledGates c))%nat ->
    bz wl' w = V cid w).
  { induction m; intros w Hw Hm.
    - destruct (Z_lt_le_dec w (first_dff c)).
      + replace w with (first_input c + Z.of_nat (Z.to_nat (w - first_input c))) by lia.
        assert (Z.to_nat (w - first_input c) < get_input_size c)%nat
          by (unfold first_dff in *; unfold get_input_size; lia).
        rewrite PI by auto. symmetry. apply (cons_input _ _ _ CV). auto.
      + set (i := Z.to_nat (w - first_dff c)).
        assert (HI : (i < length (D c))%nat) by (unfold first_gate in Hw; lia).
        replace w with (first_dff c + Z.of_nat i) by lia.
        destruct cid as [|k].
        * destruct (nth_error (I c) i) as [idx|] eqn:EI; [|apply nth_error_None in EI; rewrite (wf_I _ WF) in EI; lia].
          rewrite (P0 eq_refl i idx EI HI). symmetry. apply (cons_dff0 _ _ _ CV); auto.
        * destruct (nth_error (D c) i) as [idx|] eqn:EI; [|apply nth_error_None in EI; lia].
          rewrite (PS ltac:(discriminate) i idx EI), (cons_dffS _ _ _ CV k i idx EI).
          pose proof (wf_D _ WF i idx EI) as [Q1 Q2].
          unfold operand. destruct (idx =? -3); [auto|]. destruct (Z.ltb_spec idx 0); [auto|].
          apply (HV k); auto. lia.
    - destruct (Z_lt_le_dec w (first_gate c + Z.of_nat m)); [apply IHm; lia|].
      replace w with (first_gate c + Z.of_nat m) by lia.
      destruct (nth_error (garbledGates c) m) as [g|] eqn:Hg; [|apply nth_error_None in Hg; lia].
      destruct (wf_gate c WF m g Hg) as (_ & [f HT] & [R0 R0'] & [R1 R1']).
      rewrite (cons_gate _ _ _ CV cid m g f Hg HT), (PG m g f Hg HT).
      assert (OP : forall u, u < first_gate c + Z.of_nat m -> (u < 0 \/ first_input c <= u) ->
        operand (bz wl') u = operand (V cid) u).
      { intros u Hu Hu'. unfold operand. destruct (u =? -3); [auto|]. destruct (Z.ltb_spec u 0); [auto|].
        apply IHm; lia. }
      rewrite !OP by auto. auto. }
  intros w Hw. apply (G (length (garbledGates c))); auto.
Qed.

Theorem pl_loop_ok c x V period : well_formed c -> consistent c x V ->
  forall n cid wl ll out,
  Z.of_nat (length wl) = wsz c -> length ll = dff_size c ->
  (forall k w, cid = S k -> first_input c <= w < last_wire c -> bz wl w = V k w) ->
  exists out', pl_loop c x period n cid (wl, ll) out = Some (out', executed_from c V period n cid) /\
    (forall cy i u, (cid <= cy < executed_from c V period n cid)%nat -> nth_error (outputs c) i = Some u ->
       N.testbit out' (N.of_nat (cy * output_size c + i)) = V cy u) /\
    (forall p, (p < N.of_nat (cid * output_size c) \/
                N.of_nat (executed_from c V period n cid * output_size c) <= p)%N ->
       N.testbit out' p = N.testbit out p).
Proof.
  intros WF CV. induction n; intros cid wl ll out HW HL HV.
  - exists out. split; [reflexivity|]. split; [simpl; intros; lia|auto].
  - destruct (pl_cycle_values c x V WF CV cid wl ll HW HL HV) as (wl' & ll' & E & LW & LL & HV').
    destruct (pl_out_ok c WF wl' cid out (V cid) LW HV') as (out1 & EO & O1 & O2).
    cbn [pl_loop executed_from]. rewrite E. cbn [obind fst]. rewrite EO. cbn [obind].
    assert (TT : inspected c period cid = true ->
      rd wl' (terminate_id c) = Some (V cid (terminate_id c))).
    { unfold inspected. intros HI. rewrite !andb_true_iff in HI. destruct HI as [[_ H1] _].
      pose proof (Zgt_cases (terminate_id c) 0) as TC. rewrite H1 in TC.
      pose proof (first_input_nonneg c). pose proof (wsz_last c).
      destruct (wf_term _ WF) as [|HB]; [lia|].
      rewrite (rd_lz false) by lia. rewrite HV' by lia. auto. }
    assert (ST : stops_at c V period cid = inspected c period cid && V cid (terminate_id c)) by reflexivity.
    destruct (inspected c period cid) eqn:EI.
    + rewrite TT by auto. cbn [obind]. rewrite ST. cbn [andb].
      destruct (V cid (terminate_id c)).
      * exists out1. split; [auto|]. split.
        -- intros cy i u Hcy Hu. assert (cy = cid) as -> by lia. auto.
        -- intros p Hp. apply O2. auto.
      * destruct (IHn (S cid) wl' ll' out1 LW LL) as (out' & EL & Q1 & Q2).
        { intros k w [= <-]. apply HV'. }
        exists out'. split; [auto|]. pose proof (executed_from_bounds c V period n (S cid)).
        split.
        -- intros cy i u Hcy Hu. destruct (Nat.eq_dec cy cid) as [->|]; [|apply Q1; auto; lia].
           rewrite Q2; [auto|]. left.
           assert (i < output_size c)%nat by (unfold output_size; apply nth_error_Some; congruence). simpl; lia.
        -- intros p Hp. rewrite Q2, O2; auto; [|destruct Hp; [left; simpl; lia|right; auto]].
           destruct Hp; [left; auto|right]. etransitivity; [|eassumption].
           assert (S cid * output_size c <= executed_from c V period n (S cid) * output_size c)%nat
             by (apply Nat.mul_le_mono_r; lia). lia.
    + rewrite ST. cbn [andb].
      destruct (IHn (S cid) wl' ll' out1 LW LL) as (out' & EL & Q1 & Q2).
      { intros k w [= <-]. apply HV'. }
      exists out'. split; [auto|]. pose proof (executed_from_bounds c V period n (S cid)).
      split.
      * intros cy i u Hcy Hu. destruct (Nat.eq_dec cy cid) as [->|]; [|apply Q1; auto; lia].
        rewrite Q2; [auto|]. left.
        assert (i < output_size c)%nat by (unfold output_size; apply nth_error_Some; congruence). simpl; lia.
      * intros p Hp. rewrite Q2, O2; auto; [|destruct Hp; [left; simpl; lia|right; auto]].
        destruct Hp; [left; auto|right]. etransitivity; [|eassumption].
        assert (S cid * output_size c <= executed_from c V period n (S cid) * output_size c)%nat
          by (apply Nat.mul_le_mono_r; lia). lia.
Qed.

Theorem EvalauatePlaintext_ok c x V period n wl0 ll0 : well_formed c -> consistent c x V ->
  length wl0 = get_wire_size c -> length ll0 = dff_size c ->
  exists out, EvalauatePlaintext c x true n period wl0 ll0 = Some (true, out, executed c V period n) /\
    (forall cy i u, (cy < executed c V period n)%nat -> nth_error (outputs c) i = Some u ->
       N.testbit out (N.of_nat (cy * output_size c + i)) = V cy u) /\
    (forall p, (N.of_nat (executed c V period n * output_size c) <= p)%N -> N.testbit out p = false).
Proof.
  intros WF CV L1 L2.
  destruct (pl_loop_ok c x V period WF CV n 0 wl0 ll0 0%N) as (out & E & P1 & P2); auto.
  { unfold wsz. lia. } { discriminate. }
  exists out. unfold EvalauatePlaintext. rewrite E. split; [reflexivity|]. split.
  - intros cy i u Hcy. apply P1. unfold executed in Hcy. lia.
  - intros p Hp. rewrite P2 by auto. apply N.bits_0.
Qed.
