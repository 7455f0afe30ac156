(** Concrete instances used by the examples beside the theorems: a sequential
    circuit with all kinds of inputs, a toy cipher, concrete labels, and a
    decision procedure for the "no accidental collision" hypothesis. *)
From Coq Require Import ZArith NArith List Bool Lia.
From Verif Require Import Base Gate Circuit Spec Fanout GateFacts GateSim Phase1 Phase2 Phase2E Prefix CycleModel Cycle Run Safe.
Import ListNotations.
Open Scope Z_scope.

(** * Starting states *)

(** The symbolic executor's initial memory. *)
Definition sym0 (c : GarbledCircuit) : cstate slab :=
  mkC (repeat zs (get_wire_size c)) (repeat SECRET (get_wire_size c))
      (repeat zs (dff_size c)) (repeat SECRET (dff_size c)) (repeat 0 (gate_size c)).

(** The two parties' memory before the first cycle (low_mem.cpp:67-91,
    222-243; high_mem.cpp:153-180, 460-481): arrays have the sizes that were
    allocated, the wire values are SECRET, everything else is arbitrary, except
    that the evaluator's table memory does not by chance contain a gate number
    (it is malloc'ed and not initialised). *)
Record fresh_machine (c : GarbledCircuit) (m : machine) : Prop := {
  fm_sized : machine_sized c m;
  fm_gv : wires_val (m_g m) = repeat SECRET (get_wire_size c);
  fm_ev : wires_val (m_e m) = repeat SECRET (get_wire_size c);
  fm_junk : forall tb k, In tb (m_et m) -> (k < length (garbledGates c))%nat -> gid tb <> N.of_nat k }.

Definition start (c : GarbledCircuit) (m : machine) : world :=
  mkWorld (get_secret_init_size c) (sym0 c) (m_g m) (m_tmp m) (m_tabs m) (m_e m) (m_et m) (m_dr m).

Lemma start_fresh c m : fresh_machine c m -> fresh_world c (start c m).
Proof.
  intros [[A1 A2 A3 A4 A5] B C D]. constructor; cbn; auto.
  unfold cwf, sym0, wsz. cbn. rewrite !repeat_length. auto.
Qed.
Lemma proj_start c m : proj (start c m) = m.
Proof. destruct m. reflexivity. Qed.

(** * Deciding collision-freeness *)
Section Check.
Variable c : GarbledCircuit.
Variable fan0 : list Z.
Variable aes : block -> block.
Variable R : block.
Variable rnd : nat -> block.
Variable reset : bool.
Variables p_init p_input : N.
Variable ginit : Z -> option BlockPair.
Variable gin : nat -> nat -> option BlockPair.
Variable einit : Z -> option block.
Variable ein : nat -> nat -> option block.
Notation gs := (garbledGates c).
Notation ns := (get_secret_input_size c).

Definition g_freeb (i : nat) (ss : sstate) (gt : gstate) : bool :=
  match nth_error gs i with
  | None => true
  | Some g =>
    if (0 <? fz (st_fan ss) i) && IsSecret (vz (st_wv ss) (output g)) &&
       IsSecret (i_v0 c g ss) && IsSecret (i_v1 c g ss) && negb (type g =? NOTGATE) &&
       negb (N.eqb (fst (i_l0 c g ss)) (fst (i_l1 c g ss)))
    then negb (CmpBlock (fst (i_p0 c g gt)) (fst (i_p1 c g gt))) &&
         negb (CmpBlock (fst (i_p0 c g gt)) (snd (i_p1 c g gt)))
    else true
  end.
Lemma g_freeb_ok i ss gt : g_freeb i ss gt = true -> g_free c i ss gt.
Proof.
  intros H g Hg H1 H2 S0 S1 NT NE. unfold g_freeb in H. rewrite Hg, H2, S0, S1 in H.
  apply Z.ltb_lt in H1. rewrite H1 in H. apply Z.eqb_neq in NT. rewrite NT in H.
  apply N.eqb_neq in NE. rewrite NE in H. cbn [andb negb] in H.
  apply andb_true_iff in H as [A B]. apply negb_true_iff in A, B. auto.
Qed.

Definition e_freeb (i : nat) (ss : sstate) (es : estate) : bool :=
  match nth_error gs i with
  | None => true
  | Some g =>
    if (0 <? fz (st_fan ss) i) && IsSecret (vz (st_wv ss) (output g)) &&
       IsSecret (i_v0 c g ss) && IsSecret (i_v1 c g ss) && negb (type g =? NOTGATE) &&
       negb (N.eqb (fst (i_l0 c g ss)) (fst (i_l1 c g ss)))
    then negb (CmpBlock (labz ze c (st_wl es) (input0 g)) (labz ze c (st_wl es) (input1 g)))
    else true
  end.
Lemma e_freeb_ok i ss es : e_freeb i ss es = true -> e_free c i ss es.
Proof.
  intros H g Hg H1 H2 S0 S1 NT NE. unfold e_freeb in H. rewrite Hg, H2, S0, S1 in H.
  apply Z.ltb_lt in H1. rewrite H1 in H. apply Z.eqb_neq in NT. rewrite NT in H.
  apply N.eqb_neq in NE. rewrite NE in H. cbn [andb negb] in H.
  apply negb_true_iff in H. auto.
Qed.

(** Checking every intermediate state of two loops in lock step. *)
Fixpoint lock {A B} (chk : nat -> A -> B -> bool) (f : nat -> A -> option A) (g : nat -> B -> option B)
    (n i : nat) (a : A) (b : B) : bool :=
  match n with
  | O => true
  | S n' => chk i a b &&
    match f i a, g i b with
    | Some a', Some b' => lock chk f g n' (S i) a' b'
    | _, _ => true
    end
  end.
Lemma lock_from {A B} chk f g : forall n i (a : A) (b : B), lock chk f g n i a b = true ->
  forall j a' b', (j < n)%nat -> for_from f i j a = Some a' -> for_from g i j b = Some b' -> chk (i + j)%nat a' b' = true.
Proof.
  induction n; intros i a b H j a' b' Hj E1 E2; [lia|]. cbn [lock] in H. apply andb_true_iff in H as [H1 H2].
  destruct j as [|j].
  - cbn in E1, E2. inv E1. inv E2. rewrite Nat.add_0_r. auto.
  - cbn [for_from] in E1, E2. destruct (f i a) as [a1|]; [|discriminate]. destruct (g i b) as [b1|]; [|discriminate].
    cbn [obind] in E1, E2. rewrite Nat.add_succ_r, <- Nat.add_succ_l. eapply IHn; eauto. lia.
Qed.

Definition cycle_freeb (cid : nat) (w : world) : bool :=
  match cycle_prefix c fan0 true cid p_init p_input sinit (sin (w_n w)) (w_s w),
        cycle_prefix c fan0 reset cid p_init p_input ginit (gin cid) (w_g w) with
  | Some (sl, sv, sll, slv, sf), Some (gl, gv, gll, glv, gf) =>
    lock g_freeb (sbody c) (gbody c aes R (N.of_nat cid)) (length gs) 0
      (sl, sv, sf, ((w_n w + ns)%nat, [])) (gl, gv, gf, (w_tmp w, 0)) &&
    match GarbleCycle aes c fan0 R reset p_init p_input ginit (gin cid) cid (w_g w) (w_tmp w) (w_tabs w),
          cycle_prefix c fan0 false cid p_init p_input einit (ein cid) (w_e w) with
    | Some (g', tmp', tabs', ind, gouts, gterm), Some (el, ev, ell, elv, ef) =>
      match recv_tables (firstn (Z.to_nat ind) tabs') (w_et w) with
      | Some et => lock e_freeb (sbody c) (ebody c aes (N.of_nat cid) rnd) (length gs) 0
          (sl, sv, sf, ((w_n w + ns)%nat, [])) (el, ev, ef, (et, 0, w_dr w))
      | None => true
      end
    | _, _ => true
    end
  | _, _ => true
  end.
Lemma cycle_freeb_ok cid w : cycle_freeb cid w = true ->
  cycle_gfree c fan0 aes R reset p_init p_input ginit gin cid w /\
  cycle_efree c fan0 aes R rnd reset p_init p_input ginit gin einit ein cid w.
Proof.
  unfold cycle_freeb. intros H. split.
  - intros sl sv sll slv sf gl gv gll glv gf E1 E2 i ss gt Hi F1 F2. rewrite E1, E2 in H.
    apply andb_true_iff in H as [H _]. apply g_freeb_ok.
    apply (lock_from _ _ _ _ _ _ _ H i ss gt Hi F1 F2).
  - intros g' tmp' tabs' ind gouts gterm et sl sv sll slv sf el ev ell elv ef EG ER E1 E2 i ss es Hi F1 F2.
    rewrite E1 in H.
    destruct (cycle_prefix c fan0 reset cid p_init p_input ginit (gin cid) (w_g w)) as [[[[[gl gv] gll] glv] gf]|] eqn:E3.
    + apply andb_true_iff in H as [_ H]. rewrite EG, E2, ER in H. apply e_freeb_ok.
      apply (lock_from _ _ _ _ _ _ _ H i ss es Hi F1 F2).
    + unfold GarbleCycle, run_cycle in EG. rewrite E3 in EG. discriminate.
Qed.

Fixpoint run_freeb (n k : nat) (w : world) : bool :=
  match n with
  | O => true
  | S n' => cycle_freeb k w &&
    match world_step c fan0 aes R rnd reset p_init p_input ginit gin einit ein k w with
    | Some (w', _) => run_freeb n' (S k) w'
    | None => true
    end
  end.
Lemma run_freeb_ok n w0 : run_freeb n 0 w0 = true ->
  collision_free c fan0 aes R rnd reset p_init p_input ginit gin einit ein n w0.
Proof.
  intros H i w os Hi E.
  assert (G : forall j w os, (j <= n)%nat -> world_run c fan0 aes R rnd reset p_init p_input ginit gin einit ein j w0 = Some (w, os) ->
     run_freeb (n - j) j w = true).
  { induction j; intros w1 os1 Hj E1.
    - cbn in E1. inv E1. rewrite Nat.sub_0_r. auto.
    - cbn [world_run] in E1.
      destruct (world_run c fan0 aes R rnd reset p_init p_input ginit gin einit ein j w0) as [[w2 os2]|] eqn:E2; [|discriminate].
      cbn [obind] in E1. specialize (IHj w2 os2 ltac:(lia) eq_refl).
      replace (n - j)%nat with (S (n - S j)) in IHj by lia. cbn [run_freeb] in IHj.
      apply andb_true_iff in IHj as [_ IHj].
      destruct (world_step c fan0 aes R rnd reset p_init p_input ginit gin einit ein j w2) as [[w3 o]|]; [|discriminate].
      cbn [obind] in E1. inv E1. auto. }
  specialize (G i w os ltac:(lia) E). replace (n - i)%nat with (S (n - S i)) in G by lia.
  cbn [run_freeb] in G. apply andb_true_iff in G as [G _]. apply cycle_freeb_ok. auto.
Qed.
End Check.

(** Deciding well-formedness. *)
Definition ref_okb (c : GarbledCircuit) (hi w : Z) : bool := (w <? hi) && ((w <? 0) || (first_input c <=? w)).
Definition known_typeb (t : Z) : bool := match bool_fun t with Some _ => true | None => false end.
Fixpoint foralli {A} (p : nat -> A -> bool) (i : nat) (l : list A) : bool :=
  match l with [] => true | x :: t => p i x && foralli p (S i) t end.
Definition well_formedb (c : GarbledCircuit) : bool :=
  foralli (fun i g => (output g =? first_gate c + Z.of_nat i) && known_typeb (type g) &&
     ref_okb c (first_gate c + Z.of_nat i) (input0 g) && ref_okb c (first_gate c + Z.of_nat i) (input1 g))
    0 (garbledGates c) &&
  forallb (ref_okb c (last_wire c)) (D c) &&
  Nat.eqb (length (I c)) (length (D c)) &&
  forallb (fun w => (first_input c <=? w) && (w <? last_wire c)) (outputs c) &&
  ((terminate_id c =? 0) || ((first_input c <=? terminate_id c) && (terminate_id c <? last_wire c))).
Lemma foralli_nth {A} p : forall (l : list A) k i x, foralli p k l = true -> nth_error l i = Some x -> p (k + i)%nat x = true.
Proof.
  induction l as [|a l IH]; intros k [|i] x H E; cbn in *; try discriminate; apply andb_true_iff in H as [H1 H2].
  - inv E. rewrite Nat.add_0_r. auto.
  - rewrite Nat.add_succ_r, <- Nat.add_succ_l. eapply IH; eauto.
Qed.
Lemma ref_okb_ok c hi w : ref_okb c hi w = true -> ref_ok c hi w.
Proof.
  unfold ref_okb, ref_ok. intros H. apply andb_true_iff in H as [H1 H2]. apply Z.ltb_lt in H1.
  apply orb_true_iff in H2 as [H2|H2]; [apply Z.ltb_lt in H2|apply Z.leb_le in H2]; auto.
Qed.
Lemma well_formedb_ok c : well_formedb c = true -> well_formed c.
Proof.
  unfold well_formedb. intros H.
  apply andb_true_iff in H as [H HT]. apply andb_true_iff in H as [H HO].
  apply andb_true_iff in H as [H HI]. apply andb_true_iff in H as [HG HD].
  constructor.
  - intros i g Hg. pose proof (foralli_nth _ _ _ _ _ HG Hg) as Q. rewrite Nat.add_0_l in Q.
    apply andb_true_iff in Q as [Q Q3]. apply andb_true_iff in Q as [Q Q2].
    apply andb_true_iff in Q as [Q0 Q1]. apply Z.eqb_eq in Q0.
    split; [auto|]. split; [|split; apply ref_okb_ok; auto].
    unfold known_typeb in Q1. destruct (bool_fun (type g)) as [f|]; [eauto|discriminate].
  - intros i w Hw. apply ref_okb_ok. rewrite forallb_forall in HD. apply HD. eapply nth_error_In; eauto.
  - apply Nat.eqb_eq. auto.
  - intros i w Hw. rewrite forallb_forall in HO. specialize (HO w (nth_error_In _ _ Hw)).
    apply andb_true_iff in HO as [A B]. apply Z.leb_le in A. apply Z.ltb_lt in B. auto.
  - apply orb_true_iff in HT as [HT|HT]; [left; apply Z.eqb_eq; auto|right].
    apply andb_true_iff in HT as [A B]. apply Z.leb_le in A. apply Z.ltb_lt in B. auto.
Qed.

(** * A concrete circuit

    One public, garbler's and evaluator's initial bit; one public, two garbler's
    and two evaluator's input bits per cycle; two registers; eleven gates: linear,
    non-linear, with a public input, with equal inputs (16), reading a register
    and a constant, and a NOT gate. *)
Definition demo : GarbledCircuit := {|
  p_init_size := 1; g_init_size := 1; e_init_size := 1;
  p_input_size := 1; g_input_size := 2; e_input_size := 2;
  garbledGates :=
   [ mkGate 4 6 10 ANDGATE; mkGate 5 7 11 XORGATE; mkGate 10 8 12 ORGATE; mkGate 11 3 13 NANDGATE;
     mkGate 12 9 14 XORGATE; mkGate 13 12 15 ANDNGATE; mkGate 11 11 16 ANDGATE; mkGate 16 14 17 XNORGATE;
     mkGate 3 9 18 ANDGATE; mkGate 18 (-1) 19 NOTGATE; mkGate (-3) 15 20 NORNGATE ];
  outputs := [15; 17; 19; 20; 9];
  D := [14; 19]; I := [1; 0];
  terminate_id := 18 |}.

Lemma demo_wf : well_formed demo.
Proof. apply well_formedb_ok. reflexivity. Qed.

Definition mask128 : N := N.ones 128.
Definition toy_aes (x : block) : block :=
  let y := N.land (x * 226854911280625642308916404954512140970 + 2)%N mask128 in
  N.land (N.lxor y (N.shiftr y 61) * 226854911280625642308916404954512140970)%N mask128.
Definition toy_stream (seed k : N) : block := toy_aes (N.lxor (seed * 2 ^ 40) k).
Definition demo_R : block := N.lor (toy_stream 7 1) 1.
Definition demo_rnd (k : nat) : block := toy_stream 9 (N.of_nat k).

Definition demo_x : inputs := mkInputs 1 0 1 5 0x6b5 0x3c9.

(** The label pair of secret position [k] of cycle [cy] (initial values are
    "cycle" 1000), and the evaluator's label for bit [b]. *)
Definition demo_pair (cy k : N) : BlockPair :=
  let a := toy_stream 11 (cy * 4096 + k)%N in (a, XorBlock a demo_R).
Definition demo_ginit (k : Z) : option BlockPair := Some (demo_pair 1000%N (Z.to_N k)).
Definition demo_gin (cy i : nat) : option BlockPair := Some (demo_pair (N.of_nat cy) (N.of_nat i)).
Definition pick (b : bool) (p : BlockPair) : block := if b then snd p else fst p.
Definition demo_einit (x : inputs) (k : Z) : option block :=
  Some (pick (ibit demo (g_init x) (e_init x) (Z.to_nat k)) (demo_pair 1000%N (Z.to_N k))).
Definition demo_ein (x : inputs) (cy i : nat) : option block :=
  Some (pick (input_value demo x cy (p_input_size demo + i)) (demo_pair (N.of_nat cy) (N.of_nat i))).

(** Allocated memory: labels 5, latches 6, fan-outs 7, junk tables. *)
Definition demo_alloc {L} (d : L) (c : GarbledCircuit) : cstate L :=
  mkC (repeat d (get_wire_size c)) (repeat SECRET (get_wire_size c)) (repeat d (dff_size c)) (repeat 6 (dff_size c))
      (repeat 7 (gate_size c)).
Definition junk_table : GarbledTable := {| row0 := 1%N; row1 := 2%N; gid := 4000000000%N |}.
Definition demo_machine (c : GarbledCircuit) : machine :=
  mkM (demo_alloc (5, 6)%N c) (repeat junk_table (NumOfNonXor c)) (repeat junk_table (NumOfNonXor c))
      (demo_alloc 5%N c) (repeat junk_table (NumOfNonXor c)) 0.

Lemma demo_fresh c : (N.of_nat (length (garbledGates c)) < 4000000000)%N -> fresh_machine c (demo_machine c).
Proof.
  intros H. constructor; cbn; auto.
  - constructor; cbn; rewrite ?repeat_length; auto; unfold cwf, wsz; cbn; rewrite !repeat_length; auto.
  - intros tb k Hin Hk. apply repeat_spec in Hin. subst tb. cbn. lia.
Qed.

Lemma demo_labels_init x k : (k < get_secret_init_size demo)%nat ->
  label_ok demo_R (ibit demo (g_init x) (e_init x) k) (demo_ginit (Z.of_nat k)) (demo_einit x (Z.of_nat k)).
Proof.
  intros _. unfold label_ok, demo_ginit, demo_einit, demo_pair. eexists. split; [reflexivity|].
  rewrite Nat2Z.id. destruct (ibit _ _ _ _); cbn [pick fst snd mulb]; [reflexivity|].
  unfold XorBlock. rewrite N.lxor_0_r. reflexivity.
Qed.
Lemma demo_labels_in x cy i :
  label_ok demo_R (input_value demo x cy (p_input_size demo + i)) (demo_gin cy i) (demo_ein x cy i).
Proof.
  unfold label_ok, demo_gin, demo_ein, demo_pair. eexists. split; [reflexivity|].
  destruct (input_value _ _ _ _); cbn [pick fst snd mulb]; [reflexivity|].
  unfold XorBlock. rewrite N.lxor_0_r. reflexivity.
Qed.

Definition demo_fan : list Z :=
  match FillFanout demo (repeat 99 (gate_size demo)) with Some (f, _) => f | None => [] end.

Lemma demo_collision_free : collision_free demo demo_fan toy_aes demo_R demo_rnd true (p_init demo_x) (p_input demo_x)
  demo_ginit demo_gin (demo_einit demo_x) (demo_ein demo_x) 4 (start demo (demo_machine demo)).
Proof. apply run_freeb_ok. vm_compute. reflexivity. Qed.
