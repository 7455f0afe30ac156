(** Deciding the hypotheses of the privacy theorem, and an example. *)
From Coq Require Import ZArith NArith List Bool Lia Permutation.
From Verif Require Import Base Gate Circuit Spec Fanout GateFacts GateSim Phase1 Phase2 Phase2E Prefix CycleModel Cycle Run
  Plain Safe Comm Demo Results Privacy View ViewCycle ViewRun ViewCoins ViewEval.
Import ListNotations.
Open Scope Z_scope.

Fixpoint nodupb (l : list N) : bool :=
  match l with [] => true | a :: t => negb (existsb (N.eqb a) t) && nodupb t end.
Lemma nodupb_ok l : nodupb l = true -> NoDup l.
Proof.
  induction l as [|a l IH]; intros H; [constructor|]. cbn [nodupb] in H. apply andb_true_iff in H as [H1 H2].
  constructor; [|auto]. intros Hin. apply negb_true_iff in H1.
  assert (existsb (N.eqb a) l = true); [|congruence]. apply existsb_exists. exists a. split; [exact Hin|apply N.eqb_refl].
Qed.
Definition disjointb (l m : list N) : bool := forallb (fun a => negb (existsb (N.eqb a) m)) l.
Lemma disjointb_ok l m : disjointb l m = true -> forall q, In q l -> ~ In q m.
Proof.
  unfold disjointb. rewrite forallb_forall. intros H q Hq Hm. specialize (H q Hq). apply negb_true_iff in H.
  assert (existsb (N.eqb q) m = true); [|congruence]. apply existsb_exists. exists q. split; [exact Hm|apply N.eqb_refl].
Qed.

Section Check.
Variables (c : GarbledCircuit) (fan0 : list Z) (reset : bool) (p_init p_input : N) (R : block) (aes : block -> block).
Variable ginit : Z -> option BlockPair.
Variable gin : nat -> nat -> option BlockPair.
Notation gs := (garbledGates c).
Notation ns := (get_secret_input_size c).

Definition gcycle_freeb (cid k : nat) (s : cstate slab) (m : gmem) : bool :=
  match cycle_prefix c fan0 true cid p_init p_input sinit (sin k) s,
        cycle_prefix c fan0 reset cid p_init p_input ginit (gin cid) (gm_c m) with
  | Some (sl, sv, sll, slv, sf), Some (gl, gv, gll, glv, gf) =>
    lock (g_freeb c) (sbody c) (gbody c aes R (N.of_nat cid)) (length gs) 0
      (sl, sv, sf, ((k + ns)%nat, [])) (gl, gv, gf, (gm_tmp m, 0))
  | _, _ => true
  end.
Lemma gcycle_freeb_ok cid k s m e et d : gcycle_freeb cid k s m = true ->
  cycle_gfree c fan0 aes R reset p_init p_input ginit gin cid (mkWorld k s (gm_c m) (gm_tmp m) (gm_tabs m) e et d).
Proof.
  intros H sl sv sll slv sf gl gv gll glv gf E1 E2 i ss gt Hi F1 F2. cbn [w_n w_s w_g w_tmp w_tabs] in *.
  unfold gcycle_freeb in H. rewrite E1, E2 in H. apply g_freeb_ok. apply (lock_from _ _ _ _ _ _ _ H i ss gt Hi F1 F2).
Qed.
Definition garbler_freeb (n : nat) (s0 : cstate slab) (m0 : gmem) : bool :=
  forallb (fun cid => match sym_run c fan0 p_init p_input cid s0, garble_run c fan0 reset p_init p_input R aes ginit gin cid m0 with
    | Some (k, s, _), Some (m, _) => gcycle_freeb cid k s m
    | _, _ => true end) (seq 0 n).
Lemma garbler_freeb_ok n s0 m0 : garbler_freeb n s0 m0 = true ->
  garbler_free c fan0 reset p_init p_input R aes ginit gin n s0 m0.
Proof.
  unfold garbler_freeb. rewrite forallb_forall. intros H cid k s tr m os Hc E1 E2.
  specialize (H cid (proj2 (in_seq _ _ _) (conj (Nat.le_0_l _) Hc))). rewrite E1, E2 in H. apply gcycle_freeb_ok. exact H.
Qed.
End Check.

Definition usableb (c : GarbledCircuit) (fan0 : list Z) (reset : bool) (n : nat) (m0 : gmem) (x : inputs) (co : coins) : bool :=
  get_LSB (co_R co) &&
  garbler_freeb c fan0 reset (p_init x) (p_input x) (co_R co) (co_aes co) (co_ginit co) (co_gin co) n (sym0 c) m0 &&
  nodupb (flat_map ev_points (co_events c fan0 reset n m0 x co)).
Lemma usableb_ok c fan0 reset n m0 x co : usableb c fan0 reset n m0 x co = true -> usable c fan0 reset n m0 x co.
Proof.
  unfold usableb. intros H. apply andb_true_iff in H as [H H3]. apply andb_true_iff in H as [H1 H2].
  constructor; [exact H1|apply garbler_freeb_ok; exact H2|apply nodupb_ok; exact H3].
Qed.

(** The labels of the example circuit as coins. *)
Definition demo_coins : coins :=
  mkCoins toy_aes demo_R (fun k => fst (demo_pair 1000%N (N.of_nat k))) (fun cy i => fst (demo_pair (N.of_nat cy) (N.of_nat i))).
Definition demo_gmem : gmem := garbler_part (demo_machine demo).
Definition demo_cs (x : inputs) (co : coins) : session := coin_session demo demo_fan demo_rnd true (demo_machine demo) x co.
Definition demo_recoded : coins :=
  recode demo demo_fan true 4 demo_gmem demo_x (demo_V demo_x) demo_x' (demo_V demo_x') demo_coins.

Lemma demo_usable : usable demo demo_fan true 4 demo_gmem demo_x demo_coins.
Proof. apply usableb_ok. vm_compute. reflexivity. Qed.
Lemma demo_queries : forall q, In q (session_queries (demo_cs demo_x demo_coins) 4) ->
  ~ In q (inactive (co_R demo_coins) (demo_V demo_x) (co_events demo demo_fan true 4 demo_gmem demo_x demo_coins)).
Proof. apply disjointb_ok. vm_compute. reflexivity. Qed.
Lemma demo_fan_ok : exists junk ok, length junk = gate_size demo /\ FillFanout demo junk = Some (demo_fan, ok).
Proof. exists (repeat 99 (gate_size demo)), true. split; reflexivity. Qed.
