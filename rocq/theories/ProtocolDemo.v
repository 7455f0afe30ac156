(** Concrete runs of both programs. *)
From Coq Require Import ZArith NArith List Bool Lia.
From Verif Require Import Base Gate Circuit CycleModel Spec Run Plain Demo Results
  Proc Codec BN OT Rsa Rand Bounded Tables Protocol Transfer OutTransfer ProtocolOk ProtocolRun EndToEnd Modes.
Import ListNotations.
Open Scope Z_scope.

(** Labels from the program's own generator, seeded with 12345; the first draws are
    tabulated. *)
Definition first_draws : list block := Eval vm_compute in map (draw (SrandSSE 12345)) (seq 0 64).
Definition example_draw (i : nat) : block := 
  match nth_error first_draws i with Some b => b | None => draw (SrandSSE 12345) i end.
Lemma example_draw_is i : example_draw i = draw (SrandSSE 12345) i.
Proof.
  unfold example_draw. destruct (Nat.lt_ge_cases i 64) as [L|L]; [|rewrite (proj2 (nth_error_None first_draws i)) by exact L; reflexivity].
  assert (E : first_draws = map (draw (SrandSSE 12345)) (seq 0 64)) by (vm_compute; reflexivity).
  rewrite E. rewrite (map_nth_error _ _ _ (seq_nth_error _ _ L)). reflexivity.
Qed.
Definition example (c : GarbledCircuit) (opt : options) (x : inputs) : setup :=
  mkSetup c opt x (fun k b => toy_aes (N.lxor k b))
    (fun l => map (fun i => N.lxor (nth i l 77) (N.of_nat i) mod 256)%N (seq 0 20))
    (fun _ => mkCoins key33 (fun i b => if b then 5 else 6) (fun i => 12345 + Z.of_nat i) (2 ^ 127 + 12345)
                (fun i => 2 ^ 126 + Z.of_nat i mod 1000))
    example_draw demo_rnd (repeat 99 (gate_size c)) (repeat 98 (gate_size c)) (demo_machine c).

Lemma toy_128 k : w128 (toy_aes k).
Proof. unfold toy_aes, mask128, w128. rewrite (N.land_ones _ 128) at 1. apply N.mod_lt. discriminate. Qed.
Lemma demo_typed c : typed (demo_machine c).
Proof.
  assert (F : forall (A : Type) (P : A -> Prop) x n, P x -> Forall P (repeat x n)).
  { intros A P x n H. apply Forall_forall. intros y Hy. apply repeat_spec in Hy. subst y. exact H. }
  assert (J : table_ok junk_table) by (repeat split; reflexivity).
  constructor; cbn [demo_machine m_g m_tmp m_tabs m_et demo_alloc wires dff_latch]; apply F; auto; split; reflexivity.
Qed.

Lemma example_ready c opt x : well_formed c -> (gate_size c < 1000)%nat -> (NumOfNonXor c < 1000)%nat ->
  (0 < clock_cycles opt < 1000)%nat -> (e_init_size c < 1000)%nat -> (e_input_size c < 1000)%nat ->
  (terminate_period opt = 0 \/ terminate_id c <> 0) -> (e_init x < 2 ^ 60)%N -> (e_input x < 2 ^ 60)%N ->
  ready (example c opt x).
Proof.
  intros WF G NX CC EI EN HT B0 B1. assert (P32 : 2 ^ 32 = 4294967296) by reflexivity. assert (P31 : 2 ^ 31 = 2147483648) by reflexivity.
  constructor; unfold u_n; cbn [example u_c u_opt u_x u_AES u_sha u_coins u_ra u_junkA u_junkB u_m].
  - exact WF.
  - unfold gate_size in G. change (2 ^ 32)%N with 4294967296%N. lia.
  - lia.
  - split; [lia|]. change (2 ^ 64)%N with 18446744073709551616%N. lia.
  - nia.
  - exact HT.
  - intros. apply toy_128.
  - intros l. apply Forall_forall. intros y Hy. apply in_map_iff in Hy as (i & <- & _). apply N.mod_lt. discriminate.
  - intros _ i. constructor; cbn [oc_key oc_x oc_S oc_t].
    + apply key33_ok.
    + split; reflexivity.
    + intros j b. destruct b; split; try reflexivity; discriminate.
    + split; [discriminate|reflexivity].
    + intros j. pose proof (Z.mod_pos_bound (Z.of_nat j) 1000 ltac:(lia)).
      assert (2 ^ 126 + 1000 < 2 ^ 128) by reflexivity. assert (0 < 2 ^ 126) by reflexivity. lia.
  - intros _. split; (eapply fits_pow with (b := 60%N); [|discriminate]; split; [lia|]; change (2 ^ Z.of_N 60) with (Z.of_N (2 ^ 60)); lia).
  - intros i. rewrite example_draw_is. unfold w128, draw. apply to_block_lt. apply draws_m128. apply SrandSSE_m128.
  - rewrite !repeat_length. auto.
  - apply demo_fresh. unfold gate_size in G. lia.
  - apply demo_typed.
Qed.

(** Deciding absence of collisions. *)
Definition free_upto (s : session) (n : nat) : bool :=
  run_freeb (s_c s) (s_fan s) (s_aes s) (s_R s) (s_rnd s) (s_reset s)
    (p_init (s_x s)) (p_input (s_x s)) (s_ginit s) (s_gin s) (s_einit s) (s_ein s) n 0 (start (s_c s) (s_m0 s)).
Lemma free_upto_ok s n : free_upto s n = true -> no_collisions s n.
Proof. intros H. apply run_freeb_ok. exact H. Qed.

Definition zeros (c : GarbledCircuit) : list bool * list bool := (repeat false (get_wire_size c), repeat false (dff_size c)).
Definition plain (c : GarbledCircuit) (x : inputs) : nat -> Z -> bool := pl_V c x (zeros c).
Lemma plain_ok c x : well_formed c -> consistent c x (plain c x).
Proof. intros H. apply pl_V_consistent; [exact H| |]; rewrite ?repeat_length; auto. Qed.

(** ** The eleven-gate circuit, at most six cycles, stopping on wire 18 *)
Definition demo_opt (mask : N) (mode : OutputMode) : options := mkOptions 6 mask 1 mode false.
Definition demo_in : inputs := mkInputs 1 0 1 0x28 0x6b5 0x3c9.
Definition demo_u (mask : N) (mode : OutputMode) : setup := example demo (demo_opt mask mode) demo_in.
Lemma demo_u_ready mask mode : ready (demo_u mask mode).
Proof. apply example_ready; cbn; auto using demo_wf; try lia; try reflexivity. Qed.
Lemma demo_u_free mask mode foot : no_collisions (sess foot (demo_u mask mode)) 4.
Proof.
  assert (E : no_collisions (session_of foot (demo_u 0 consecutive)) 4) by (destruct foot; apply free_upto_ok; vm_compute; reflexivity).
  unfold sess. replace (is_low foot (demo_u mask mode)) with foot by (destruct foot; reflexivity). exact E.
Qed.
Definition demo_plain : nat -> Z -> bool := plain demo demo_in.
Lemma demo_u_plain mask mode : consistent (u_c (demo_u mask mode)) (u_x (demo_u mask mode)) demo_plain.
Proof. apply plain_ok. apply demo_wf. Qed.
Lemma demo_u_executes mask mode : executes (demo_u mask mode) demo_plain 4.
Proof.
  split; [cbn; lia|]. split.
  - intros [|[|[|cy]]] H [_ E]; [vm_compute in E; discriminate|vm_compute in E; discriminate|vm_compute in E; discriminate|lia].
  - right. split; [|vm_compute; reflexivity]. split; [discriminate|]. split; [reflexivity|]. exists 3. reflexivity.
Qed.
Lemma demo_u_public mask mode foot : public_terminate (sess foot (demo_u mask mode)) 1 4.
Proof.
  assert (E : forall cy, (cy < 4)%nat -> term_secret (session_of foot (demo_u 0 consecutive)) cy = false).
  { intros [|[|[|[|cy]]]] H; [destruct foot; vm_compute; reflexivity..|lia]. }
  intros cy H _. unfold sess. replace (is_low foot (demo_u mask mode)) with foot by (destruct foot; reflexivity).
  apply (E cy H).
Qed.

(** ** The same with a secret terminate signal *)
Definition demo_secret : GarbledCircuit := {|
  p_init_size := 1; g_init_size := 1; e_init_size := 1;
  p_input_size := 1; g_input_size := 2; e_input_size := 2;
  garbledGates := garbledGates demo; outputs := outputs demo; D := [14; 19]; I := [1; 0]; terminate_id := 15 |}.
Lemma demo_secret_wf : well_formed demo_secret.
Proof. apply well_formedb_ok. reflexivity. Qed.
(** Looked at in cycles 0, 2, 4. *)
Definition secret_u : setup := example demo_secret (mkOptions 6 0 2 consecutive false) demo_in.
Lemma secret_u_ready : ready secret_u.
Proof. apply example_ready; cbn; auto using demo_secret_wf; try lia; try reflexivity. Qed.

(** ** An output that is secret first and public later: OR of a public and an
    evaluator's input *)
Definition por : GarbledCircuit := {|
  p_init_size := 0; g_init_size := 0; e_init_size := 0; p_input_size := 1; g_input_size := 0; e_input_size := 1;
  garbledGates := [mkGate 0 1 2 ORGATE]; outputs := [2]; D := []; I := []; terminate_id := 0 |}.
Lemma por_wf : well_formed por.
Proof. apply well_formedb_ok. reflexivity. Qed.
Definition por_u : setup := example por (mkOptions 2 2 0 last_clock false) (mkInputs 0 0 0 2 0 1).
Lemma por_ready : ready por_u.
Proof. apply example_ready; cbn; auto using por_wf; try lia; try reflexivity. Qed.
Lemma por_free foot : no_collisions (sess foot por_u) 2.
Proof. destruct foot; apply free_upto_ok; vm_compute; reflexivity. Qed.
Definition por_plain : nat -> Z -> bool := plain por (mkInputs 0 0 0 2 0 1).
Lemma por_executes : executes por_u por_plain 2.
Proof. split; [cbn; lia|]. split; [|left; reflexivity]. intros cy _ [[H _] _]. apply H. reflexivity. Qed.
Lemma por_public foot : public_terminate (sess foot por_u) 0 2.
Proof. intros cy _ [H _]. exfalso. apply H. reflexivity. Qed.
