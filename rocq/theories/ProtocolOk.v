(** A run of the two programs is a run of the two-party machine: proofs. *)
From Coq Require Import ZArith NArith List Bool Lia.
From Verif Require Import Base Gate Circuit CycleModel Spec Fanout GateFacts Phase1 Prefix Cycle Run Safe Demo Results
  Proc Codec Tcp BN OT OTExt Rand Bounded Tables Protocol Transfer OutTransfer.
Import ListNotations.
Open Scope Z_scope.

(** * Everything that determines a run of both programs *)
Record setup := mkSetup {
  u_c : GarbledCircuit; u_opt : options; u_x : inputs;
  u_AES : block -> block -> block; u_sha : bytes -> bytes;
  u_coins : nat -> ot_coins;
  u_ra : nat -> block;                       (* the garbler's RandomBlock stream *)
  u_rnd : nat -> block;                      (* the evaluator's *)
  u_junkA : list Z; u_junkB : list Z;        (* fan-out fields before FillFanout *)
  u_m : machine }.                           (* memory as allocated *)

Definition u_R (u : setup) : block := make_R (u_ra u 0%nat).
Definition u_key (u : setup) : block := u_ra u 1%nat.
Definition u_n (u : setup) : nat := clock_cycles (u_opt u).

Definition gmem_of (m : machine) : gmem := (m_g m, m_tmp m, m_tabs m).
Definition emem_of (m : machine) : emem := (m_e m, m_et m, m_dr m).

Definition garbler (foot : bool) (u : setup) : proc (option (nat * BIGNUM)) :=
  Garble (u_AES u) (u_sha u) (u_c u) (u_opt u) (u_coins u) (p_init (u_x u)) (p_input (u_x u))
    foot (g_init (u_x u)) (g_input (u_x u)) (u_ra u) (u_junkA u) (gmem_of (u_m u)).
Definition evaluator (foot : bool) (u : setup) : proc (option (nat * BIGNUM)) :=
  Evaluate (u_AES u) (u_sha u) (u_c u) (u_opt u) (u_coins u) (p_init (u_x u)) (p_input (u_x u))
    foot (e_init (u_x u)) (e_input (u_x u)) (u_rnd u) (u_junkB u) (emem_of (u_m u)).

(** Memory holds 128-bit labels and well-formed tables. *)
Record typed (m : machine) : Prop := {
  ty_w : Forall pair128 (wires (m_g m)); ty_l : Forall pair128 (dff_latch (m_g m));
  ty_tmp : Forall table_ok (m_tmp m); ty_tabs : Forall table_ok (m_tabs m); ty_et : Forall table_ok (m_et m) }.

(** What the theorems assume of a run: a well-formed circuit of bounded size,
    functions and draws of the right types, memory as allocated. *)
Record ready (u : setup) : Prop := {
  rd_wf : well_formed (u_c u);
  rd_gates : (N.of_nat (length (garbledGates (u_c u))) < 2 ^ 32)%N;
  rd_tables : 48 * Z.of_nat (NumOfNonXor (u_c u)) < 2 ^ 31;
  rd_cycles : (0 < u_n u)%nat /\ (N.of_nat (u_n u) < 2 ^ 64)%N;
  rd_ot : Z.of_nat (e_init_size (u_c u) + u_n u * e_input_size (u_c u)) < 2 ^ 32;
  rd_term : terminate_period (u_opt u) = 0 \/ terminate_id (u_c u) <> 0;
  rd_AES : forall k x, w128 k -> w128 x -> w128 (u_AES u k x);
  rd_sha : forall l, Forall is_byte (u_sha u l);
  rd_coins : disable_OT (u_opt u) = false -> forall i, coins_ok (u_coins u i);
  rd_fits : disable_OT (u_opt u) = true -> bn_fits (Z.of_N (e_init (u_x u))) /\ bn_fits (Z.of_N (e_input (u_x u)));
  rd_ra : forall i, w128 (u_ra u i);
  rd_junk : length (u_junkA u) = gate_size (u_c u) /\ length (u_junkB u) = gate_size (u_c u);
  rd_mem : fresh_machine (u_c u) (u_m u);
  rd_typed : typed (u_m u) }.

(** * The session of a run *)

(** FillFanout's result. *)
Definition the_fan (c : GarbledCircuit) : list Z := map (total_uses c) (seq 0 (length (garbledGates c))).
Lemma fan_is c junk : well_formed c -> length junk = gate_size c -> exists ok, FillFanout c junk = Some (the_fan c, ok).
Proof.
  intros WF HL. pose proof (wsz_last c) as WL. pose proof (first_input_nonneg c). pose proof (first_order c) as FO.
  destruct (FillFanout_ok c junk HL) as (fan & ok & E & A & B & _).
  - intros w Hw. apply In_nth_error in Hw as [i Hi]. destruct (wf_D _ WF i w Hi) as [Q _]. lia.
  - intros w Hw. apply In_nth_error in Hw as [i Hi]. pose proof (wf_out _ WF i w Hi) as Q. lia.
  - intros HT. destruct (wf_term _ WF); lia.
  - exists ok. rewrite E. do 2 f_equal. destruct (B (wf_topo _ WF)) as [B1 _].
    unfold the_fan. apply (nth_ext _ _ 0 0); [rewrite map_length, seq_length; exact A|].
    intros k Hk. rewrite A in Hk.
    symmetry. rewrite (nth_indep _ 0 (total_uses c 0%nat)) by (rewrite map_length, seq_length; exact Hk).
    rewrite map_nth, seq_nth by exact Hk. symmetry. exact (B1 k Hk).
Qed.

(** The label pairs of both modes. *)
Definition init_pairs (low : bool) (u : setup) : list BlockPair :=
  if low then fresh_pairs (u_R u) (u_ra u) (low_init_from (u_c u) 2) (get_secret_init_size (u_c u))
  else fresh_pairs (u_R u) (u_ra u) 2 (get_init_size (u_c u)).
Definition low_pairs (u : setup) (cid : nat) : list BlockPair :=
  fresh_pairs (u_R u) (u_ra u) (low_input_from (u_c u) 2 cid) (get_secret_input_size (u_c u)).
Definition high_pairs (u : setup) : list BlockPair :=
  fresh_pairs (u_R u) (u_ra u) (2 + get_init_size (u_c u)) (u_n u * get_input_size (u_c u)).

Definition init_bits (u : setup) : nat -> bool :=
  both_bits (g_init (u_x u)) (e_init (u_x u)) (g_init_size (u_c u)) 0 0.
Definition in_bits (u : setup) (cid : nat) : nat -> bool :=
  both_bits (g_input (u_x u)) (e_input (u_x u)) (g_input_size (u_c u)) (cid * g_input_size (u_c u)) (cid * e_input_size (u_c u)).
(** The evaluator's labels *)
Definition init_labels (low : bool) (u : setup) : list block :=
  picked (init_bits u) (firstn (get_secret_init_size (u_c u)) (init_pairs low u)).
Definition low_labels (u : setup) (cid : nat) : list block := picked (in_bits u cid) (low_pairs u cid).
Definition high_labels (u : setup) : list (list block) :=
  map (fun cid => picked (in_bits u cid)
     (slice_of (high_pairs u) (cid * get_secret_input_size (u_c u)) (get_secret_input_size (u_c u)))) (seq 0 (u_n u)).

Definition session_of (low : bool) (u : setup) : session :=
  mkSession (u_c u) (u_x u) (the_fan (u_c u)) (u_AES u (u_key u)) (u_R u) (u_rnd u) low
    (rd (init_pairs low u))
    (fun cid => if low then (fun i => nth_error (low_pairs u cid) i)
                else if (cid <? u_n u)%nat then (fun i => nth_error (high_pairs u) (cid * get_secret_input_size (u_c u) + i))
                else (fun _ => Some (0%N, u_R u)))
    (rd (init_labels low u))
    (fun cid => if low then (fun i => nth_error (low_labels u cid) i)
                else if (cid <? u_n u)%nat
                then (fun i => match nth_error (high_labels u) cid with None => None | Some l => nth_error l i end)
                else (fun i => Some (if in_bits u cid i then u_R u else 0%N)))
    (u_m u).

Lemma fresh_nth R ra from n i : (i < n)%nat ->
  nth_error (fresh_pairs R ra from n) i = Some (ra (from + i)%nat, N.lxor (ra (from + i)%nat) R).
Proof.
  intros H. unfold fresh_pairs. rewrite (map_nth_error _ _ _ (seq_nth_error _ _ H)). unfold XorBlock. rewrite N.lxor_comm. reflexivity.
Qed.
Lemma fresh_length R ra from n : length (fresh_pairs R ra from n) = n.
Proof. unfold fresh_pairs. rewrite map_length, seq_length. auto. Qed.
Lemma fresh_128 R ra from n : w128 R -> (forall i, w128 (ra i)) -> Forall pair128 (fresh_pairs R ra from n).
Proof.
  intros HR H. unfold fresh_pairs. apply Forall_forall. intros p Hp. apply in_map_iff in Hp as (i & <- & _).
  split; cbn [fst snd]; auto using xor128.
Qed.
Lemma R_128 u : ready u -> w128 (u_R u).
Proof.
  intros H. unfold u_R, make_R. pose proof (rd_ra u H 0%nat) as Q. unfold w128 in *.
  destruct (N.eq_dec (N.lor (u_ra u 0) 1) 0) as [->|NZ]; [reflexivity|]. apply N.log2_lt_pow2; [lia|].
  rewrite N.log2_lor. change (N.log2 1) with 0%N. rewrite N.max_0_r.
  destruct (N.eq_dec (u_ra u 0) 0) as [->|]; [reflexivity|]. apply N.log2_lt_pow2; lia.
Qed.
Lemma R_odd u : get_LSB (u_R u) = true.
Proof. unfold get_LSB, u_R, make_R. rewrite N.lor_spec. apply orb_true_r. Qed.

Lemma init_bits_spec u k : (k < get_secret_init_size (u_c u))%nat ->
  initial_value (u_c u) (u_x u) (Z.of_nat (p_init_size (u_c u) + k)) = init_bits u k.
Proof. intros H. rewrite initial_ibit by auto. reflexivity. Qed.
Lemma in_bits_spec u cid i : input_value (u_c u) (u_x u) cid (p_input_size (u_c u) + i) = in_bits u cid i.
Proof.
  unfold input_value, in_bits, both_bits.
  destruct (Nat.ltb_spec (p_input_size (u_c u) + i) (p_input_size (u_c u))); [lia|].
  destruct (Nat.ltb_spec (p_input_size (u_c u) + i) (p_input_size (u_c u) + g_input_size (u_c u))), (Nat.ltb_spec i (g_input_size (u_c u)));
    try lia; f_equal; lia.
Qed.
Lemma delivered_pick R (b : nat -> bool) labels i a : nth_error labels i = Some (a, N.lxor a R) ->
  delivered R (b i) (nth_error labels i) (nth_error (picked b labels) i).
Proof. intros H. rewrite (picked_nth _ _ _ _ H), H. exists a. split; [auto|]. destruct (b i); reflexivity. Qed.

Lemma init_pairs_nth low u k : (k < get_secret_init_size (u_c u))%nat ->
  exists a, nth_error (init_pairs low u) k = Some (a, N.lxor a (u_R u)).
Proof.
  intros H. unfold init_pairs. destruct low.
  - rewrite fresh_nth by auto. eauto.
  - rewrite fresh_nth by (unfold get_secret_init_size, get_init_size in *; lia). eauto.
Qed.
Lemma init_pairs_length low u : (get_secret_init_size (u_c u) <= length (init_pairs low u))%nat.
Proof.
  unfold init_pairs. destruct low; rewrite fresh_length; [lia|]. unfold get_secret_init_size, get_init_size. lia.
Qed.
Lemma high_length u : (u_n u * get_secret_input_size (u_c u) <= length (high_pairs u))%nat.
Proof. unfold high_pairs. rewrite fresh_length. unfold get_secret_input_size, get_input_size. nia. Qed.

Lemma session_honest low u : ready u -> honest (session_of low u).
Proof.
  intros H. constructor; cbn [session_of s_c s_x s_fan s_R s_ginit s_gin s_einit s_ein s_m0].
  - apply (rd_wf u H).
  - apply (rd_gates u H).
  - destruct (rd_junk u H) as [J _]. destruct (fan_is (u_c u) (u_junkA u) (rd_wf u H) J) as [ok E].
    exists (u_junkA u), ok. auto.
  - apply R_odd.
  - intros k Hk. rewrite init_bits_spec by exact Hk. rewrite !rd_nat.
    destruct (init_pairs_nth low u k Hk) as [a Ha]. pose proof (init_pairs_length low u) as L.
    assert (Hf : nth_error (firstn (get_secret_init_size (u_c u)) (init_pairs low u)) k = nth_error (init_pairs low u) k).
    { change (firstn ?n ?l) with (slice_of l 0 n). rewrite slice_nth by exact Hk. reflexivity. }
    rewrite <- Hf in Ha. rewrite <- Hf. unfold init_labels. eapply delivered_pick. exact Ha.
  - intros cy i Hi. rewrite in_bits_spec. destruct low.
    + unfold low_labels. eapply delivered_pick. unfold low_pairs. apply fresh_nth. exact Hi.
    + destruct (Nat.ltb_spec cy (u_n u)) as [HC|HC].
      * unfold high_labels. rewrite (map_nth_error _ _ _ (seq_nth_error _ _ HC)).
        set (ssz := get_secret_input_size (u_c u)). assert (HI : (i < ssz)%nat) by exact Hi.
        rewrite <- (slice_nth _ (cy * ssz) ssz i HI). eapply delivered_pick. rewrite slice_nth by exact HI.
        apply fresh_nth. unfold ssz, get_secret_input_size, get_input_size in *. nia.
      * exists 0%N. rewrite N.lxor_0_l. split; [auto|]. destruct (in_bits u cy i); reflexivity.
  - apply (rd_mem u H).
Qed.

(** * One cycle *)
Lemma EvaluateCycle_tabs aes c fan rnd p0 p1 gi gn cid st tabs dr st' tabs' ind dr' outs term :
  EvaluateCycle aes c fan rnd p0 p1 gi gn cid st tabs dr = Some (st', tabs', ind, dr', outs, term) -> tabs' = tabs.
Proof.
  intros H. unfold EvaluateCycle in H. ob H. destruct p as [[[st1 [[t1 i1] d1]] outs1] term1]. inversion H; subst.
  apply (run_cycle_inv ZeroBlock c fan _ (fun _ => True) (fun s => fst (fst s) = tabs)) in E.
  - destruct E as (_ & _ & E & _). exact E.
  - auto.
  - intros l0 v0 l1 v1 t g [[tb i] d] l v [[tb' i'] d'] _ _ _ Q EG. split; [auto|]. cbn [fst snd] in *. subst tb.
    unfold EvalGate in EG.
    repeat match type of EG with
      | (if ?b then _ else _) = _ => destruct b
      | (let '(_, _) := ?e in _) = _ => destruct e
      | match ?e with Some _ => _ | None => _ end = _ => destruct e
      | match ?e with SConst _ => _ | SCopy => _ | SInv => _ end = _ => destruct e
      | obind ?e _ = _ => unfold obind in EG
      end; try discriminate; inversion EG; subst; auto.
  - auto.
  - auto.
  - apply Forall_forall; auto.
  - apply Forall_forall; auto.
  - reflexivity.
Qed.

Lemma GarbleCycle_ind aes c fan R reset p0 p1 gi gn cid st tmp tabs st' tmp' tabs' ind outs term :
  GarbleCycle aes c fan R reset p0 p1 gi gn cid st tmp tabs = Some (st', tmp', tabs', ind, outs, term) ->
  0 <= ind <= Z.of_nat (length tabs').
Proof.
  intros H. unfold GarbleCycle in H. ob H. destruct p as [[[st1 [tmp1 ti]] outs1] term1].
  ob H. destruct p as [tabs1 ind1]. inversion H; subst.
  apply (for_keeps (fun s : list GarbledTable * Z => 0 <= snd s <= Z.of_nat (length (fst s)))) in E0; [exact E0| |cbn; lia].
  intros i [t1 i1] [t2 i2] _ Q HS. unfold select_body in HS. ob HS. ob HS.
  destruct (0 <? z); [|inversion HS; subst; auto]. ob HS. inversion HS; subst. cbn [fst snd] in *.
  pose proof (wr_bound _ _ _ _ E3) as WB. rewrite (wr_length _ _ _ _ E3). lia.
Qed.

Lemma clear_ok n et : Forall table_ok et -> Forall table_ok (clear_tables n et).
Proof.
  intros F. unfold clear_tables. rewrite <- (firstn_skipn n et) in F. apply Forall_app in F as [F1 F2].
  apply Forall_app. split; [|exact F2]. apply Forall_forall. intros t Ht. apply in_map_iff in Ht as (t0 & <- & Ht).
  rewrite Forall_forall in F1. destruct (F1 t0 Ht) as (A & B & _). split; [exact A|]. split; [exact B|]. reflexivity.
Qed.

Section Ready.
Variable u : setup.
Hypothesis RU : ready u.
Variable low : bool.
Notation s := (session_of low u).
Notation c := (u_c u).
Notation AESk := (u_AES u (u_key u)).

Definition stepM (cid : nat) (m : machine) := machine_step c (the_fan c) AESk (u_R u) (u_rnd u) low
  (p_init (u_x u)) (p_input (u_x u)) (s_ginit s) (s_gin s) (s_einit s) (s_ein s) cid m.

Lemma ginit_128 k p : s_ginit s k = Some p -> pair128 p.
Proof.
  cbn [session_of s_ginit]. intros H. eapply Forall_rd; [|exact H]. unfold init_pairs.
  destruct low; apply fresh_128; auto using R_128; apply (rd_ra u RU).
Qed.
Lemma gin_128 cid k p : s_gin s cid k = Some p -> pair128 p.
Proof.
  cbn [session_of s_gin].
  assert (F : Forall pair128 (low_pairs u cid) /\ Forall pair128 (high_pairs u)).
  { split; apply fresh_128; auto using R_128; apply (rd_ra u RU). }
  destruct F as [F1 F2]. destruct low; [|destruct (cid <? u_n u)%nat].
  - intros H. rewrite Forall_forall in F1. apply F1. eapply nth_error_In; eauto.
  - intros H. rewrite Forall_forall in F2. apply F2. eapply nth_error_In; eauto.
  - intros [= <-]. split; [reflexivity|apply R_128; auto].
Qed.

(** One step of the machine, seen by each party. *)
Lemma step_parts cid m m' o : stepM cid m = Some (m', o) -> typed m -> (cid < u_n u)%nat ->
  exists et,
    GarbleCycle AESk c (the_fan c) (u_R u) low (p_init (u_x u)) (p_input (u_x u)) (s_ginit s) (s_gin s cid) cid
      (m_g m) (m_tmp m) (m_tabs m) =
      Some (m_g m', m_tmp m', m_tabs m', Z.of_nat (length (o_sent o)), o_gouts o, o_gterm o) /\
    (length (o_sent o) <= length (m_tabs m'))%nat /\
    recv_tables (firstn (length (o_sent o)) (m_tabs m')) (m_et m) = Some et /\
    EvaluateCycle AESk c (the_fan c) (u_rnd u) (p_init (u_x u)) (p_input (u_x u)) (s_einit s) (s_ein s cid) cid
      (m_e m) et (m_dr m) = Some (m_e m', et, o_used o, m_dr m', o_eouts o, o_eterm o) /\
    m_et m' = clear_tables (Z.to_nat (o_used o)) et /\ typed m'.
Proof.
  intros H [T1 T2 T3 T4 T5] HC. unfold stepM, machine_step in H. unfold obind in H at 1.
  match type of H with match ?e with _ => _ end = _ => destruct e as [[[[[[g' tmp'] tabs'] ind] gouts] gterm]|] eqn:EG; [|discriminate] end.
  unfold obind in H at 1.
  match type of H with match ?e with _ => _ end = _ => destruct e as [et|] eqn:ER; [|discriminate] end.
  unfold obind in H at 1.
  match type of H with match ?e with _ => _ end = _ => destruct e as [[[[[[e' et'] used] dr'] eouts] eterm]|] eqn:EE; [|discriminate] end.
  inversion H; subst m' o; clear H. cbn [m_g m_tmp m_tabs m_e m_et m_dr o_sent o_gouts o_gterm o_used o_eouts o_eterm].
  pose proof (GarbleCycle_ind _ _ _ _ _ _ _ _ _ _ _ _ _ _ _ _ _ _ _ EG) as IB.
  assert (L : length (firstn (Z.to_nat ind) tabs') = Z.to_nat ind) by (apply firstn_length_le; lia).
  rewrite L. rewrite Z2Nat.id by lia.
  pose proof (EvaluateCycle_tabs _ _ _ _ _ _ _ _ _ _ _ _ _ _ _ _ _ _ EE) as ->.
  destruct (GarbleCycle128 AESk (fun x => rd_AES u RU _ x (rd_ra u RU 1%nat)) c (rd_gates u RU) _ _ _ _ _ _ _ cid _ _ _ _ _ _ _ _ _
    ltac:(destruct (rd_cycles u RU); lia) (R_128 u RU) ginit_128 (gin_128 cid) T1 T2 T3 T4 EG) as (Q1 & Q2 & Q3 & Q4 & _).
  exists et. split; [reflexivity|]. split; [lia|]. split; [exact ER|]. split; [exact EE|]. split; [reflexivity|].
  constructor; cbn [m_g m_tmp m_tabs m_et]; auto. apply clear_ok.
  unfold recv_tables in ER. destruct (_ <=? _)%nat; [|discriminate]. injection ER as <-. apply Forall_app. split.
  - rewrite <- (firstn_skipn (Z.to_nat ind) tabs') in Q4. apply Forall_app in Q4 as [Q4 _]. exact Q4.
  - match goal with |- Forall _ (skipn ?k _) => rewrite <- (firstn_skipn k (m_et m)) in T5; apply Forall_app in T5 as [_ T5]; exact T5 end.
Qed.

(** Tables sent, received and used. *)
Lemma tables_step cid m m' o : stepM cid m = Some (m', o) -> typed m -> (cid < u_n u)%nat ->
  o_used o = Z.of_nat (length (o_sent o)) -> (length (o_sent o) <= NumOfNonXor c)%nat ->
  runs (SendTables (m_tabs m') (Z.of_nat (length (o_sent o))))
    (evaluate_tables (u_AES u) c (p_init (u_x u)) (p_input (u_x u)) (u_key u) (u_rnd u) (the_fan c)
       (s_einit s) (s_ein s cid) cid (emem_of m))
    tt (Some (emem_of m', o_eouts o, o_eterm o)).
Proof.
  intros H TM HC HU HS. destruct (step_parts cid m m' o H TM HC) as (et & EG & L & ER & EE & EM & TM').
  unfold evaluate_tables, emem_of. eapply runs_map_B.
  - eapply tables_ok; [exact L| |apply (ty_tabs _ TM')|apply (ty_et _ TM)|exact ER].
    pose proof (rd_tables u RU). lia.
  - cbv beta iota. rewrite EE. cbn [lift bind]. rewrite HU. rewrite nat_N_Z, Z.eqb_refl. cbn [negb].
    rewrite EM, HU. reflexivity.
Qed.

(** * All cycles *)
Variable n : nat.
Hypothesis HN : (n <= u_n u)%nat.
Hypothesis NC : no_collisions s n.
Variable V : nat -> Z -> bool.
Hypothesis CV : consistent c (u_x u) V.

Lemma run_step k m os : run s (S k) = Some (m, os) ->
  exists m1 os1 o, run s k = Some (m1, os1) /\ stepM k m1 = Some (m, o) /\ os = os1 ++ [o].
Proof.
  unfold run. cbn [machine_run]. intros H. ob H. destruct p as [m1 os1]. ob H. destruct p as [m2 o]. inversion H; subst.
  exists m1, os1, o. auto.
Qed.

(** Facts about each cycle of the run. *)
Record cycle_ok (cid : nat) (m m' : machine) (o : cycle_out) : Prop := {
  ck_step : stepM cid m = Some (m', o);
  ck_used : o_used o = Z.of_nat (length (o_sent o));
  ck_sent : (length (o_sent o) <= NumOfNonXor c)%nat;
  ck_gl : length (o_gouts o) = output_size c; ck_el : length (o_eouts o) = output_size c;
  ck_out : forall i w, nth_error (outputs c) i = Some w ->
     exists g e, nth_error (o_gouts o) i = Some g /\ nth_error (o_eouts o) i = Some e /\ decodes (V cid w) g e;
  ck_term : 0 < terminate_id c -> exists g e, o_gterm o = Some g /\ o_eterm o = Some e /\ decodes (V cid (terminate_id c)) g e }.

Lemma run_cycles : exists mN os, run s n = Some (mN, os) /\ length os = n /\
  forall k, (k < n)%nat -> exists m m' o os1, run s k = Some (m, os1) /\ run s (S k) = Some (m', os1 ++ [o]) /\
    nth_error os k = Some o /\ cycle_ok k m m' o.
Proof.
  pose proof (session_honest low u RU) as HO.
  destruct (run_decodes s n V HO NC CV) as (mN & os & E & L & D). exists mN, os. split; [exact E|]. split; [exact L|].
  destruct (run_table_sync s n HO NC) as (mN1 & os1 & E1 & _ & S1). rewrite E in E1. injection E1 as <- <-.
  destruct (run_tables s n HO) as (mN1 & os1 & E1 & _ & S2). rewrite E in E1. injection E1 as <- <-.
  assert (K : forall j, (j <= n)%nat -> exists m, run s j = Some (m, firstn j os)).
  { intros j Hj. remember (n - j)%nat as d eqn:Ed. revert j Hj Ed. induction d as [|d IH]; intros j Hj Ed.
    - assert (j = n) by lia. subst j. exists mN. rewrite <- L, firstn_all. rewrite L. exact E.
    - destruct (IH (S j) ltac:(lia) ltac:(lia)) as [m Hm]. apply run_step in Hm as (m1 & os1 & o & R1 & ST & EO).
      exists m1. rewrite R1. do 2 f_equal.
      assert (LO : length (firstn (S j) os) = S j) by (apply firstn_length_le; lia).
      destruct (nth_error os j) as [o'|] eqn:Ho; [|apply nth_error_None in Ho; lia].
      rewrite (firstn_nth_snoc _ _ _ Ho) in EO. apply app_inj_tail in EO as [EO _]. auto. }
  intros k Hk. destruct (K (S k) ltac:(lia)) as [m' Hm']. pose proof Hm' as Hm0.
  apply run_step in Hm' as (m & os1 & o & R1 & ST & EO).
  destruct (nth_error os k) as [o'|] eqn:Ho; [|apply nth_error_None in Ho; lia].
  rewrite (firstn_nth_snoc _ _ _ Ho) in EO, Hm0. apply app_inj_tail in EO as [EO ->]. subst os1.
  exists m, m', o, (firstn k os). split; [exact R1|]. split; [exact Hm0|]. split; [reflexivity|].
  destruct (D k o Ho) as (D1 & D2 & D3 & D4). pose proof (nth_error_In _ _ Ho) as HI.
  constructor; auto. apply (S2 o HI).
Qed.
End Ready.
