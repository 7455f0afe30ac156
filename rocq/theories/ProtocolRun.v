(** The cycle loops of both modes: proofs. *)
From Coq Require Import ZArith NArith List Bool Lia.
From Verif Require Import Base Gate Circuit CycleModel Spec Fanout GateFacts Prefix Run Safe Demo Results
  Proc Codec Tcp BN OT OTExt Rand Bounded Tables Protocol Transfer OutTransfer ProtocolOk.
Import ListNotations.
Open Scope Z_scope.

(** * What a run shows *)
Definition out_at (s : session) (cid : nat) : option cycle_out :=
  match run s (S cid) with Some (_, os) => nth_error os cid | None => None end.
(** Output [i] of cycle [cid] is secret. *)
Definition out_secret (s : session) (cid i : nat) : bool :=
  match out_at s cid with
  | Some o => match nth_error (o_gouts o) i with Some g => IsSecret (snd g) | None => true end
  | None => true
  end.
(** So is the terminate signal. *)
Definition term_secret (s : session) (cid : nat) : bool :=
  match out_at s cid with
  | Some o => match o_gterm o with Some g => IsSecret (snd g) | None => true end
  | None => true
  end.

(** The outputs of cycle [cid] with their secrecy. *)
Definition cycle_bits (s : session) (V : nat -> Z -> bool) (cid : nat) : list (bool * bool) :=
  combine (map (out_secret s cid) (seq 0 (output_size (s_c s)))) (map (V cid) (outputs (s_c s))).

Fixpoint collect (f : nat -> N -> N) (cid d : nat) (n : N) : N :=
  match d with O => n | S d' => collect f (S cid) d' (f cid n) end.
Lemma collect_snoc f : forall d cid n, collect f cid (S d) n = f (cid + d)%nat (collect f cid d n).
Proof.
  induction d as [|d IH]; intros cid n; [cbn; rewrite Nat.add_0_r; reflexivity|].
  change (collect f cid (S (S d)) n) with (collect f (S cid) (S d) (f cid n)). rewrite IH.
  cbn [collect]. f_equal. lia.
Qed.

Lemma nth_error_seq_map {A} (f : nat -> A) n i : (i < n)%nat -> nth_error (map f (seq 0 n)) i = Some (f i).
Proof. intros H. rewrite (map_nth_error _ _ _ (seq_nth_error _ _ H)). reflexivity. Qed.
Lemma list_seq_map {A B} (f : A -> B) (g : nat -> B) (l : list A) :
  (forall i x, nth_error l i = Some x -> f x = g i) -> map f l = map g (seq 0 (length l)).
Proof.
  revert g. induction l as [|x l IH]; intros g H; [reflexivity|]. cbn [length seq map]. f_equal; [exact (H O x eq_refl)|].
  rewrite <- seq_shift, map_map. apply IH. intros i y Hy. exact (H (S i) y Hy).
Qed.

Section Loops.
Variable u : setup.
Hypothesis RU : ready u.
Variable low : bool.
Notation s := (session_of low u).
Notation c := (u_c u).
Notation period := (terminate_period (u_opt u)).
Notation mask := (output_mask (u_opt u)).
Variable V : nat -> Z -> bool.
Definition stops (cid : nat) : bool := inspected c period cid && V cid (terminate_id c).

Lemma typed_run : forall k m os, (k <= u_n u)%nat -> run s k = Some (m, os) -> typed m.
Proof.
  induction k as [|k IH]; intros m os HK HR.
  - cbn in HR. injection HR as <- <-. apply (rd_typed u RU).
  - apply run_step in HR as (m1 & os1 & o & R1 & ST & _).
    destruct (step_parts u RU low k m1 m o ST (IH m1 os1 ltac:(lia) R1) ltac:(lia)) as (et & _ & _ & _ & _ & _ & T). exact T.
Qed.

Lemma bits_at k o : out_at s k = Some o -> length (o_gouts o) = output_size c ->
  output_bits (o_gouts o) (map (V k) (outputs c)) = cycle_bits s V k.
Proof.
  intros Ho L. unfold output_bits, cycle_bits. change (s_c s) with c. rewrite <- L. f_equal. apply list_seq_map.
  intros i x Hx. unfold out_secret. rewrite Ho, Hx. reflexivity.
Qed.
Lemma cycle_bits_length k : length (cycle_bits s V k) = output_size c.
Proof. unfold cycle_bits. rewrite combine_length, !map_length, seq_length. change (s_c s) with c. unfold output_size. lia. Qed.

(** Output transfer of one cycle, from lists starting with its outputs. *)
Lemma transfer_at off k m m' o gs es na nb : cycle_ok u low V k m m' o -> out_at s k = Some o ->
  runs (transfer_outputs (garble_output mask off) (o_gouts o ++ gs) (output_size c) (Z.of_N na))
    (transfer_outputs (evaluate_output mask off) (o_eouts o ++ es) (output_size c) (Z.of_N nb))
    (Z.of_N (deliver (stepA mask off) 0 (cycle_bits s V k) na)) (Z.of_N (deliver (stepB mask off) 0 (cycle_bits s V k) nb)).
Proof.
  intros CK Ho. rewrite <- (bits_at k o Ho (ck_gl _ _ _ _ _ _ _ CK)).
  pose proof (ck_gl _ _ _ _ _ _ _ CK) as GL. pose proof (ck_el _ _ _ _ _ _ _ CK) as EL.
  assert (F : firstn (output_size c) (o_gouts o ++ gs) = o_gouts o) by (apply firstn_app_exact; exact GL).
  rewrite <- F at 2 3.
  apply outputs_ok; auto.
  - rewrite map_length. reflexivity.
  - rewrite firstn_length, app_length. lia.
  - intros i b Hb. destruct (nth_error (outputs c) i) as [w|] eqn:Hw.
    + rewrite (map_nth_error _ _ _ Hw) in Hb. injection Hb as <-.
      destruct (ck_out _ _ _ _ _ _ _ CK i w Hw) as (g & e & Hg & He & D). exists g, e.
      pose proof (proj1 (nth_error_Some (o_gouts o) i) ltac:(congruence)) as L1.
      pose proof (proj1 (nth_error_Some (o_eouts o) i) ltac:(congruence)) as L2.
      rewrite !nth_error_app1 by assumption. auto.
    + apply nth_error_None in Hw. assert (nth_error (map (V k) (outputs c)) i = None) by (apply nth_error_None; rewrite map_length; auto). congruence.
Qed.

(** The terminate signal of one cycle. *)
Lemma term_at k m m' o : cycle_ok u low V k m m' o -> out_at s k = Some o ->
  (inspected c period k = true -> term_secret s k = false) ->
  runs (if inspected c period k then GarbleTransferTerminate (o_gterm o) else Ret false)
    (if inspected c period k then EvaluateTransferTerminate (o_eterm o) else Ret false) (stops k) (stops k).
Proof.
  intros CK Ho HS. unfold stops. destruct (inspected c period k) eqn:EI; cbn [andb]; [|apply runs_ret].
  specialize (HS eq_refl). unfold inspected in EI. apply andb_true_iff in EI as [EI _]. apply andb_true_iff in EI as [_ EI].
  apply Z.ltb_lt in EI. destruct (ck_term _ _ _ _ _ _ _ CK EI) as (g & e & Hg & He & D).
  unfold term_secret in HS. rewrite Ho, Hg in HS. rewrite Hg, He. apply terminate_ok; auto.
Qed.
Lemma term_dead k m m' o : cycle_ok u low V k m m' o -> out_at s k = Some o ->
  inspected c period k = true -> term_secret s k = true ->
  deadlocks (if inspected c period k then GarbleTransferTerminate (o_gterm o) else Ret false)
    (if inspected c period k then EvaluateTransferTerminate (o_eterm o) else Ret false).
Proof.
  intros CK Ho EI HS. rewrite EI. unfold inspected in EI. apply andb_true_iff in EI as [EI _]. apply andb_true_iff in EI as [_ EI].
  apply Z.ltb_lt in EI. destruct (ck_term _ _ _ _ _ _ _ CK EI) as (g & e & Hg & He & D).
  unfold term_secret in HS. rewrite Ho, Hg in HS. rewrite Hg, He. apply terminate_deadlock; auto.
  destruct D as [[E1 _]|(_ & S2 & _)]; [|exact S2]. rewrite E1 in HS. destruct (V k (terminate_id c)); discriminate.
Qed.
Hypothesis CV : consistent c (u_x u) V.
(** Cycles considered *)
Variable n : nat.
Hypothesis HN : (n <= u_n u)%nat.
Hypothesis NC : no_collisions s n.

Lemma cycle_at k : (k < n)%nat -> exists m m' o os1, run s k = Some (m, os1) /\ run s (S k) = Some (m', os1 ++ [o]) /\
  length os1 = k /\ out_at s k = Some o /\ cycle_ok u low V k m m' o /\ typed m.
Proof.
  intros HK. destruct (run_cycles u RU low n HN NC V CV) as (mN & os & E & L & D).
  destruct (D k HK) as (m & m' & o & os1 & R1 & R2 & Ho & CK). exists m, m', o, os1.
  assert (LO : length os1 = k).
  { destruct (run_tables s k (session_honest low u RU)) as (m2 & os2 & E2 & L2 & _). rewrite R1 in E2. injection E2 as <- <-. exact L2. }
  split; [exact R1|]. split; [exact R2|]. split; [exact LO|].
  split; [unfold out_at; rewrite R2; rewrite nth_error_app2 by lia; rewrite LO, Nat.sub_diag; reflexivity|].
  split; [exact CK|]. eapply typed_run; [|exact R1]. lia.
Qed.

End Loops.

(** [T] is the number of cycles executed from [cid] on. *)
Definition ends_at (stop : nat -> bool) (n cid T : nat) : Prop :=
  (cid <= T <= n)%nat /\ (forall k, (cid <= k)%nat -> (S k < T)%nat -> stop k = false) /\
  (T = n \/ ((cid < T)%nat /\ stop (T - 1)%nat = true)).
Lemma ends_next stop n cid T : (cid < n)%nat -> ends_at stop n cid T ->
  (cid < T)%nat /\ (stop cid = true -> T = S cid) /\ (stop cid = false -> ends_at stop n (S cid) T).
Proof.
  intros HC ([A1 A2] & B & D). assert (H : (cid < T)%nat) by (destruct D as [->|[? _]]; auto). split; [exact H|]. split.
  - intros HS. destruct (Nat.eq_dec T (S cid)) as [|NE]; [auto|]. rewrite (B cid) in HS by lia. discriminate.
  - intros HS. split; [lia|]. split; [intros k K1 K2; apply B; lia|].
    destruct D as [->|[D1 D2]]; [auto|]. right. split; [|exact D2].
    destruct (Nat.eq_dec T (S cid)) as [->|]; [|lia]. replace (S cid - 1)%nat with cid in D2 by lia. congruence.
Qed.

(** * Low memory *)
Section Low.
Variable u : setup.
Hypothesis RU : ready u.
Notation s := (session_of true u).
Notation c := (u_c u).
Notation opt := (u_opt u).
Notation x := (u_x u).
Variable V : nat -> Z -> bool.
Hypothesis CV : consistent c x V.
Variable n : nat.
Hypothesis HN : (n <= u_n u)%nat.
Hypothesis NC : no_collisions s n.

Notation off := (output_bit_offset c (output_mode opt)).
Definition lowA (cid : nat) : N -> N := deliver (stepA (output_mask opt) (off cid)) 0 (cycle_bits s V cid).
Definition lowB (cid : nat) : N -> N := deliver (stepB (output_mask opt) (off cid)) 0 (cycle_bits s V cid).
Definition bodyA : nat -> gmem -> BIGNUM -> proc (option (gmem * BIGNUM * bool)) :=
  garble_cycle_low (u_AES u) (u_sha u) c opt (u_coins u) (p_init x) (p_input x) (g_input x) (u_R u) (u_key u) (u_ra u) 2 (the_fan c)
    (init_pairs true u).
Definition bodyB : nat -> emem -> BIGNUM -> proc (option (emem * BIGNUM * bool)) :=
  evaluate_cycle_low (u_AES u) (u_sha u) c opt (u_coins u) (p_init x) (p_input x) (e_input x) (u_key u) (u_rnd u) (the_fan c)
    (init_labels true u).

Lemma low_transfer k : (k < u_n u)%nat ->
  runs (GarbleTransfer (u_sha u) (disable_OT opt) (u_coins u (S k)) (g_input x) (low_pairs u k) (g_input_size c) (k * g_input_size c) (k * e_input_size c))
    (EvaluateTransfer (u_sha u) (disable_OT opt) (u_coins u (S k)) (e_input x) (g_input_size c) (e_input_size c) (k * e_input_size c))
    (Some tt) (Some (low_labels u k)).
Proof.
  intros HK. apply transfer_ok.
  - apply (rd_sha u RU).
  - intros D. apply (rd_coins u RU D).
  - pose proof (rd_ot u RU) as Q. nia.
  - apply fresh_128; [apply R_128; auto|apply (rd_ra u RU)].
  - intros D. apply (rd_fits u RU D).
  - unfold low_pairs. rewrite fresh_length. reflexivity.
Qed.

Lemma body_ok k m m' o os1 na nb : (k < n)%nat -> run s k = Some (m, os1) -> cycle_ok u true V k m m' o -> out_at s k = Some o ->
  (inspected c (terminate_period opt) k = true -> term_secret s k = false) ->
  runs (bodyA k (gmem_of m) (Z.of_N na)) (bodyB k (emem_of m) (Z.of_N nb))
    (Some (gmem_of m', Z.of_N (lowA k na), stops u V k)) (Some (emem_of m', Z.of_N (lowB k nb), stops u V k)).
Proof.
  intros HK R1 CK Ho HT. pose proof (typed_run u RU true k m os1 ltac:(lia) R1) as TM.
  destruct (step_parts u RU true k m m' o (ck_step _ _ _ _ _ _ _ CK) TM ltac:(lia)) as (et & EG & _).
  unfold bodyA, bodyB, garble_cycle_low, evaluate_cycle_low, gmem_of. 
  eapply runs_obind; [apply low_transfer; lia|]. cbv beta.
  change (fresh_pairs (u_R u) (u_ra u) (low_input_from c 2 k) (get_secret_input_size c)) with (low_pairs u k).
  change (rd (init_pairs true u)) with (s_ginit s) in *. change (fun i => nth_error (low_pairs u k) i) with (s_gin s k).
  rewrite EG. cbn [lift bind].
  change (runs (bind (SendTables (m_tabs m') (Z.of_nat (length (o_sent o)))) ?f) (obindp ?q ?g) ?a ?b) with
     (runs (bind (SendTables (m_tabs m') (Z.of_nat (length (o_sent o)))) f) (bind q (fun x => match x with Some a0 => g a0 | None => Ret None end)) a b).
  eapply runs_bind; [apply (tables_step u RU true k m m' o (ck_step _ _ _ _ _ _ _ CK) TM ltac:(lia) (ck_used _ _ _ _ _ _ _ CK) (ck_sent _ _ _ _ _ _ _ CK))|].
  cbv beta iota.
  eapply runs_bind.
  - pose proof (transfer_at u true V (off k) k m m' o [] [] na nb CK Ho) as Q. rewrite !app_nil_r in Q. exact Q.
  - cbv beta. eapply runs_bind; [apply (term_at u true V k m m' o CK Ho HT)|]. cbv beta. apply runs_ret.
Qed.
Lemma body_dead k m m' o os1 na nb : (k < n)%nat -> run s k = Some (m, os1) -> cycle_ok u true V k m m' o -> out_at s k = Some o ->
  inspected c (terminate_period opt) k = true -> term_secret s k = true ->
  deadlocks (bodyA k (gmem_of m) (Z.of_N na)) (bodyB k (emem_of m) (Z.of_N nb)).
Proof.
  intros HK R1 CK Ho HI HT. pose proof (typed_run u RU true k m os1 ltac:(lia) R1) as TM.
  destruct (step_parts u RU true k m m' o (ck_step _ _ _ _ _ _ _ CK) TM ltac:(lia)) as (et & EG & _).
  unfold bodyA, bodyB, garble_cycle_low, evaluate_cycle_low, gmem_of. 
  eapply deadlocks_oafter; [apply low_transfer; lia|]. cbv beta.
  change (fresh_pairs (u_R u) (u_ra u) (low_input_from c 2 k) (get_secret_input_size c)) with (low_pairs u k).
  change (rd (init_pairs true u)) with (s_ginit s) in *. change (fun i => nth_error (low_pairs u k) i) with (s_gin s k).
  rewrite EG. cbn [lift bind].
  change (deadlocks (bind (SendTables (m_tabs m') (Z.of_nat (length (o_sent o)))) ?f) (obindp ?q ?g)) with
     (deadlocks (bind (SendTables (m_tabs m') (Z.of_nat (length (o_sent o)))) f) (bind q (fun x => match x with Some a0 => g a0 | None => Ret None end))).
  eapply deadlocks_after; [apply (tables_step u RU true k m m' o (ck_step _ _ _ _ _ _ _ CK) TM ltac:(lia) (ck_used _ _ _ _ _ _ _ CK) (ck_sent _ _ _ _ _ _ _ CK))|].
  cbv beta iota.
  eapply deadlocks_after.
  - pose proof (transfer_at u true V (off k) k m m' o [] [] na nb CK Ho) as Q. rewrite !app_nil_r in Q. exact Q.
  - cbv beta. apply deadlocks_bind. apply (term_dead u true V k m m' o CK Ho HI HT).
Qed.

(** The loop. *)
Lemma loop_ok : forall k cid m os1 na nb, (cid + k = u_n u)%nat -> ends_at (stops u V) (u_n u) cid n ->
  run s cid = Some (m, os1) ->
  (forall j, (j < n)%nat -> inspected c (terminate_period opt) j = true -> term_secret s j = false) ->
  runs (cycles bodyA cid k (gmem_of m) (Z.of_N na)) (cycles bodyB cid k (emem_of m) (Z.of_N nb))
    (Some (n, Z.of_N (collect lowA cid (n - cid) na))) (Some (n, Z.of_N (collect lowB cid (n - cid) nb))).
Proof.
  induction k as [|k IH]; intros cid m os1 na nb HK HE HR HT.
  - destruct HE as ([A1 A2] & _). assert (n = cid) by lia. subst cid. rewrite Nat.sub_diag. cbn [cycles collect]. apply runs_ret.
  - destruct (ends_next (stops u V) (u_n u) cid n ltac:(lia) HE) as (L & HS1 & HS2).
    destruct (cycle_at u RU true V CV n HN NC cid L) as (m0 & m' & o & os0 & R1 & R2 & _ & Ho & CK & TM).
    rewrite HR in R1. injection R1 as <- <-. cbn [cycles].
    eapply runs_obind; [apply (body_ok cid m m' o os1 na nb L HR CK Ho); auto|]. cbv beta iota.
    destruct (stops u V cid) eqn:ES.
    + specialize (HS1 eq_refl). replace (n - cid)%nat with 1%nat by lia. cbn [collect]. rewrite HS1. apply runs_ret.
    + replace (n - cid)%nat with (S (n - S cid)) by lia. cbn [collect]. eapply IH; eauto. lia.
Qed.

(** Until a secret terminate signal is met. *)
Lemma loop_dead : forall k cid m os1 na nb D, (cid + k = u_n u)%nat -> n = S D -> (cid <= D)%nat ->
  run s cid = Some (m, os1) ->
  (forall j, (j < D)%nat -> stops u V j = false /\ (inspected c (terminate_period opt) j = true -> term_secret s j = false)) ->
  inspected c (terminate_period opt) D = true -> term_secret s D = true ->
  deadlocks (cycles bodyA cid k (gmem_of m) (Z.of_N na)) (cycles bodyB cid k (emem_of m) (Z.of_N nb)).
Proof.
  induction k as [|k IH]; intros cid m os1 na nb D HK HD HC HR HT HI HS; [lia|].
  destruct (cycle_at u RU true V CV n HN NC cid ltac:(lia)) as (m0 & m' & o & os0 & R1 & R2 & _ & Ho & CK & TM).
  rewrite HR in R1. injection R1 as <- <-. cbn [cycles].
  destruct (Nat.eq_dec cid D) as [->|NE].
  - apply deadlocks_obind. apply (body_dead D m m' o os1 na nb ltac:(lia) HR CK Ho HI HS).
  - destruct (HT cid ltac:(lia)) as [T1 T2].
    eapply deadlocks_oafter; [apply (body_ok cid m m' o os1 na nb ltac:(lia) HR CK Ho T2)|]. cbv beta iota. rewrite T1.
    eapply IH; eauto; lia.
Qed.

Lemma low_init : 
  runs (GarbleTransfer (u_sha u) (disable_OT opt) (u_coins u 0%nat) (g_init x) (init_pairs true u) (g_init_size c) 0 0)
    (EvaluateTransfer (u_sha u) (disable_OT opt) (u_coins u 0%nat) (e_init x) (g_init_size c) (e_init_size c) 0)
    (Some tt) (Some (init_labels true u)).
Proof.
  unfold init_labels. assert (L : length (init_pairs true u) = get_secret_init_size c) by (unfold init_pairs; apply fresh_length).
  rewrite <- L, firstn_all. apply transfer_ok.
  - apply (rd_sha u RU).
  - intros D. apply (rd_coins u RU D).
  - pose proof (rd_ot u RU). lia.
  - apply fresh_128; [apply R_128; auto|apply (rd_ra u RU)].
  - intros D. apply (rd_fits u RU D).
  - exact L.
Qed.

Lemma low_mode_ok : ends_at (stops u V) (u_n u) 0 n ->
  (forall j, (j < n)%nat -> inspected c (terminate_period opt) j = true -> term_secret s j = false) ->
  runs (GarbleBNLowMem (u_AES u) (u_sha u) c opt (u_coins u) (p_init x) (p_input x) (g_init x) (g_input x) (u_R u) (u_key u) (u_ra u) 2 (the_fan c) (gmem_of (u_m u)))
    (EvaluateBNLowMem (u_AES u) (u_sha u) c opt (u_coins u) (p_init x) (p_input x) (e_init x) (e_input x) (u_key u) (u_rnd u) (the_fan c) (emem_of (u_m u)))
    (Some (n, Z.of_N (collect lowA 0 n 0))) (Some (n, Z.of_N (collect lowB 0 n 0))).
Proof.
  intros HE HT. unfold GarbleBNLowMem, EvaluateBNLowMem.
  eapply runs_obind; [apply low_init|]. cbv beta.
  pose proof (loop_ok (u_n u) 0 (u_m u) [] 0%N 0%N eq_refl HE eq_refl HT) as Q. rewrite Nat.sub_0_r in Q. exact Q.
Qed.
Lemma low_mode_dead D : n = S D ->
  (forall j, (j < D)%nat -> stops u V j = false /\ (inspected c (terminate_period opt) j = true -> term_secret s j = false)) ->
  inspected c (terminate_period opt) D = true -> term_secret s D = true ->
  deadlocks (GarbleBNLowMem (u_AES u) (u_sha u) c opt (u_coins u) (p_init x) (p_input x) (g_init x) (g_input x) (u_R u) (u_key u) (u_ra u) 2 (the_fan c) (gmem_of (u_m u)))
    (EvaluateBNLowMem (u_AES u) (u_sha u) c opt (u_coins u) (p_init x) (p_input x) (e_init x) (e_input x) (u_key u) (u_rnd u) (the_fan c) (emem_of (u_m u))).
Proof.
  intros HD HT HI HS. unfold GarbleBNLowMem, EvaluateBNLowMem.
  eapply deadlocks_oafter; [apply low_init|]. cbv beta.
  apply (loop_dead (u_n u) 0 (u_m u) [] 0%N 0%N D eq_refl HD ltac:(lia) eq_refl HT HI HS).
Qed.
End Low.

(** * High memory *)
Section High.
Variable u : setup.
Hypothesis RU : ready u.
Notation s := (session_of false u).
Notation c := (u_c u).
Notation opt := (u_opt u).
Notation x := (u_x u).
Variable V : nat -> Z -> bool.
Hypothesis CV : consistent c x V.
Variable n : nat.
Hypothesis HN : (n <= u_n u)%nat.
Hypothesis NC : no_collisions s n.

Definition highA (cid : nat) : N -> N := deliver (stepA (output_mask opt) (cid * output_size c)) 0 (cycle_bits s V cid).
Definition highB (cid : nat) : N -> N := deliver (stepB (output_mask opt) (cid * output_size c)) 0 (cycle_bits s V cid).
Definition gouts_at (cid : nat) : list (BlockPair * Z) := match out_at s cid with Some o => o_gouts o | None => [] end.
Definition eouts_at (cid : nat) : list (block * Z) := match out_at s cid with Some o => o_eouts o | None => [] end.
Definition hbodyA (cid : nat) (m : gmem) (os : list (BlockPair * Z)) : proc (option (gmem * list (BlockPair * Z) * bool)) :=
  let! r := garble_cycle_high (u_AES u) c opt (p_init x) (p_input x) (u_R u) (u_key u) (the_fan c) (init_pairs false u) (high_pairs u) cid m os in Ret (Some r).
Definition hbodyB : nat -> emem -> list (block * Z) -> proc (option (emem * list (block * Z) * bool)) :=
  evaluate_cycle_high (u_AES u) c opt (p_init x) (p_input x) (u_key u) (u_rnd u) (the_fan c) (init_labels false u) (high_labels u).

Lemma gin_high k : (k < u_n u)%nat -> s_gin s k = (fun i => nth_error (high_pairs u) (k * get_secret_input_size c + i)).
Proof. intros H. cbn [session_of s_gin]. destruct (Nat.ltb_spec k (u_n u)); [reflexivity|lia]. Qed.
Lemma ein_high k : (k < u_n u)%nat -> s_ein s k = (fun i => match nth_error (high_labels u) k with None => None | Some l => nth_error l i end).
Proof. intros H. cbn [session_of s_ein]. destruct (Nat.ltb_spec k (u_n u)); [reflexivity|lia]. Qed.

Lemma hbody_ok k m m' o os1 gs es : (k < n)%nat -> run s k = Some (m, os1) -> cycle_ok u false V k m m' o -> out_at s k = Some o ->
  (inspected c (terminate_period opt) k = true -> term_secret s k = false) ->
  runs (hbodyA k (gmem_of m) gs) (hbodyB k (emem_of m) es)
    (Some (gmem_of m', gs ++ o_gouts o, stops u V k)) (Some (emem_of m', es ++ o_eouts o, stops u V k)).
Proof.
  intros HK R1 CK Ho HT. pose proof (typed_run u RU false k m os1 ltac:(lia) R1) as TM.
  destruct (step_parts u RU false k m m' o (ck_step _ _ _ _ _ _ _ CK) TM ltac:(lia)) as (et & EG & _).
  pose proof (tables_step u RU false k m m' o (ck_step _ _ _ _ _ _ _ CK) TM ltac:(lia) (ck_used _ _ _ _ _ _ _ CK) (ck_sent _ _ _ _ _ _ _ CK)) as TS.
  rewrite gin_high in EG by lia. rewrite ein_high in TS by lia.
  unfold hbodyA, hbodyB, garble_cycle_high, evaluate_cycle_high, gmem_of.
  change (rd (init_pairs false u)) with (s_ginit s) in *. rewrite EG. cbn [lift bind].
  eapply runs_map_A; [|cbv beta; reflexivity].
  eapply runs_bind; [exact TS|]. cbv beta iota.
  eapply runs_bind; [apply (term_at u false V k m m' o CK Ho HT)|]. cbv beta. apply runs_ret.
Qed.
Lemma hbody_dead k m m' o os1 gs es : (k < n)%nat -> run s k = Some (m, os1) -> cycle_ok u false V k m m' o -> out_at s k = Some o ->
  inspected c (terminate_period opt) k = true -> term_secret s k = true ->
  deadlocks (hbodyA k (gmem_of m) gs) (hbodyB k (emem_of m) es).
Proof.
  intros HK R1 CK Ho HI HT. pose proof (typed_run u RU false k m os1 ltac:(lia) R1) as TM.
  destruct (step_parts u RU false k m m' o (ck_step _ _ _ _ _ _ _ CK) TM ltac:(lia)) as (et & EG & _).
  pose proof (tables_step u RU false k m m' o (ck_step _ _ _ _ _ _ _ CK) TM ltac:(lia) (ck_used _ _ _ _ _ _ _ CK) (ck_sent _ _ _ _ _ _ _ CK)) as TS.
  rewrite gin_high in EG by lia. rewrite ein_high in TS by lia.
  unfold hbodyA, hbodyB, garble_cycle_high, evaluate_cycle_high, gmem_of.
  change (rd (init_pairs false u)) with (s_ginit s) in *. rewrite EG. cbn [lift bind].
  apply deadlocks_map_A.
  eapply deadlocks_after; [exact TS|]. cbv beta iota. apply deadlocks_bind. apply (term_dead u false V k m m' o CK Ho HI HT).
Qed.

(** The loop. *)
Lemma hloop_ok : forall k cid m os1 gs es, (cid + k = u_n u)%nat -> ends_at (stops u V) (u_n u) cid n ->
  run s cid = Some (m, os1) ->
  (forall j, (j < n)%nat -> inspected c (terminate_period opt) j = true -> term_secret s j = false) ->
  runs (cycles_high hbodyA cid k (gmem_of m) gs) (cycles_high hbodyB cid k (emem_of m) es)
    (Some (n, gs ++ flat_map gouts_at (seq cid (n - cid)))) (Some (n, es ++ flat_map eouts_at (seq cid (n - cid)))).
Proof.
  induction k as [|k IH]; intros cid m os1 gs es HK HE HR HT.
  - destruct HE as ([A1 A2] & _). assert (n = cid) by lia. subst cid. rewrite Nat.sub_diag. cbn [cycles_high seq flat_map].
    rewrite !app_nil_r. apply runs_ret.
  - destruct (ends_next (stops u V) (u_n u) cid n ltac:(lia) HE) as (L & HS1 & HS2).
    destruct (cycle_at u RU false V CV n HN NC cid L) as (m0 & m' & o & os0 & R1 & R2 & _ & Ho & CK & TM).
    rewrite HR in R1. injection R1 as <- <-. cbn [cycles_high].
    eapply runs_obind; [apply (hbody_ok cid m m' o os1 gs es L HR CK Ho); auto|]. cbv beta iota.
    assert (EA : gouts_at cid = o_gouts o) by (unfold gouts_at; rewrite Ho; reflexivity).
    assert (EB : eouts_at cid = o_eouts o) by (unfold eouts_at; rewrite Ho; reflexivity).
    destruct (stops u V cid) eqn:ES.
    + specialize (HS1 eq_refl). replace (n - cid)%nat with 1%nat by lia. cbn [seq flat_map]. rewrite EA, EB, !app_nil_r, HS1. apply runs_ret.
    + replace (n - cid)%nat with (S (n - S cid)) by lia. cbn [seq flat_map]. rewrite EA, EB, !app_assoc. eapply IH; eauto. lia.
Qed.
Lemma hloop_dead : forall k cid m os1 gs es D, (cid + k = u_n u)%nat -> n = S D -> (cid <= D)%nat ->
  run s cid = Some (m, os1) ->
  (forall j, (j < D)%nat -> stops u V j = false /\ (inspected c (terminate_period opt) j = true -> term_secret s j = false)) ->
  inspected c (terminate_period opt) D = true -> term_secret s D = true ->
  deadlocks (cycles_high hbodyA cid k (gmem_of m) gs) (cycles_high hbodyB cid k (emem_of m) es).
Proof.
  induction k as [|k IH]; intros cid m os1 gs es D HK HD HC HR HT HI HS; [lia|].
  destruct (cycle_at u RU false V CV n HN NC cid ltac:(lia)) as (m0 & m' & o & os0 & R1 & R2 & _ & Ho & CK & TM).
  rewrite HR in R1. injection R1 as <- <-. cbn [cycles_high].
  destruct (Nat.eq_dec cid D) as [->|NE].
  - apply deadlocks_obind. apply (hbody_dead D m m' o os1 gs es ltac:(lia) HR CK Ho HI HS).
  - destruct (HT cid ltac:(lia)) as [T1 T2].
    eapply deadlocks_oafter; [apply (hbody_ok cid m m' o os1 gs es ltac:(lia) HR CK Ho T2)|]. cbv beta iota. rewrite T1.
    eapply IH; eauto; lia.
Qed.

Lemma high_transfer :
  runs (GarbleTransferLabels (u_sha u) c opt (u_coins u 0%nat) (g_init x) (g_input x) (init_pairs false u) (high_pairs u))
    (EvaluateTransferLabels (u_sha u) c opt (u_coins u 0%nat) (e_init x) (e_input x))
    (Some tt) (Some (init_labels false u, high_labels u)).
Proof.
  apply transfer_all_ok.
  - apply (rd_sha u RU).
  - intros D. apply (rd_coins u RU D).
  - apply (rd_ot u RU).
  - apply (rd_fits u RU).
  - apply fresh_128; [apply R_128; auto|apply (rd_ra u RU)].
  - apply fresh_128; [apply R_128; auto|apply (rd_ra u RU)].
  - apply init_pairs_length.
  - apply high_length.
Qed.

Lemma outputs_all :
  runs (transfer_all c (garble_output (output_mask opt)) (flat_map gouts_at (seq 0 n)) n)
    (transfer_all c (evaluate_output (output_mask opt)) (flat_map eouts_at (seq 0 n)) n)
    (Z.of_N (collect highA 0 n 0)) (Z.of_N (collect highB 0 n 0)).
Proof.
  unfold transfer_all.
  match goal with |- runs (pfor ?f 0 n 0) (pfor ?g 0 n 0) _ _ =>
    destruct (runs_pfor f g (fun i a b => a = Z.of_N (collect highA 0 i 0) /\ b = Z.of_N (collect highB 0 i 0)) n 0 0 0) as (a & b & R & EA & EB) end.
  - split; reflexivity.
  - intros j a b [_ Hj] [-> ->]. cbn [Nat.add] in Hj.
    destruct (cycle_at u RU false V CV n HN NC j Hj) as (m & m' & o & os1 & _ & _ & _ & Ho & CK & _).
    rewrite !collect_snoc. cbn [Nat.add]. do 2 eexists. split; [|split; reflexivity].
    assert (SP : forall (A : Type) (f : nat -> list A), (forall k, (k < n)%nat -> length (f k) = output_size c) ->
      skipn (j * output_size c) (flat_map f (seq 0 n)) = f j ++ flat_map f (seq (S j) (n - S j))).
    { intros A f Hf. replace n with (j + S (n - S j))%nat at 1 by lia. rewrite seq_app, flat_map_app. cbn [Nat.add seq flat_map].
      apply skipn_app_exact. apply flat_length. intros k Hk; apply Hf; lia. }
    rewrite !SP.
    + assert (EGs : gouts_at j = o_gouts o) by (unfold gouts_at; rewrite Ho; reflexivity).
      assert (EEs : eouts_at j = o_eouts o) by (unfold eouts_at; rewrite Ho; reflexivity).
      rewrite EGs, EEs. apply (transfer_at u false V (j * output_size c) j m m' o _ _ _ _ CK Ho).
    + intros k Hk. destruct (cycle_at u RU false V CV n HN NC k Hk) as (? & ? & o' & ? & _ & _ & _ & Ho' & CK' & _).
      unfold eouts_at. rewrite Ho'. apply (ck_el _ _ _ _ _ _ _ CK').
    + intros k Hk. destruct (cycle_at u RU false V CV n HN NC k Hk) as (? & ? & o' & ? & _ & _ & _ & Ho' & CK' & _).
      unfold gouts_at. rewrite Ho'. apply (ck_gl _ _ _ _ _ _ _ CK').
  - cbn [Nat.add] in EA, EB. subst a b. exact R.
Qed.

Lemma high_mode_ok : ends_at (stops u V) (u_n u) 0 n ->
  (forall j, (j < n)%nat -> inspected c (terminate_period opt) j = true -> term_secret s j = false) ->
  runs (GarbleBNHighMem (u_AES u) (u_sha u) c opt (u_coins u) (p_init x) (p_input x) (g_init x) (g_input x) (u_R u) (u_key u) (u_ra u) 2 (the_fan c) (gmem_of (u_m u)))
    (EvaluateBNHighMem (u_AES u) (u_sha u) c opt (u_coins u) (p_init x) (p_input x) (e_init x) (e_input x) (u_key u) (u_rnd u) (the_fan c) (emem_of (u_m u)))
    (Some (n, Z.of_N (collect highA 0 n 0))) (Some (n, Z.of_N (collect highB 0 n 0))).
Proof.
  intros HE HT. unfold GarbleBNHighMem, EvaluateBNHighMem.
  eapply runs_obind; [apply high_transfer|]. cbv beta iota.
  pose proof (hloop_ok (u_n u) 0 (u_m u) [] [] [] eq_refl HE eq_refl HT) as Q. rewrite Nat.sub_0_r in Q. cbn [app] in Q.
  unfold obindp. eapply runs_bind; [exact Q|]. cbv beta iota.
  eapply runs_bind; [apply outputs_all|]. cbv beta. apply runs_ret.
Qed.
Lemma high_mode_dead D : n = S D ->
  (forall j, (j < D)%nat -> stops u V j = false /\ (inspected c (terminate_period opt) j = true -> term_secret s j = false)) ->
  inspected c (terminate_period opt) D = true -> term_secret s D = true ->
  deadlocks (GarbleBNHighMem (u_AES u) (u_sha u) c opt (u_coins u) (p_init x) (p_input x) (g_init x) (g_input x) (u_R u) (u_key u) (u_ra u) 2 (the_fan c) (gmem_of (u_m u)))
    (EvaluateBNHighMem (u_AES u) (u_sha u) c opt (u_coins u) (p_init x) (p_input x) (e_init x) (e_input x) (u_key u) (u_rnd u) (the_fan c) (emem_of (u_m u))).
Proof.
  intros HD HT HI HS. unfold GarbleBNHighMem, EvaluateBNHighMem.
  eapply deadlocks_oafter; [apply high_transfer|]. cbv beta iota. unfold obindp. apply deadlocks_bind.
  apply (hloop_dead (u_n u) 0 (u_m u) [] [] [] D eq_refl HD ltac:(lia) eq_refl HT HI HS).
Qed.
End High.

(** * Both modes, from the entry points *)
Definition is_low (foot : bool) (u : setup) : bool := foot && (1 <? u_n u)%nat.
Definition sess (foot : bool) (u : setup) : session := session_of (is_low foot u) u.
Definition offset_of (foot : bool) (u : setup) (cid : nat) : nat :=
  if is_low foot u then output_bit_offset (u_c u) (output_mode (u_opt u)) cid else (cid * output_size (u_c u))%nat.
Definition outA (foot : bool) (u : setup) (V : nat -> Z -> bool) (T : nat) : N :=
  collect (fun cid => deliver (stepA (output_mask (u_opt u)) (offset_of foot u cid)) 0 (cycle_bits (sess foot u) V cid)) 0 T 0.
Definition outB (foot : bool) (u : setup) (V : nat -> Z -> bool) (T : nat) : N :=
  collect (fun cid => deliver (stepB (output_mask (u_opt u)) (offset_of foot u cid)) 0 (cycle_bits (sess foot u) V cid)) 0 T 0.

Lemma key_wire u : ready u -> of_le (le 16 (u_key u)) = u_key u.
Proof. intros H. apply of_le_small. apply (rd_ra u H 1%nat). Qed.
Lemma term_cond u : ready u -> negb (terminate_period (u_opt u) =? 0) && (terminate_id (u_c u) =? 0) = false.
Proof.
  intros H. destruct (rd_term u H) as [->|NE]; [reflexivity|]. rewrite (proj2 (Z.eqb_neq _ _) NE). apply andb_false_r.
Qed.
Lemma zero_cycles u : ready u -> (clock_cycles (u_opt u) =? 0)%nat = false.
Proof. intros H. apply Nat.eqb_neq. pose proof (rd_cycles u H) as [Q _]. unfold u_n in Q. lia. Qed.

Section Entry.
Variable u : setup.
Hypothesis RU : ready u.
Variable foot : bool.
Notation s := (sess foot u).
Variable V : nat -> Z -> bool.
Hypothesis CV : consistent (u_c u) (u_x u) V.

Lemma programs_ok T : no_collisions s T -> ends_at (stops u V) (u_n u) 0 T ->
  (forall j, (j < T)%nat -> inspected (u_c u) (terminate_period (u_opt u)) j = true -> term_secret s j = false) ->
  runs (garbler foot u) (evaluator foot u) (Some (T, Z.of_N (outA foot u V T))) (Some (T, Z.of_N (outB foot u V T))).
Proof.
  intros NC HE HT. unfold garbler, evaluator, Garble, Evaluate. rewrite zero_cycles by auto.
  destruct (rd_junk u RU) as [JA JB].
  destruct (fan_is (u_c u) (u_junkA u) (rd_wf u RU) JA) as [oka ->], (fan_is (u_c u) (u_junkB u) (rd_wf u RU) JB) as [okb ->].
  cbn [lift bind]. rewrite term_cond by auto.
  eapply runs_bind; [apply runs_msg with (n := 16%nat) (bs := le 16 (u_key u)); [rewrite le_length; auto|apply runs_ret]|].
  cbv beta. rewrite key_wire by auto. change (u_ra u 1%nat) with (u_key u). change (make_R (u_ra u 0%nat)) with (u_R u).
  change (foot && (1 <? clock_cycles (u_opt u))%nat) with (is_low foot u).
  unfold outA, outB, offset_of, sess in *. destruct (is_low foot u).
  - apply (low_mode_ok u RU V CV T); auto. apply (proj1 HE).
  - apply (high_mode_ok u RU V CV T); auto. apply (proj1 HE).
Qed.
Lemma programs_dead D : (D < u_n u)%nat -> no_collisions s (S D) ->
  (forall j, (j < D)%nat -> stops u V j = false /\ (inspected (u_c u) (terminate_period (u_opt u)) j = true -> term_secret s j = false)) ->
  inspected (u_c u) (terminate_period (u_opt u)) D = true -> term_secret s D = true ->
  deadlocks (garbler foot u) (evaluator foot u).
Proof.
  intros HD NC HT HI HS. unfold garbler, evaluator, Garble, Evaluate. rewrite zero_cycles by auto.
  destruct (rd_junk u RU) as [JA JB].
  destruct (fan_is (u_c u) (u_junkA u) (rd_wf u RU) JA) as [oka ->], (fan_is (u_c u) (u_junkB u) (rd_wf u RU) JB) as [okb ->].
  cbn [lift bind]. rewrite term_cond by auto.
  eapply deadlocks_after; [apply runs_msg with (n := 16%nat) (bs := le 16 (u_key u)); [rewrite le_length; auto|apply runs_ret]|].
  cbv beta. rewrite key_wire by auto. change (u_ra u 1%nat) with (u_key u). change (make_R (u_ra u 0%nat)) with (u_R u).
  change (foot && (1 <? clock_cycles (u_opt u))%nat) with (is_low foot u).
  unfold sess in *. destruct (is_low foot u).
  - apply (low_mode_dead u RU V CV (S D) HD NC D eq_refl HT HI HS).
  - apply (high_mode_dead u RU V CV (S D) HD NC D eq_refl HT HI HS).
Qed.
End Entry.
