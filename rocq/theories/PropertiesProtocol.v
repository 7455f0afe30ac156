(** Theorems about the two programs talking to each other; each is followed by a
    concrete case that meets its hypotheses.

    [good_run foot u V T]: the setup [u] is [ready] (well-formed circuit of
    bounded size, memory as allocated, values of the right types), [V] are the
    plaintext values of all wires in all cycles, no accidental label collision
    occurs in the first [T] cycles, a plaintext evaluation executes [T] cycles,
    and the terminate signal is public whenever it is looked at.
    [both_end foot u T A B]: under every schedule both programs return SUCCESS
    after [T] cycles with results [A] (garbler) and [B] (evaluator). *)
From Coq Require Import ZArith NArith List Bool Lia.
From Verif Require Import Base Gate Circuit CycleModel Spec Run Results
  Proc Codec BN Rand Bounded Tables Protocol Transfer OutTransfer ProtocolOk ProtocolRun EndToEnd Modes Leaks
  Demo ProtocolDemo ProtocolResults.
Import ListNotations.
Open Scope Z_scope.

(** * C11 Low- and high-memory modes agree *)
Theorem C11_modes_agree : forall ul uh,
  ready ul -> ready uh -> u_c ul = u_c uh -> u_opt ul = u_opt uh -> u_x ul = u_x uh ->
  forall V, consistent (u_c ul) (u_x ul) V -> forall T,
  no_collisions (sess true ul) T -> no_collisions (sess false uh) T ->
  executes ul V T -> public_terminate (sess true ul) (terminate_period (u_opt ul)) T ->
  exists Al Bl Ah Bh,
  always_finish (garbler true ul) (evaluator true ul) (Some (T, Z.of_N Al)) (Some (T, Z.of_N Bl)) /\
  always_finish (garbler false uh) (evaluator false uh) (Some (T, Z.of_N Ah)) (Some (T, Z.of_N Bh)) /\
  (output_mode (u_opt ul) <> last_clock -> Al = Ah /\ Bl = Bh) /\
  (output_mode (u_opt ul) = last_clock -> (1 < u_n ul)%nat -> forall i, (i < output_size (u_c ul))%nat ->
     N.testbit Al (N.of_nat i) = bit_of Ah uh (T - 1) i /\
     (~ hidden (sess true ul) ul V (T - 1) i -> N.testbit Bl (N.of_nat i) = bit_of Bh uh (T - 1) i)).
Proof. exact modes_agree. Qed.
Print Assumptions C11_modes_agree.
(** Sequential circuit with registers, oblivious transfer, four of six cycles. *)
Example C11_example : exists A B,
  both_end true (demo_u 9 consecutive) 4 A B /\ both_end false (demo_u 9 consecutive) 4 A B /\ A = 32800%N /\ B = 541266%N.
Proof.
  set (u := demo_u 9 consecutive).
  pose proof (both_finish _ _ _ _ (demo_good 9 consecutive true)) as E1.
  pose proof (both_finish _ _ _ _ (demo_good 9 consecutive false)) as E2. fold u in E1, E2.
  destruct (C11_modes_agree u u (demo_u_ready _ _) (demo_u_ready _ _) eq_refl eq_refl eq_refl demo_plain (demo_u_plain _ _) 4
    (demo_u_free _ _ _) (demo_u_free _ _ _) (demo_u_executes _ _) (demo_u_public _ _ _)) as (Al & Bl & Ah & Bh & R1 & R2 & Q & _).
  - destruct (Q ltac:(discriminate)) as [<- <-]. exists Al, Bl. split; [exact R1|]. split; [exact R2|].
    destruct (both_end_unique _ _ _ _ _ _ _ _ R1 E1) as (_ & -> & ->). split; vm_compute; reflexivity.
Qed.

(** * C46 The condition in C11 is needed: stale outputs in last-cycle mode *)
Theorem C46_modes_agree_last_cycle_refuted : exists u V T Al Bl Ah Bh i,
  good_run true u V T /\ good_run false u V T /\ both_end true u T Al Bl /\ both_end false u T Ah Bh /\
  output_mode (u_opt u) = last_clock /\ (i < output_size (u_c u))%nat /\
  N.testbit Bl (N.of_nat i) = true /\ bit_of Bh u (T - 1) i = false.
Proof. exact stale_output. Qed.
Print Assumptions C46_modes_agree_last_cycle_refuted.

(** * C12 Secret outputs go to exactly one party *)
Theorem C12_secret_outputs : forall foot u V T, good_run foot u V T -> exists A B, both_end foot u T A B /\
  forall cy i w, (shown_from foot u T <= cy < T)%nat -> nth_error (outputs (u_c u)) i = Some w -> out_secret (sess foot u) cy i = true ->
    let c := (cy - shown_from foot u T)%nat in
    if to_garbler u i then bit_of A u c i = V cy w /\ bit_of B u c i = false
    else bit_of A u c i = false /\ bit_of B u c i = V cy w.
Proof. exact secret_outputs. Qed.
Print Assumptions C12_secret_outputs.
(** Output 0 goes to the garbler, output 1, which is 1 in cycle 0, to the evaluator. *)
Example C12_example : exists A B, both_end true (demo_u 1 consecutive) 4 A B /\
  bit_of A (demo_u 1 consecutive) 1 0 = true /\ bit_of B (demo_u 1 consecutive) 1 0 = false /\
  bit_of A (demo_u 1 consecutive) 0 1 = false /\ bit_of B (demo_u 1 consecutive) 0 1 = true.
Proof.
  destruct (C12_secret_outputs true (demo_u 1 consecutive) demo_plain 4 (demo_good 1 consecutive true)) as (A & B & E & H).
  exists A, B. split; [exact E|].
  destruct (H 1%nat 0%nat 15 ltac:(cbn; lia) eq_refl ltac:(vm_compute; reflexivity)) as [Q1 Q2].
  destruct (H 0%nat 1%nat 17 ltac:(cbn; lia) eq_refl ltac:(vm_compute; reflexivity)) as [Q3 Q4].
  cbn [shown_from is_low andb demo_u example u_opt output_mode demo_opt Nat.sub] in *.
  split; [etransitivity; [exact Q1|vm_compute; reflexivity]|]. split; [exact Q2|]. split; [exact Q3|].
  etransitivity; [exact Q4|vm_compute; reflexivity].
Qed.

(** * C13 Public outputs can be lost under a mask *)
Theorem C13_public_output_lost : forall foot u V T A B, good_run foot u V T -> both_end foot u T A B -> keeps_all foot u ->
  forall cy i, (cy < T)%nat -> hidden (sess foot u) u V cy i -> bit_of A u cy i = false /\ bit_of B u cy i = false.
Proof. exact public_lost. Qed.
Print Assumptions C13_public_output_lost.
Theorem C13_every_one_reported_refuted :
  ~ (forall foot u V T A B, good_run foot u V T -> both_end foot u T A B -> keeps_all foot u ->
     forall cy i w, (cy < T)%nat -> nth_error (outputs (u_c u)) i = Some w -> V cy w = true ->
     bit_of A u cy i = true \/ bit_of B u cy i = true).
Proof. exact every_one_reported_refuted. Qed.
Print Assumptions C13_every_one_reported_refuted.
Example C13_example : good_run true (demo_u 8 consecutive) demo_plain 4 /\
  hidden (sess true (demo_u 8 consecutive)) (demo_u 8 consecutive) demo_plain 0 2.
Proof. split; [apply demo_good|apply demo_hidden]. Qed.

(** * C14 Termination agreement on public terminate signals *)
Theorem C14_same_cycles : forall foot u V, ready u -> consistent (u_c u) (u_x u) V ->
  exists T, executes u V T /\ (forall T', executes u V T' -> T' = T) /\
    (no_collisions (sess foot u) T -> public_terminate (sess foot u) (terminate_period (u_opt u)) T ->
     exists A B, always_finish (garbler foot u) (evaluator foot u) (Some (T, A)) (Some (T, B))).
Proof. exact same_cycles. Qed.
Print Assumptions C14_same_cycles.
(** Of six cycles four are executed, as in plaintext. *)
Example C14_example : exists A B, (4 < u_n (demo_u 0 separated_clock))%nat /\
  always_finish (garbler false (demo_u 0 separated_clock)) (evaluator false (demo_u 0 separated_clock)) (Some (4%nat, A)) (Some (4%nat, B)).
Proof.
  destruct (C14_same_cycles false (demo_u 0 separated_clock) demo_plain) as (T & HT & HU & H).
  - apply demo_u_ready.
  - apply demo_u_plain.
  - rewrite <- (HU 4%nat (demo_u_executes 0 separated_clock)) in H.
    destruct (H (demo_u_free _ _ _) (demo_u_public _ _ _)) as (A & B & F). exists A, B. split; [cbn; lia|exact F].
Qed.

(** * C15 A secret terminate signal deadlocks *)
Theorem C15_secret_terminate_deadlocks : forall u foot V D, ready u -> consistent (u_c u) (u_x u) V ->
  (D < u_n u)%nat -> no_collisions (sess foot u) (S D) ->
  (forall cy, (cy < D)%nat -> ~ terminates u V cy) ->
  public_terminate (sess foot u) (terminate_period (u_opt u)) D ->
  checked (u_c u) (terminate_period (u_opt u)) D -> term_secret (sess foot u) D = true ->
  always_deadlock (garbler foot u) (evaluator foot u).
Proof. exact secret_terminate. Qed.
Print Assumptions C15_secret_terminate_deadlocks.
(** In a deadlock no party ever returns. *)
Theorem C15_never_returns : forall A B (p : proc A) (q : proc B), always_deadlock p q ->
  forall k d, reach k (start_cfg p q) d -> (forall a, pA d <> Ret a) /\ (forall b, pB d <> Ret b).
Proof. exact @deadlock_never_returns. Qed.
Print Assumptions C15_never_returns.
Theorem C15_always_finish_refuted :
  ~ (forall foot u V, ready u -> consistent (u_c u) (u_x u) V -> no_collisions (sess foot u) (u_n u) ->
     exists a b, always_finish (garbler foot u) (evaluator foot u) a b).
Proof. exact always_finish_refuted. Qed.
Print Assumptions C15_always_finish_refuted.
Example C15_example : ready secret_u /\ consistent (u_c secret_u) (u_x secret_u) (plain demo_secret demo_in) /\
  no_collisions (sess true secret_u) 1 /\ checked (u_c secret_u) (terminate_period (u_opt secret_u)) 0 /\
  term_secret (sess true secret_u) 0 = true.
Proof. exact secret_demo. Qed.

(** * C25 End-to-end secure evaluation *)
Theorem C25_end_to_end : forall foot u V T, good_run foot u V T ->
  (forall cy i, (cy < T)%nat -> ~ hidden (sess foot u) u V cy i) ->
  exists A B, both_end foot u T A B /\
  (forall cy i w, (shown_from foot u T <= cy < T)%nat -> nth_error (outputs (u_c u)) i = Some w ->
     (if to_garbler u i then bit_of A u (cy - shown_from foot u T) i else bit_of B u (cy - shown_from foot u T) i) = V cy w) /\
  (forall p, (N.of_nat ((T - shown_from foot u T) * output_size (u_c u)) <= p)%N -> N.testbit A p = false /\ N.testbit B p = false).
Proof. exact end_to_end. Qed.
Print Assumptions C25_end_to_end.
(** Without a mask the evaluator learns everything and the garbler gets 0. *)
Theorem C25_no_mask : forall foot u V T, good_run foot u V T -> output_mask (u_opt u) = 0%N ->
  exists B, both_end foot u T 0 B /\
  forall cy i w, (shown_from foot u T <= cy < T)%nat -> nth_error (outputs (u_c u)) i = Some w -> bit_of B u (cy - shown_from foot u T) i = V cy w.
Proof. exact evaluator_learns_all. Qed.
Print Assumptions C25_no_mask.
(** With a full mask it is the other way round. *)
Theorem C25_full_mask : forall foot u V T, good_run foot u V T ->
  output_mask (u_opt u) = N.ones (N.of_nat (output_size (u_c u))) ->
  exists A, both_end foot u T A 0 /\
  forall cy i w, (shown_from foot u T <= cy < T)%nat -> nth_error (outputs (u_c u)) i = Some w -> bit_of A u (cy - shown_from foot u T) i = V cy w.
Proof. exact garbler_learns_all. Qed.
Print Assumptions C25_full_mask.
Example C25_example : (forall mask mode foot, good_run foot (demo_u mask mode) demo_plain 4) /\
  both_end true (demo_u 0 consecutive) 4 0 578294 /\ both_end false (demo_u 31 last_clock) 4 578294 0.
Proof.
  split; [intros; apply demo_good|]. split.
  - pose proof (both_finish _ _ _ _ (demo_good 0 consecutive true)) as E.
    match type of E with both_end _ _ _ ?a ?b => let a' := eval vm_compute in a in let b' := eval vm_compute in b in
      replace a with a' in E by (vm_compute; reflexivity); replace b with b' in E by (vm_compute; reflexivity) end. exact E.
  - pose proof (both_finish _ _ _ _ (demo_good 31 last_clock false)) as E.
    match type of E with both_end _ _ _ ?a ?b => let a' := eval vm_compute in a in let b' := eval vm_compute in b in
      replace a with a' in E by (vm_compute; reflexivity); replace b with b' in E by (vm_compute; reflexivity) end. exact E.
Qed.

(** * C27 The global offset and the garbler's inputs follow from the global key *)
Theorem C27_inputs_recoverable_refuted : forall u st low, is_m128 st -> (forall k, u_ra u k = draw st k) ->
  recover_R (u_key u) = u_R u /\
  (forall k, (k < g_init_size (u_c u))%nat ->
     recover_bit (u_key u) (init_index low (u_c u) k) (got_init low u k) = bit (g_init (u_x u)) k) /\
  (forall cy i, (cy < u_n u)%nat -> (i < g_input_size (u_c u))%nat ->
     recover_bit (u_key u) (input_index low (u_c u) cy i) (got_input low u cy i) =
     bit (g_input (u_x u)) (cy * g_input_size (u_c u) + i)).
Proof. exact generator_leaks. Qed.
Print Assumptions C27_inputs_recoverable_refuted.
(** [got_init], [got_input] are the labels the evaluator's program receives. *)
Theorem C27_labels_sent : forall u, ready u ->
  (runs (GarbleTransfer (u_sha u) (disable_OT (u_opt u)) (u_coins u 0%nat) (g_init (u_x u)) (init_pairs true u) (g_init_size (u_c u)) 0 0)
     (EvaluateTransfer (u_sha u) (disable_OT (u_opt u)) (u_coins u 0%nat) (e_init (u_x u)) (g_init_size (u_c u)) (e_init_size (u_c u)) 0)
     (Some tt) (Some (map (got_init true u) (seq 0 (get_secret_init_size (u_c u)))))) /\
  (forall cy, (cy < u_n u)%nat ->
     runs (GarbleTransfer (u_sha u) (disable_OT (u_opt u)) (u_coins u (S cy)) (g_input (u_x u)) (low_pairs u cy) (g_input_size (u_c u))
             (cy * g_input_size (u_c u)) (cy * e_input_size (u_c u)))
       (EvaluateTransfer (u_sha u) (disable_OT (u_opt u)) (u_coins u (S cy)) (e_input (u_x u)) (g_input_size (u_c u)) (e_input_size (u_c u)) (cy * e_input_size (u_c u)))
       (Some tt) (Some (map (got_input true u cy) (seq 0 (get_secret_input_size (u_c u)))))) /\
  runs (GarbleTransferLabels (u_sha u) (u_c u) (u_opt u) (u_coins u 0%nat) (g_init (u_x u)) (g_input (u_x u)) (init_pairs false u) (high_pairs u))
    (EvaluateTransferLabels (u_sha u) (u_c u) (u_opt u) (u_coins u 0%nat) (e_init (u_x u)) (e_input (u_x u)))
    (Some tt) (Some (map (got_init false u) (seq 0 (get_secret_init_size (u_c u))),
                     map (fun cy => map (got_input false u cy) (seq 0 (get_secret_input_size (u_c u)))) (seq 0 (u_n u)))).
Proof. exact labels_sent. Qed.
Print Assumptions C27_labels_sent.
Example C27_example : is_m128 (SrandSSE 12345) /\ (forall k, u_ra (demo_u 0 consecutive) k = draw (SrandSSE 12345) k) /\
  recover_bit (u_key (demo_u 0 consecutive)) (input_index true demo 1 0) (got_input true (demo_u 0 consecutive) 1 0) = true /\
  recover_bit (u_key (demo_u 0 consecutive)) (input_index true demo 1 1) (got_input true (demo_u 0 consecutive) 1 1) = false.
Proof. split; [apply SrandSSE_m128|]. split; [apply example_draw_is|]. split; vm_compute; reflexivity. Qed.

(** * C39 Colour bits reveal the garbler's inputs up to one common bit *)
Theorem C39_low_bit_alternates : forall s n, get_LSB (draw s n) = xorb (get_LSB (draw s 0)) (Nat.odd n).
Proof. exact draw_lsb. Qed.
Print Assumptions C39_low_bit_alternates.
Theorem C39_colours_leak : forall u st low, (forall k, u_ra u k = draw st k) ->
  exists flip : bool,
  (forall k, (k < g_init_size (u_c u))%nat ->
     colour_guess (init_index low (u_c u) k) (got_init low u k) = xorb flip (bit (g_init (u_x u)) k)) /\
  (forall cy i, (cy < u_n u)%nat -> (i < g_input_size (u_c u))%nat ->
     colour_guess (input_index low (u_c u) cy i) (got_input low u cy i) =
     xorb flip (bit (g_input (u_x u)) (cy * g_input_size (u_c u) + i))).
Proof. exact colours_leak. Qed.
Print Assumptions C39_colours_leak.
(** The garbler's input 0x6b5, two bits a cycle, low bits first, complemented. *)
Example C39_example : let u := demo_u 0 consecutive in
  map (fun cy => map (fun i => colour_guess (input_index true demo cy i) (got_input true u cy i)) [0; 1]%nat) (seq 0 6) =
  [[false; true]; [false; true]; [false; false]; [true; false]; [true; false]; [false; true]].
Proof. vm_compute. reflexivity. Qed.

(** * C29 Uniform input labels alone hide the garbler's input *)
Theorem C29_labels_hide : forall u low g0 g1, exists f : (nat -> block) -> nat -> block,
  (forall ra j, f (f ra) j = ra j) /\
  (forall ra, (forall j, w128 (ra j)) -> forall j, w128 (f ra j)) /\
  (forall ra, let u1 := with_ra u ra in let u2 := with_ra (with_garbler u g0 g1) (f ra) in
     u_R u2 = u_R u1 /\ u_key u2 = u_key u1 /\
     (forall k, (k < get_secret_init_size (u_c u))%nat -> got_init low u2 k = got_init low u1 k) /\
     (forall cy i, (cy < u_n u)%nat -> (i < get_secret_input_size (u_c u))%nat -> got_input low u2 cy i = got_input low u1 cy i)).
Proof. exact labels_hide. Qed.
Print Assumptions C29_labels_hide.
(** The bijection is not the identity when the inputs differ. *)
Example C29_example : let u := demo_u 0 consecutive in
  bit (g_input (u_x u)) 0 = true /\
  exchange true u 0 0 (u_ra u) (input_index true demo 0 0) = N.lxor (u_ra u (input_index true demo 0 0)) (u_R u) /\
  exchange true u 0 0 (u_ra u) (input_index true demo 0 0) <> u_ra u (input_index true demo 0 0).
Proof. vm_compute. split; [reflexivity|]. split; [reflexivity|discriminate]. Qed.

(** * C41 An oversized table count overruns the evaluator's buffer *)
Theorem C41_oversized_count : forall et n body,
  (N.of_nat (length et) < n)%N -> 48 * Z.of_N n < 2 ^ 31 -> length body = Z.to_nat (48 * Z.of_N n) ->
  exists m, reach m (mkCfg (Send (le 8 n ++ body) (Ret tt)) (RecvTables et) [] []) (mkCfg (Ret tt) Crash [] []).
Proof. exact oversized_count. Qed.
Print Assumptions C41_oversized_count.
Theorem C41_buffer_safe_refuted :
  ~ (forall et sent, exists d m, reach m (mkCfg (Send sent (Ret tt)) (RecvTables et) [] []) d /\ stuck d /\ pB d <> Crash).
Proof. exact oversized_refuted. Qed.
Print Assumptions C41_buffer_safe_refuted.
Example C41_example : exists m,
  reach m (mkCfg (Send (le 8 3 ++ repeat 7%N 144) (Ret tt)) (RecvTables (m_et (u_m por_u))) [] []) (mkCfg (Ret tt) Crash [] []).
Proof. apply C41_oversized_count; reflexivity. Qed.
