(** Theorems about what the evaluator sees of a whole run. *)
From Coq Require Import ZArith NArith List Bool Lia.
From Verif Require Import Base Gate Circuit Spec CycleModel Demo Results Privacy ViewCycle ViewRun ViewCoins ViewEval ViewDemo.
Import ListNotations.
Open Scope Z_scope.

(** * C64 The garbled tables of all cycles do not depend on the secret inputs *)
Theorem C64_tables_independent : forall c fan0 reset,
  well_formed c -> (N.of_nat (length (garbledGates c)) < 2 ^ 32)%N ->
  (exists junk ok, length junk = gate_size c /\ FillFanout c junk = Some (fan0, ok)) ->
  forall n m0, fresh_gmem c m0 ->
  forall x x' V V' co,
  p_init x' = p_init x -> p_input x' = p_input x -> consistent c x V -> consistent c x' V' ->
  usable c fan0 reset n m0 x co ->
  let co' := recode c fan0 reset n m0 x V x' V' co in
  usable c fan0 reset n m0 x' co' /\
  same_coins (recode c fan0 reset n m0 x' V' x V co') co /\
  co_R co' = co_R co /\
  (forall p, ~ In p (inactive (co_R co) V (co_events c fan0 reset n m0 x co)) -> co_aes co' p = co_aes co p) /\
  (forall k, label_init c x' co' k = label_init c x co k) /\
  (forall cy i, label_in c x' co' cy i = label_in c x co cy i) /\
  exists m m' os os',
    co_run c fan0 reset n m0 x co = Some (m, os) /\ co_run c fan0 reset n m0 x' co' = Some (m', os') /\
    length os = n /\ length os' = n /\
    forall cy o o', nth_error os cy = Some o -> nth_error os' cy = Some o' -> cycle_same c (co_R co) V V' cy o o'.
Proof. exact view_private. Qed.
Print Assumptions C64_tables_independent.
(** Four cycles of the example circuit: the tables agree once the coins are
    renamed, and would not if only the labels were. *)
Example C64_example :
  usable demo demo_fan true 4 demo_gmem demo_x demo_coins /\
  consistent demo demo_x (demo_V demo_x) /\ consistent demo demo_x' (demo_V demo_x') /\
  (exists cy i, (i < 4)%nat /\ input_value demo demo_x cy (1 + i) <> input_value demo demo_x' cy (1 + i)) /\
  let sent x co := option_map (fun r => map go_sent (snd r)) (co_run demo demo_fan true 4 demo_gmem x co) in
  sent demo_x' demo_recoded = sent demo_x demo_coins /\
  sent demo_x' (mkCoins toy_aes demo_R (co_init demo_recoded) (co_in demo_recoded)) <> sent demo_x demo_coins /\
  option_map (map (@length _)) (sent demo_x demo_coins) = Some [3; 2; 3; 2]%nat.
Proof.
  split; [exact demo_usable|]. split; [apply demo_consistent|]. split; [apply demo_consistent|].
  split; [exists 0%nat, 3%nat; split; [lia|vm_compute; discriminate]|].
  cbv zeta. split; [vm_compute; reflexivity|]. split; [vm_compute; discriminate|]. vm_compute. reflexivity.
Qed.

(** * C65 Neither does anything the evaluator computes *)
Theorem C65_evaluator_independent : forall c fan rnd reset m0,
  well_formed c -> (N.of_nat (length (garbledGates c)) < 2 ^ 32)%N ->
  (exists junk ok, length junk = gate_size c /\ FillFanout c junk = Some (fan, ok)) ->
  fresh_machine c m0 ->
  forall n x x' V V' co m os,
  p_init x' = p_init x -> p_input x' = p_input x -> consistent c x V -> consistent c x' V' ->
  usable c fan reset n (garbler_part m0) x co ->
  run (coin_session c fan rnd reset m0 x co) n = Some (m, os) ->
  (forall q, In q (session_queries (coin_session c fan rnd reset m0 x co) n) ->
     ~ In q (inactive (co_R co) V (co_events c fan reset n (garbler_part m0) x co))) ->
  let co' := recode c fan reset n (garbler_part m0) x V x' V' co in
  exists m' os', run (coin_session c fan rnd reset m0 x' co') n = Some (m', os') /\
    m_e m' = m_e m /\ m_et m' = m_et m /\ m_dr m' = m_dr m /\ Forall2 same_view os os'.
Proof. exact evaluator_private. Qed.
Print Assumptions C65_evaluator_independent.
(** The sessions of C65 are sessions of C02. *)
Theorem C65_sessions_honest : forall c fan rnd reset m0,
  well_formed c -> (N.of_nat (length (garbledGates c)) < 2 ^ 32)%N ->
  (exists junk ok, length junk = gate_size c /\ FillFanout c junk = Some (fan, ok)) ->
  fresh_machine c m0 -> forall x co, get_LSB (co_R co) = true -> honest (coin_session c fan rnd reset m0 x co).
Proof. exact coin_session_honest. Qed.
Print Assumptions C65_sessions_honest.
Example C65_example :
  usable demo demo_fan true 4 (garbler_part (demo_machine demo)) demo_x demo_coins /\
  (forall q, In q (session_queries (demo_cs demo_x demo_coins) 4) ->
     ~ In q (inactive (co_R demo_coins) (demo_V demo_x) (co_events demo demo_fan true 4 demo_gmem demo_x demo_coins))) /\
  length (session_queries (demo_cs demo_x demo_coins) 4) = 20%nat /\
  let seen x co := option_map (fun r => (m_e (fst r), map o_eouts (snd r))) (run (demo_cs x co) 4) in
  seen demo_x demo_coins <> None /\ seen demo_x' demo_recoded = seen demo_x demo_coins.
Proof.
  split; [exact demo_usable|]. split; [exact demo_queries|]. split; [vm_compute; reflexivity|].
  cbv zeta. split; [vm_compute; discriminate|vm_compute; reflexivity].
Qed.
