(** Claims about circuits in Bristol format.  Each theorem is followed by its
    assumptions and an instance. *)
From Coq Require Import ZArith NArith List Bool Lia Ascii String.
From Verif Require Import Base Gate Circuit CycleModel Spec Plain Run Results
  Proc Codec Tcp BN Rand Bounded Tables Protocol Transfer OutTransfer ProtocolOk ProtocolRun EndToEnd ProtocolResults
  Text Netlist Scd Parse Hex Format Programs ProgramsOk ProgramsDemo Bristol BristolOk BristolText BristolRun.
Import ListNotations.
Open Scope string_scope.
Open Scope list_scope.
Open Scope Z_scope.

(** * C58 The translation of Bristol files *)
Theorem C58_bristol : forall b t ws, b_valid b -> spaced (bristol_words b ++ ws) t ->
  exists file c, (forall log junk0 junk, Bris2SCD log junk0 junk (Some t) = Done file) /\ (forall junk, ReadSCD junk file = c) /\ runs_bristol c b.
Proof. exact bristol_reads. Qed.
Print Assumptions C58_bristol.
(** A two-bit adder. *)
Example C58_example : b_valid adder /\ spaced (bristol_words adder ++ []) adder_text /\
  (forall log junk0 junk, Bris2SCD log junk0 junk (Some adder_text) = Done adder_file) /\
  (forall x y, (x < 4)%N -> (y < 4)%N -> forall i, (i < 3)%nat -> b_output adder (bit x) (bit y) i = N.testbit (x + y) (N.of_nat i)) /\
  List.length (garbledGates adder_circuit) = 10%nat /\ outputs adder_circuit = [11; 12; 13].
Proof.
  split; [exact adder_valid|]. split; [exact adder_spaced|]. split; [intros; apply adder_translated|]. split; [exact adder_adds|]. split; vm_compute; reflexivity.
Qed.
(** An output that is an input wire is connected to another wire. *)
Theorem C58_passthrough_refuted : ~ forall b t, b_sound b -> spaced (bristol_words b) t ->
  exists file, (forall junk0 junk, Bris2SCD false junk0 junk (Some t) = Done file) /\
    forall jf x V, consistent (ReadSCD jf file) x V -> forall cy i, (i < b_o b)%nat ->
      V cy (nth i (outputs (ReadSCD jf file)) 0) = b_output b (fun j => bit (g_input x) (cy * b_g b + j)) (fun j => bit (e_input x) (cy * b_e b + j)) i.
Proof. exact passthrough_refuted. Qed.
Print Assumptions C58_passthrough_refuted.
Example C58_passthrough_example : b_sound pass /\ spaced (bristol_words pass) pass_text /\
  Bris2SCD true (fun _ => 0) (fun _ _ => 0) (Some pass_text) = Failed.
Proof. split; [exact pass_sound|]. split; [apply spacedb_ok|]; vm_compute; reflexivity. Qed.

(** * C59 Files that are cut short are rejected *)
Theorem C59_cut : forall b log junk0 junk t r, b_gates b <> [] -> Forall fits64 (b_gates b) ->
  (forall n, In n [List.length (b_gates b); b_wires b; b_g b; b_e b; b_o b] -> Z.of_nat n < 2 ^ 64) ->
  spaced (bristol_words b) (t ++ r) -> ~ blank t -> ~ blank r ->
  ParseBrisNetlist log junk0 junk (Some t) = None.
Proof. exact bristol_cut. Qed.
Print Assumptions C59_cut.
(** The adder without the last two characters. *)
Example C59_example : Forall fits64 (b_gates adder) /\ adder_text = firstn 150 adder_text ++ ["V"%char; ascii_of_N 10] /\
  forall log, Bris2SCD log (fun _ => 7) (fun _ _ => 1) (Some (firstn 150 adder_text)) = Failed.
Proof.
  split; [|split].
  - repeat constructor; intros a I; cbn in I; intuition lia.
  - vm_compute. reflexivity.
  - intros [|]; vm_compute; reflexivity.
Qed.

(** * C60 From the Bristol file to the printed outputs *)
Theorem C60_bristol_to_output : forall b t ws, b_valid b -> spaced (bristol_words b ++ ws) t ->
  exists file c, (forall log junk0 junk, Bris2SCD log junk0 junk (Some t) = Done file) /\ (forall jf, ReadSCD jf file = c) /\
  forall ja jb a a' u V T, u_c u = c -> scd_file a = Some file -> started a a' u -> good_run (low_mem_foot a) u V T ->
    Z.of_nat (u_n u * b_o b) < 2 ^ 31 -> (forall cy i, (cy < T)%nat -> ~ hidden (sess (low_mem_foot a) u) u V cy i) ->
  let out cy := b_output b (fun j => bit (g_input (u_x u)) (cy * b_g b + j)) (fun j => bit (e_input (u_x u)) (cy * b_e b + j)) in
    T = u_n u /\
    exists ta tb, always_finish (garbler_program ja a u) (evaluator_program jb a' u) (Some ta) (Some tb) /\
      displays (output_mode (u_opt u)) (b_o b) T ta (fun cy i => out cy i && to_garbler u i) /\
      displays (output_mode (u_opt u)) (b_o b) T tb (fun cy i => out cy i && negb (to_garbler u i)).
Proof. exact bristol_programs. Qed.
Print Assumptions C60_bristol_to_output.
(** 3 + 2 = 5, the two low bits go to the garbler. *)
Example C60_example : forall foot, u_c adder_u = adder_circuit /\ (forall jf, ReadSCD jf adder_file = adder_circuit) /\
  started (adder_args "3" "3" foot) (adder_args "2" "3" foot) adder_u /\ good_run foot adder_u adder_plain 1 /\
  (forall cy i, (cy < 1)%nat -> ~ hidden (sess foot adder_u) adder_u adder_plain cy i).
Proof.
  intros foot. split; [reflexivity|]. split; [apply (adder_translated true (fun _ => 0) (fun _ _ => 0))|]. split; [apply adder_started|]. split; [apply adder_good|].
  intros cy i. apply adder_visible.
Qed.
