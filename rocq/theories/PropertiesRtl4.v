(** C116: SHA3 in Verilog.
    Statements only; the proofs are in RtlSha3.v and RtlSha3Run.v. *)
From Coq Require Import ZArith Arith List Bool.
From Verif Require Import RtlBase Sha3Spec RtlSha3 RtlSha3Run.
Import ListNotations.
Open Scope Z_scope.

Open Scope nat_scope.
(** * C116: SHA3 *)
(** Where the inputs are in the state *)
Theorem C116_state : forall g e, state (message g e) = repeat false (16 * 64) ++ words_string 9 (cat e 288 g).
Proof. exact message_words. Qed.
Print Assumptions C116_state.
Theorem C116_round : forall i rc ir inp out, rconst i rc -> ir < 24 -> (forall j, j < 24 -> i j = (ir =? j)) -> round inp rc out -> state out = Rnd ir (state inp).
Proof. exact round_constant. Qed.
Print Assumptions C116_round.
Theorem C116_rounds : forall CC g e o, sha3_comb CC g e o -> 0 < CC <= 24 -> state o = rounds 0 (24 / CC) (state (message g e)).
Proof. exact sha3_comb_rounds. Qed.
Print Assumptions C116_rounds.
Theorem C116_permutation : forall g e o, sha3_comb 1 g e o -> state o = keccak_f (repeat false (16 * 64) ++ words_string 9 (cat e 288 g)).
Proof. exact sha3_comb_ok. Qed.
Print Assumptions C116_permutation.
(** The inputs are not where the message block of the standard is, and the output, the whole state, gives them away. *)
Theorem C116_block_refuted : forall g e o, sha3_comb 1 g e o -> (exists i, i < 576 /\ cat e 288 g i = true) ->
  state o <> keccak_f (words_string 9 (cat e 288 g) ++ repeat false (16 * 64)).
Proof. exact sha3_comb_not_block. Qed.
Print Assumptions C116_block_refuted.
Theorem C116_reveals : forall CC g e g' e' o, sha3_comb CC g e o -> sha3_comb CC g' e' o -> 0 < CC <= 24 -> veq 288 g g' /\ veq 288 e e'.
Proof. exact sha3_comb_reveals. Qed.
Print Assumptions C116_reveals.
(** The sequential circuit has one round (for CC = 24) without constant too many. *)
Theorem C116_sequential : forall CC m g e n i o, sha3_seq CC g e n i o -> CC * m = 24 -> 2 <= CC ->
  forall t, t < n -> t <= CC -> state (o t) = rounds 0 (m * t) (plain m (state (message g e))).
Proof. exact sha3_seq_rounds. Qed.
Print Assumptions C116_sequential.
Theorem C116_sequential_refuted : forall CC m n i o, CC * m = 24 -> 2 <= CC -> sha3_seq CC (rep false) (rep false) n i o -> CC <= n ->
  state (o (CC - 1)) <> keccak_f (state (message (rep false) (rep false))).
Proof. exact sha3_seq_refuted. Qed.
Print Assumptions C116_sequential_refuted.
Theorem C116_sequential_next : forall CC m g e n i o, CC * m = 24 -> 2 <= CC -> sha3_seq CC g e n i o -> CC < n ->
  state (o CC) = keccak_f (plain m (state (message g e))).
Proof. exact sha3_seq_next. Qed.
Print Assumptions C116_sequential_next.
Theorem C116_sequential_next_refuted : forall n i o, sha3_seq 24 (of_val 1) (rep false) n i o -> 24 < n -> state (o 24) <> keccak_f (state (message (of_val 1) (rep false))).
Proof. exact sha3_seq_next_refuted. Qed.
Print Assumptions C116_sequential_next_refuted.
Theorem C116_runs : forall CC g e, exists o, sha3_comb CC g e o.
Proof. exact sha3_comb_total. Qed.
Print Assumptions C116_runs.
Theorem C116_sequential_runs : forall CC g e n i, exists o, sha3_seq CC g e n i o.
Proof. exact sha3_seq_total. Qed.
Print Assumptions C116_sequential_runs.
Example C116_case : exists o, sha3_comb 1 (rep false) (rep false) o /\ val 64 (part 1536 o) = 0xF1258F7940E1DDE7%Z.
Proof. exact sha3_case. Qed.
