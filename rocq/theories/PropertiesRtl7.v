(** C120 and C121: stable matching in Verilog.
    Statements only; the proofs are in RtlMatchOk.v, RtlMatchRun.v and RtlMatchCore.v. *)
From Coq Require Import ZArith Arith List Bool.
From Verif Require Import RtlBase RtlSeq RtlMatch RtlMatchOk RtlMatchRun RtlMatchCore.
Import ListNotations.
Open Scope Z_scope.

Import ListNotations.
Open Scope nat_scope.
(** * C120: stable_match_seq *)
Theorem C120_stable : forall n rPref sPref c i o t, 2 <= n -> (Z.of_nat n < 2 ^ 32)%Z -> complete n (prefs n sPref) (prefs n rPref) ->
  stable_match_seq n n n n c i o -> (forall u, u < c -> i u = (rPref, sPref)) -> 2 * n * n <= t < c ->
  let m := shown n (fst (fst (o t))) in
  stable n (prefs n sPref) (prefs n rPref) m /\ best n (prefs n sPref) (prefs n rPref) m /\ forall x, x < n -> snd (o t) x = true.
Proof. exact stable_matching. Qed.
Print Assumptions C120_stable.
Theorem C120_finish_refuted : forall Kr Ks S_ R c i o t, stable_match_seq Kr Ks S_ R c i o -> t < c -> snd (fst (o t)) = false.
Proof. exact never_finished. Qed.
Print Assumptions C120_finish_refuted.
Theorem C120_runs : forall Kr Ks S_ R c i, 2 <= S_ -> (Z.of_nat S_ < 2 ^ 32)%Z -> exists o, stable_match_seq Kr Ks S_ R c i o.
Proof. exact stable_match_total. Qed.
Print Assumptions C120_runs.
Example C120_match_case : exists o, stable_match_seq 2 2 2 2 9 (fun _ => (of_val 0x9, of_val 0xa)) o /\ complete 2 (prefs 2 (of_val 0xa)) (prefs 2 (of_val 0x9)) /\ shown 2 (fst (fst (o 8))) 0 = 1 /\ shown 2 (fst (fst (o 8))) 1 = 0.
Proof. exact match_case. Qed.
(** * C121: stable_match *)
Theorem C121_refuted : forall l g e c i o t, 2 <= l <= 31 -> stable_match (2 ^ l) (2 ^ l) (2 ^ l) (2 ^ l) c i o -> (forall u, u < c -> i u = (g, e)) -> t < c -> ~ matching (2 ^ l) (shown (2 ^ l) (o t)).
Proof. exact core_refuted. Qed.
Print Assumptions C121_refuted.
Theorem C121_shows : forall l g e c i o t k, 1 <= l <= 31 -> stable_match (2 ^ l) (2 ^ l) (2 ^ l) (2 ^ l) c i o -> (forall u, u < c -> i u = (g, e)) -> t < c -> k < 2 ^ l ->
  k <> Z.to_nat (val l (part (2 ^ l * l) (vxor g e))) \/ Z.to_nat (val l (part (2 ^ l * l) (vxor g e))) = 0 -> shown (2 ^ l) (o t) k = 0.
Proof. exact core_shown. Qed.
Print Assumptions C121_shows.
Theorem C121_runs : forall Kw Km M W c i, exists o, stable_match Kw Km M W c i o.
Proof. exact core_total. Qed.
Print Assumptions C121_runs.
Example C121_core_case : exists o, stable_match 4 4 4 4 20 (fun _ => (of_val 0, of_val 0)) o /\ shown 4 (o 19) 1 = 0 /\ shown 4 (o 19) 2 = 0 /\ ~ matching 4 (shown 4 (o 19)).
Proof. exact core_case. Qed.
