(** C118 and C119: the processor Lite_MIPS.
    Statements only; the proofs are in RtlMipsOk.v, RtlMipsStep.v, RtlMipsRun.v and RtlMipsHamming.v. *)
From Coq Require Import ZArith Arith List Bool.
From Verif Require Import RtlBase RtlSeq RtlMips MipsSpec RtlMipsOk RtlMipsStep RtlMipsRun RtlMipsHamming.
Import ListNotations.
Open Scope Z_scope.

Import ListNotations.
(** * C118: the processor *)
Theorem C118_run : forall L g e c i o z t, Lite_MIPS L g e c i o -> (L <= 28)%nat -> (t < c)%nat ->
  run true (4 * 2 ^ Z.of_nat L) (words_of g) t (start (bytes_of e)) = Some z ->
  forall a, 0 <= a < 4 * 2 ^ Z.of_nat L -> bytes_of (o t) a = mem z a.
Proof. exact mips_ok. Qed.
Print Assumptions C118_run.
Theorem C118_standard : forall L g e c i o z t, Lite_MIPS L g e c i o -> (L <= 28)%nat -> (t < c)%nat ->
  run false (4 * 2 ^ Z.of_nat L) (words_of g) t (start (bytes_of e)) = Some z ->
  alike (4 * 2 ^ Z.of_nat L) (words_of g) t (start (bytes_of e)) = true ->
  forall a, 0 <= a < 4 * 2 ^ Z.of_nat L -> bytes_of (o t) a = mem z a.
Proof. exact mips_standard. Qed.
Print Assumptions C118_standard.
(** Where it is not the architecture *)
Theorem C118_branch_refuted : should_show branch_prog 0 3 0 0 /\ shows branch_prog 0 3 0 7.
Proof. exact branch_wrong. Qed.
Print Assumptions C118_branch_refuted.
Theorem C118_sltiu_refuted : should_show sltiu_prog 0 3 0 1 /\ shows sltiu_prog 0 3 0 0.
Proof. exact sltiu_wrong. Qed.
Print Assumptions C118_sltiu_refuted.
Theorem C118_lb_refuted : should_show lb_prog (image [0x8000]) 2 5 255 /\ shows lb_prog (image [0x8000]) 2 5 0.
Proof. exact lb_wrong. Qed.
Print Assumptions C118_lb_refuted.
Theorem C118_lh_refuted : should_show lh_prog (image [0x80000000]) 2 6 255 /\ shows lh_prog (image [0x80000000]) 2 6 0.
Proof. exact lh_wrong. Qed.
Print Assumptions C118_lh_refuted.
Theorem C118_mult_refuted : should_show mult_prog 0 4 0 9 /\ shows mult_prog 0 4 0 0.
Proof. exact mult_wrong. Qed.
Print Assumptions C118_mult_refuted.
Theorem C118_overflow_refuted : run false 64 (words_of (of_val add_prog)) 4 (start (bytes_of (of_val 0))) = None /\ shows add_prog 0 4 3 128.
Proof. exact add_wrong. Qed.
Print Assumptions C118_overflow_refuted.
Theorem C118_multiplier : forall (sg : bool) a b Hi Lo c r', Mult_step (a, b, if sg then MULT_SIGNED_MULT else MULT_MULT) (Hi, Lo) c r' ->
  val 32 (fst r') * 2 ^ 32 + val 32 (snd r') = (if sg then sval 32 a * sval 32 b else val 32 a * val 32 b) mod 2 ^ 64.
Proof. exact Mult_ok. Qed.
Print Assumptions C118_multiplier.
Theorem C118_divider_refuted : exists a b c r', val 32 a = 7 /\ val 32 b = 2 /\ Mult_step (a, b, MULT_DIVIDE) (rep false, rep false) c r' /\ val 32 (snd r') <> 7 / 2.
Proof. exact Mult_divide_wrong. Qed.
Print Assumptions C118_divider_refuted.
Theorem C118_runs : forall L g e k i, exists o, Lite_MIPS L g e k i o.
Proof. exact mips_total. Qed.
Print Assumptions C118_runs.
Example C118_standard_case : alike 64 (words_of (of_val plain_prog)) 6 (start (bytes_of (of_val (image [300; 45])))) = true /\
  should_show plain_prog (image [300; 45]) 6 8 (345 mod 256) /\ should_show plain_prog (image [300; 45]) 6 9 1 /\ should_show plain_prog (image [300; 45]) 6 12 255.
Proof. exact standard_case. Qed.
(** * C119: the program hamming.s *)
Theorem C119_hamming : forall L g e c i o l t, Lite_MIPS L g e c i o -> (4 <= L <= 28)%nat -> (forall j, (j < 16)%nat -> words_of g (Z.of_nat j) = nth j (hamming_words 0) 0) ->
  words_of e 0 = Z.of_nat l -> 2 + 2 * Z.of_nat l <= 2 ^ Z.of_nat L -> (7 + 9 * l <= t < c)%nat ->
  words_of (o t) 1 = distance (fst (hamming_input e l)) (snd (hamming_input e l)) /\ forall j, 0 <= j < 2 ^ Z.of_nat L -> j <> 1 -> words_of (o t) j = words_of e j.
Proof. exact hamming_ok. Qed.
Print Assumptions C119_hamming.
Theorem C119_standard_refuted : should_show (image (hamming_words 1)) (image [1; 0; 5; 6]) 16 4 1 /\ forall k, (14 <= k)%nat -> shows (image (hamming_words 1)) (image [1; 0; 5; 6]) k 4 0.
Proof. exact hamming_standard_wrong. Qed.
Print Assumptions C119_standard_refuted.
Theorem C119_code : map decode (hamming_words 0) = hamming_code 0 /\ map decode (hamming_words 1) = hamming_code 1.
Proof. exact hamming_decode. Qed.
Print Assumptions C119_code.
Example C119_hamming_case : exists c i o, Lite_MIPS 4 (of_val (image (hamming_words 0))) (of_val hamming_data) c i o /\ (34 < c)%nat /\ words_of (o 34%nat) 1 = 2.
Proof. exact hamming_case. Qed.
