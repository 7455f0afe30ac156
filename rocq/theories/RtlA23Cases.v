(** Cases for the theorems about the programs executed by the processor a23. *)
From Coq Require Import ZArith List Bool Lia.
From Verif Require Import RtlA23 RtlA23Units RtlA23Step RtlA23Jump RtlA23Mem RtlA23Mul RtlA23Refuted RtlA23Multi RtlA23Run RtlA23Sum RtlA23Product RtlA23Compare.
Import ListNotations.
Open Scope Z_scope.

(** mov r1, #2; mov r2, #3; stmib r2, {r1, r2} *)
Lemma stm_case : exists s, ready (run small 4 (run small 3 (reset (two_movs [0xe9820006])))) s /\ a_mem s 4 = 2 /\ a_mem s 8 = 3.
Proof.
  destruct (after_movs [0xe9820006]) as (s & R & _ & ->).
  destruct (multi_steps small _ _ 0xe9820006 R) as [H _]; [vm_compute; reflexivity | | | vm_compute; reflexivity | ].
  - split; [reflexivity | ]. split; [reflexivity | ]. split; [vm_compute; discriminate | ]. split; [vm_compute; discriminate | ]. vm_compute. split; [reflexivity | discriminate].
  - split; [vm_compute; discriminate | split; vm_compute; reflexivity].
  - eexists. split; [exact H | ]. split; vm_compute; reflexivity.
Qed.
(** or ldmib r1!, {r3, r15}, with the jump to the address that this instruction itself is as a word *)
Lemma ldm_case : exists s, ready (run small 6 (run small 3 (reset (two_movs [0xe9b18008])))) s /\ a_regs s 3 = 0xe3a02003 /\ a_pc s = 0x1b18008 /\ a_regs s 1 = 10.
Proof.
  destruct (after_movs [0xe9b18008]) as (s & R & _ & ->).
  destruct (multi_steps small _ _ 0xe9b18008 R) as [H _]; [vm_compute; reflexivity | | | vm_compute; reflexivity | ].
  - split; [reflexivity | ]. split; [reflexivity | ]. split; [vm_compute; discriminate | ]. split; [vm_compute; discriminate | ]. intros _. vm_compute. reflexivity.
  - split; [vm_compute; discriminate | split; vm_compute; reflexivity].
  - eexists. split; [exact H | ]. repeat split; vm_compute; reflexivity.
Qed.
(** The test vectors of the repository, a23/{sum, mul, compare}/test, with the sizes of a23_gc_main.v 4-8 *)
Definition shipped : sizes := Sizes 64 64 64 64 64.
Definition to_32 (l : list Z) : list Z := l ++ repeat 0 (32 - length l).
Lemma sum_case : terminate (run shipped 600 (reset (mem_init sum_code (to_32 [0xdeadbeef; 0xffffffff]) (to_32 [0x10101010; 0xdeadbeef])))) = true /\
  number (outputs (mem (run shipped 600 (reset (mem_init sum_code (to_32 [0xdeadbeef; 0xffffffff]) (to_32 [0x10101010; 0xdeadbeef]))))) 32) = 0x1DEADBEEEEEBDCEFF.
Proof.
  destruct (sum_program shipped (to_32 [0xdeadbeef; 0xffffffff]) (to_32 [0x10101010; 0xdeadbeef]) 0) as [T N];
    [reflexivity | reflexivity | repeat constructor; vm_compute; congruence | repeat constructor; vm_compute; congruence | vm_compute; discriminate | vm_compute; discriminate | ].
  split; [exact T | ]. eapply eq_trans; [exact N | ]. vm_compute. reflexivity.
Qed.
Lemma mul_program_case : outputs (mem (run shipped 32 (reset (mem_init mul_code [0xbabe] [0xbeef])))) 1 = [0x8B475B62].
Proof.
  destruct (mul_program shipped 0xbabe 0xbeef 0) as [T N]; [split; lia | split; lia | vm_compute; discriminate | ]. eapply eq_trans; [exact N | ]. reflexivity.
Qed.
Lemma compare_case : outputs (mem (run shipped 515 (reset (mem_init compare_code (to_32 [0x105]) (to_32 [0x10002]))))) 1 = [1].
Proof.
  destruct (compare_program shipped (to_32 [0x105]) (to_32 [0x10002]) 0) as [T N];
    [reflexivity | reflexivity | repeat constructor; vm_compute; congruence | repeat constructor; vm_compute; congruence | vm_compute; discriminate | vm_compute; discriminate | ].
  eapply eq_trans; [exact N | ]. vm_compute. reflexivity.
Qed.
