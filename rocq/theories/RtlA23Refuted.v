(** The processor a23: instructions that do not do what ARM says. *)
From Coq Require Import ZArith List Bool Lia.
From Verif Require Import RtlA23 RtlA23Units RtlA23Step RtlA23Jump RtlA23Mem RtlA23Mul.
Import ListNotations.
Open Scope Z_scope.

(** mov r3, r1, lsr #32 moves r1 as it is *)
Theorem lsr_32_refuted : exists z p s i, ready p s /\ i = mem_read (a_mem s) (a_pc s) /\ dp_form i /\ a_pc s + 12 < 2 ^ 26 /\
  forall f, ~ ready (step z p) (Arm (dp_regs s i) f (a_pc s + 4) (a_mem s)).
Proof.
  destruct (after_movs [3785371681]) as (s & R & Id & E).
  exists (Sizes 64 64 64 64 64), (run (Sizes 64 64 64 64 64) 3 (reset (two_movs [3785371681]))), s, 3785371681.
  split; [exact R | ]. subst s. split; [vm_compute; reflexivity | ].
  split; [repeat split; try (vm_compute; congruence); right; left; reflexivity | ]. split; [reflexivity | ]. intros f.
  change (step (Sizes 64 64 64 64 64) ?p) with (run (Sizes 64 64 64 64 64) 1 p).
  apply not_ready with 3 2; [vm_compute; reflexivity | lia | vm_compute; discriminate].
Qed.
(** cmp r2, r1 sets the carry, and ands r3, r1, r2 clears it *)
Theorem and_carry_refuted : exists z p s i, ready p s /\ i = mem_read (a_mem s) (a_pc s) /\ dp_form i /\ shift_supported s i /\ a_pc s + 12 < 2 ^ 26 /\
  forall r f a m, fC f = fC (dp_flags s i) -> ~ ready (step z p) (Arm r f a m).
Proof.
  destruct (after_movs [3780247553; 3759222786]) as (s & R & Id & E). set (z := Sizes 64 64 64 64 64) in *.
  assert (Ei : 3780247553 = mem_read (a_mem s) (a_pc s)) by (subst s; vm_compute; reflexivity).
  destruct (dp_step z _ s 3780247553 R Ei) as (f & R' & _ & H).
  { repeat split; try (vm_compute; congruence). right. left. reflexivity. }
  { right. reflexivity. }
  { subst s. vm_compute. reflexivity. }
  destruct H as [_ H]; [intros [H | [H | []]]; vm_compute in H; discriminate | ]. specialize (H ltac:(discriminate)).
  exists z, (step z (run z 3 (reset (two_movs [3780247553; 3759222786])))). eexists. exists 3759222786.
  split; [exact R' | ]. subst f s. split; [vm_compute; reflexivity | ].
  split; [repeat split; try (vm_compute; congruence); right; left; reflexivity | ]. split; [right; reflexivity | ]. split; [reflexivity | ].
  intros r f a m Hf (_ & _ & _ & _ & _ & _ & (_ & F & _)). cbn [a_flags] in F. rewrite <- F in Hf. revert Hf.
  match goal with |- ?x = ?y -> _ => replace x with false by (vm_compute; reflexivity); replace y with true by (vm_compute; reflexivity) end. discriminate.
Qed.
(** str r1, [pc, #-4]: the next instruction is replaced, but the old one is executed *)
Theorem store_next_refuted : exists z p s i, ready p s /\ i = mem_read (a_mem s) (a_pc s) /\ transfer_form i /\ a_pc s + 12 < 2 ^ 26 /\
  ~ ready (run z 3 p) (transfer z s i).
Proof.
  destruct (after_movs [3842969604; 0]) as (s & R & Id & E). set (z := Sizes 64 64 64 64 64) in *.
  exists z, (run z 3 (reset (two_movs [3842969604; 0]))), s, 3842969604.
  split; [exact R | ]. subst s. split; [vm_compute; reflexivity | ].
  split; [repeat split; try (vm_compute; congruence) | ]. split; [reflexivity | ].
  intros (_ & _ & I & _). revert I. vm_compute. discriminate.
Qed.

(** * Cases *)
Definition small : sizes := Sizes 64 64 64 64 64.
(** mov r1, #2; mov r2, #3 *)
Lemma movs_case : exists s, ready (run small 3 (reset (two_movs []))) s /\ a_regs s 1 = 2 /\ a_regs s 2 = 3 /\ a_pc s = 8.
Proof. destruct (after_movs []) as (s & R & _ & ->). eexists. split; [exact R | ]. repeat split. Qed.
(** then bl to the word after the next *)
Lemma branch_case : exists s, ready (run small 3 (run small 3 (reset (two_movs [3942645761])))) s /\ a_pc s = 20 /\ a_regs s 14 = 201326604.
Proof.
  destruct (after_movs [3942645761]) as (s & R & _ & ->).
  destruct (branch_steps small _ _ 3942645761 R) as [H _]; [vm_compute; reflexivity | vm_compute; reflexivity | vm_compute; discriminate | vm_compute; reflexivity | ].
  eexists. split; [exact H | ]. split; vm_compute; reflexivity.
Qed.
(** or mov pc, r1 *)
Lemma to_pc_case : exists s, ready (run small 3 (run small 3 (reset (two_movs [3785420801])))) s /\ a_pc s = 0.
Proof.
  destruct (after_movs [3785420801]) as (s & R & _ & ->).
  destruct (to_pc_steps small _ _ 3785420801 R) as [H _]; [vm_compute; reflexivity | | right; reflexivity | vm_compute; reflexivity | vm_compute; reflexivity | ].
  - repeat split; try (vm_compute; reflexivity). right. left. reflexivity.
  - eexists. split; [exact H | ]. vm_compute. reflexivity.
Qed.
(** or ldr r3, [r1, #2] *)
Lemma load_case : exists s, ready (run small 3 (run small 3 (reset (two_movs [3851497474])))) s /\ a_regs s 3 = 3818921987.
Proof.
  destruct (after_movs [3851497474]) as (s & R & _ & ->).
  destruct (transfer_steps small _ _ 3851497474 R) as [H _]; [vm_compute; reflexivity | | vm_compute; reflexivity | vm_compute; reflexivity | ].
  - repeat split; try (vm_compute; congruence).
  - eexists. split; [exact H | ]. vm_compute. reflexivity.
Qed.
(** or strb r2, [r1, #5] *)
Lemma store_case : exists s, ready (run small 3 (run small 3 (reset (two_movs [3854639109])))) s /\ a_mem s 7 = 3.
Proof.
  destruct (after_movs [3854639109]) as (s & R & _ & ->).
  destruct (transfer_steps small _ _ 3854639109 R) as [H _]; [vm_compute; reflexivity | | vm_compute; reflexivity | vm_compute; reflexivity | ].
  - repeat split; try (vm_compute; congruence).
  - eexists. split; [exact H | ]. vm_compute. reflexivity.
Qed.
(** or mul r3, r1, r2 *)
Lemma mul_case : exists s, ready (run small 4 (run small 3 (reset (two_movs [3758293649])))) s /\ a_regs s 3 = 6.
Proof.
  destruct (after_movs [3758293649]) as (s & R & Id & ->).
  assert (H := mul_steps small _ _ 3758293649 R Id). eexists. split.
  - apply H; [vm_compute; reflexivity | | vm_compute; reflexivity | vm_compute; reflexivity]. repeat split; try (vm_compute; congruence).
  - vm_compute. reflexivity.
Qed.
(** or mla r3, r1, r2, r2, which also gives 6 *)
Lemma mla_case : exists s, ready (run small 4 (run small 3 (reset (two_movs [3760398993])))) s /\ a_regs s 3 = 6.
Proof.
  destruct (after_movs [3760398993]) as (s & R & Id & ->).
  assert (H := mul_product small _ _ 3760398993 R Id). eexists. split.
  - apply H; [vm_compute; reflexivity | | vm_compute; reflexivity]. repeat split; try (vm_compute; congruence).
  - vm_compute. reflexivity.
Qed.
