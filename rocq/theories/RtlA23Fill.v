(** The shipped program that fills the output with its indices, executed by the processor a23. *)
From Coq Require Import ZArith List Bool Lia.
From Verif Require Import RtlA23 RtlA23Units RtlA23Step RtlA23Jump RtlA23Mem RtlA23Mul RtlA23Multi RtlA23Run RtlA23Sum.
Import ListNotations.
Open Scope Z_scope.

(** * The program, a23/mem-test/p.txt *)
Definition fill_code : list Z :=
  [0xe59fd01c; 0xe59f000c; 0xe59f100c; 0xe59f200c; 0xeb000004; 0xeafffffe; 0x01000000; 0x02000000; 0x03000000;
   0x04000100; 0xe3a03000; 0xe7823103; 0xe2833001; 0xe3530040; 0x1afffffb; 0xe1a0f00e; 0x00000000; 0x00000000].

(** * Proofs *)
Lemma out_aligned k : (3 * 2 ^ 24 + 4 * k) mod 4 = 0.
Proof. replace (3 * 2 ^ 24 + 4 * k) with ((3 * 2 ^ 22 + k) * 4) by lia. apply Z.mod_mul. lia. Qed.
Lemma out_writes z k : 0 <= k < out_size z -> k < 2 ^ 20 -> writable z (3 * 2 ^ 24 + 4 * k) = true.
Proof.
  intros H B. unfold writable. replace ((3 * 2 ^ 24 + 4 * k) / 2 ^ 24) with 3 by (rewrite Z.add_comm, Z.div_add, Z.div_small by lia; reflexivity).
  cbn [Z.eqb Pos.eqb]. rewrite Z.add_comm, Z.mod_add, Z.mod_small by lia. apply Z.ltb_lt. lia.
Qed.
Section Fill.
Variables (z : sizes) (g e : list Z).
Hypothesis Zo : 64 <= out_size z.
Definition fill_mem (k : nat) (M : memory) : Prop := code_at M fill_code /\ forall j, (j < k)%nat -> load_word M (3 * 2 ^ 24 + 4 * Z.of_nat j) = Z.of_nat j.
Definition fill_at (pc : Z) (k : nat) (ret : Z) (s : arm) : Prop :=
  exists R F M, s = Arm R F pc M /\ fill_mem k M /\ R 2 = 3 * 2 ^ 24 /\ R 3 = Z.of_nat k /\ R 14 = ret.
Lemma fill_body k ret : (k < 64)%nat -> forall s, fill_at 44 k ret s -> reaches z true s 8 (fill_at (if Nat.eqb (S k) 64 then 60 else 44) (S k) ret).
Proof.
  intros Hk s (R & F & M & -> & (Hc & Hm) & R2 & R3 & R14).
  (* str r3, [r2, r3, lsl #2] *)
  eapply (s_str fill_code _ _ _ _ _ _ 0xe7823103 (3 * 2 ^ 24 + 4 * Z.of_nat k)); [exact Hc | vm_compute; reflexivity | a23_address; rewrite R2, R3 | apply out_aligned | change (length fill_code) with 18%nat; lia | ].
  { unfold arm_shift. cbn [Z.eqb Pos.eqb fst]. rewrite (Z.mod_small (Z.of_nat k * 2 ^ 2)), Z.mod_small; lia. }
  a23_fields. change (44 + 4) with 48. rewrite R3.
  set (N := store_word z M (3 * 2 ^ 24 + 4 * Z.of_nat k) (Z.of_nat k)).
  assert (HN : fill_mem (S k) N).
  { split.
    - apply store_code; [exact Hc | change (length fill_code) with 18%nat; lia | apply out_aligned].
    - intros j Hj. destruct (Nat.eq_dec j k) as [-> | Hn].
      + apply load_store_same; [apply out_writes; lia | apply out_aligned | lia | lia].
      + unfold N. rewrite load_store_other; [apply Hm; lia | apply out_aligned | apply out_aligned | lia]. }
  clearbody N. destruct HN as [Hc' Hm'].
  (* add r3, r3, #1 *)
  eapply (s_dp fill_code _ _ _ _ _ _ 0xe2833001); [exact Hc' | vm_compute; reflexivity | a23_dp; reflexivity | ]. intros f1 _ _. change (48 + 4) with 52.
  rewrite R3, Z.mod_small by lia.
  (* cmp r3, #64 *)
  eapply (s_dp fill_code _ _ _ _ _ _ 0xe3530040); [exact Hc' | vm_compute; reflexivity | a23_dp; reflexivity | ]. intros f2 _ Hf2. change (52 + 4) with 56.
  specialize (Hf2 eq_refl). assert (E2 : fZ f2 = Nat.eqb (S k) 64).
  { rewrite Hf2. a23_dp. regs. apply Bool.eq_true_iff_eq. rewrite Z.eqb_eq, Nat.eqb_eq. split; intros H.
    - apply Z.mod_divide in H; [ | lia]. destruct H as (m & H). nia.
    - replace (Z.of_nat k) with 63 by lia. reflexivity. }
  clear Hf2.
  (* bne 44 *)
  eapply (s_branch fill_code _ _ _ _ _ _ 0x1afffffb); [exact Hc' | vm_compute; reflexivity | | apply r_done].
  { unfold branch, branch_target, holds. a23_fields. rewrite cond_ne. cbn [a_flags]. rewrite E2. cbn [a_regs a_pc a_mem a_flags]. reflexivity. }
  eexists _, _, N. split; [ | split; [split; [exact Hc' | exact Hm'] | ]].
  - destruct (Nat.eqb (S k) 64); reflexivity.
  - regs. repeat split; first [assumption | lia].
Qed.
Lemma fill_loop ret s : fill_at 44 0 ret s -> reaches z true s (64 * 8) (fill_at 60 64 ret).
Proof.
  intros H. assert (A : forall k, (k < 64)%nat -> reaches z true s (k * 8) (fill_at 44 k ret)).
  { intros k. induction k as [ | k IH]; intros Hk; [now apply r_done | ]. apply r_eq with (k * 8 + 8)%nat; [lia | ].
    apply r_seq with (fill_at 44 k ret); [apply IH; lia | ]. intros s' Hs. pose proof (fill_body k ret ltac:(lia) s' Hs) as L.
    replace (Nat.eqb (S k) 64) with false in L by (symmetry; apply Nat.eqb_neq; lia). exact L. }
  apply r_eq with (63 * 8 + 8)%nat; [reflexivity | ]. apply r_seq with (fill_at 44 63 ret); [apply A; lia | ].
  intros s' Hs. exact (fill_body 63 ret ltac:(lia) s' Hs).
Qed.
Lemma fill_before F : reaches z true (Arm (fun _ => 0) F 0 (mem_init fill_code g e)) 16 (fill_at 44 0 (arm_r15_word F 20)).
Proof.
  assert (Hc : code_at (mem_init fill_code g e) fill_code) by (apply init_code; vm_compute; discriminate).
  set (M := mem_init fill_code g e) in *. clearbody M. a23_prologue fill_code Hc M.
  (* bl 40 *)
  eapply (s_branch fill_code _ _ _ _ _ _ 0xeb000004); [exact Hc | vm_compute; reflexivity | unfold branch, branch_target; rewrite holds_al by reflexivity; a23_fields; cbv iota; cbn [a_regs a_flags a_pc a_mem]; reflexivity | ].
  change (16 + 8 + 16) with 40. change (16 + 4) with 20.
  (* mov r3, #0 *)
  eapply (s_dp fill_code _ _ _ _ _ _ 0xe3a03000); [exact Hc | vm_compute; reflexivity | a23_dp; reflexivity | ]. intros f1 _ _. change (40 + 4) with 44.
  apply r_done. eexists _, f1, M. split; [reflexivity | ]. split; [split; [exact Hc | intros j Hj; lia] | ]. regs. repeat split.
Qed.
Definition fill_over (s : arm) : Prop := a_pc s = 20 /\ fill_mem 64 (a_mem s).
Lemma fill_after ret s : word_pc ret = 20 -> fill_at 60 64 ret s -> reaches z true s 3 fill_over.
Proof.
  intros Hr (R & F & M & -> & (Hc & Hm) & R2 & R3 & R14).
  assert (Er : pc_result (Arm R F 60 M) 0xe1a0f00e = ret) by (unfold pc_result; a23_dp; exact R14).
  eapply (r_to_pc z _ _ 0xe1a0f00e); [cbn [a_mem a_pc]; rewrite (fetch M fill_code 60 Hc) by (try reflexivity; vm_compute; discriminate); vm_compute; reflexivity | | right; reflexivity | rewrite Er, Hr; reflexivity | now apply holds_al | apply r_done].
  - repeat split; try (vm_compute; reflexivity). right. left. reflexivity.
  - unfold to_pc. rewrite holds_al, Er, Hr by reflexivity. a23_fields. split; [reflexivity | ]. split; [exact Hc | exact Hm].
Qed.
Lemma fill_stays s : fill_over s -> reaches z true s 3 fill_over.
Proof.
  intros (P & Hc & Ho). destruct s as [R F pc M]. cbn [a_pc a_mem] in *. subst pc.
  eapply (s_branch fill_code _ _ _ _ _ _ 0xeafffffe); [exact Hc | vm_compute; reflexivity | | apply r_done].
  - unfold branch, branch_target. rewrite holds_al by reflexivity. a23_fields. cbv iota. cbn [a_regs a_flags a_pc a_mem]. reflexivity.
  - split; [reflexivity | split; [exact Hc | exact Ho]].
Qed.
Lemma fill_runs F m : reaches z true (Arm (fun _ => 0) F 0 (mem_init fill_code g e)) (531 + 3 * m) fill_over.
Proof.
  induction m as [ | m IH].
  - apply r_eq with (16 + (64 * 8 + 3))%nat; [reflexivity | ]. apply r_seq with (fill_at 44 0 (arm_r15_word F 20)); [apply fill_before | ].
    intros s1 H1. apply r_seq with (fill_at 60 64 (arm_r15_word F 20)); [now apply fill_loop | ]. intros s2 H2. apply (fill_after (arm_r15_word F 20)); [ | exact H2].
    unfold word_pc, arm_r15_word. destruct F as [[] [] [] []]; reflexivity.
  - apply r_eq with (531 + 3 * m + 3)%nat; [lia | ]. apply r_seq with fill_over; [exact IH | ]. intros s Hs. now apply fill_stays.
Qed.
End Fill.
(** After 532 cycles, and whenever the processor is back at the branch to itself, word k of the output is k *)
Theorem fill_program z g e m (p := run z (532 + 3 * m) (reset (mem_init fill_code g e))) : 64 <= out_size z ->
  terminate p = true /\ outputs (mem p) 64 = map Z.of_nat (seq 0 64).
Proof.
  intros Zo. unfold p. replace (532 + 3 * m)%nat with (1 + (531 + 3 * m))%nat by lia. rewrite run_app. change (run z 1 ?q) with (step z q).
  destruct (reset_ready z (mem_init fill_code g e) (init_range _ _ _)) as [R I].
  destruct (fill_runs z g e Zo _ m _ R (fun _ => I)) as (s & (P & _ & Ho) & R' & _).
  split; [exact (ready_terminate _ s R' P) | ]. pose proof R' as (_ & _ & _ & _ & _ & Hm & _).
  apply map_ext_in. intros k Hk. apply in_seq in Hk. transitivity (load_word (a_mem s) (3 * 2 ^ 24 + 4 * Z.of_nat k)); [unfold load_word; now rewrite !Hm | apply Ho; lia].
Qed.
