(** The shipped program that multiplies two words, executed by the processor a23. *)
From Coq Require Import ZArith List Bool Lia.
From Verif Require Import RtlA23 RtlA23Units RtlA23Step RtlA23Jump RtlA23Mem RtlA23Mul RtlA23Multi RtlA23Run RtlA23Sum.
Import ListNotations.
Open Scope Z_scope.

(** * The program, a23/mul/p.txt *)
Definition mul_code : list Z :=
  [0xe59fd01c; 0xe59f000c; 0xe59f100c; 0xe59f200c; 0xeb000004; 0xeafffffe; 0x01000000; 0x02000000;
   0x03000000; 0x04000100; 0xe5900000; 0xe5913000; 0xe0030390; 0xe5823000; 0xe1a0f00e; 0x00000000; 0x00000000].

(** * Proofs *)
Section Mul.
Variables (z : sizes) (x y : Z).
Hypothesis Wx : is_word x.
Hypothesis Wy : is_word y.
Hypothesis Zo : 1 <= out_size z.
Definition mul_over (s : arm) : Prop := a_pc s = 20 /\ code_at (a_mem s) mul_code /\ load_word (a_mem s) (3 * 2 ^ 24) = (x * y) mod 2 ^ 32.
Lemma mul_body F : reaches z true (Arm (fun _ => 0) F 0 (mem_init mul_code [x] [y])) 31 mul_over.
Proof.
  assert (Hc : code_at (mem_init mul_code [x] [y]) mul_code) by (apply init_code; vm_compute; discriminate).
  assert (Hg : load_word (mem_init mul_code [x] [y]) (2 ^ 24) = x).
  { apply (init_word mul_code [x] [y] 1 0); [now left | cbn; lia | cbn; lia | constructor; [exact Wx | constructor]]. }
  assert (He : load_word (mem_init mul_code [x] [y]) (2 * 2 ^ 24) = y).
  { apply (init_word mul_code [x] [y] 2 0); [now right | cbn; lia | cbn; lia | constructor; [exact Wy | constructor]]. }
  set (M := mem_init mul_code [x] [y]) in *. clearbody M. unfold is_word in *.
  a23_prologue mul_code Hc M.
  (* bl 40 *)
  eapply (s_branch mul_code _ _ _ _ _ _ 0xeb000004); [exact Hc | vm_compute; reflexivity | unfold branch, branch_target; rewrite holds_al by reflexivity; a23_fields; cbv iota; cbn [a_regs a_flags a_pc a_mem]; reflexivity | ].
  change (16 + 8 + 16) with 40. change (16 + 4) with 20.
  (* ldr r0, [r0]; ldr r3, [r1] *)
  eapply (s_ldr mul_code _ _ _ _ _ _ 0xe5900000 (2 ^ 24)); [exact Hc | vm_compute; reflexivity | a23_address; regs; reflexivity | reflexivity | ].
  a23_fields. change (40 + 4) with 44. rewrite Hg. cbv iota.
  eapply (s_ldr mul_code _ _ _ _ _ _ 0xe5913000 (2 * 2 ^ 24)); [exact Hc | vm_compute; reflexivity | a23_address; regs; reflexivity | reflexivity | ].
  a23_fields. change (44 + 4) with 48. rewrite He. cbv iota.
  (* mul r3, r0, r3 *)
  eapply (r_mul z _ 0xe0030390); [cbn [a_mem a_pc]; rewrite (fetch M mul_code 48 Hc) by (try reflexivity; vm_compute; discriminate); vm_compute; reflexivity | repeat split; vm_compute; congruence | reflexivity | cbn; lia | ].
  unfold mul, mul_value, first_reg, second_reg. rewrite holds_al by reflexivity. a23_fields. cbn [a_regs a_flags a_pc a_mem Z.eqb Pos.eqb]. regs. cbv iota. change (48 + 4) with 52.
  match goal with |- reaches _ _ (Arm ?r _ _ _) _ _ => set (S := r) end.
  assert (Q : S 2 = 3 * 2 ^ 24 /\ S 3 = (x * y) mod 2 ^ 32 /\ S 14 = arm_r15_word F 20) by (unfold S; regs; repeat split; f_equal; lia).
  clearbody S. destruct Q as (Q2 & Q3 & Q14).
  (* str r3, [r2] *)
  eapply (s_str mul_code _ _ _ _ _ _ 0xe5823000 (3 * 2 ^ 24)); [exact Hc | vm_compute; reflexivity | a23_address; rewrite Q2; reflexivity | reflexivity | vm_compute; discriminate | ].
  a23_fields. change (52 + 4) with 56. rewrite Q3.
  set (N := store_word z M (3 * 2 ^ 24) ((x * y) mod 2 ^ 32)).
  assert (Hc' : code_at N mul_code) by (apply store_code; [exact Hc | vm_compute; discriminate | reflexivity]).
  assert (Ho : load_word N (3 * 2 ^ 24) = (x * y) mod 2 ^ 32).
  { apply load_store_same; [ | reflexivity | lia | apply Z.mod_pos_bound; lia]. unfold writable. change (3 * 2 ^ 24 / 2 ^ 24 =? 0) with false. change (3 * 2 ^ 24 / 2 ^ 24 =? 3) with true. change (3 * 2 ^ 24 mod 2 ^ 24) with 0. apply Z.ltb_lt. lia. }
  clearbody N.
  (* mov pc, lr *)
  assert (Er : pc_result (Arm S F 56 N) 0xe1a0f00e = arm_r15_word F 20) by (unfold pc_result; a23_dp; exact Q14).
  assert (Ep : word_pc (arm_r15_word F 20) = 20) by (unfold word_pc, arm_r15_word; destruct F as [[] [] [] []]; reflexivity).
  eapply (r_to_pc z _ _ 0xe1a0f00e); [cbn [a_mem a_pc]; rewrite (fetch N mul_code 56 Hc') by (try reflexivity; vm_compute; discriminate); vm_compute; reflexivity | | right; reflexivity | rewrite Er, Ep; reflexivity | now apply holds_al | apply r_done].
  - repeat split; try (vm_compute; reflexivity). right. left. reflexivity.
  - unfold to_pc. rewrite holds_al, Er, Ep by reflexivity. a23_fields. split; [reflexivity | ]. split; [exact Hc' | exact Ho].
Qed.
Lemma mul_stays s : mul_over s -> reaches z true s 3 mul_over.
Proof.
  intros (P & Hc & Ho). destruct s as [R F pc M]. cbn [a_pc a_mem] in *. subst pc.
  eapply (s_branch mul_code _ _ _ _ _ _ 0xeafffffe); [exact Hc | vm_compute; reflexivity | | apply r_done].
  - unfold branch, branch_target. rewrite holds_al by reflexivity. a23_fields. cbv iota. cbn [a_regs a_flags a_pc a_mem]. reflexivity.
  - split; [reflexivity | split; [exact Hc | exact Ho]].
Qed.
Lemma mul_runs F m : reaches z true (Arm (fun _ => 0) F 0 (mem_init mul_code [x] [y])) (31 + 3 * m) mul_over.
Proof.
  induction m as [ | m IH]; [apply mul_body | ].
  apply r_eq with (31 + 3 * m + 3)%nat; [lia | ]. apply r_seq with mul_over; [exact IH | ]. intros s Hs. now apply mul_stays.
Qed.
End Mul.
(** After 32 cycles, and whenever the processor is back at the branch to itself, the output is the product *)
Theorem mul_program z x y m (p := run z (32 + 3 * m) (reset (mem_init mul_code [x] [y]))) : is_word x -> is_word y -> 1 <= out_size z ->
  terminate p = true /\ outputs (mem p) 1 = [(x * y) mod 2 ^ 32].
Proof.
  intros Wx Wy Zo. unfold p. replace (32 + 3 * m)%nat with (1 + (31 + 3 * m))%nat by lia. rewrite run_app. change (run z 1 ?q) with (step z q).
  destruct (reset_ready z (mem_init mul_code [x] [y]) (init_range _ _ _)) as [R I].
  destruct (mul_runs z x y Wx Wy Zo _ m _ R (fun _ => I)) as (s & (P & _ & Ho) & R' & _).
  split; [exact (ready_terminate _ s R' P) | ]. pose proof R' as (_ & _ & _ & _ & _ & Hm & _). rewrite <- Ho. unfold outputs, load_word. cbn [map seq]. change (Z.of_nat 0) with 0. now rewrite !Hm.
Qed.
