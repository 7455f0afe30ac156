(** The shipped program that compares two numbers of 1024 bits, executed by the processor a23. *)
From Coq Require Import ZArith List Bool Lia.
From Verif Require Import RtlA23 RtlA23Units RtlA23Step RtlA23Jump RtlA23Mem RtlA23Mul RtlA23Multi RtlA23Run RtlA23Sum.
Import ListNotations.
Open Scope Z_scope.

(** * The program, a23/compare/p.txt *)
Definition compare_code : list Z :=
  [0xe59fd01c; 0xe59f000c; 0xe59f100c; 0xe59f200c; 0xeb000004; 0xeafffffe; 0x01000000; 0x02000000;
   0x03000000; 0x04000100; 0xe92d4010; 0xe241e004; 0xe2400004; 0xe281107c; 0xe3a03001; 0xe5b04004;
   0xe5bec004; 0xe1e0c00c; 0xe3530001; 0xe0b4c00c; 0xe3a03000; 0x23a03001; 0xe15e0001; 0x1afffff6;
   0xe2733001; 0x33a03000; 0xe5823000; 0xe8bd8010; 0x00000000; 0x00000000].

(** * Proofs *)
Section Compare.
Variables (z : sizes) (g e : list Z).
Hypothesis Lg : length g = 32%nat.
Hypothesis Le : length e = 32%nat.
Hypothesis Wg : Forall is_word g.
Hypothesis We : Forall is_word e.
Hypothesis Zo : 1 <= out_size z.
Hypothesis Zs : 64 <= stack_size z.
Let gw (k : nat) : Z := nth k g 0.
Let ew (k : nat) : Z := nth k e 0.
Lemma gword k : is_word (gw k).
Proof. exact (gw_range g e Lg Le Wg k). Qed.
Lemma eword k : is_word (ew k).
Proof. exact (ew_range g e Lg Le We k). Qed.
Fixpoint no_borrow (k : nat) : Z := match k with O => 1 | S j => (gw j + (2 ^ 32 - 1 - ew j) + no_borrow j) / 2 ^ 32 end.
Lemma no_borrow_range k : 0 <= no_borrow k <= 1.
Proof.
  induction k as [ | k IH]; [cbn; lia | ]. cbn [no_borrow]. assert (G := gword k). assert (E := eword k). unfold is_word in *.
  split; [apply Z.div_pos; lia | ]. assert ((gw k + (2 ^ 32 - 1 - ew k) + no_borrow k) / 2 ^ 32 < 2) by (apply Z.div_lt_upper_bound; lia). lia.
Qed.
Record compare_mem (M : memory) : Prop := {
  cm_code : code_at M compare_code;
  cm_g : forall j, (j < 32)%nat -> load_word M (2 ^ 24 + 4 * Z.of_nat j) = gw j;
  cm_e : forall j, (j < 32)%nat -> load_word M (2 * 2 ^ 24 + 4 * Z.of_nat j) = ew j }.
Lemma compare_mem_start : compare_mem (mem_init compare_code g e).
Proof.
  constructor.
  - apply init_code. vm_compute. discriminate.
  - intros j Hj. replace (2 ^ 24) with (1 * 2 ^ 24) by lia. rewrite (init_word compare_code g e 1) by (cbn [Z.eqb Pos.eqb]; first [now left | lia | rewrite Lg; lia | exact Wg]).
    unfold gw. cbn [Z.eqb Pos.eqb]. now rewrite Nat2Z.id.
  - intros j Hj. rewrite (init_word compare_code g e 2) by (cbn [Z.eqb Pos.eqb]; first [now right | lia | rewrite Le; lia | exact We]).
    unfold ew. cbn [Z.eqb Pos.eqb]. now rewrite Nat2Z.id.
Qed.
Lemma compare_mem_store M r j v : 3 <= r -> 0 <= j -> compare_mem M -> compare_mem (store_word z M (r * 2 ^ 24 + 4 * j) v).
Proof.
  intros Hr Hj [H1 H2 H3]. assert (F : (r * 2 ^ 24 + 4 * j) mod 4 = 0) by (apply (four_k g e Lg Le); replace (r * 2 ^ 24) with (r * 2 ^ 22 * 4) by lia; apply Z.mod_mul; lia). constructor.
  - apply store_code; [exact H1 | change (length compare_code) with 30%nat; lia | exact F].
  - intros i Hi. rewrite load_store_other; [now apply H2 | exact F | now apply (four_k g e Lg Le) | lia].
  - intros i Hi. rewrite load_store_other; [now apply H3 | exact F | now apply (four_k g e Lg Le) | lia].
Qed.
(** ** The loop *)
Definition compare_regs (k : nat) (R : Z -> Z) : Prop :=
  R 0 = 2 ^ 24 + 4 * Z.of_nat k - 4 /\ R 14 = 2 * 2 ^ 24 + 4 * Z.of_nat k - 4 /\ R 1 = 2 * 2 ^ 24 + 124 /\ R 2 = 3 * 2 ^ 24 /\ R 3 = no_borrow k /\ R 13 = 4 * 2 ^ 24 + 4 * 62.
Definition compare_at (pc : Z) (k : nat) (ret : Z) (s : arm) : Prop :=
  exists R F M, s = Arm R F pc M /\ compare_mem M /\ compare_regs k R /\ load_word M (4 * 2 ^ 24 + 4 * 63) = ret.
Lemma compare_body k ret : (k < 32)%nat -> forall s, compare_at 60 k ret s -> reaches z true s 15 (compare_at (if Nat.eqb (S k) 32 then 96 else 60) (S k) ret).
Proof.
  intros Hk s (R & F & M & -> & HM & (R0 & R14 & R1 & R2 & R3 & R13) & HS). pose proof HM as [Hc Hg He].
  assert (Gk := gword k). assert (Ek := eword k). assert (Ck := no_borrow_range k). unfold is_word in *.
  (* ldr r4, [r0, #4]! *)
  assert (A1 : moved_base (Arm R F 60 M) 0xe5b04004 = 2 ^ 24 + 4 * Z.of_nat k) by (a23_address; rewrite R0, Z.mod_small; lia).
  eapply (s_ldr compare_code _ _ _ _ _ _ 0xe5b04004 (2 ^ 24 + 4 * Z.of_nat k)); [exact Hc | vm_compute; reflexivity | exact A1 | now apply (four_k g e Lg Le) | ].
  rewrite A1. a23_fields. change (60 + 4) with 64. rewrite Hg by lia. cbv iota. clear A1.
  (* ldr r12, [lr, #4]! *)
  match goal with |- reaches _ _ (Arm ?r _ _ _) _ _ => assert (A2 : moved_base (Arm r F 64 M) 0xe5bec004 = 2 * 2 ^ 24 + 4 * Z.of_nat k) by (a23_address; regs; rewrite R14, Z.mod_small; lia) end.
  eapply (s_ldr compare_code _ _ _ _ _ _ 0xe5bec004 (2 * 2 ^ 24 + 4 * Z.of_nat k)); [exact Hc | vm_compute; reflexivity | exact A2 | now apply (four_k g e Lg Le) | ].
  rewrite A2. a23_fields. change (64 + 4) with 68. rewrite He by lia. cbv iota. clear A2.
  (* mvn r12, r12 *)
  eapply (s_dp compare_code _ _ _ _ _ _ 0xe1e0c00c); [exact Hc | vm_compute; reflexivity | a23_dp; reflexivity | ]. intros f0 _ _. change (68 + 4) with 72.
  (* cmp r3, #1 *)
  eapply (s_dp compare_code _ _ _ _ _ _ 0xe3530001); [exact Hc | vm_compute; reflexivity | a23_dp; reflexivity | ]. intros f1 Cf1 _. change (72 + 4) with 76.
  assert (Eb : Z.b2z (fC f1) = no_borrow k).
  { rewrite Cf1. a23_dp. regs. rewrite R3. destruct (Z.leb_spec 0 (no_borrow k - 1)); cbn [Z.b2z]; lia. }
  clear Cf1.
  (* adcs r12, r4, r12 *)
  eapply (s_dp compare_code _ _ _ _ _ _ 0xe0b4c00c); [exact Hc | vm_compute; reflexivity | a23_dp; reflexivity | ]. intros f2 Cf2 _. change (76 + 4) with 80.
  assert (E2 : Z.b2z (fC f2) = no_borrow (S k)).
  { rewrite Cf2. a23_dp. regs. rewrite Eb. cbn [no_borrow]. destruct (Z.leb_spec (2 ^ 32) (gw k + (2 ^ 32 - 1 - ew k) + no_borrow k)); cbn [Z.b2z].
    - apply Z.div_unique with (gw k + (2 ^ 32 - 1 - ew k) + no_borrow k - 2 ^ 32); lia.
    - symmetry. apply Z.div_small. lia. }
  clear Cf2.
  (* mov r3, #0 *)
  eapply (s_dp compare_code _ _ _ _ _ _ 0xe3a03000); [exact Hc | vm_compute; reflexivity | a23_dp; reflexivity | ]. intros f3 _ Hf3. change (80 + 4) with 84.
  specialize (Hf3 eq_refl). assert (E3 : f3 = f2) by (rewrite Hf3; a23_dp; reflexivity). clear Hf3. subst f3.
  (* movhs r3, #1 *)
  eapply (s_dp compare_code _ _ _ _ _ _ 0x23a03001); [exact Hc | vm_compute; reflexivity | reflexivity | ]. intros f3 _ _. change (84 + 4) with 88.
  match goal with |- reaches _ _ (Arm ?r _ _ _) _ _ => set (T := r) end.
  assert (Q : compare_regs (S k) T).
  { unfold compare_regs. rewrite <- E2. unfold T. a23_dp. destruct (fC f2); cbn [andb]; regs; repeat split; first [assumption | reflexivity | lia]. }
  clearbody T. destruct Q as (Q0 & Q14 & Q1 & Q2 & Q3 & Q13). clear R0 R1 R2 R3 R14 R13 E2 Eb f1 f2 f0. clear R F. rename T into R.
  (* cmp lr, r1 *)
  eapply (s_dp compare_code _ _ _ _ _ _ 0xe15e0001); [exact Hc | vm_compute; reflexivity | a23_dp; reflexivity | ]. intros f5 _ Hf5. change (88 + 4) with 92.
  specialize (Hf5 eq_refl). assert (E5 : fZ f5 = Nat.eqb (S k) 32).
  { rewrite Hf5. a23_dp. rewrite Q14, Q1. apply Bool.eq_true_iff_eq. rewrite Z.eqb_eq, Nat.eqb_eq. split; intros H.
    - apply Z.mod_divide in H; [ | lia]. destruct H as (m & H). nia.
    - rewrite H. reflexivity. }
  clear Hf5.
  (* bne *)
  eapply (s_branch compare_code _ _ _ _ _ _ 0x1afffff6); [exact Hc | vm_compute; reflexivity | | apply r_done].
  { unfold branch, branch_target, holds. a23_fields. rewrite cond_ne. cbn [a_flags]. rewrite E5. cbn [a_regs a_pc a_mem a_flags]. reflexivity. }
  eexists _, _, M. split; [ | split; [exact HM | split; [ | exact HS]]].
  - destruct (Nat.eqb (S k) 32); reflexivity.
  - repeat split; assumption.
Qed.
Lemma compare_loop ret s : compare_at 60 0 ret s -> reaches z true s (32 * 15) (compare_at 96 32 ret).
Proof.
  intros H. assert (A : forall k, (k < 32)%nat -> reaches z true s (k * 15) (compare_at 60 k ret)).
  { intros k. induction k as [ | k IH]; intros Hk; [now apply r_done | ]. apply r_eq with (k * 15 + 15)%nat; [lia | ].
    apply r_seq with (compare_at 60 k ret); [apply IH; lia | ]. intros s' Hs. pose proof (compare_body k ret ltac:(lia) s' Hs) as L.
    replace (Nat.eqb (S k) 32) with false in L by (symmetry; apply Nat.eqb_neq; lia). exact L. }
  apply r_eq with (31 * 15 + 15)%nat; [reflexivity | ]. apply r_seq with (compare_at 60 31 ret); [apply A; lia | ].
  intros s' Hs. exact (compare_body 31 ret ltac:(lia) s' Hs).
Qed.
(** ** Before and after the loop *)
Lemma compare_before F : reaches z true (Arm (fun _ => 0) F 0 (mem_init compare_code g e)) 23 (compare_at 60 0 (arm_r15_word F 20)).
Proof.
  assert (HM := compare_mem_start). set (M := mem_init compare_code g e) in *. clearbody M. assert (Hc := cm_code _ HM).
  a23_prologue compare_code Hc M.
  (* bl 40 *)
  eapply (s_branch compare_code _ _ _ _ _ _ 0xeb000004); [exact Hc | vm_compute; reflexivity | unfold branch, branch_target; rewrite holds_al by reflexivity; a23_fields; cbv iota; cbn [a_regs a_flags a_pc a_mem]; reflexivity | ].
  change (16 + 8 + 16) with 40. change (16 + 4) with 20.
  (* push {r4, lr} *)
  eapply (s_multi compare_code _ _ _ _ _ _ 0xe92d4010) with (n := 4%nat); [exact Hc | vm_compute; reflexivity | | | | | ].
  { split; [reflexivity | ]. split; [reflexivity | ]. split; [vm_compute; discriminate | ]. split; [vm_compute; discriminate | ]. vm_compute. split; [reflexivity | reflexivity]. }
  { unfold multi, multi_start, multi_base. rewrite holds_al by reflexivity. a23_fields. cbn [length store_regs]. a23_fields. cbv iota zeta. unfold first_reg. cbn [a_regs a_flags a_pc a_mem Z.eqb Pos.eqb]. regs.
    change ((67109120 - 4 * Z.of_nat 2) mod 2 ^ 32) with (4 * 2 ^ 24 + 4 * 62). change ((4 * 2 ^ 24 + 4 * 62 + 4) mod 2 ^ 32) with (4 * 2 ^ 24 + 4 * 63). reflexivity. }
  { cbn [a_mem]. apply store_code; [apply store_code; [exact Hc | | ] | | ]; try reflexivity; change (length compare_code) with 30%nat; lia. }
  { cbn [a_pc]. split; [lia | split; [reflexivity | lia]]. }
  change (40 + 4) with 44. apply (compare_mem_store M 4 62 0) in HM; [ | lia | lia]. apply (compare_mem_store _ 4 63 (arm_r15_word F 20)) in HM; [ | lia | lia].
  assert (HS : load_word (store_word z (store_word z M (4 * 2 ^ 24 + 4 * 62) 0) (4 * 2 ^ 24 + 4 * 63) (arm_r15_word F 20)) (4 * 2 ^ 24 + 4 * 63) = arm_r15_word F 20).
  { apply load_store_same; [apply (stack_writable z g e Lg Le Zs); lia | reflexivity | lia | ]. unfold arm_r15_word. destruct F as [[] [] [] []]; cbn [fN fZ fC fV Z.b2z]; lia. }
  set (N := store_word z (store_word z M (4 * 2 ^ 24 + 4 * 62) 0) (4 * 2 ^ 24 + 4 * 63) (arm_r15_word F 20)) in *. clearbody N. clear Hc. assert (Hc := cm_code _ HM).
  (* sub lr, r1, #4; sub r0, r0, #4; add r1, r1, #124; mov r3, #1 *)
  eapply (s_dp compare_code _ _ _ _ _ _ 0xe241e004); [exact Hc | vm_compute; reflexivity | a23_dp; reflexivity | ]. intros f1 _ _. change (44 + 4) with 48.
  eapply (s_dp compare_code _ _ _ _ _ _ 0xe2400004); [exact Hc | vm_compute; reflexivity | a23_dp; reflexivity | ]. intros f2 _ _. change (48 + 4) with 52.
  eapply (s_dp compare_code _ _ _ _ _ _ 0xe281107c); [exact Hc | vm_compute; reflexivity | a23_dp; reflexivity | ]. intros f3 _ _. change (52 + 4) with 56.
  eapply (s_dp compare_code _ _ _ _ _ _ 0xe3a03001); [exact Hc | vm_compute; reflexivity | a23_dp; reflexivity | ]. intros f4 _ _. change (56 + 4) with 60.
  apply r_done. eexists _, f4, N. split; [reflexivity | ]. split; [exact HM | ]. split; [ | exact HS]. unfold compare_regs. regs. repeat split.
Qed.
Definition compare_over (s : arm) : Prop := a_pc s = 20 /\ compare_mem (a_mem s) /\ load_word (a_mem s) (3 * 2 ^ 24) = 1 - no_borrow 32.
Lemma compare_after ret s : word_pc ret = 20 -> compare_at 96 32 ret s -> reaches z true s 11 compare_over.
Proof.
  intros Hr (R & F & M & -> & HM & (R0 & R14 & R1 & R2 & R3 & R13) & HS). assert (Hc := cm_code _ HM). assert (Ck := no_borrow_range 32).
  (* rsbs r3, r3, #1 *)
  eapply (s_dp compare_code _ _ _ _ _ _ 0xe2733001); [exact Hc | vm_compute; reflexivity | a23_dp; reflexivity | ]. intros f1 Cf1 _. change (96 + 4) with 100.
  assert (E1 : fC f1 = true). { rewrite Cf1. a23_dp. rewrite R3. apply Z.leb_le. lia. } clear Cf1.
  rewrite R3, Z.mod_small by lia.
  (* movlo r3, #0 *)
  eapply (s_dp compare_code _ _ _ _ _ _ 0x33a03000); [exact Hc | vm_compute; reflexivity | a23_dp; rewrite E1; cbn [negb andb]; reflexivity | ]. intros f2 _ _. change (100 + 4) with 104. cbv iota.
  (* str r3, [r2] *)
  eapply (s_str compare_code _ _ _ _ _ _ 0xe5823000 (3 * 2 ^ 24)); [exact Hc | vm_compute; reflexivity | a23_address; regs; rewrite R2; reflexivity | reflexivity | vm_compute; discriminate | ].
  a23_fields. change (104 + 4) with 108. regs. assert (HM' := compare_mem_store M 3 0 (1 - no_borrow 32) ltac:(lia) ltac:(lia) HM). change (3 * 2 ^ 24 + 4 * 0) with (3 * 2 ^ 24) in HM'.
  assert (HS' : load_word (store_word z M (3 * 2 ^ 24) (1 - no_borrow 32)) (4 * 2 ^ 24 + 4 * 63) = ret).
  { rewrite load_store_other; [exact HS | reflexivity | reflexivity | lia]. }
  assert (Ho : load_word (store_word z M (3 * 2 ^ 24) (1 - no_borrow 32)) (3 * 2 ^ 24) = 1 - no_borrow 32).
  { apply load_store_same; [ | reflexivity | lia | lia]. unfold writable. change (3 * 2 ^ 24 / 2 ^ 24 =? 0) with false. change (3 * 2 ^ 24 / 2 ^ 24 =? 3) with true. change (3 * 2 ^ 24 mod 2 ^ 24) with 0. apply Z.ltb_lt. lia. }
  set (N := store_word z M (3 * 2 ^ 24) (1 - no_borrow 32)) in *. clearbody N. clear HM HS Hc M. assert (Hc := cm_code _ HM').
  (* pop {r4, pc} *)
  eapply (s_multi compare_code _ _ _ _ _ _ 0xe8bd8010) with (n := O); [exact Hc | vm_compute; reflexivity | | | | | ].
  { split; [reflexivity | ]. split; [reflexivity | ]. split; [vm_compute; discriminate | ]. split; [vm_compute; discriminate | ]. intros _. now rewrite holds_al by reflexivity. }
  { unfold multi, multi_start, multi_base. rewrite holds_al by reflexivity. a23_fields. cbn [length load_regs]. cbv iota zeta. unfold first_reg. cbn [a_regs a_flags a_pc a_mem Z.eqb Pos.eqb]. rewrite R13.
    change ((4 * 2 ^ 24 + 4 * 62) mod 2 ^ 32) with (4 * 2 ^ 24 + 4 * 62). change ((4 * 2 ^ 24 + 4 * 62 + 4) mod 2 ^ 32) with (4 * 2 ^ 24 + 4 * 63).
    replace (put _ 15 _ 15) with ret by (unfold put; cbn [Z.eqb Pos.eqb]; now rewrite HS'). rewrite Hr. reflexivity. }
  { exact Hc. }
  { cbn [a_pc]. split; [lia | split; [reflexivity | lia]]. }
  apply r_done. split; [reflexivity | ]. split; [exact HM' | exact Ho].
Qed.
(** ** The numbers *)
Lemma compare_number n : no_borrow n = if number (map ew (seq 0 n)) <=? number (map gw (seq 0 n)) then 1 else 0.
Proof.
  induction n as [ | n IH]; [reflexivity | ]. rewrite seq_S, !map_app. cbn [map Nat.add]. rewrite !number_snoc, !map_length, !seq_length. cbn [no_borrow].
  assert (G := gword n). assert (E := eword n). unfold is_word in *.
  assert (RG : 0 <= number (map gw (seq 0 n)) < 2 ^ (32 * Z.of_nat n)).
  { replace (Z.of_nat n) with (Z.of_nat (length (map gw (seq 0 n)))) by (now rewrite map_length, seq_length). apply number_range, Forall_forall. intros w Hw. apply in_map_iff in Hw. destruct Hw as (k & <- & _). apply gword. }
  assert (RE : 0 <= number (map ew (seq 0 n)) < 2 ^ (32 * Z.of_nat n)).
  { replace (Z.of_nat n) with (Z.of_nat (length (map ew (seq 0 n)))) by (now rewrite map_length, seq_length). apply number_range, Forall_forall. intros w Hw. apply in_map_iff in Hw. destruct Hw as (k & <- & _). apply eword. }
  rewrite IH. set (x := number (map gw (seq 0 n))) in *. set (y := number (map ew (seq 0 n))) in *. set (P := 2 ^ (32 * Z.of_nat n)) in *. set (a := gw n) in *. set (b := ew n) in *. clearbody x y P a b. clear IH.
  assert (H1 : forall c, 0 <= c <= 1 -> (a + (2 ^ 32 - 1 - b) + c) / 2 ^ 32 = if b <? a + c then 1 else 0).
  { intros c Hc. destruct (Z.ltb_spec b (a + c)).
    - symmetry. apply Z.div_unique with (a + (2 ^ 32 - 1 - b) + c - 2 ^ 32); lia.
    - apply Z.div_small. lia. }
  destruct (Z.leb_spec y x); rewrite H1 by lia.
  - destruct (Z.ltb_spec b (a + 1)), (Z.leb_spec (y + P * b) (x + P * a)); try reflexivity; exfalso; nia.
  - destruct (Z.ltb_spec b (a + 0)), (Z.leb_spec (y + P * b) (x + P * a)); try reflexivity; exfalso; nia.
Qed.
Lemma compare_output : 1 - no_borrow 32 = if number g <? number e then 1 else 0.
Proof.
  rewrite compare_number. assert (Eg : map gw (seq 0 32) = g) by (rewrite <- Lg; apply map_nth_seq). assert (Ee : map ew (seq 0 32) = e) by (rewrite <- Le; apply map_nth_seq). rewrite Eg, Ee.
  destruct (Z.leb_spec (number e) (number g)), (Z.ltb_spec (number g) (number e)); lia.
Qed.
(** ** The whole program *)
Lemma compare_stays s : compare_over s -> reaches z true s 3 compare_over.
Proof.
  intros (P & HM & Ho). destruct s as [R F pc M]. cbn [a_pc a_mem] in *. subst pc. assert (Hc := cm_code _ HM).
  eapply (s_branch compare_code _ _ _ _ _ _ 0xeafffffe); [exact Hc | vm_compute; reflexivity | | apply r_done].
  - unfold branch, branch_target. rewrite holds_al by reflexivity. a23_fields. cbv iota. cbn [a_regs a_flags a_pc a_mem]. reflexivity.
  - split; [reflexivity | ]. split; [exact HM | exact Ho].
Qed.
Lemma compare_runs F m : reaches z true (Arm (fun _ => 0) F 0 (mem_init compare_code g e)) (514 + 3 * m) compare_over.
Proof.
  induction m as [ | m IH].
  - apply r_eq with (23 + (32 * 15 + 11))%nat; [reflexivity | ]. apply r_seq with (compare_at 60 0 (arm_r15_word F 20)); [apply compare_before | ].
    intros s1 H1. apply r_seq with (compare_at 96 32 (arm_r15_word F 20)); [now apply compare_loop | ]. intros s2 H2. apply (compare_after (arm_r15_word F 20)); [ | exact H2].
    unfold word_pc, arm_r15_word. destruct F as [[] [] [] []]; reflexivity.
  - apply r_eq with (514 + 3 * m + 3)%nat; [lia | ]. apply r_seq with compare_over; [exact IH | ]. intros s Hs. now apply compare_stays.
Qed.
End Compare.
(** After 515 cycles, and whenever the processor is back at the branch to itself, the output tells whether
    the first number is less than the second *)
Theorem compare_program z g e m (p := run z (515 + 3 * m) (reset (mem_init compare_code g e))) :
  length g = 32%nat -> length e = 32%nat -> Forall is_word g -> Forall is_word e -> 1 <= out_size z -> 64 <= stack_size z ->
  terminate p = true /\ outputs (mem p) 1 = [if number g <? number e then 1 else 0].
Proof.
  intros Lg Le Wg We Zo Zs. unfold p. replace (515 + 3 * m)%nat with (1 + (514 + 3 * m))%nat by lia. rewrite run_app. change (run z 1 ?q) with (step z q).
  destruct (reset_ready z (mem_init compare_code g e) (init_range _ _ _)) as [R I].
  destruct (compare_runs z g e Lg Le Wg We Zo Zs _ m _ R (fun _ => I)) as (s & (P & _ & Ho) & R' & _).
  split; [exact (ready_terminate _ s R' P) | ]. pose proof R' as (_ & _ & _ & _ & _ & Hm & _). rewrite <- (compare_output g e Lg Le Wg We), <- Ho.
  unfold outputs, load_word. cbn [map seq]. change (Z.of_nat 0) with 0. now rewrite !Hm.
Qed.
