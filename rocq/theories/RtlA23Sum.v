(** The shipped program that adds two numbers of 1024 bits, executed by the processor a23. *)
From Coq Require Import ZArith List Bool Lia.
From Verif Require Import RtlA23 RtlA23Units RtlA23Step RtlA23Jump RtlA23Mem RtlA23Mul RtlA23Multi RtlA23Run.
Import ListNotations.
Open Scope Z_scope.

(** * The program, a23/sum/p.txt *)
Definition sum_code : list Z :=
  [0xe59fd01c; 0xe59f000c; 0xe59f100c; 0xe59f200c; 0xeb000017; 0xeafffffe; 0x01000000; 0x02000000;
   0x03000000; 0x04000100; 0xe92d4010; 0xe3a03000; 0xe1a0c003; 0xe790e003; 0xe7914003; 0xe35c0001;
   0xe0bee004; 0xe3a0c000; 0x23a0c001; 0xe782e003; 0xe2833004; 0xe353007c; 0x1afffff5; 0xe590307c;
   0xe591107c; 0xe35c0001; 0xe0a3c001; 0xe582c07c; 0xe8bd8010; 0xeaffffeb; 0x00000000; 0x00000000].

(** * Specification *)
(** A number in words of 32 bits, the lowest first *)
Fixpoint number (l : list Z) : Z := match l with [] => 0 | w :: l' => w + 2 ^ 32 * number l' end.
(** The n words of the output *)
Definition outputs (m : memory) (n : nat) : list Z := map (fun k => load_word m (3 * 2 ^ 24 + 4 * Z.of_nat k)) (seq 0 n).

(** * Proofs *)
Definition is_word (w : Z) : Prop := 0 <= w < 2 ^ 32.
Lemma number_snoc l w : number (l ++ [w]) = number l + 2 ^ (32 * Z.of_nat (length l)) * w.
Proof.
  induction l as [ | x l IH]; [cbn [app number length]; change (32 * Z.of_nat 0) with 0; rewrite Z.pow_0_r; lia | ]. cbn [app number length]. rewrite IH. replace (32 * Z.of_nat (S (length l))) with (32 + 32 * Z.of_nat (length l)) by lia.
  rewrite Z.pow_add_r by lia. lia.
Qed.
Lemma number_range l : Forall is_word l -> 0 <= number l < 2 ^ (32 * Z.of_nat (length l)).
Proof.
  induction 1 as [ | w l Hw H IH]; [cbn; lia | ]. cbn [number length]. replace (32 * Z.of_nat (S (length l))) with (32 + 32 * Z.of_nat (length l)) by lia.
  rewrite Z.pow_add_r by lia. unfold is_word in Hw. nia.
Qed.
Lemma map_nth_seq (l : list Z) : map (fun k => nth k l 0) (seq 0 (length l)) = l.
Proof.
  apply nth_ext with 0 0; [now rewrite map_length, seq_length | ]. intros k Hk. rewrite map_length, seq_length in Hk.
  rewrite (nth_indep _ 0 (nth 0 l 0)) by (now rewrite map_length, seq_length). rewrite (map_nth (fun k => nth k l 0)). now rewrite seq_nth.
Qed.
Section Sum.
Variables (z : sizes) (g e : list Z).
Hypothesis Lg : length g = 32%nat.
Hypothesis Le : length e = 32%nat.
Hypothesis Wg : Forall is_word g.
Hypothesis We : Forall is_word e.
Hypothesis Zo : 32 <= out_size z.
Hypothesis Zs : 64 <= stack_size z.
Let gw (k : nat) : Z := nth k g 0.
Let ew (k : nat) : Z := nth k e 0.
Fixpoint carry (k : nat) : Z := match k with O => 0 | S j => (gw j + ew j + carry j) / 2 ^ 32 end.
Let sw (k : nat) : Z := (gw k + ew k + carry k) mod 2 ^ 32.
Lemma gw_range k : is_word (gw k).
Proof. unfold gw. destruct (Nat.lt_ge_cases k (length g)) as [H | H]; [rewrite Forall_forall in Wg; apply Wg, nth_In, H | rewrite nth_overflow by exact H; unfold is_word; lia]. Qed.
Lemma ew_range k : is_word (ew k).
Proof. unfold ew. destruct (Nat.lt_ge_cases k (length e)) as [H | H]; [rewrite Forall_forall in We; apply We, nth_In, H | rewrite nth_overflow by exact H; unfold is_word; lia]. Qed.
Lemma carry_range k : 0 <= carry k <= 1.
Proof.
  induction k as [ | k IH]; [cbn; lia | ]. cbn [carry]. assert (G := gw_range k). assert (E := ew_range k). unfold is_word in *.
  split; [apply Z.div_pos; lia | ]. assert ((gw k + ew k + carry k) / 2 ^ 32 < 2) by (apply Z.div_lt_upper_bound; lia). lia.
Qed.
(** The memory while the program runs *)
Record sum_mem (k : nat) (M : memory) : Prop := {
  sm_code : code_at M sum_code;
  sm_g : forall j, (j < 32)%nat -> load_word M (2 ^ 24 + 4 * Z.of_nat j) = gw j;
  sm_e : forall j, (j < 32)%nat -> load_word M (2 * 2 ^ 24 + 4 * Z.of_nat j) = ew j;
  sm_o : forall j, (j < k)%nat -> load_word M (3 * 2 ^ 24 + 4 * Z.of_nat j) = sw j }.
Lemma sum_mem_start : sum_mem 0 (mem_init sum_code g e).
Proof.
  constructor.
  - apply init_code. vm_compute. discriminate.
  - intros j Hj. replace (2 ^ 24) with (1 * 2 ^ 24) by lia. rewrite (init_word sum_code g e 1) by (cbn [Z.eqb Pos.eqb]; first [now left | lia | rewrite Lg; lia | exact Wg]).
    unfold gw. cbn [Z.eqb Pos.eqb]. now rewrite Nat2Z.id.
  - intros j Hj. rewrite (init_word sum_code g e 2) by (cbn [Z.eqb Pos.eqb]; first [now right | lia | rewrite Le; lia | exact We]).
    unfold ew. cbn [Z.eqb Pos.eqb]. now rewrite Nat2Z.id.
  - lia.
Qed.
Lemma four_k a j : a mod 4 = 0 -> (a + 4 * j) mod 4 = 0.
Proof. intros H. rewrite Z.add_mod, H by lia. rewrite (Z.mul_comm 4), Z.mod_mul by lia. reflexivity. Qed.
Lemma out_writable k : 0 <= k < 32 -> writable z (3 * 2 ^ 24 + 4 * k) = true.
Proof.
  intros H. unfold writable. replace ((3 * 2 ^ 24 + 4 * k) / 2 ^ 24) with 3 by (rewrite Z.add_comm, Z.div_add, Z.div_small by lia; reflexivity).
  cbn [Z.eqb Pos.eqb]. rewrite Z.add_comm, Z.mod_add, Z.mod_small by lia. apply Z.ltb_lt. lia.
Qed.
Lemma stack_writable k : 0 <= k < 64 -> writable z (4 * 2 ^ 24 + 4 * k) = true.
Proof.
  intros H. unfold writable. replace ((4 * 2 ^ 24 + 4 * k) / 2 ^ 24) with 4 by (rewrite Z.add_comm, Z.div_add, Z.div_small by lia; reflexivity).
  cbn [Z.eqb Pos.eqb]. rewrite Z.add_comm, Z.mod_add, Z.mod_small by lia. apply Z.ltb_lt. lia.
Qed.
(** A word of the output is stored *)
Lemma sum_mem_store k M : (k < 32)%nat -> sum_mem k M -> sum_mem (S k) (store_word z M (3 * 2 ^ 24 + 4 * Z.of_nat k) (sw k)).
Proof.
  intros Hk [H1 H2 H3 H4]. constructor.
  - apply store_code; [exact H1 | change (length sum_code) with 32%nat; lia | now apply four_k].
  - intros j Hj. rewrite load_store_other; [now apply H2 | now apply four_k | now apply four_k | lia].
  - intros j Hj. rewrite load_store_other; [now apply H3 | now apply four_k | now apply four_k | lia].
  - intros j Hj. destruct (Nat.eq_dec j k) as [-> | N].
    + apply load_store_same; [apply out_writable; lia | now apply four_k | lia | apply Z.mod_pos_bound; lia].
    + rewrite load_store_other; [apply H4; lia | now apply four_k | now apply four_k | lia].
Qed.
Lemma sum_mem_stack k M j v : 0 <= j < 64 -> (k <= 32)%nat -> sum_mem k M -> sum_mem k (store_word z M (4 * 2 ^ 24 + 4 * j) v).
Proof.
  intros Hj Hk [H1 H2 H3 H4]. constructor.
  - apply store_code; [exact H1 | change (length sum_code) with 32%nat; lia | now apply four_k].
  - intros i Hi. rewrite load_store_other; [now apply H2 | now apply four_k | now apply four_k | lia].
  - intros i Hi. rewrite load_store_other; [now apply H3 | now apply four_k | now apply four_k | lia].
  - intros i Hi. rewrite load_store_other; [now apply H4 | now apply four_k | now apply four_k | lia].
Qed.
(** ** The loop *)
Definition sum_regs (k : nat) (R : Z -> Z) : Prop :=
  R 0 = 2 ^ 24 /\ R 1 = 2 * 2 ^ 24 /\ R 2 = 3 * 2 ^ 24 /\ R 3 = 4 * Z.of_nat k /\ R 12 = carry k /\ R 13 = 4 * 2 ^ 24 + 4 * 62.
Definition sum_at (pc : Z) (k : nat) (ret : Z) (s : arm) : Prop :=
  exists R F M, s = Arm R F pc M /\ sum_mem k M /\ sum_regs k R /\ load_word M (4 * 2 ^ 24 + 4 * 63) = ret.

Lemma loop_body k ret : (k < 31)%nat -> forall s, sum_at 52 k ret s -> reaches z true s 18 (sum_at (if Nat.eqb (S k) 31 then 92 else 52) (S k) ret).
Proof.
  intros Hk s (R & F & M & -> & HM & (R0 & R1 & R2 & R3 & R12 & R13) & HS). pose proof HM as [Hc Hg He Ho].
  assert (Gk := gw_range k). assert (Ek := ew_range k). assert (Ck := carry_range k). unfold is_word in *.
  (* ldr lr, [r0, r3] *)
  eapply (s_ldr sum_code _ _ _ _ _ _ 0xe790e003 (2 ^ 24 + 4 * Z.of_nat k)); [exact Hc | vm_compute; reflexivity | a23_address; rewrite R0, R3, Z.mod_small; lia | now apply four_k | ].
  a23_fields. change (52 + 4) with 56. rewrite Hg by lia. cbv iota.
  (* ldr r4, [r1, r3] *)
  eapply (s_ldr sum_code _ _ _ _ _ _ 0xe7914003 (2 * 2 ^ 24 + 4 * Z.of_nat k)); [exact Hc | vm_compute; reflexivity | a23_address; regs; rewrite R1, R3, Z.mod_small; lia | now apply four_k | ].
  a23_fields. change (56 + 4) with 60. rewrite He by lia. cbv iota.
  (* cmp r12, #1 *)
  eapply (s_dp sum_code _ _ _ _ _ _ 0xe35c0001); [exact Hc | vm_compute; reflexivity | a23_dp; reflexivity | ]. intros f1 Cf1 _. change (60 + 4) with 64.
  assert (E1 : fC f1 = (1 <=? carry k)). { rewrite Cf1. a23_dp. regs. rewrite R12. apply Bool.eq_true_iff_eq. rewrite !Z.leb_le. lia. } clear Cf1.
  (* adcs lr, lr, r4 *)
  eapply (s_dp sum_code _ _ _ _ _ _ 0xe0bee004); [exact Hc | vm_compute; reflexivity | a23_dp; reflexivity | ]. intros f2 Cf2 _. change (64 + 4) with 68.
  regs.
  assert (Eb : Z.b2z (fC f1) = carry k) by (rewrite E1; destruct (Z.leb_spec 1 (carry k)); cbn [Z.b2z]; lia).
  assert (E2 : Z.b2z (fC f2) = carry (S k)).
  { rewrite Cf2. a23_dp. regs. rewrite Eb. cbn [carry]. destruct (Z.leb_spec (2 ^ 32) (gw k + ew k + carry k)); cbn [Z.b2z].
    - apply Z.div_unique with (gw k + ew k + carry k - 2 ^ 32); lia.
    - symmetry. apply Z.div_small. lia. }
  clear Cf2. rewrite Eb.
  (* mov r12, #0 *)
  eapply (s_dp sum_code _ _ _ _ _ _ 0xe3a0c000); [exact Hc | vm_compute; reflexivity | a23_dp; reflexivity | ]. intros f3 Cf3 Hf3. change (68 + 4) with 72.
  specialize (Hf3 eq_refl). assert (E3 : f3 = f2) by (rewrite Hf3; a23_dp; reflexivity). clear Cf3 Hf3. subst f3.
  (* movhs r12, #1 *)
  eapply (s_dp sum_code _ _ _ _ _ _ 0x23a0c001); [exact Hc | vm_compute; reflexivity | reflexivity | ]. intros f3 _ _. change (72 + 4) with 76.
  match goal with |- reaches _ _ (Arm ?r _ _ _) _ _ => set (S := r) end.
  assert (Q : S 0 = R 0 /\ S 1 = R 1 /\ S 2 = R 2 /\ S 3 = R 3 /\ S 12 = carry (Datatypes.S k) /\ S 13 = R 13 /\ S 14 = sw k).
  { rewrite <- E2. unfold S. a23_dp. destruct (fC f2); regs; repeat split. }
  clearbody S. destruct Q as (Q0 & Q1 & Q2 & Q3 & Q12 & Q13 & Q14). rewrite R0 in Q0. rewrite R1 in Q1. rewrite R2 in Q2. rewrite R3 in Q3. rewrite R13 in Q13.
  clear R0 R1 R2 R3 R12 R13 E1 E2 Eb f1 f2 F. clear R. rename S into R.
  (* str lr, [r2, r3] *)
  eapply (s_str sum_code _ _ _ _ _ _ 0xe782e003 (3 * 2 ^ 24 + 4 * Z.of_nat k)); [exact Hc | vm_compute; reflexivity | a23_address; rewrite Q2, Q3, Z.mod_small; lia | now apply four_k | change (length sum_code) with 32%nat; lia | ].
  a23_fields. change (76 + 4) with 80. rewrite Q14. assert (HM' := sum_mem_store k M ltac:(lia) HM). assert (HS' : load_word (store_word z M (3 * 2 ^ 24 + 4 * Z.of_nat k) (sw k)) (4 * 2 ^ 24 + 4 * 63) = ret).
  { rewrite load_store_other; [exact HS | now apply four_k | now apply four_k | lia]. }
  set (N := store_word z M (3 * 2 ^ 24 + 4 * Z.of_nat k) (sw k)) in *. clearbody N. clear HM HS Hc Hg He Ho M. assert (Hc := sm_code _ _ HM').
  (* add r3, r3, #4 *)
  eapply (s_dp sum_code _ _ _ _ _ _ 0xe2833004); [exact Hc | vm_compute; reflexivity | a23_dp; reflexivity | ]. intros f4 _ _. change (80 + 4) with 84.
  rewrite Q3, Z.mod_small by lia. replace (4 * Z.of_nat k + 4) with (4 * Z.of_nat (S k)) by lia.
  (* cmp r3, #124 *)
  eapply (s_dp sum_code _ _ _ _ _ _ 0xe353007c); [exact Hc | vm_compute; reflexivity | a23_dp; reflexivity | ]. intros f5 _ Hf5. change (84 + 4) with 88.
  specialize (Hf5 eq_refl). assert (E5 : fZ f5 = Nat.eqb (S k) 31).
  { rewrite Hf5. a23_dp. regs. apply Bool.eq_true_iff_eq. rewrite Z.eqb_eq, Nat.eqb_eq. split; intros H.
    - assert (- 2 ^ 32 < 4 * Z.of_nat (S k) - 124 <= 0) by lia. apply Z.mod_divide in H; [ | lia]. destruct H as (m & H). nia.
    - rewrite H. reflexivity. }
  clear Hf5.
  (* bne *)
  eapply (s_branch sum_code _ _ _ _ _ _ 0x1afffff5); [exact Hc | vm_compute; reflexivity | | apply r_done].
  { unfold branch, branch_target, holds. a23_fields. rewrite cond_ne. cbn [a_flags]. rewrite E5. cbn [a_regs a_pc a_mem a_flags]. reflexivity. }
  eexists _, _, N. split; [ | split; [exact HM' | split; [ | exact HS']]].
  - destruct (Nat.eqb (S k) 31); reflexivity.
  - unfold sum_regs. regs. repeat split; assumption.
Qed.
Lemma loop_all ret s : sum_at 52 0 ret s -> reaches z true s (31 * 18) (sum_at 92 31 ret).
Proof.
  intros H. assert (A : forall k, (k < 31)%nat -> reaches z true s (k * 18) (sum_at 52 k ret)).
  { intros k. induction k as [ | k IH]; intros Hk; [now apply r_done | ]. apply r_eq with (k * 18 + 18)%nat; [lia | ].
    apply r_seq with (sum_at 52 k ret); [apply IH; lia | ]. intros s' Hs. pose proof (loop_body k ret ltac:(lia) s' Hs) as L.
    replace (Nat.eqb (S k) 31) with false in L by (symmetry; apply Nat.eqb_neq; lia). exact L. }
  apply r_eq with (30 * 18 + 18)%nat; [reflexivity | ]. apply r_seq with (sum_at 52 30 ret); [apply A; lia | ].
  intros s' Hs. exact (loop_body 30 ret ltac:(lia) s' Hs).
Qed.
(** ** Before the loop *)
Lemma before F : reaches z true (Arm (fun _ => 0) F 0 (mem_init sum_code g e)) 24 (sum_at 52 0 (arm_r15_word F 20)).
Proof.
  assert (HM := sum_mem_start). set (M := mem_init sum_code g e) in *. clearbody M. assert (Hc := sm_code _ _ HM).
  a23_prologue sum_code Hc M.
  (* bl 116 *)
  eapply (s_branch sum_code _ _ _ _ _ _ 0xeb000017); [exact Hc | vm_compute; reflexivity | unfold branch, branch_target; rewrite holds_al by reflexivity; a23_fields; cbv iota; cbn [a_regs a_flags a_pc a_mem]; reflexivity | ].
  change (16 + 8 + 92) with 116. change (16 + 4) with 20.
  (* b 40 *)
  eapply (s_branch sum_code _ _ _ _ _ _ 0xeaffffeb); [exact Hc | vm_compute; reflexivity | unfold branch, branch_target; rewrite holds_al by reflexivity; a23_fields; cbv iota; cbn [a_regs a_flags a_pc a_mem]; reflexivity | ].
  change (116 + 8 + -84) with 40.
  (* push {r4, lr} *)
  eapply (s_multi sum_code _ _ _ _ _ _ 0xe92d4010) with (n := 2%nat); [exact Hc | vm_compute; reflexivity | | | | | ].
  { split; [reflexivity | ]. split; [reflexivity | ]. split; [vm_compute; discriminate | ]. split; [vm_compute; discriminate | ]. vm_compute. split; [reflexivity | reflexivity]. }
  { unfold multi, multi_start, multi_base. rewrite holds_al by reflexivity. a23_fields. cbn [length store_regs]. a23_fields. cbv iota zeta. unfold first_reg. cbn [a_regs a_flags a_pc a_mem Z.eqb Pos.eqb]. regs.
    change ((67109120 - 4 * Z.of_nat 2) mod 2 ^ 32) with (4 * 2 ^ 24 + 4 * 62). change ((4 * 2 ^ 24 + 4 * 62 + 4) mod 2 ^ 32) with (4 * 2 ^ 24 + 4 * 63). reflexivity. }
  { cbn [a_mem]. apply store_code; [apply store_code; [exact Hc | | ] | | ]; try reflexivity; change (length sum_code) with 32%nat; lia. }
  { cbn [a_pc]. split; [lia | split; [reflexivity | lia]]. }
  change (40 + 4) with 44. apply (sum_mem_stack 0 M 62 0) in HM; [ | lia | lia]. apply (sum_mem_stack 0 _ 63 (arm_r15_word F 20)) in HM; [ | lia | lia].
  assert (HS : load_word (store_word z (store_word z M (4 * 2 ^ 24 + 4 * 62) 0) (4 * 2 ^ 24 + 4 * 63) (arm_r15_word F 20)) (4 * 2 ^ 24 + 4 * 63) = arm_r15_word F 20).
  { apply load_store_same; [apply stack_writable; lia | reflexivity | lia | ]. unfold arm_r15_word. destruct F as [[] [] [] []]; cbn [fN fZ fC fV Z.b2z]; lia. }
  set (N := store_word z (store_word z M (4 * 2 ^ 24 + 4 * 62) 0) (4 * 2 ^ 24 + 4 * 63) (arm_r15_word F 20)) in *. clearbody N. clear Hc. assert (Hc := sm_code _ _ HM).
  (* mov r3, #0; mov r12, r3 *)
  eapply (s_dp sum_code _ _ _ _ _ _ 0xe3a03000); [exact Hc | vm_compute; reflexivity | a23_dp; reflexivity | ]. intros f1 _ _. change (44 + 4) with 48.
  eapply (s_dp sum_code _ _ _ _ _ _ 0xe1a0c003); [exact Hc | vm_compute; reflexivity | a23_dp; reflexivity | ]. intros f2 _ _. change (48 + 4) with 52.
  apply r_done. eexists _, f2, N. split; [reflexivity | ]. split; [exact HM | ]. split; [ | exact HS]. unfold sum_regs. regs. repeat split.
Qed.
(** ** After the loop *)
Lemma after ret s : word_pc ret = 20 -> sum_at 92 31 ret s -> reaches z true s 17 (fun s' => a_pc s' = 20 /\ sum_mem 32 (a_mem s')).
Proof.
  intros Hr (R & F & M & -> & HM & (R0 & R1 & R2 & R3 & R12 & R13) & HS). pose proof HM as [Hc Hg He Ho].
  assert (Gk := gw_range 31). assert (Ek := ew_range 31). assert (Ck := carry_range 31). unfold is_word in *.
  (* ldr r3, [r0, #124]; ldr r1, [r1, #124] *)
  eapply (s_ldr sum_code _ _ _ _ _ _ 0xe590307c (2 ^ 24 + 4 * Z.of_nat 31)); [exact Hc | vm_compute; reflexivity | a23_address; rewrite R0; reflexivity | reflexivity | ].
  a23_fields. change (92 + 4) with 96. rewrite Hg by lia. cbv iota.
  eapply (s_ldr sum_code _ _ _ _ _ _ 0xe591107c (2 * 2 ^ 24 + 4 * Z.of_nat 31)); [exact Hc | vm_compute; reflexivity | a23_address; regs; rewrite R1; reflexivity | reflexivity | ].
  a23_fields. change (96 + 4) with 100. rewrite He by lia. cbv iota.
  (* cmp r12, #1 *)
  eapply (s_dp sum_code _ _ _ _ _ _ 0xe35c0001); [exact Hc | vm_compute; reflexivity | a23_dp; reflexivity | ]. intros f1 Cf1 _. change (100 + 4) with 104.
  assert (Eb : Z.b2z (fC f1) = carry 31).
  { rewrite Cf1. a23_dp. regs. rewrite R12. destruct (Z.leb_spec 0 (carry 31 - 1)); cbn [Z.b2z]; lia. }
  clear Cf1.
  (* adc r12, r3, r1 *)
  eapply (s_dp sum_code _ _ _ _ _ _ 0xe0a3c001); [exact Hc | vm_compute; reflexivity | a23_dp; reflexivity | ]. intros f2 _ _. change (104 + 4) with 108.
  regs. rewrite Eb. fold (sw 31).
  (* str r12, [r2, #124] *)
  eapply (s_str sum_code _ _ _ _ _ _ 0xe582c07c (3 * 2 ^ 24 + 4 * Z.of_nat 31)); [exact Hc | vm_compute; reflexivity | a23_address; rewrite R2; reflexivity | reflexivity | change (length sum_code) with 32%nat; lia | ].
  a23_fields. change (108 + 4) with 112. cbn [Z.eqb Pos.eqb]. assert (HM' := sum_mem_store 31 M ltac:(lia) HM).
  assert (HS' : load_word (store_word z M (3 * 2 ^ 24 + 4 * Z.of_nat 31) (sw 31)) (4 * 2 ^ 24 + 4 * 63) = ret).
  { rewrite load_store_other; [exact HS | reflexivity | reflexivity | lia]. }
  set (N := store_word z M (3 * 2 ^ 24 + 4 * Z.of_nat 31) (sw 31)) in *. clearbody N. clear HM HS Hc Hg He Ho M. assert (Hc := sm_code _ _ HM').
  (* pop {r4, pc} *)
  eapply (s_multi sum_code _ _ _ _ _ _ 0xe8bd8010) with (n := O); [exact Hc | vm_compute; reflexivity | | | | | ].
  { split; [reflexivity | ]. split; [reflexivity | ]. split; [vm_compute; discriminate | ]. split; [vm_compute; discriminate | ]. intros _. now rewrite holds_al by reflexivity. }
  { unfold multi, multi_start, multi_base. rewrite holds_al by reflexivity. a23_fields. cbn [length load_regs]. cbv iota zeta. unfold first_reg. cbn [a_regs a_flags a_pc a_mem Z.eqb Pos.eqb]. rewrite R13.
    change ((4 * 2 ^ 24 + 4 * 62) mod 2 ^ 32) with (4 * 2 ^ 24 + 4 * 62). change ((4 * 2 ^ 24 + 4 * 62 + 4) mod 2 ^ 32) with (4 * 2 ^ 24 + 4 * 63).
    replace (put _ 15 _ 15) with ret by (unfold put; cbn [Z.eqb Pos.eqb]; now rewrite HS'). rewrite Hr. reflexivity. }
  { exact Hc. }
  { cbn [a_pc]. split; [lia | split; [reflexivity | lia]]. }
  apply r_done. split; [reflexivity | exact HM'].
Qed.
(** ** The numbers *)
Lemma sum_number n : number (map sw (seq 0 n)) + 2 ^ (32 * Z.of_nat n) * carry n = number (map gw (seq 0 n)) + number (map ew (seq 0 n)).
Proof.
  induction n as [ | n IH]; [reflexivity | ]. rewrite seq_S, !map_app. cbn [map Nat.add]. rewrite !number_snoc, !map_length, !seq_length.
  replace (32 * Z.of_nat (S n)) with (32 * Z.of_nat n + 32) by lia. rewrite Z.pow_add_r by lia. cbn [carry]. change (sw n) with ((gw n + ew n + carry n) mod 2 ^ 32).
  pose proof (Z.div_mod (gw n + ew n + carry n) (2 ^ 32) ltac:(lia)) as D.
  apply (f_equal (Z.mul (2 ^ (32 * Z.of_nat n)))) in D. rewrite !Z.mul_add_distr_l in D. lia.
Qed.
Lemma sum_outputs M : sum_mem 32 M -> number (outputs M 32) = (number g + number e) mod 2 ^ 1024.
Proof.
  intros [_ _ _ Ho]. assert (E : outputs M 32 = map sw (seq 0 32)).
  { apply map_ext_in. intros k Hk. apply in_seq in Hk. apply Ho. lia. }
  rewrite E. assert (S := sum_number 32). 
  assert (Eg : map gw (seq 0 32) = g) by (rewrite <- Lg; apply map_nth_seq). assert (Ee : map ew (seq 0 32) = e) by (rewrite <- Le; apply map_nth_seq). rewrite Eg, Ee in S.
  change (32 * Z.of_nat 32) with 1024 in S. apply Z.mod_unique with (carry 32); [left | lia]. change 1024 with (32 * Z.of_nat 32).
  rewrite <- (seq_length 32 0) at 3. rewrite <- (map_length sw). apply number_range. apply Forall_forall. intros w Hw. apply in_map_iff in Hw. destruct Hw as (k & <- & _). apply Z.mod_pos_bound. lia.
Qed.
(** ** The whole program *)
Definition sum_over (s : arm) : Prop := a_pc s = 20 /\ sum_mem 32 (a_mem s).
Lemma sum_stays s : sum_over s -> reaches z true s 3 sum_over.
Proof.
  intros [P HM]. destruct s as [R F pc M]. cbn [a_pc a_mem] in *. subst pc. assert (Hc := sm_code _ _ HM).
  eapply (s_branch sum_code _ _ _ _ _ _ 0xeafffffe); [exact Hc | vm_compute; reflexivity | | apply r_done].
  - unfold branch, branch_target. rewrite holds_al by reflexivity. a23_fields. cbv iota. cbn [a_regs a_flags a_pc a_mem]. reflexivity.
  - split; [reflexivity | exact HM].
Qed.
Lemma sum_runs F m : reaches z true (Arm (fun _ => 0) F 0 (mem_init sum_code g e)) (599 + 3 * m) sum_over.
Proof.
  induction m as [ | m IH].
  - apply r_eq with (24 + (31 * 18 + 17))%nat; [reflexivity | ]. apply r_seq with (sum_at 52 0 (arm_r15_word F 20)); [apply before | ].
    intros s1 H1. apply r_seq with (sum_at 92 31 (arm_r15_word F 20)); [now apply loop_all | ]. intros s2 H2. apply (after (arm_r15_word F 20)); [ | exact H2].
    unfold word_pc, arm_r15_word. destruct F as [[] [] [] []]; reflexivity.
  - apply r_eq with (599 + 3 * m + 3)%nat; [lia | ]. apply r_seq with sum_over; [exact IH | ]. intros s Hs. now apply sum_stays.
Qed.
End Sum.
(** After 600 cycles, and whenever the processor is back at the branch to itself, the output is the
    sum of the two numbers *)
Theorem sum_program z g e m (p := run z (600 + 3 * m) (reset (mem_init sum_code g e))) :
  length g = 32%nat -> length e = 32%nat -> Forall is_word g -> Forall is_word e -> 32 <= out_size z -> 64 <= stack_size z ->
  terminate p = true /\ number (outputs (mem p) 32) = (number g + number e) mod 2 ^ 1024.
Proof.
  intros Lg Le Wg We Zo Zs. unfold p. replace (600 + 3 * m)%nat with (1 + (599 + 3 * m))%nat by lia. rewrite run_app. change (run z 1 ?q) with (step z q).
  destruct (reset_ready z (mem_init sum_code g e) (init_range _ _ _)) as [R I].
  destruct (sum_runs z g e Lg Le Wg We Zo Zs _ m _ R (fun _ => I)) as (s & [P HM] & R' & _).
  split; [exact (ready_terminate _ s R' P) | ]. rewrite <- (sum_outputs g e Lg Le (a_mem s) HM). f_equal. apply map_ext. intros k.
  pose proof R' as (_ & _ & _ & _ & _ & Hm & _). unfold load_word. now rewrite !Hm.
Qed.
