(** The shipped program that multiplies two matrices, executed by the processor a23: it does not. *)
From Coq Require Import ZArith List Bool Lia.
From Verif Require Import RtlA23 RtlA23Units RtlA23Step RtlA23Jump RtlA23Mem RtlA23Mul RtlA23Multi RtlA23Run RtlA23Sum RtlA23Fill.
Import ListNotations.
Open Scope Z_scope.

(** * The program, a23/matrix-mul/p.txt *)
Definition matrix_code : list Z :=
  [0xe59fd01c; 0xe59f000c; 0xe59f100c; 0xe59f200c; 0xeb000004; 0xeafffffe; 0x01000000; 0x02000000; 0x03000000;
   0x04000100; 0xe92d43f0; 0xe3a03000; 0xe0825003; 0xe3a0e000; 0xe0806003; 0xe3a0c000; 0xe1a0400c; 0xe081700e;
   0xe4968004; 0xe797900c; 0xe0244899; 0xe28cc00c; 0xe35c0024; 0x1afffff9; 0xe4854004; 0xe28ee004; 0xe35e000c;
   0x1afffff1; 0xe283300c; 0xe3530024; 0x1affffec; 0xe8bd83f0; 0x00000000; 0x00000000].

(** * Specification *)
(** The product of two matrices of three rows and columns, row after row, modulo 2^32 *)
Definition matrix_product (g e : list Z) : list Z :=
  map (fun q => fold_right Z.add 0 (map (fun k => nth (3 * (q / 3) + k) g 0 * nth (3 * k + q mod 3) e 0) (seq 0 3)) mod 2 ^ 32) (seq 0 9).
(** What the processor computes: in place of the sum of three products the last of them *)
Definition last_products (g e : list Z) : list Z :=
  map (fun q => (nth (3 * (q / 3) + 2) g 0 * nth (6 + q mod 3) e 0) mod 2 ^ 32) (seq 0 9).

(** * Proofs *)
(** A multiplication that accumulates does not *)
Lemma r_mla z s i n Q : i = mem_read (a_mem s) (a_pc s) -> mul_form i -> a_pc s + 12 < 2 ^ 26 -> holds s i = true -> tb i 20 = false ->
  reaches z false (Arm (put (a_regs s) (bits i 19 16) ((first_reg s (bits i 11 8) * second_reg s (bits i 3 0)) mod 2 ^ 32)) (a_flags s) (a_pc s + 4) (a_mem s)) n Q ->
  reaches z true s (4 + n) Q.
Proof.
  intros Ei F B Hh Hs H p R I. pose proof (mul_product z p s i R (I eq_refl) Ei F B) as R'. cbv zeta in R'. rewrite Hh, Hs in R'. cbn [andb] in R'. rewrite run_app. refine (H _ R' _). discriminate.
Qed.
(** A store with write-back *)
Lemma s_str_back words z c R F pc M i a n Q : code_at M words -> tr_check words pc i && (bits i 31 28 =? 14) && negb (tb i 20) && negb (tb i 22) && write_back i = true ->
  mem_address (Arm R F pc M) i = a -> a mod 4 = 0 -> 4 * Z.of_nat (length words) <= a ->
  reaches z true (Arm (put R (bits i 19 16) (moved_base (Arm R F pc M) i)) F (pc + 4) (store_word z M a (R (bits i 15 12)))) n Q -> reaches z c (Arm R F pc M) (3 + n) Q.
Proof.
  intros HM C A A4 Ac H. apply andb_prop in C. destruct C as [C C4]. apply andb_prop in C. destruct C as [C C3]. apply andb_prop in C. destruct C as [C C2]. apply andb_prop in C. destruct C as [C C1].
  apply Z.eqb_eq in C1. apply negb_true_iff in C2. apply negb_true_iff in C3. eapply (s_transfer words); [exact HM | exact C | | | exact H].
  - unfold transfer. rewrite holds_al, C2, C4 by exact C1. cbn [a_regs a_flags a_pc a_mem]. unfold stored. now rewrite A, C3.
  - cbn [a_mem]. now apply store_code.
Qed.
Definition aligned (a : Z) : Prop := a mod 4 = 0.
Lemma aligned_4 r k : aligned (r * 2 ^ 24 + 4 * k).
Proof. unfold aligned. replace (r * 2 ^ 24 + 4 * k) with ((r * 2 ^ 22 + k) * 4) by lia. apply Z.mod_mul. lia. Qed.
Section Matrix.
Variables (z : sizes) (g e : list Z).
Hypothesis Lg : length g = 9%nat.
Hypothesis Le : length e = 9%nat.
Hypothesis Wg : Forall is_word g.
Hypothesis We : Forall is_word e.
Hypothesis Zo : 9 <= out_size z.
Hypothesis Zs : 64 <= stack_size z.
Let gw (k : nat) : Z := nth k g 0.
Let ew (k : nat) : Z := nth k e 0.
Let cell (q : nat) : Z := (gw (3 * (q / 3) + 2) * ew (6 + q mod 3)) mod 2 ^ 32.
Record mat_mem (n : nat) (ret : Z) (M : memory) : Prop := {
  mt_code : code_at M matrix_code;
  mt_g : forall j, (j < 9)%nat -> load_word M (1 * 2 ^ 24 + 4 * Z.of_nat j) = gw j;
  mt_e : forall j, (j < 9)%nat -> load_word M (2 * 2 ^ 24 + 4 * Z.of_nat j) = ew j;
  mt_o : forall j, (j < n)%nat -> load_word M (3 * 2 ^ 24 + 4 * Z.of_nat j) = cell j;
  mt_s : load_word M (4 * 2 ^ 24 + 4 * 63) = ret }.
Lemma mat_store n ret M v : (n < 9)%nat -> v = cell n -> mat_mem n ret M -> mat_mem (S n) ret (store_word z M (3 * 2 ^ 24 + 4 * Z.of_nat n) v).
Proof.
  intros Hn -> [H1 H2 H3 H4 H5]. assert (A : forall r k, (r * 2 ^ 24 + 4 * k) mod 4 = 0) by exact aligned_4. constructor.
  - apply store_code; [exact H1 | change (length matrix_code) with 34%nat; lia | apply A].
  - intros j Hj. rewrite load_store_other; [now apply H2 | apply A | apply A | lia].
  - intros j Hj. rewrite load_store_other; [now apply H3 | apply A | apply A | lia].
  - intros j Hj. destruct (Nat.eq_dec j n) as [-> | D].
    + apply load_store_same; [apply out_writes; lia | apply A | lia | apply Z.mod_pos_bound; lia].
    + rewrite load_store_other; [apply H4; lia | apply A | apply A | lia].
  - rewrite load_store_other; [exact H5 | apply A | apply A | lia].
Qed.
Definition base_regs (i : nat) (R : Z -> Z) : Prop :=
  R 0 = 1 * 2 ^ 24 /\ R 1 = 2 * 2 ^ 24 /\ R 2 = 3 * 2 ^ 24 /\ R 13 = 4 * 2 ^ 24 + 4 * 57 /\ R 3 = 12 * Z.of_nat i.
Definition row_regs (i j : nat) (R : Z -> Z) : Prop := base_regs i R /\ R 5 = 3 * 2 ^ 24 + 4 * Z.of_nat (3 * i + j) /\ R 14 = 4 * Z.of_nat j.
Definition cell_regs (i j k : nat) (R : Z -> Z) : Prop :=
  row_regs i j R /\ R 6 = 1 * 2 ^ 24 + 4 * Z.of_nat (3 * i + k) /\ R 7 = 2 * 2 ^ 24 + 4 * Z.of_nat j /\ R 12 = 12 * Z.of_nat k /\
  R 4 = match k with O => 0 | S k' => (gw (3 * i + k') * ew (3 * k' + j)) mod 2 ^ 32 end.
Definition mat_at (pc : Z) (n : nat) (regs : (Z -> Z) -> Prop) (ret : Z) (s : arm) : Prop :=
  exists R F M, s = Arm R F pc M /\ mat_mem n ret M /\ regs R.
Lemma zero_test a b : - 2 ^ 32 < a < 2 ^ 32 -> (a mod 2 ^ 32 =? 0) = b -> (a =? 0) = b.
Proof.
  intros H <-. apply Bool.eq_true_iff_eq. rewrite !Z.eqb_eq. split; [intros ->; reflexivity | ]. intros D. apply Z.mod_divide in D; [ | lia]. destruct D as (m & D). nia.
Qed.
(** ** The innermost loop *)
Lemma mat_inner i j k ret : (i < 3)%nat -> (j < 3)%nat -> (k < 3)%nat -> forall s, mat_at 72 (3 * i + j) (cell_regs i j k) ret s ->
  reaches z true s 15 (mat_at (if Nat.eqb (S k) 3 then 96 else 72) (3 * i + j) (cell_regs i j (S k)) ret).
Proof.
  intros Hi Hj Hk s (R & F & M & -> & HM & (((R0 & R1 & R2 & R13 & R3) & R5 & R14) & R6 & R7 & R12 & R4)). assert (A : forall r k, (r * 2 ^ 24 + 4 * k) mod 4 = 0) by exact aligned_4. pose proof HM as [Hc Hg He _ _].
  (* ldr r8, [r6], #4 *)
  eapply (s_ldr matrix_code _ _ _ _ _ _ 0xe4968004 (1 * 2 ^ 24 + 4 * Z.of_nat (3 * i + k))); [exact Hc | vm_compute; reflexivity | a23_address; exact R6 | apply A | ].
  rewrite Hg by lia. replace (moved_base (Arm R F 72 M) 0xe4968004) with (1 * 2 ^ 24 + 4 * Z.of_nat (3 * i + S k)) by (a23_address; rewrite R6, Z.mod_small; lia).
  a23_fields. change (72 + 4) with 76. cbv iota.
  (* ldr r9, [r7, r12] *)
  eapply (s_ldr matrix_code _ _ _ _ _ _ 0xe797900c (2 * 2 ^ 24 + 4 * Z.of_nat (3 * k + j))); [exact Hc | vm_compute; reflexivity | a23_address; regs; rewrite R7, R12, Z.mod_small; lia | apply A | ].
  rewrite He by lia. a23_fields. change (76 + 4) with 80. cbv iota.
  (* mla r4, r9, r8, r4 *)
  eapply (r_mla z _ 0xe0244899); [cbn [a_mem a_pc]; rewrite (fetch M matrix_code 80 Hc) by (try reflexivity; vm_compute; discriminate); vm_compute; reflexivity | repeat split; vm_compute; congruence | cbn; lia | now apply holds_al | reflexivity | ].
  unfold first_reg, second_reg. a23_fields. cbn [a_regs a_flags a_pc a_mem Z.eqb Pos.eqb]. change (80 + 4) with 84.
  match goal with |- reaches _ _ (Arm ?r _ _ _) _ _ => set (T := r) end.
  assert (Q : row_regs i j T /\ T 6 = 1 * 2 ^ 24 + 4 * Z.of_nat (3 * i + S k) /\ T 7 = 2 * 2 ^ 24 + 4 * Z.of_nat j /\ T 12 = 12 * Z.of_nat k /\ T 4 = (gw (3 * i + k) * ew (3 * k + j)) mod 2 ^ 32).
  { unfold row_regs, base_regs, T. regs. repeat split; first [assumption | reflexivity]. }
  clearbody T. clear R0 R1 R2 R13 R3 R5 R14 R6 R7 R12 R4. clear R. rename T into R. destruct Q as (Qr & Q6 & Q7 & Q12 & Q4).
  (* add r12, r12, #12 *)
  eapply (s_dp matrix_code _ _ _ _ _ _ 0xe28cc00c); [exact Hc | vm_compute; reflexivity | a23_dp; reflexivity | ]. intros f1 _ _. change (84 + 4) with 88.
  rewrite Q12, Z.mod_small by lia.
  (* cmp r12, #36 *)
  eapply (s_dp matrix_code _ _ _ _ _ _ 0xe35c0024); [exact Hc | vm_compute; reflexivity | a23_dp; reflexivity | ]. intros f2 _ Hf2. change (88 + 4) with 92.
  specialize (Hf2 eq_refl). assert (E2 : fZ f2 = Nat.eqb (S k) 3).
  { rewrite Hf2. a23_dp. regs. destruct k as [ | [ | [ | k]]]; [reflexivity | reflexivity | reflexivity | lia]. }
  clear Hf2.
  (* bne 72 *)
  eapply (s_branch matrix_code _ _ _ _ _ _ 0x1afffff9); [exact Hc | vm_compute; reflexivity | | apply r_done].
  { unfold branch, branch_target, holds. a23_fields. rewrite cond_ne. cbn [a_flags]. rewrite E2. cbn [a_regs a_pc a_mem a_flags]. reflexivity. }
  eexists _, _, M. split; [ | split; [exact HM | ]].
  - destruct (Nat.eqb (S k) 3); reflexivity.
  - destruct Qr as ((P0 & P1 & P2 & P13 & P3) & P5 & P14). unfold cell_regs, row_regs, base_regs. regs. repeat split; first [assumption | lia].
Qed.
(** ** One element *)
Lemma mat_cell i j ret : (i < 3)%nat -> (j < 3)%nat -> forall s, mat_at 56 (3 * i + j) (row_regs i j) ret s ->
  reaches z true s 57 (mat_at (if Nat.eqb (S j) 3 then 112 else 56) (3 * i + S j) (row_regs i (S j)) ret).
Proof.
  intros Hi Hj s H. apply r_eq with (4 + (15 + (15 + (15 + 8))))%nat; [reflexivity | ].
  apply r_seq with (mat_at 72 (3 * i + j) (cell_regs i j 0) ret).
  { destruct H as (R & F & M & -> & HM & ((R0 & R1 & R2 & R13 & R3) & R5 & R14)). assert (Hc := mt_code _ _ _ HM).
    eapply (s_dp matrix_code _ _ _ _ _ _ 0xe0806003); [exact Hc | vm_compute; reflexivity | a23_dp; reflexivity | ]. intros f1 _ _. change (56 + 4) with 60.
    eapply (s_dp matrix_code _ _ _ _ _ _ 0xe3a0c000); [exact Hc | vm_compute; reflexivity | a23_dp; reflexivity | ]. intros f2 _ _. change (60 + 4) with 64.
    eapply (s_dp matrix_code _ _ _ _ _ _ 0xe1a0400c); [exact Hc | vm_compute; reflexivity | a23_dp; reflexivity | ]. intros f3 _ _. change (64 + 4) with 68.
    eapply (s_dp matrix_code _ _ _ _ _ _ 0xe081700e); [exact Hc | vm_compute; reflexivity | a23_dp; reflexivity | ]. intros f4 _ _. change (68 + 4) with 72.
    apply r_done. eexists _, f4, M. split; [reflexivity | ]. split; [exact HM | ]. unfold cell_regs, row_regs, base_regs. regs. rewrite R0, R1, R3, R14.
    rewrite !Z.mod_small by lia. repeat split; first [assumption | lia]. }
  intros s0 H0. apply r_seq with (mat_at 72 (3 * i + j) (cell_regs i j 1) ret); [exact (mat_inner i j 0 ret Hi Hj ltac:(lia) s0 H0) | ].
  intros s1 H1. apply r_seq with (mat_at 72 (3 * i + j) (cell_regs i j 2) ret); [exact (mat_inner i j 1 ret Hi Hj ltac:(lia) s1 H1) | ].
  intros s2 H2. apply r_seq with (mat_at 96 (3 * i + j) (cell_regs i j 3) ret); [exact (mat_inner i j 2 ret Hi Hj ltac:(lia) s2 H2) | ].
  intros s3 (R & F & M & -> & HM & (((R0 & R1 & R2 & R13 & R3) & R5 & R14) & _ & _ & _ & R4)). assert (Hc := mt_code _ _ _ HM). clear s H s0 H0 s1 H1 s2 H2.
  (* str r4, [r5], #4 *)
  eapply (s_str_back matrix_code _ _ _ _ _ _ 0xe4854004 (3 * 2 ^ 24 + 4 * Z.of_nat (3 * i + j))); [exact Hc | vm_compute; reflexivity | a23_address; exact R5 | apply aligned_4 | change (length matrix_code) with 34%nat; lia | ].
  replace (moved_base (Arm R F 96 M) 0xe4854004) with (3 * 2 ^ 24 + 4 * Z.of_nat (3 * i + S j)) by (a23_address; rewrite R5, Z.mod_small; lia).
  a23_fields. change (96 + 4) with 100. rewrite R4. cbv iota.
  assert (Ec : (gw (3 * i + 2) * ew (3 * 2 + j)) mod 2 ^ 32 = cell (3 * i + j)).
  { unfold cell. replace ((3 * i + j) / 3)%nat with i by (apply Nat.div_unique with j; lia). replace ((3 * i + j) mod 3)%nat with j by (apply Nat.mod_unique with i; lia). reflexivity. }
  assert (Hn : (3 * i + j < 9)%nat) by lia. assert (HN := mat_store _ ret M _ Hn Ec HM). clear Hn. set (N := store_word z M (3 * 2 ^ 24 + 4 * Z.of_nat (3 * i + j)) ((gw (3 * i + 2) * ew (3 * 2 + j)) mod 2 ^ 32)) in *. clearbody N. clear Hc HM M Ec R4.
  assert (Hc := mt_code _ _ _ HN).
  (* add lr, lr, #4 *)
  eapply (s_dp matrix_code _ _ _ _ _ _ 0xe28ee004); [exact Hc | vm_compute; reflexivity | a23_dp; reflexivity | ]. intros f1 _ _. change (100 + 4) with 104.
  match goal with |- reaches _ _ (Arm ?r _ _ _) _ _ => set (T := r) end.
  assert (Q : row_regs i (S j) T).
  { unfold row_regs, base_regs, T. regs. rewrite R14, Z.mod_small by lia. repeat split; first [assumption | lia]. }
  clearbody T. clear R0 R1 R2 R13 R3 R5 R14. clear R. rename T into R. pose proof Q as (_ & _ & Q14).
  (* cmp lr, #12 *)
  eapply (s_dp matrix_code _ _ _ _ _ _ 0xe35e000c); [exact Hc | vm_compute; reflexivity | a23_dp; reflexivity | ]. intros f2 _ Hf2. change (104 + 4) with 108.
  specialize (Hf2 eq_refl). assert (E2 : fZ f2 = Nat.eqb (S j) 3).
  { rewrite Hf2. a23_dp. rewrite Q14. destruct j as [ | [ | [ | j]]]; [reflexivity | reflexivity | reflexivity | lia]. }
  clear Hf2.
  (* bne 56 *)
  eapply (s_branch matrix_code _ _ _ _ _ _ 0x1afffff1); [exact Hc | vm_compute; reflexivity | | apply r_done].
  { unfold branch, branch_target, holds. a23_fields. rewrite cond_ne. cbn [a_flags]. rewrite E2. cbn [a_regs a_pc a_mem a_flags]. reflexivity. }
  eexists _, _, N. split; [ | split; [replace (3 * i + S j)%nat with (S (3 * i + j)) by lia; exact HN | exact Q]].
  destruct (Nat.eqb (S j) 3); reflexivity.
Qed.
(** ** One row *)
Lemma mat_row i ret : (i < 3)%nat -> forall s, mat_at 48 (3 * i) (base_regs i) ret s ->
  reaches z true s 178 (mat_at (if Nat.eqb (S i) 3 then 124 else 48) (3 * S i) (base_regs (S i)) ret).
Proof.
  intros Hi s H. apply r_eq with (2 + (57 + (57 + (57 + 5))))%nat; [reflexivity | ].
  apply r_seq with (mat_at 56 (3 * i + 0) (row_regs i 0) ret).
  { destruct H as (R & F & M & -> & HM & (R0 & R1 & R2 & R13 & R3)). assert (Hc := mt_code _ _ _ HM).
    eapply (s_dp matrix_code _ _ _ _ _ _ 0xe0825003); [exact Hc | vm_compute; reflexivity | a23_dp; reflexivity | ]. intros f1 _ _. change (48 + 4) with 52.
    eapply (s_dp matrix_code _ _ _ _ _ _ 0xe3a0e000); [exact Hc | vm_compute; reflexivity | a23_dp; reflexivity | ]. intros f2 _ _. change (52 + 4) with 56.
    apply r_done. eexists _, f2, M. split; [reflexivity | ]. split; [rewrite Nat.add_0_r; exact HM | ]. unfold row_regs, base_regs. regs. rewrite R2, R3.
    rewrite !Z.mod_small by lia. repeat split; first [assumption | lia]. }
  intros s0 H0. apply r_seq with (mat_at 56 (3 * i + 1) (row_regs i 1) ret); [exact (mat_cell i 0 ret Hi ltac:(lia) s0 H0) | ].
  intros s1 H1. apply r_seq with (mat_at 56 (3 * i + 2) (row_regs i 2) ret); [exact (mat_cell i 1 ret Hi ltac:(lia) s1 H1) | ].
  intros s2 H2. apply r_seq with (mat_at 112 (3 * i + 3) (row_regs i 3) ret); [exact (mat_cell i 2 ret Hi ltac:(lia) s2 H2) | ].
  intros s3 (R & F & M & -> & HM & ((R0 & R1 & R2 & R13 & R3) & _ & _)). assert (Hc := mt_code _ _ _ HM). clear s H s0 H0 s1 H1 s2 H2.
  (* add r3, r3, #12 *)
  eapply (s_dp matrix_code _ _ _ _ _ _ 0xe283300c); [exact Hc | vm_compute; reflexivity | a23_dp; reflexivity | ]. intros f1 _ _. change (112 + 4) with 116.
  match goal with |- reaches _ _ (Arm ?r _ _ _) _ _ => set (T := r) end.
  assert (Q : base_regs (S i) T).
  { unfold base_regs, T. regs. rewrite R3, Z.mod_small by lia. repeat split; first [assumption | lia]. }
  clearbody T. clear R0 R1 R2 R13 R3. clear R. rename T into R. pose proof Q as (_ & _ & _ & _ & Q3).
  (* cmp r3, #36 *)
  eapply (s_dp matrix_code _ _ _ _ _ _ 0xe3530024); [exact Hc | vm_compute; reflexivity | a23_dp; reflexivity | ]. intros f2 _ Hf2. change (116 + 4) with 120.
  specialize (Hf2 eq_refl). assert (E2 : fZ f2 = Nat.eqb (S i) 3).
  { rewrite Hf2. a23_dp. rewrite Q3. destruct i as [ | [ | [ | i]]]; [reflexivity | reflexivity | reflexivity | lia]. }
  clear Hf2.
  (* bne 48 *)
  eapply (s_branch matrix_code _ _ _ _ _ _ 0x1affffec); [exact Hc | vm_compute; reflexivity | | apply r_done].
  { unfold branch, branch_target, holds. a23_fields. rewrite cond_ne. cbn [a_flags]. rewrite E2. cbn [a_regs a_pc a_mem a_flags]. reflexivity. }
  eexists _, _, M. split; [ | split; [replace (3 * S i)%nat with (3 * i + 3)%nat by lia; exact HM | exact Q]].
  destruct (Nat.eqb (S i) 3); reflexivity.
Qed.
(** ** Before and after *)
Lemma mat_before F : reaches z true (Arm (fun _ => 0) F 0 (mem_init matrix_code g e)) 25 (mat_at 48 0 (base_regs 0) (arm_r15_word F 20)).
Proof.
  assert (A : forall r k, (r * 2 ^ 24 + 4 * k) mod 4 = 0) by exact aligned_4.
  assert (Hc : code_at (mem_init matrix_code g e) matrix_code) by (apply init_code; vm_compute; discriminate).
  assert (Hg : forall j, (j < 9)%nat -> load_word (mem_init matrix_code g e) (1 * 2 ^ 24 + 4 * Z.of_nat j) = gw j).
  { intros j Hj. rewrite (init_word matrix_code g e 1) by (cbn [Z.eqb Pos.eqb]; first [now left | lia | rewrite Lg; lia | exact Wg]). unfold gw. cbn [Z.eqb Pos.eqb]. now rewrite Nat2Z.id. }
  assert (He : forall j, (j < 9)%nat -> load_word (mem_init matrix_code g e) (2 * 2 ^ 24 + 4 * Z.of_nat j) = ew j).
  { intros j Hj. rewrite (init_word matrix_code g e 2) by (cbn [Z.eqb Pos.eqb]; first [now right | lia | rewrite Le; lia | exact We]). unfold ew. cbn [Z.eqb Pos.eqb]. now rewrite Nat2Z.id. }
  set (M := mem_init matrix_code g e) in *. clearbody M. a23_prologue matrix_code Hc M.
  (* bl 40 *)
  eapply (s_branch matrix_code _ _ _ _ _ _ 0xeb000004); [exact Hc | vm_compute; reflexivity | unfold branch, branch_target; rewrite holds_al by reflexivity; a23_fields; cbv iota; cbn [a_regs a_flags a_pc a_mem]; reflexivity | ].
  change (16 + 8 + 16) with 40. change (16 + 4) with 20.
  (* push {r4, r5, r6, r7, r8, r9, lr} *)
  eapply (s_multi matrix_code _ _ _ _ _ _ 0xe92d43f0) with (n := 1%nat); [exact Hc | vm_compute; reflexivity | | | | | ].
  { split; [reflexivity | ]. split; [reflexivity | ]. split; [vm_compute; discriminate | ]. split; [vm_compute; discriminate | ]. vm_compute. split; [reflexivity | reflexivity]. }
  { unfold multi, multi_start, multi_base. rewrite holds_al by reflexivity. a23_fields. cbn [length store_regs]. a23_fields. cbv iota zeta. unfold first_reg. cbn [a_regs a_flags a_pc a_mem Z.eqb Pos.eqb]. regs.
    change ((67109120 - 4 * Z.of_nat 7) mod 2 ^ 32) with (4 * 2 ^ 24 + 4 * 57). change ((4 * 2 ^ 24 + 4 * 57 + 4) mod 2 ^ 32) with (4 * 2 ^ 24 + 4 * 58).
    change ((4 * 2 ^ 24 + 4 * 58 + 4) mod 2 ^ 32) with (4 * 2 ^ 24 + 4 * 59). change ((4 * 2 ^ 24 + 4 * 59 + 4) mod 2 ^ 32) with (4 * 2 ^ 24 + 4 * 60).
    change ((4 * 2 ^ 24 + 4 * 60 + 4) mod 2 ^ 32) with (4 * 2 ^ 24 + 4 * 61). change ((4 * 2 ^ 24 + 4 * 61 + 4) mod 2 ^ 32) with (4 * 2 ^ 24 + 4 * 62).
    change ((4 * 2 ^ 24 + 4 * 62 + 4) mod 2 ^ 32) with (4 * 2 ^ 24 + 4 * 63). reflexivity. }
  { cbn [a_mem]. repeat (apply store_code; [ | change (length matrix_code) with 34%nat; lia | reflexivity]). exact Hc. }
  { cbn [a_pc]. split; [lia | split; [reflexivity | lia]]. }
  change (40 + 4) with 44.
  match goal with |- reaches _ _ (Arm _ _ _ ?m) _ _ => set (N := m) end.
  assert (HN : mat_mem 0 (arm_r15_word F 20) N).
  { unfold N. constructor.
    - repeat (apply store_code; [ | change (length matrix_code) with 34%nat; lia | reflexivity]). exact Hc.
    - intros j Hj. rewrite !load_store_other by (first [apply A | lia]). now apply Hg.
    - intros j Hj. rewrite !load_store_other by (first [apply A | lia]). now apply He.
    - intros j Hj. lia.
    - apply load_store_same; [ | reflexivity | lia | ].
      + unfold writable. change ((4 * 2 ^ 24 + 4 * 63) / 2 ^ 24 =? 0) with false. change ((4 * 2 ^ 24 + 4 * 63) / 2 ^ 24 =? 3) with false. change ((4 * 2 ^ 24 + 4 * 63) / 2 ^ 24 =? 4) with true. change ((4 * 2 ^ 24 + 4 * 63) mod 2 ^ 24) with 252. apply Z.ltb_lt. lia.
      + unfold arm_r15_word. destruct F as [[] [] [] []]; cbn [fN fZ fC fV Z.b2z]; lia. }
  clearbody N. clear Hg He Hc M. assert (Hc := mt_code _ _ _ HN).
  (* mov r3, #0 *)
  eapply (s_dp matrix_code _ _ _ _ _ _ 0xe3a03000); [exact Hc | vm_compute; reflexivity | a23_dp; reflexivity | ]. intros f1 _ _. change (44 + 4) with 48.
  apply r_done. eexists _, f1, N. split; [reflexivity | ]. split; [exact HN | ]. unfold base_regs. regs. repeat split.
Qed.
Definition mat_over (s : arm) : Prop := a_pc s = 20 /\ code_at (a_mem s) matrix_code /\ forall q, (q < 9)%nat -> load_word (a_mem s) (3 * 2 ^ 24 + 4 * Z.of_nat q) = cell q.
Lemma mat_after ret s : word_pc ret = 20 -> mat_at 124 9 (base_regs 3) ret s -> reaches z true s 11 mat_over.
Proof.
  intros Hr (R & F & M & -> & [Hc _ _ Ho Hs] & (R0 & R1 & R2 & R13 & R3)).
  (* pop {r4, r5, r6, r7, r8, r9, pc} *)
  eapply (s_multi matrix_code _ _ _ _ _ _ 0xe8bd83f0) with (n := O); [exact Hc | vm_compute; reflexivity | | | | | ].
  { split; [reflexivity | ]. split; [reflexivity | ]. split; [vm_compute; discriminate | ]. split; [vm_compute; discriminate | ]. intros _. now rewrite holds_al by reflexivity. }
  { unfold multi, multi_start, multi_base. rewrite holds_al by reflexivity. a23_fields. cbn [length load_regs]. cbv iota zeta. unfold first_reg. cbn [a_regs a_flags a_pc a_mem Z.eqb Pos.eqb]. rewrite R13.
    change ((4 * 2 ^ 24 + 4 * 57) mod 2 ^ 32) with (4 * 2 ^ 24 + 4 * 57). change ((4 * 2 ^ 24 + 4 * 57 + 4) mod 2 ^ 32) with (4 * 2 ^ 24 + 4 * 58).
    change ((4 * 2 ^ 24 + 4 * 58 + 4) mod 2 ^ 32) with (4 * 2 ^ 24 + 4 * 59). change ((4 * 2 ^ 24 + 4 * 59 + 4) mod 2 ^ 32) with (4 * 2 ^ 24 + 4 * 60).
    change ((4 * 2 ^ 24 + 4 * 60 + 4) mod 2 ^ 32) with (4 * 2 ^ 24 + 4 * 61). change ((4 * 2 ^ 24 + 4 * 61 + 4) mod 2 ^ 32) with (4 * 2 ^ 24 + 4 * 62).
    change ((4 * 2 ^ 24 + 4 * 62 + 4) mod 2 ^ 32) with (4 * 2 ^ 24 + 4 * 63).
    replace (put _ 15 _ 15) with ret by (unfold put; cbn [Z.eqb Pos.eqb]; now rewrite Hs). rewrite Hr. reflexivity. }
  { exact Hc. }
  { cbn [a_pc]. split; [lia | split; [reflexivity | lia]]. }
  apply r_done. split; [reflexivity | ]. split; [exact Hc | exact Ho].
Qed.
Lemma mat_stays s : mat_over s -> reaches z true s 3 mat_over.
Proof.
  intros (P & Hc & Ho). destruct s as [R F pc M]. cbn [a_pc a_mem] in *. subst pc.
  eapply (s_branch matrix_code _ _ _ _ _ _ 0xeafffffe); [exact Hc | vm_compute; reflexivity | | apply r_done].
  - unfold branch, branch_target. rewrite holds_al by reflexivity. a23_fields. cbv iota. cbn [a_regs a_flags a_pc a_mem]. reflexivity.
  - split; [reflexivity | split; [exact Hc | exact Ho]].
Qed.
Lemma mat_runs F m : reaches z true (Arm (fun _ => 0) F 0 (mem_init matrix_code g e)) (570 + 3 * m) mat_over.
Proof.
  induction m as [ | m IH].
  - apply r_eq with (25 + (178 + (178 + (178 + 11))))%nat; [reflexivity | ]. set (ret := arm_r15_word F 20). apply r_seq with (mat_at 48 0 (base_regs 0) ret); [apply mat_before | ].
    intros s0 H0. apply r_seq with (mat_at 48 3 (base_regs 1) ret); [exact (mat_row 0 ret ltac:(lia) s0 H0) | ].
    intros s1 H1. apply r_seq with (mat_at 48 6 (base_regs 2) ret); [exact (mat_row 1 ret ltac:(lia) s1 H1) | ].
    intros s2 H2. apply r_seq with (mat_at 124 9 (base_regs 3) ret); [exact (mat_row 2 ret ltac:(lia) s2 H2) | ].
    intros s3 H3. apply (mat_after ret); [ | exact H3]. unfold ret, word_pc, arm_r15_word. destruct F as [[] [] [] []]; reflexivity.
  - apply r_eq with (570 + 3 * m + 3)%nat; [lia | ]. apply r_seq with mat_over; [exact IH | ]. intros s Hs. now apply mat_stays.
Qed.
End Matrix.
(** After 571 cycles, and whenever the processor is back at the branch to itself, the output is the last product
    of each of the sums *)
Theorem matrix_program z g e m (p := run z (571 + 3 * m) (reset (mem_init matrix_code g e))) :
  length g = 9%nat -> length e = 9%nat -> Forall is_word g -> Forall is_word e -> 9 <= out_size z -> 64 <= stack_size z ->
  terminate p = true /\ outputs (mem p) 9 = last_products g e.
Proof.
  intros Lg Le Wg We Zo Zs. unfold p. replace (571 + 3 * m)%nat with (1 + (570 + 3 * m))%nat by lia. rewrite run_app. change (run z 1 ?q) with (step z q).
  destruct (reset_ready z (mem_init matrix_code g e) (init_range _ _ _)) as [R I].
  destruct (mat_runs z g e Lg Le Wg We Zo Zs _ m _ R (fun _ => I)) as (s & (P & _ & Ho) & R' & _).
  split; [exact (ready_terminate _ s R' P) | ]. pose proof R' as (_ & _ & _ & _ & _ & Hm & _).
  apply map_ext_in. intros k Hk. apply in_seq in Hk. transitivity (load_word (a_mem s) (3 * 2 ^ 24 + 4 * Z.of_nat k)); [unfold load_word; now rewrite !Hm | apply Ho; lia].
Qed.
(** The test vector of the repository, a23/matrix-mul/test: the unit matrix times a matrix is not that matrix *)
Theorem matrix_refuted m (p := run (Sizes 64 64 64 64 64) (571 + 3 * m) (reset (mem_init matrix_code [1; 0; 0; 0; 1; 0; 0; 0; 1] [1; 2; 3; 4; 5; 6; 7; 8; 9]))) :
  terminate p = true /\ outputs (mem p) 9 = [0; 0; 0; 0; 0; 0; 7; 8; 9] /\ outputs (mem p) 9 <> matrix_product [1; 0; 0; 0; 1; 0; 0; 0; 1] [1; 2; 3; 4; 5; 6; 7; 8; 9].
Proof.
  destruct (matrix_program (Sizes 64 64 64 64 64) [1; 0; 0; 0; 1; 0; 0; 0; 1] [1; 2; 3; 4; 5; 6; 7; 8; 9] m) as [T O];
    [reflexivity | reflexivity | repeat constructor; vm_compute; congruence | repeat constructor; vm_compute; congruence | vm_compute; discriminate | vm_compute; discriminate | ].
  fold p in T, O. split; [exact T | ]. rewrite O. split; [reflexivity | vm_compute; discriminate].
Qed.
