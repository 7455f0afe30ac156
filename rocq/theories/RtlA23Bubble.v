(** The shipped program that sorts, executed by the processor a23. *)
From Coq Require Import ZArith List Bool Lia Permutation.
From Verif Require Import RtlA23 RtlA23Units RtlA23Step RtlA23Jump RtlA23Mem RtlA23Mul RtlA23Refuted RtlA23Multi RtlA23LoadPc RtlA23Run RtlA23Sum RtlA23Fill RtlA23Matrix.
Import ListNotations.
Open Scope Z_scope.

(** * The program, a23/bubble-sort/p.txt *)
Definition bubble_code : list Z :=
  [0xe59fd01c; 0xe59f000c; 0xe59f100c; 0xe59f200c; 0xeb000004; 0xeafffffe; 0x01000000; 0x02000000; 0x03000000;
   0x04000100; 0xe52de004; 0xe3a03000; 0xe790e103; 0xe791c103; 0xe02cc00e; 0xe782c103; 0xe2833001; 0xe3530020;
   0x1afffff8; 0xe3a0101f; 0xe1a03002; 0xe3a00000; 0xe1500001; 0xaa000006; 0xe8935000; 0xe15c000e; 0xc583e000;
   0xc583c004; 0xe2800001; 0xe2833004; 0xeafffff6; 0xe2511001; 0x1afffff2; 0xe49df004; 0x00000000; 0x00000000].

(** * Specification *)
(** The inputs are shares of the words to sort *)
Definition shares (g e : list Z) : list Z := map (fun k => Z.lxor (nth k g 0) (nth k e 0)) (seq 0 32).
(** In ascending order as signed numbers *)
Definition in_order (l : list Z) : Prop := forall i j, (i < j < length l)%nat -> s32 (nth i l 0) <= s32 (nth j l 0).

(** * Sorting *)
Definition bstep (i : nat) (l : list Z) : list Z :=
  firstn i l ++ match skipn i l with a :: b :: t => if s32 b <? s32 a then b :: a :: t else a :: b :: t | t => t end.
Definition bpass (n : nat) (l : list Z) : list Z := fold_left (fun l i => bstep i l) (seq 0 n) l.
Fixpoint bpasses (n : nat) (l : list Z) : list Z := match n with O => l | S n' => bpasses n' (bpass n l) end.
Lemma bstep_perm i l : Permutation l (bstep i l).
Proof.
  rewrite <- (firstn_skipn i l) at 1. unfold bstep. apply Permutation_app_head. destruct (skipn i l) as [ | a [ | b t]]; try reflexivity.
  destruct (_ <? _); [apply perm_swap | reflexivity].
Qed.
Lemma bstep_length i l : length (bstep i l) = length l.
Proof. symmetry. apply Permutation_length, bstep_perm. Qed.
Lemma bstep_nth i l j : (S i < length l)%nat -> nth j (bstep i l) 0 =
  if s32 (nth (S i) l 0) <? s32 (nth i l 0) then (if Nat.eqb j i then nth (S i) l 0 else if Nat.eqb j (S i) then nth i l 0 else nth j l 0) else nth j l 0.
Proof.
  intros H. unfold bstep. assert (L : length (firstn i l) = i) by (apply firstn_length_le; lia).
  assert (E : forall k, nth (i + k) l 0 = nth k (skipn i l) 0).
  { intros k. rewrite <- (firstn_skipn i l) at 1. rewrite app_nth2; rewrite L; [f_equal; lia | lia]. }
  assert (E0 := E O). assert (E1 := E 1%nat). rewrite Nat.add_0_r in E0. rewrite Nat.add_1_r in E1.
  assert (Ls : length (skipn i l) = (length l - i)%nat) by apply skipn_length.
  destruct (skipn i l) as [ | a [ | b t]] eqn:Sk; [cbn in Ls; lia | cbn in Ls; lia | ]. cbn [nth] in E0, E1. rewrite E0, E1.
  destruct (Nat.lt_ge_cases j i) as [Hj | Hj].
  - rewrite app_nth1 by lia. replace (nth j l 0) with (nth j (firstn i l) 0) by (rewrite <- (firstn_skipn i l) at 2; symmetry; apply app_nth1; lia).
    replace (Nat.eqb j i) with false by (symmetry; apply Nat.eqb_neq; lia). replace (Nat.eqb j (S i)) with false by (symmetry; apply Nat.eqb_neq; lia). now destruct (_ <? _).
  - rewrite app_nth2 by lia. rewrite L. specialize (E (j - i)%nat). replace (i + (j - i))%nat with j in E by lia. rewrite E. destruct (j - i)%nat as [ | [ | k]] eqn:D.
    + replace (Nat.eqb j i) with true by (symmetry; apply Nat.eqb_eq; lia). now destruct (_ <? _).
    + replace (Nat.eqb j i) with false by (symmetry; apply Nat.eqb_neq; lia). replace (Nat.eqb j (S i)) with true by (symmetry; apply Nat.eqb_eq; lia). now destruct (_ <? _).
    + replace (Nat.eqb j i) with false by (symmetry; apply Nat.eqb_neq; lia). replace (Nat.eqb j (S i)) with false by (symmetry; apply Nat.eqb_neq; lia). now destruct (_ <? _).
Qed.
Lemma bpass_S n l : bpass (S n) l = bstep n (bpass n l).
Proof. unfold bpass. rewrite seq_S, fold_left_app. reflexivity. Qed.
Lemma bpass_perm n l : Permutation l (bpass n l).
Proof. induction n as [ | n IH]; [reflexivity | ]. rewrite bpass_S. etransitivity; [exact IH | apply bstep_perm]. Qed.
Lemma bpass_length n l : length (bpass n l) = length l.
Proof. symmetry. apply Permutation_length, bpass_perm. Qed.
Lemma bpasses_perm n l : Permutation l (bpasses n l).
Proof. revert l. induction n as [ | n IH]; intros l; [reflexivity | ]. cbn [bpasses]. etransitivity; [apply bpass_perm | apply IH]. Qed.
(** All after n is in its place *)
Definition placed (n : nat) (l : list Z) : Prop := forall p q, (p < q < length l)%nat -> (n < q)%nat -> s32 (nth p l 0) <= s32 (nth q l 0).
Lemma bpass_placed n l : (S n < length l)%nat -> placed (S n) l -> placed n (bpass (S n) l).
Proof.
  intros L P. assert (A : forall i, (i <= S n)%nat -> placed (S n) (bpass i l) /\ forall p, (p < i)%nat -> s32 (nth p (bpass i l) 0) <= s32 (nth i (bpass i l) 0)).
  { intros i. induction i as [ | i IH]; intros Hi; [split; [exact P | intros p Hp; lia] | ]. destruct (IH ltac:(lia)) as [P1 P2]. rewrite bpass_S. assert (Lt := bpass_length i l).
    set (t := bpass i l) in *. clearbody t. clear IH. rewrite <- Lt in L. split.
    - intros p q Hq Hn. rewrite bstep_length in Hq. rewrite !bstep_nth by lia. destruct (_ <? _); [ | apply P1; lia].
      replace (Nat.eqb q i) with false by (symmetry; apply Nat.eqb_neq; lia). replace (Nat.eqb q (S i)) with false by (symmetry; apply Nat.eqb_neq; lia).
      destruct (Nat.eqb_spec p i); [apply P1; lia | ]. destruct (Nat.eqb_spec p (S i)); apply P1; lia.
    - intros p Hp. rewrite !bstep_nth by lia. rewrite Nat.eqb_refl. replace (Nat.eqb (S i) i) with false by (symmetry; apply Nat.eqb_neq; lia).
      destruct (Z.ltb_spec (s32 (nth (S i) t 0)) (s32 (nth i t 0))) as [C | C].
      + destruct (Nat.eqb_spec p i); [lia | ]. replace (Nat.eqb p (S i)) with false by (symmetry; apply Nat.eqb_neq; lia). apply P2. lia.
      + destruct (Nat.eq_dec p i) as [-> | D]; [exact C | ]. specialize (P2 p ltac:(lia)). lia. }
  destruct (A (S n) ltac:(lia)) as [P1 P2]. intros p q Hq Hn. destruct (Nat.eq_dec q (S n)) as [-> | D]; [apply P2; lia | apply P1; lia].
Qed.
Lemma bpasses_order n l : (n < length l)%nat -> placed n l -> in_order (bpasses n l).
Proof.
  revert l. induction n as [ | n IH]; intros l L P; cbn [bpasses].
  - intros i j H. apply P; lia.
  - apply IH; [rewrite bpass_length; lia | now apply bpass_placed].
Qed.
Lemma bubble_sorts l : (1 < length l)%nat -> Permutation l (bpasses (length l - 1) l) /\ in_order (bpasses (length l - 1) l).
Proof. intros L. split; [apply bpasses_perm | apply bpasses_order; [lia | intros p q H1 H2; lia]]. Qed.

(** * The processor *)
(** The load of the program counter *)
Lemma r_load_pc z c s i n Q : i = mem_read (a_mem s) (a_pc s) -> load_pc_form i -> holds s i = true -> pc_ok (word_pc (loaded s i)) ->
  reaches z true (load_pc s i) n Q -> reaches z c s (5 + n) Q.
Proof.
  intros Ei F Hh P H p R I. destruct (load_pc_steps z p s i R Ei F Hh P) as [R' I']. rewrite run_app. exact (H _ R' (fun _ => I')).
Qed.
Lemma cond_ge a b sc f : is_word a -> is_word b -> arm_condition 10 (arm_flags 10 a b sc f) = (s32 b <=? s32 a).
Proof.
  intros Ha Hb. pose proof (holds_eq (Arm (fun _ => 0) (arm_flags 10 a b sc f) 0 (fun _ => 0)) 0xa0000000) as H.
  change (conditional_execute 10 (arm_flags 10 a b sc f) = arm_condition 10 (arm_flags 10 a b sc f)) in H. rewrite <- H.
  apply condition_ok; [cbn; tauto | exact Ha | exact Hb].
Qed.
Lemma cond_gt a b sc f : is_word a -> is_word b -> arm_condition 12 (arm_flags 10 a b sc f) = (s32 b <? s32 a).
Proof.
  intros Ha Hb. pose proof (holds_eq (Arm (fun _ => 0) (arm_flags 10 a b sc f) 0 (fun _ => 0)) 0xc0000000) as H.
  change (conditional_execute 12 (arm_flags 10 a b sc f) = arm_condition 12 (arm_flags 10 a b sc f)) in H. rewrite <- H.
  apply condition_ok; [cbn; tauto | exact Ha | exact Hb].
Qed.
(** A conditional store that is not executed, and one that is *)
Lemma s_skip words z c R F pc M i n Q : code_at M words -> tr_check words pc i = true -> arm_condition (bits i 31 28) F = false ->
  reaches z true (Arm R F (pc + 4) M) n Q -> reaches z c (Arm R F pc M) (3 + n) Q.
Proof.
  intros HM C H1 H. eapply (s_transfer words); [exact HM | exact C | | | exact H]; [ | exact HM]. unfold transfer, holds. cbn [a_flags]. now rewrite H1.
Qed.
Lemma s_str_if words z c R F pc M i a n Q : code_at M words -> tr_check words pc i && negb (tb i 20) && negb (tb i 22) && negb (write_back i) = true ->
  arm_condition (bits i 31 28) F = true -> mem_address (Arm R F pc M) i = a -> a mod 4 = 0 -> 4 * Z.of_nat (length words) <= a ->
  reaches z true (Arm R F (pc + 4) (store_word z M a (R (bits i 15 12)))) n Q -> reaches z c (Arm R F pc M) (3 + n) Q.
Proof.
  intros HM C C1 A A4 Ac H. apply andb_prop in C. destruct C as [C C4]. apply andb_prop in C. destruct C as [C C3]. apply andb_prop in C. destruct C as [C C2].
  apply negb_true_iff in C2. apply negb_true_iff in C3. apply negb_true_iff in C4. eapply (s_transfer words); [exact HM | exact C | | | exact H].
  - unfold transfer, holds. cbn [a_flags]. rewrite C1, C2, C4. cbn [a_regs a_flags a_pc a_mem]. unfold stored. now rewrite A, C3.
  - cbn [a_mem]. now apply store_code.
Qed.
Section Bubble.
Variables (z : sizes) (g e : list Z).
Hypothesis Lg : length g = 32%nat.
Hypothesis Le : length e = 32%nat.
Hypothesis Wg : Forall is_word g.
Hypothesis We : Forall is_word e.
Hypothesis Zo : 32 <= out_size z.
Hypothesis Zs : 64 <= stack_size z.
(** ** The memory *)
Record bub_mem (n : nat) (f : nat -> Z) (ret : Z) (M : memory) : Prop := {
  bm_code : code_at M bubble_code;
  bm_o : forall j, (j < n)%nat -> load_word M (3 * 2 ^ 24 + 4 * Z.of_nat j) = f j;
  bm_s : load_word M (4 * 2 ^ 24 + 4 * 63) = ret }.
Lemma bub_store n f ret M k v : (k < 32)%nat -> is_word v -> bub_mem n f ret M ->
  bub_mem n (fun j => if Nat.eqb j k then v else f j) ret (store_word z M (3 * 2 ^ 24 + 4 * Z.of_nat k) v).
Proof.
  intros Hk Hv [H1 H2 H3]. assert (A : forall r k, (r * 2 ^ 24 + 4 * k) mod 4 = 0) by exact aligned_4. constructor.
  - apply store_code; [exact H1 | change (length bubble_code) with 36%nat; lia | apply A].
  - intros j Hj. destruct (Nat.eqb_spec j k) as [-> | D].
    + apply load_store_same; [apply out_writes; lia | apply A | lia | exact Hv].
    + rewrite load_store_other; [apply H2; lia | apply A | apply A | lia].
  - rewrite load_store_other; [exact H3 | apply A | apply A | lia].
Qed.
(** ** The exclusive or *)
Definition xw (k : nat) : Z := Z.lxor (nth k g 0) (nth k e 0).
Lemma word_nth l k : Forall is_word l -> is_word (nth k l 0).
Proof.
  intros H. destruct (Nat.lt_ge_cases k (length l)); [ | rewrite nth_overflow by lia; unfold is_word; lia]. rewrite Forall_forall in H. apply H, nth_In. lia.
Qed.
Lemma lxor_word a b : is_word a -> is_word b -> is_word (Z.lxor a b).
Proof.
  intros [A1 A2] [B1 B2]. assert (N : 0 <= Z.lxor a b) by (apply Z.lxor_nonneg; tauto). split; [exact N | ].
  destruct (Z.eq_dec (Z.lxor a b) 0) as [-> | D]; [lia | ]. apply Z.log2_lt_pow2; [lia | ]. assert (L := Z.log2_lxor a b A1 B1).
  destruct (Z.eq_dec a 0) as [-> | Da]; destruct (Z.eq_dec b 0) as [-> | Db]; cbn [Z.log2] in *.
  - lia.
  - assert (Z.log2 b < 32) by (apply Z.log2_lt_pow2; lia). lia.
  - assert (Z.log2 a < 32) by (apply Z.log2_lt_pow2; lia). lia.
  - assert (Z.log2 a < 32) by (apply Z.log2_lt_pow2; lia). assert (Z.log2 b < 32) by (apply Z.log2_lt_pow2; lia). lia.
Qed.
Lemma xw_word k : is_word (xw k).
Proof. apply lxor_word; apply word_nth; assumption. Qed.
Definition in_mem (M : memory) : Prop := forall j, (j < 32)%nat -> load_word M (1 * 2 ^ 24 + 4 * Z.of_nat j) = nth j g 0 /\ load_word M (2 * 2 ^ 24 + 4 * Z.of_nat j) = nth j e 0.
Definition xor_at (pc : Z) (k : nat) (ret : Z) (s : arm) : Prop :=
  exists R F M, s = Arm R F pc M /\ bub_mem k xw ret M /\ in_mem M /\ R 0 = 1 * 2 ^ 24 /\ R 1 = 2 * 2 ^ 24 /\ R 2 = 3 * 2 ^ 24 /\ R 3 = Z.of_nat k /\ R 13 = 4 * 2 ^ 24 + 4 * 63.
Lemma xor_body k ret : (k < 32)%nat -> forall s, xor_at 48 k ret s -> reaches z true s 15 (xor_at (if Nat.eqb (S k) 32 then 76 else 48) (S k) ret).
Proof.
  intros Hk s (R & F & M & -> & HM & HI & R0 & R1 & R2 & R3 & R13). assert (A : forall r k, (r * 2 ^ 24 + 4 * k) mod 4 = 0) by exact aligned_4.
  assert (Hc := bm_code _ _ _ _ HM). destruct (HI k Hk) as [Ig Ie].
  assert (Sh : forall b, 0 <= b < 2 ^ 31 -> (b + fst (arm_shift 0 (Z.of_nat k) 2 (fC F))) mod 2 ^ 32 = b + 4 * Z.of_nat k).
  { intros b Hb. unfold arm_shift. cbn [Z.eqb Pos.eqb fst]. rewrite (Z.mod_small (Z.of_nat k * 2 ^ 2)), Z.mod_small; lia. }
  (* ldr lr, [r0, r3, lsl #2] *)
  eapply (s_ldr bubble_code _ _ _ _ _ _ 0xe790e103 (1 * 2 ^ 24 + 4 * Z.of_nat k)); [exact Hc | vm_compute; reflexivity | a23_address; rewrite R0, R3; apply Sh; lia | apply A | ].
  rewrite Ig. a23_fields. change (48 + 4) with 52. cbv iota.
  (* ldr r12, [r1, r3, lsl #2] *)
  eapply (s_ldr bubble_code _ _ _ _ _ _ 0xe791c103 (2 * 2 ^ 24 + 4 * Z.of_nat k)); [exact Hc | vm_compute; reflexivity | a23_address; regs; rewrite R1, R3; apply Sh; lia | apply A | ].
  rewrite Ie. a23_fields. change (52 + 4) with 56. cbv iota.
  (* eor r12, r12, lr *)
  eapply (s_dp bubble_code _ _ _ _ _ _ 0xe02cc00e); [exact Hc | vm_compute; reflexivity | a23_dp; reflexivity | ]. intros f1 _ _. change (56 + 4) with 60.
  match goal with |- reaches _ _ (Arm ?r _ _ _) _ _ => set (T := r) end.
  assert (Q : T 0 = 1 * 2 ^ 24 /\ T 1 = 2 * 2 ^ 24 /\ T 2 = 3 * 2 ^ 24 /\ T 3 = Z.of_nat k /\ T 13 = 4 * 2 ^ 24 + 4 * 63 /\ T 12 = xw k).
  { unfold T. regs. repeat split; try assumption. unfold xw. cbn [arm_shift Z.eqb fst]. apply Z.lxor_comm. }
  clearbody T. clear R0 R1 R2 R13 R3. clear R. rename T into R. destruct Q as (R0 & R1 & R2 & R3 & R13 & R12).
  (* str r12, [r2, r3, lsl #2] *)
  eapply (s_str bubble_code _ _ _ _ _ _ 0xe782c103 (3 * 2 ^ 24 + 4 * Z.of_nat k)); [exact Hc | vm_compute; reflexivity | a23_address; rewrite R2, R3 | apply A | change (length bubble_code) with 36%nat; lia | ].
  { unfold arm_shift. cbn [Z.eqb Pos.eqb fst]. rewrite (Z.mod_small (Z.of_nat k * 2 ^ 2)), Z.mod_small; lia. }
  a23_fields. change (60 + 4) with 64. rewrite R12.
  assert (HN : bub_mem (S k) xw ret (store_word z M (3 * 2 ^ 24 + 4 * Z.of_nat k) (xw k))).
  { destruct HM as [H1 H2 H3]. constructor.
    - apply store_code; [exact H1 | change (length bubble_code) with 36%nat; lia | apply A].
    - intros j Hj. destruct (Nat.eq_dec j k) as [-> | D].
      + apply load_store_same; [apply out_writes; lia | apply A | lia | apply xw_word].
      + rewrite load_store_other; [apply H2; lia | apply A | apply A | lia].
    - rewrite load_store_other; [exact H3 | apply A | apply A | lia]. }
  assert (HJ : in_mem (store_word z M (3 * 2 ^ 24 + 4 * Z.of_nat k) (xw k))).
  { intros j Hj. rewrite !load_store_other by (first [apply A | lia]). exact (HI j Hj). }
  set (N := store_word z M (3 * 2 ^ 24 + 4 * Z.of_nat k) (xw k)) in *. clearbody N. clear Hc HM HI Ig Ie M. assert (Hc := bm_code _ _ _ _ HN).
  (* add r3, r3, #1 *)
  eapply (s_dp bubble_code _ _ _ _ _ _ 0xe2833001); [exact Hc | vm_compute; reflexivity | a23_dp; reflexivity | ]. intros f2 _ _. change (64 + 4) with 68.
  rewrite R3, Z.mod_small by lia.
  (* cmp r3, #32 *)
  eapply (s_dp bubble_code _ _ _ _ _ _ 0xe3530020); [exact Hc | vm_compute; reflexivity | a23_dp; reflexivity | ]. intros f3 _ Hf. change (68 + 4) with 72.
  specialize (Hf eq_refl). assert (E2 : fZ f3 = Nat.eqb (S k) 32).
  { rewrite Hf. a23_dp. regs. apply Bool.eq_true_iff_eq. rewrite Z.eqb_eq, Nat.eqb_eq. split; intros H.
    - apply Z.mod_divide in H; [ | lia]. destruct H as (m & H). nia.
    - replace (Z.of_nat k) with 31 by lia. reflexivity. }
  clear Hf.
  (* bne 48 *)
  eapply (s_branch bubble_code _ _ _ _ _ _ 0x1afffff8); [exact Hc | vm_compute; reflexivity | | apply r_done].
  { unfold branch, branch_target, holds. a23_fields. rewrite cond_ne. cbn [a_flags]. rewrite E2. cbn [a_regs a_pc a_mem a_flags]. reflexivity. }
  eexists _, _, N. split; [ | split; [exact HN | split; [exact HJ | ]]].
  - destruct (Nat.eqb (S k) 32); reflexivity.
  - regs. repeat split; first [assumption | lia].
Qed.
Lemma bub_ext n f f' ret M : (forall j, (j < n)%nat -> f j = f' j) -> bub_mem n f ret M -> bub_mem n f' ret M.
Proof. intros H [H1 H2 H3]. constructor; [exact H1 | intros j Hj; rewrite <- H by exact Hj; now apply H2 | exact H3]. Qed.
(** ** A comparison *)
Definition array (l : list Z) : nat -> Z := fun j => nth j l 0.
Definition outer_at (pc : Z) (n : nat) (l : list Z) (ret : Z) (s : arm) : Prop :=
  exists R F M, s = Arm R F pc M /\ bub_mem 32 (array l) ret M /\ R 1 = Z.of_nat n /\ R 2 = 3 * 2 ^ 24 /\ R 13 = 4 * 2 ^ 24 + 4 * 63.
Definition inner_regs (n i : nat) (R : Z -> Z) : Prop :=
  R 0 = Z.of_nat i /\ R 1 = Z.of_nat n /\ R 2 = 3 * 2 ^ 24 /\ R 3 = 3 * 2 ^ 24 + 4 * Z.of_nat i /\ R 13 = 4 * 2 ^ 24 + 4 * 63.
Definition inner_at (pc : Z) (n i : nat) (l : list Z) (ret : Z) (s : arm) : Prop :=
  exists R F M, s = Arm R F pc M /\ bub_mem 32 (array l) ret M /\ inner_regs n i R.
Lemma small_word n : (n < 64)%nat -> is_word (Z.of_nat n) /\ s32 (Z.of_nat n) = Z.of_nat n.
Proof. intros H. split; [unfold is_word; lia | ]. unfold s32. now replace (_ <? _) with true by (symmetry; apply Z.ltb_lt; lia). Qed.
(** The comparison of the index with the end, and the branch *)
Lemma bub_test n i l ret : (i < 64)%nat -> (n < 64)%nat -> forall s, inner_at 88 n i l ret s ->
  reaches z true s 4 (inner_at (if Nat.leb n i then 124 else 96) n i l ret).
Proof.
  intros Hi Hn s (R & F & M & -> & HM & HR). assert (Hc := bm_code _ _ _ _ HM). pose proof HR as (R0 & R1 & R2 & R3 & R13).
  (* cmp r0, r1 *)
  eapply (s_dp bubble_code _ _ _ _ _ _ 0xe1500001); [exact Hc | vm_compute; reflexivity | a23_dp; reflexivity | ]. intros f1 _ Hf. change (88 + 4) with 92.
  specialize (Hf eq_refl). assert (E : arm_condition 10 f1 = Nat.leb n i).
  { rewrite Hf. unfold dp_flags, holds, operand, shifted_const, first_reg, second_reg. a23_fields. rewrite cond_al. cbn [andb Z.eqb Pos.eqb a_regs a_flags fst snd]. rewrite R0, R1.
    destruct (small_word i Hi) as [Wi Si]. destruct (small_word n Hn) as [Wn Sn].
    replace (fst (arm_shift 0 (Z.of_nat n) 0 (fC F))) with (Z.of_nat n) by reflexivity. rewrite cond_ge by assumption. rewrite Si, Sn.
    apply Bool.eq_true_iff_eq. rewrite Z.leb_le, Nat.leb_le. lia. }
  (* bge 124 *)
  eapply (s_branch bubble_code _ _ _ _ _ _ 0xaa000006); [exact Hc | vm_compute; reflexivity | | apply r_done].
  { unfold branch, branch_target, holds. a23_fields. cbn [a_flags]. rewrite E. cbn [a_regs a_pc a_mem a_flags]. reflexivity. }
  destruct (Nat.leb n i); eexists _, _, M; (split; [reflexivity | split; [exact HM | exact HR]]).
Qed.
Definition loaded_at (pc : Z) (n i : nat) (l : list Z) (ret : Z) (s : arm) : Prop :=
  exists R F M, s = Arm R F pc M /\ bub_mem 32 (array l) ret M /\ inner_regs n i R /\ R 12 = nth i l 0 /\ R 14 = nth (S i) l 0 /\
    arm_condition 12 F = (s32 (nth (S i) l 0) <? s32 (nth i l 0)).
Lemma bub_load n i l ret : (S i < 32)%nat -> Forall is_word l -> forall s, inner_at 96 n i l ret s -> reaches z true s 5 (loaded_at 104 n i l ret).
Proof.
  intros Hi Wl s (R & F & M & -> & HM & HR). assert (Hc := bm_code _ _ _ _ HM). pose proof HR as (R0 & R1 & R2 & R3 & R13).
  (* ldm r3, {r12, lr} *)
  eapply (s_multi bubble_code _ _ _ _ _ _ 0xe8935000) with (n := 1%nat); [exact Hc | vm_compute; reflexivity | | | | | ].
  { split; [reflexivity | ]. split; [reflexivity | ]. split; [vm_compute; discriminate | ]. split; [vm_compute; discriminate | ]. vm_compute. discriminate. }
  { unfold multi, multi_start, multi_base. rewrite holds_al by reflexivity. a23_fields. cbn [length load_regs]. a23_fields. cbv iota zeta. unfold first_reg. cbn [a_regs a_flags a_pc a_mem Z.eqb Pos.eqb]. rewrite R3.
    rewrite (Z.mod_small (3 * 2 ^ 24 + 4 * Z.of_nat i)) by lia. replace ((3 * 2 ^ 24 + 4 * Z.of_nat i + 4) mod 2 ^ 32) with (3 * 2 ^ 24 + 4 * Z.of_nat (S i)) by (rewrite Z.mod_small; lia).
    rewrite !(bm_o _ _ _ _ HM) by lia. reflexivity. }
  { exact Hc. }
  { cbn [a_pc]. split; [lia | split; [reflexivity | lia]]. }
  change (96 + 4) with 100.
  match goal with |- reaches _ _ (Arm ?r _ _ _) _ _ => set (T := r) end.
  assert (Q : inner_regs n i T /\ T 12 = nth i l 0 /\ T 14 = nth (S i) l 0) by (unfold inner_regs, T, array; regs; repeat split; assumption).
  clearbody T. clear HR R0 R1 R2 R13 R3. clear R. rename T into R. destruct Q as (Qr & Q12 & Q14).
  (* cmp r12, lr *)
  eapply (s_dp bubble_code _ _ _ _ _ _ 0xe15c000e); [exact Hc | vm_compute; reflexivity | a23_dp; reflexivity | ]. intros f1 _ Hf. change (100 + 4) with 104.
  specialize (Hf eq_refl). apply r_done. exists R, f1, M. split; [reflexivity | ]. split; [exact HM | ]. split; [exact Qr | ]. split; [exact Q12 | ]. split; [exact Q14 | ].
  rewrite Hf. unfold dp_flags, holds, operand, shifted_const, first_reg, second_reg. a23_fields. rewrite cond_al. cbn [andb Z.eqb Pos.eqb a_regs a_flags fst snd]. rewrite Q12, Q14.
  replace (fst (arm_shift 0 (nth (S i) l 0) 0 (fC F))) with (nth (S i) l 0) by reflexivity. apply cond_gt; apply word_nth; assumption.
Qed.
Lemma bub_exchange n i l ret : (S i < 32)%nat -> length l = 32%nat -> Forall is_word l -> forall s, loaded_at 104 n i l ret s -> reaches z true s 6 (inner_at 112 n i (bstep i l) ret).
Proof.
  intros Hi Hl Wl s (R & F & M & -> & HM & HR & R12 & R14 & HC). assert (Hc := bm_code _ _ _ _ HM). pose proof HR as (R0 & R1 & R2 & R3 & R13). assert (A : forall r k, (r * 2 ^ 24 + 4 * k) mod 4 = 0) by exact aligned_4.
  assert (Hb := fun j => bstep_nth i l j ltac:(lia)). destruct (s32 (nth (S i) l 0) <? s32 (nth i l 0)) eqn:C.
  - (* strgt lr, [r3] *)
    eapply (s_str_if bubble_code _ _ _ _ _ _ 0xc583e000 (3 * 2 ^ 24 + 4 * Z.of_nat i)); [exact Hc | vm_compute; reflexivity | exact HC | a23_address; rewrite R3, Z.mod_small; lia | apply A | change (length bubble_code) with 36%nat; lia | ].
    a23_fields. change (104 + 4) with 108. rewrite R14.
    assert (HN := bub_store _ _ _ _ i (nth (S i) l 0) ltac:(lia) (word_nth _ (S i) Wl) HM).
    set (N := store_word z M (3 * 2 ^ 24 + 4 * Z.of_nat i) (nth (S i) l 0)) in *. clearbody N. clear Hc HM M. assert (Hc := bm_code _ _ _ _ HN).
    (* strgt r12, [r3, #4] *)
    eapply (s_str_if bubble_code _ _ _ _ _ _ 0xc583c004 (3 * 2 ^ 24 + 4 * Z.of_nat (S i))); [exact Hc | vm_compute; reflexivity | exact HC | a23_address; rewrite R3, Z.mod_small; lia | apply A | change (length bubble_code) with 36%nat; lia | ].
    a23_fields. change (108 + 4) with 112. rewrite R12.
    assert (HK := bub_store _ _ _ _ (S i) (nth i l 0) ltac:(lia) (word_nth _ i Wl) HN).
    apply r_done. eexists _, _, _. split; [reflexivity | ]. split; [ | exact HR]. eapply bub_ext; [ | exact HK]. intros j Hj. cbv beta. unfold array. rewrite Hb.
    destruct (Nat.eqb_spec j (S i)) as [-> | D]; [ | reflexivity]. now replace (Nat.eqb (S i) i) with false by (symmetry; apply Nat.eqb_neq; lia).
  - eapply (s_skip bubble_code _ _ _ _ _ _ 0xc583e000); [exact Hc | vm_compute; reflexivity | exact HC | ]. change (104 + 4) with 108.
    eapply (s_skip bubble_code _ _ _ _ _ _ 0xc583c004); [exact Hc | vm_compute; reflexivity | exact HC | ]. change (108 + 4) with 112.
    apply r_done. exists R, F, M. split; [reflexivity | ]. split; [ | exact HR]. eapply bub_ext; [ | exact HM]. intros j Hj. unfold array. now rewrite Hb.
Qed.
Lemma bub_next n i l ret : (i < 32)%nat -> forall s, inner_at 112 n i l ret s -> reaches z true s 5 (inner_at 88 n (S i) l ret).
Proof.
  intros Hi s (R & F & M & -> & HM & HR). assert (Hc := bm_code _ _ _ _ HM). destruct HR as (R0 & R1 & R2 & R3 & R13).
  (* add r0, r0, #1 *)
  eapply (s_dp bubble_code _ _ _ _ _ _ 0xe2800001); [exact Hc | vm_compute; reflexivity | a23_dp; reflexivity | ]. intros f1 _ _. change (112 + 4) with 116.
  (* add r3, r3, #4 *)
  eapply (s_dp bubble_code _ _ _ _ _ _ 0xe2833004); [exact Hc | vm_compute; reflexivity | a23_dp; reflexivity | ]. intros f2 _ _. change (116 + 4) with 120.
  (* b 88 *)
  eapply (s_branch bubble_code _ _ _ _ _ _ 0xeafffff6); [exact Hc | vm_compute; reflexivity | unfold branch, branch_target; rewrite holds_al by reflexivity; a23_fields; cbv iota; cbn [a_regs a_flags a_pc a_mem]; reflexivity | apply r_done].
  eexists _, _, M. split; [reflexivity | ]. split; [exact HM | ]. unfold inner_regs. regs. rewrite R0, R3. rewrite !Z.mod_small by lia. repeat split; first [assumption | lia].
Qed.
Lemma bub_body n i l ret : (i < n)%nat -> (n < 32)%nat -> length l = 32%nat -> Forall is_word l -> forall s, inner_at 88 n i l ret s ->
  reaches z true s 20 (inner_at 88 n (S i) (bstep i l) ret).
Proof.
  intros Hi Hn Hl Wl s H. apply r_eq with (4 + (5 + (6 + 5)))%nat; [reflexivity | ].
  apply r_seq with (inner_at 96 n i l ret).
  { pose proof (bub_test n i l ret ltac:(lia) ltac:(lia) s H) as T. replace (Nat.leb n i) with false in T by (symmetry; apply Nat.leb_gt; lia). exact T. }
  intros s1 H1. apply r_seq with (loaded_at 104 n i l ret); [exact (bub_load n i l ret ltac:(lia) Wl s1 H1) | ].
  intros s2 H2. apply r_seq with (inner_at 112 n i (bstep i l) ret); [exact (bub_exchange n i l ret ltac:(lia) Hl Wl s2 H2) | ].
  intros s3 H3. exact (bub_next n i _ ret ltac:(lia) s3 H3).
Qed.
(** ** A pass *)
Lemma word_perm l l' : Permutation l l' -> Forall is_word l -> Forall is_word l'.
Proof. intros P H. rewrite Forall_forall in *. intros x Hx. apply H. symmetry in P. eapply Permutation_in; eassumption. Qed.
Lemma bub_pass n l ret : (1 <= n < 32)%nat -> length l = 32%nat -> Forall is_word l -> forall s, outer_at 80 n l ret s ->
  reaches z true s (10 + 20 * n) (outer_at (if Nat.eqb n 1 then 132 else 80) (n - 1) (bpass n l) ret).
Proof.
  intros Hn Hl Wl s H. apply r_eq with (2 + (20 * n + (4 + 4)))%nat; [lia | ].
  apply r_seq with (inner_at 88 n 0 l ret).
  { destruct H as (R & F & M & -> & HM & R1 & R2 & R13). assert (Hc := bm_code _ _ _ _ HM).
    (* mov r3, r2 *)
    eapply (s_dp bubble_code _ _ _ _ _ _ 0xe1a03002); [exact Hc | vm_compute; reflexivity | a23_dp; reflexivity | ]. intros f1 _ _. change (80 + 4) with 84.
    (* mov r0, #0 *)
    eapply (s_dp bubble_code _ _ _ _ _ _ 0xe3a00000); [exact Hc | vm_compute; reflexivity | a23_dp; reflexivity | ]. intros f2 _ _. change (84 + 4) with 88.
    apply r_done. eexists _, f2, M. split; [reflexivity | ]. split; [exact HM | ]. unfold inner_regs. regs. repeat split; try assumption. }
  clear s H. intros s H. apply r_seq with (inner_at 88 n n (bpass n l) ret).
  { assert (A : forall i, (i <= n)%nat -> reaches z true s (20 * i) (inner_at 88 n i (bpass i l) ret)).
    { intros i. induction i as [ | i IH]; intros Hi; [now apply r_done | ]. apply r_eq with (20 * i + 20)%nat; [lia | ].
      apply r_seq with (inner_at 88 n i (bpass i l) ret); [apply IH; lia | ]. intros s' Hs. rewrite bpass_S.
      apply bub_body; [lia | lia | now rewrite bpass_length | eapply word_perm; [apply bpass_perm | exact Wl] | exact Hs]. }
    apply A. lia. }
  clear s H. intros s H. set (t := bpass n l) in *. clearbody t. apply r_seq with (inner_at 124 n n t ret).
  { pose proof (bub_test n n t ret ltac:(lia) ltac:(lia) s H) as T. rewrite Nat.leb_refl in T. exact T. }
  clear s H. intros s (R & F & M & -> & HM & (R0 & R1 & R2 & R3 & R13)). assert (Hc := bm_code _ _ _ _ HM).
  (* subs r1, r1, #1 *)
  eapply (s_dp bubble_code _ _ _ _ _ _ 0xe2511001); [exact Hc | vm_compute; reflexivity | a23_dp; reflexivity | ]. intros f1 _ Hf. change (124 + 4) with 128.
  specialize (Hf eq_refl). assert (E : fZ f1 = Nat.eqb n 1).
  { rewrite Hf. a23_dp. rewrite R1, Z.mod_small by lia. apply Bool.eq_true_iff_eq. rewrite Z.eqb_eq, Nat.eqb_eq. lia. }
  clear Hf. rewrite R1, Z.mod_small by lia.
  (* bne 80 *)
  eapply (s_branch bubble_code _ _ _ _ _ _ 0x1afffff2); [exact Hc | vm_compute; reflexivity | | apply r_done].
  { unfold branch, branch_target, holds. a23_fields. rewrite cond_ne. cbn [a_flags]. rewrite E. cbn [a_regs a_pc a_mem a_flags]. reflexivity. }
  eexists _, _, M. split; [ | split; [exact HM | ]].
  - destruct (Nat.eqb n 1); reflexivity.
  - regs. repeat split; first [assumption | lia].
Qed.
Fixpoint passes_time (n : nat) : nat := match n with O => O | S n' => (10 + 20 * n + passes_time n')%nat end.
Lemma bub_passes n l ret : (1 <= n < 32)%nat -> length l = 32%nat -> Forall is_word l -> forall s, outer_at 80 n l ret s ->
  reaches z true s (passes_time n) (outer_at 132 0 (bpasses n l) ret).
Proof.
  revert l. induction n as [ | n IH]; intros l Hn Hl Wl s H; [lia | ]. cbn [passes_time bpasses]. assert (P := bub_pass (S n) l ret Hn Hl Wl s H).
  replace (S n - 1)%nat with n in P by lia. destruct n as [ | n].
  - apply r_eq with (10 + 20 * 1)%nat; [reflexivity | ]. exact P.
  - eapply r_seq; [exact P | ]. intros s' Hs. apply IH; [lia | now rewrite bpass_length | eapply word_perm; [apply bpass_perm | exact Wl] | exact Hs].
Qed.
(** ** Before and after *)
Lemma bub_before F : reaches z true (Arm (fun _ => 0) F 0 (mem_init bubble_code g e)) 19 (xor_at 48 0 (arm_r15_word F 20)).
Proof.
  assert (A : forall r k, (r * 2 ^ 24 + 4 * k) mod 4 = 0) by exact aligned_4.
  assert (Hc : code_at (mem_init bubble_code g e) bubble_code) by (apply init_code; vm_compute; discriminate).
  assert (HI : in_mem (mem_init bubble_code g e)).
  { intros j Hj. split.
    - rewrite (init_word bubble_code g e 1) by (cbn [Z.eqb Pos.eqb]; first [now left | lia | rewrite Lg; lia | exact Wg]). cbn [Z.eqb Pos.eqb]. now rewrite Nat2Z.id.
    - rewrite (init_word bubble_code g e 2) by (cbn [Z.eqb Pos.eqb]; first [now right | lia | rewrite Le; lia | exact We]). cbn [Z.eqb Pos.eqb]. now rewrite Nat2Z.id. }
  set (M := mem_init bubble_code g e) in *. clearbody M. a23_prologue bubble_code Hc M.
  (* bl 40 *)
  eapply (s_branch bubble_code _ _ _ _ _ _ 0xeb000004); [exact Hc | vm_compute; reflexivity | unfold branch, branch_target; rewrite holds_al by reflexivity; a23_fields; cbv iota; cbn [a_regs a_flags a_pc a_mem]; reflexivity | ].
  change (16 + 8 + 16) with 40. change (16 + 4) with 20.
  (* str lr, [sp, #-4]! *)
  eapply (s_str_back bubble_code _ _ _ _ _ _ 0xe52de004 (4 * 2 ^ 24 + 4 * 63)); [exact Hc | vm_compute; reflexivity | a23_address; regs; reflexivity | reflexivity | change (length bubble_code) with 36%nat; lia | ].
  match goal with |- context [moved_base ?s 0xe52de004] => replace (moved_base s 0xe52de004) with (4 * 2 ^ 24 + 4 * 63) by (a23_address; regs; reflexivity) end.
  a23_fields. change (40 + 4) with 44.
  match goal with |- reaches _ _ (Arm _ _ _ ?m) _ _ => set (N := m) end.
  assert (HN : bub_mem 0 xw (arm_r15_word F 20) N).
  { unfold N. constructor.
    - apply store_code; [exact Hc | change (length bubble_code) with 36%nat; lia | reflexivity].
    - intros j Hj. lia.
    - regs. apply load_store_same; [ | reflexivity | lia | ].
      + unfold writable. change ((4 * 2 ^ 24 + 4 * 63) / 2 ^ 24 =? 0) with false. change ((4 * 2 ^ 24 + 4 * 63) / 2 ^ 24 =? 3) with false. change ((4 * 2 ^ 24 + 4 * 63) / 2 ^ 24 =? 4) with true. change ((4 * 2 ^ 24 + 4 * 63) mod 2 ^ 24) with 252. apply Z.ltb_lt. lia.
      + unfold arm_r15_word. destruct F as [[] [] [] []]; cbn [fN fZ fC fV Z.b2z]; lia. }
  assert (HJ : in_mem N).
  { intros j Hj. unfold N. rewrite !load_store_other by (first [apply A | lia]). exact (HI j Hj). }
  clearbody N. clear HI Hc M. assert (Hc := bm_code _ _ _ _ HN).
  (* mov r3, #0 *)
  eapply (s_dp bubble_code _ _ _ _ _ _ 0xe3a03000); [exact Hc | vm_compute; reflexivity | a23_dp; reflexivity | ]. intros f1 _ _. change (44 + 4) with 48.
  apply r_done. eexists _, f1, N. split; [reflexivity | ]. split; [exact HN | ]. split; [exact HJ | ]. regs. repeat split.
Qed.
Lemma bub_xor ret s : xor_at 48 0 ret s -> reaches z true s (32 * 15) (xor_at 76 32 ret).
Proof.
  intros H. assert (B : forall k, (k < 32)%nat -> reaches z true s (k * 15) (xor_at 48 k ret)).
  { intros k. induction k as [ | k IH]; intros Hk; [now apply r_done | ]. apply r_eq with (k * 15 + 15)%nat; [lia | ].
    apply r_seq with (xor_at 48 k ret); [apply IH; lia | ]. intros s' Hs. pose proof (xor_body k ret ltac:(lia) s' Hs) as L.
    replace (Nat.eqb (S k) 32) with false in L by (symmetry; apply Nat.eqb_neq; lia). exact L. }
  apply r_eq with (31 * 15 + 15)%nat; [reflexivity | ]. apply r_seq with (xor_at 48 31 ret); [apply B; lia | ].
  intros s' Hs. exact (xor_body 31 ret ltac:(lia) s' Hs).
Qed.
Lemma shares_nth j : (j < 32)%nat -> xw j = array (shares g e) j.
Proof.
  intros H. unfold array, shares. rewrite (nth_indep _ 0 (xw 0)) by (rewrite map_length, seq_length; exact H). change (map _ _) with (map xw (seq 0 32)). rewrite map_nth, seq_nth by exact H. reflexivity.
Qed.
Lemma shares_word : Forall is_word (shares g e).
Proof. apply Forall_map, Forall_forall. intros k _. apply xw_word. Qed.
Lemma shares_length : length (shares g e) = 32%nat.
Proof. unfold shares. rewrite map_length. apply seq_length. Qed.
Definition bub_over (s : arm) : Prop := a_pc s = 20 /\ bub_mem 32 (array (bpasses 31 (shares g e))) (load_word (a_mem s) (4 * 2 ^ 24 + 4 * 63)) (a_mem s).
Lemma bub_start ret s : xor_at 76 32 ret s -> reaches z true s 1 (outer_at 80 31 (shares g e) ret).
Proof.
  intros (R & F & M & -> & HM & _ & R0 & R1 & R2 & R3 & R13). assert (Hc := bm_code _ _ _ _ HM).
  (* mov r1, #31 *)
  eapply (s_dp bubble_code _ _ _ _ _ _ 0xe3a0101f); [exact Hc | vm_compute; reflexivity | a23_dp; reflexivity | ]. intros f1 _ _. change (76 + 4) with 80.
  apply r_done. eexists _, f1, M. split; [reflexivity | ]. split; [eapply bub_ext; [exact shares_nth | exact HM] | ]. regs. repeat split; assumption.
Qed.
Lemma bub_after ret s : word_pc ret = 20 -> outer_at 132 0 (bpasses 31 (shares g e)) ret s -> reaches z true s 5 bub_over.
Proof.
  intros Hr (R & F & M & -> & HM & R1 & R2 & R13). assert (Hc := bm_code _ _ _ _ HM).
  assert (Ha : mem_address (Arm R F 132 M) 0xe49df004 = 4 * 2 ^ 24 + 4 * 63) by (a23_address; exact R13).
  assert (El : loaded (Arm R F 132 M) 0xe49df004 = ret).
  { unfold loaded. rewrite Ha. a23_fields. cbv zeta iota. cbn [a_mem]. change ((4 * 2 ^ 24 + 4 * 63) mod 4) with 0. rewrite rotate_none. exact (bm_s _ _ _ _ HM). }
  eapply (r_load_pc z _ _ 0xe49df004); [cbn [a_mem a_pc]; rewrite (fetch M bubble_code 132 Hc) by (try reflexivity; vm_compute; discriminate); vm_compute; reflexivity | | now apply holds_al | rewrite El, Hr; split; [lia | split; [reflexivity | lia]] | apply r_done].
  - split; [reflexivity | ]. split; [reflexivity | ]. split; [reflexivity | ]. split; [reflexivity | ]. split; [intros _; vm_compute; discriminate | vm_compute; discriminate].
  - unfold load_pc. rewrite El, Hr. split; [reflexivity | ]. cbn [a_mem]. rewrite (bm_s _ _ _ _ HM). exact HM.
Qed.
Lemma bub_stays s : bub_over s -> reaches z true s 3 bub_over.
Proof.
  intros (P & HM). destruct s as [R F pc M]. cbn [a_pc a_mem] in *. subst pc. assert (Hc := bm_code _ _ _ _ HM).
  eapply (s_branch bubble_code _ _ _ _ _ _ 0xeafffffe); [exact Hc | vm_compute; reflexivity | | apply r_done].
  - unfold branch, branch_target. rewrite holds_al by reflexivity. a23_fields. cbv iota. cbn [a_regs a_flags a_pc a_mem]. reflexivity.
  - split; [reflexivity | exact HM].
Qed.
Lemma bub_runs F m : reaches z true (Arm (fun _ => 0) F 0 (mem_init bubble_code g e)) (19 + (32 * 15 + (1 + (passes_time 31 + 5))) + 3 * m) bub_over.
Proof.
  induction m as [ | m IH].
  - rewrite Nat.mul_0_r, Nat.add_0_r. set (ret := arm_r15_word F 20). apply r_seq with (xor_at 48 0 ret); [apply bub_before | ].
    intros s1 H1. apply r_seq with (xor_at 76 32 ret); [exact (bub_xor ret s1 H1) | ]. intros s2 H2. apply r_seq with (outer_at 80 31 (shares g e) ret); [exact (bub_start ret s2 H2) | ].
    intros s3 H3. apply r_seq with (outer_at 132 0 (bpasses 31 (shares g e)) ret); [apply bub_passes; [lia | exact shares_length | exact shares_word | exact H3] | ].
    intros s4 H4. apply (bub_after ret); [ | exact H4]. unfold ret, word_pc, arm_r15_word. destruct F as [[] [] [] []]; reflexivity.
  - eapply r_eq; [ | apply r_seq with bub_over; [exact IH | intros s Hs; exact (bub_stays s Hs)]]. lia.
Qed.
End Bubble.
Lemma passes_time_eq n : (passes_time n = 10 * n * (n + 2))%nat.
Proof. induction n as [ | n IH]; [reflexivity | ]. cbn [passes_time]. rewrite IH. nia. Qed.
Lemma bubble_time m : (Z.to_nat 10736 + 3 * m = 1 + (19 + (32 * 15 + (1 + (passes_time 31 + 5))) + 3 * m))%nat.
Proof.
  rewrite passes_time_eq. generalize (Z2Nat.id 10736 (fun H => ltac:(discriminate H))). generalize (Z.to_nat 10736). lia.
Qed.
Lemma outputs_are M l : length l = 32%nat -> (forall j, (j < 32)%nat -> load_word M (3 * 2 ^ 24 + 4 * Z.of_nat j) = array l j) -> outputs M 32 = l.
Proof. intros L H. rewrite <- (map_nth_seq l), L. apply map_ext_in. intros k Hk. apply in_seq in Hk. apply H. lia. Qed.
Lemma bubble_core z g e t : (forall F m, reaches z true (Arm (fun _ => 0) F 0 (mem_init bubble_code g e)) (t + 3 * m) (bub_over g e)) ->
  forall m n, n = (1 + (t + 3 * m))%nat -> let p := run z n (reset (mem_init bubble_code g e)) in
  terminate p = true /\ outputs (mem p) 32 = bpasses 31 (shares g e).
Proof.
  intros B m n En p. unfold p. rewrite En. clear p En. rewrite run_app. change (run z 1 ?q) with (step z q).
  destruct (reset_ready z (mem_init bubble_code g e) (init_range _ _ _)) as [R I].
  destruct (B _ m _ R (fun _ => I)) as (s & (P & HM) & R' & _).
  split; [exact (ready_terminate _ s R' P) | ]. pose proof R' as (_ & _ & _ & _ & _ & Hm & _).
  assert (Ll : length (bpasses 31 (shares g e)) = 32%nat) by (rewrite <- (shares_length g e); symmetry; apply Permutation_length, bpasses_perm).
  apply (outputs_are _ _ Ll). intros j Hj. rewrite <- (bm_o _ _ _ _ HM j Hj). unfold load_word. now rewrite !Hm.
Qed.
(** The same as a function of the inputs *)
Lemma bubble_result z g e m (p := run z (Z.to_nat 10736 + 3 * m) (reset (mem_init bubble_code g e))) :
  length g = 32%nat -> length e = 32%nat -> Forall is_word g -> Forall is_word e -> 32 <= out_size z -> 64 <= stack_size z ->
  terminate p = true /\ outputs (mem p) 32 = bpasses 31 (shares g e).
Proof. intros Lg Le Wg We Zo Zs. exact (bubble_core z g e _ (bub_runs z g e Lg Le Wg We Zo Zs) m _ (bubble_time m)). Qed.
(** After 10736 cycles, and whenever the processor is back at the branch to itself, the output holds
    the words of which the inputs are shares, in ascending order as signed numbers *)
Theorem bubble_program z g e m (p := run z (Z.to_nat 10736 + 3 * m) (reset (mem_init bubble_code g e))) :
  length g = 32%nat -> length e = 32%nat -> Forall is_word g -> Forall is_word e -> 32 <= out_size z -> 64 <= stack_size z ->
  terminate p = true /\ Permutation (shares g e) (outputs (mem p) 32) /\ in_order (outputs (mem p) 32).
Proof.
  intros Lg Le Wg We Zo Zs. destruct (bubble_result z g e m Lg Le Wg We Zo Zs) as [T E]. fold p in T, E. split; [exact T | ]. rewrite E.
  assert (Sl := shares_length g e). assert (Sp := bubble_sorts (shares g e) ltac:(lia)). rewrite Sl in Sp. exact Sp.
Qed.
(** The test vector of the repository, a23/bubble-sort/test *)
Definition bubble_test : list Z :=
  [0x16; 0x1D; 0x19; 0x1F; 0x1B; 0x1E; 0x1A; 0x13; 0x1C; 0x15; 0x14; 0x18; 0x17; 0x12; 0x11; 0x10;
   0x0F; 0x0E; 0x0C; 0x0B; 0x0A; 0x0D; 0x04; 0x08; 0x02; 0x07; 0x00; 0x01; 0x05; 0x09; 0x06; 0x03].
Lemma bubble_case (p := run (Sizes 64 64 64 64 64) (Z.to_nat 10736) (reset (mem_init bubble_code (repeat 0 32) bubble_test))) :
  terminate p = true /\ outputs (mem p) 32 = map Z.of_nat (seq 0 32).
Proof.
  destruct (bubble_result (Sizes 64 64 64 64 64) (repeat 0 32) bubble_test 0) as [T E];
    [reflexivity | reflexivity | repeat constructor; vm_compute; congruence | repeat constructor; vm_compute; congruence | vm_compute; discriminate | vm_compute; discriminate | ].
  rewrite Nat.mul_0_r, Nat.add_0_r in T, E. split; [exact T | ]. etransitivity; [exact E | ]. vm_compute. reflexivity.
Qed.
(** ldr pc, [r1, #2]! after mov r1, #2: the word at 4 is taken as the next address *)
Lemma load_pc_case : exists s, ready (run small 5 (run small 3 (reset (two_movs [0xe5b1f002])))) s /\ a_regs s 1 = 4 /\ a_pc s = 0x3a02000.
Proof.
  destruct (after_movs [0xe5b1f002]) as (s & R & _ & ->).
  destruct (load_pc_steps small _ _ 0xe5b1f002 R) as [H _]; [vm_compute; reflexivity | | reflexivity | | ].
  - repeat split; try (vm_compute; congruence).
  - split; [vm_compute; discriminate | split; vm_compute; reflexivity].
  - eexists. split; [exact H | ]. split; vm_compute; reflexivity.
Qed.
Lemma fill_case (p := run (Sizes 64 64 64 64 64) 532 (reset (mem_init fill_code [] []))) : terminate p = true /\ nth 63 (outputs (mem p) 64) 0 = 63.
Proof.
  destruct (fill_program (Sizes 64 64 64 64 64) [] [] 0) as [T E]; [vm_compute; discriminate | ]. split; [exact T | ]. change (532 + 3 * 0)%nat with 532%nat in E. fold p in E. rewrite E. reflexivity.
Qed.
