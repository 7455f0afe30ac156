(** The shipped program that counts differing bits, executed by the processor a23. *)
From Coq Require Import ZArith List Bool Lia.
From Verif Require Import RtlA23 RtlA23Units RtlA23Step RtlA23Jump RtlA23Mem RtlA23Mul RtlA23Multi RtlA23Run RtlA23Sum RtlA23Fill RtlA23Matrix.
Import ListNotations.
Open Scope Z_scope.

(** * The program, a23/hamming/p.txt; the words after the first 48 are the array dist *)
Definition ham_words : list Z :=
  [0xe59fd01c; 0xe59f000c; 0xe59f100c; 0xe59f200c; 0xeb000004; 0xeafffffe; 0x01000000; 0x02000000; 0x03000000;
   0x04000100; 0xe92d41f0; 0xe3a03000; 0xe59f5084; 0xe1a04005; 0xe3a07001; 0xe0856183; 0xe3a0e000; 0xe7d08003;
   0xe7d1c003; 0xe02cc008; 0xe00cce17; 0xe1a0ce5c; 0xe7c6c00e; 0xe28ee001; 0xe35e0008; 0x1afffff6; 0xe2833001;
   0xe3530004; 0x1afffff1; 0xe3a05001; 0xe1a0e315; 0xe59f0038; 0xe3a01000; 0xe2800002; 0xe151000e; 0x0a000005;
   0xe550c002; 0xe5506001; 0xe08cc006; 0xe7c1c004; 0xe2811001; 0xeafffff6; 0xe2533001; 0x2afffff1; 0xe5d43000;
   0xe5823000; 0xe8bd81f0; 0x000000c4].
Definition ham_code : list Z := ham_words ++ repeat 0 10.

(** * Specification *)
(** How many of the 32 bits of two words differ *)
Definition distance (a b : Z) : Z :=
  Z.of_nat (length (filter (fun k => xorb (Z.testbit a (Z.of_nat k)) (Z.testbit b (Z.of_nat k))) (seq 0 32))).

(** * Proofs *)
(** ** More rules *)
(** An operation with a register shifted by a register *)
Definition dpr_check (words : list Z) (pc i : Z) : bool :=
  (0 <=? pc) && (pc mod 4 =? 0) && (pc + 4 <=? 4 * Z.of_nat (length words)) && (pc <? 2 ^ 20) && (i =? mem_read (load words) pc) &&
  (bits i 27 26 =? 0) && negb (tb i 25) && tb i 4 && negb (tb i 7) && negb (is_compare (bits i 24 21)) && negb (bits i 15 12 =? 15) && negb (tb i 20).
Lemma s_dpr words z c R F pc M i r n Q : code_at M words -> dpr_check words pc i = true -> first_reg (Arm R F pc M) (bits i 11 8) mod 256 < 32 ->
  dp_regs (Arm R F pc M) i = r -> (forall f, reaches z true (Arm r f (pc + 4) M) n Q) -> reaches z c (Arm R F pc M) (1 + n) Q.
Proof.
  intros HM C Sh E H. subst r. unfold dpr_check in C. repeat (apply andb_prop in C; destruct C as [C ?X]).
  apply Z.leb_le in C. apply Z.eqb_eq in X9. apply Z.leb_le in X8. apply Z.ltb_lt in X7. apply Z.eqb_eq in X6. apply Z.eqb_eq in X5.
  apply negb_true_iff in X4. apply negb_true_iff in X2. apply negb_true_iff in X1. apply negb_true_iff in X0. apply negb_true_iff in X.
  apply (r_dp z c (Arm R F pc M) i n Q); cbn [a_pc a_mem].
  - rewrite (fetch M words pc HM) by lia. exact X6.
  - split; [exact X5 | ]. split; [right; right; exact X2 | ]. split; [intros D; congruence | now apply Z.eqb_neq].
  - unfold shift_supported. rewrite X4, X3. left. exact Sh.
  - lia.
  - intros _ D. congruence.
  - intros f _ _. apply H.
Qed.
Lemma s_ldrb words z c R F pc M i a n Q : code_at M words -> tr_check words pc i && (bits i 31 28 =? 14) && tb i 20 && tb i 22 && negb (write_back i) = true ->
  mem_address (Arm R F pc M) i = a -> a < 5 * 2 ^ 24 ->
  reaches z true (Arm (put R (bits i 15 12) (M a)) F (pc + 4) M) n Q -> reaches z c (Arm R F pc M) (3 + n) Q.
Proof.
  intros HM C A A5 H. apply andb_prop in C. destruct C as [C C4]. apply andb_prop in C. destruct C as [C C3]. apply andb_prop in C. destruct C as [C C2]. apply andb_prop in C. destruct C as [C C1].
  apply Z.eqb_eq in C1. apply negb_true_iff in C4. eapply (s_transfer words); [exact HM | exact C | | | exact H]; [ | exact HM].
  unfold transfer. rewrite holds_al, C2, C4 by exact C1. cbn [a_regs a_flags a_pc a_mem]. unfold loaded. cbv zeta. rewrite A, C3. unfold load_byte. cbn [a_mem].
  now rewrite (proj2 (Z.ltb_lt _ _) A5).
Qed.
Lemma s_strb words z c R F pc M i a n Q : code_at M words -> tr_check words pc i && (bits i 31 28 =? 14) && negb (tb i 20) && tb i 22 && negb (write_back i) = true ->
  mem_address (Arm R F pc M) i = a -> 4 * Z.of_nat (length words) <= a ->
  reaches z true (Arm R F (pc + 4) (store_byte z M a (R (bits i 15 12)))) n Q -> reaches z c (Arm R F pc M) (3 + n) Q.
Proof.
  intros HM C A Ac H. apply andb_prop in C. destruct C as [C C4]. apply andb_prop in C. destruct C as [C C3]. apply andb_prop in C. destruct C as [C C2]. apply andb_prop in C. destruct C as [C C1].
  apply Z.eqb_eq in C1. apply negb_true_iff in C2. apply negb_true_iff in C4. eapply (s_transfer words); [exact HM | exact C | | | exact H].
  - unfold transfer. rewrite holds_al, C2, C4 by exact C1. cbn [a_regs a_flags a_pc a_mem]. unfold stored. now rewrite A, C3.
  - cbn [a_mem]. intros x Hx. unfold store_byte. replace (x =? a) with false by (symmetry; apply Z.eqb_neq; lia). rewrite andb_false_r. now apply HM.
Qed.
(** ** Shifts *)
Lemma shift_one j c : 0 <= j < 32 -> fst (arm_shift 0 1 j c) = 2 ^ j.
Proof.
  intros H. unfold arm_shift. destruct (Z.eqb_spec j 0) as [-> | D]; [reflexivity | ]. cbn [Z.eqb fst]. rewrite Z.mul_1_l. apply Z.mod_small.
  split; [apply Z.pow_nonneg; lia | apply Z.pow_lt_mono_r; lia].
Qed.
Lemma shift_asr v j c : 0 <= v < 2 ^ 31 -> 0 <= j < 32 -> fst (arm_shift 2 v j c) = v / 2 ^ j.
Proof.
  intros Hv H. unfold arm_shift. destruct (Z.eqb_spec j 0) as [-> | D]; [symmetry; apply Z.div_1_r | ]. cbn [Z.eqb Pos.eqb fst].
  unfold s32. rewrite (proj2 (Z.ltb_lt _ _)) by lia. apply Z.mod_small. assert (0 < 2 ^ j) by (apply Z.pow_pos_nonneg; lia). split; [apply Z.div_pos; lia | ].
  apply Z.div_lt_upper_bound; [lia | nia].
Qed.
Lemma land_pow v j : 0 <= j -> Z.land v (2 ^ j) = Z.b2z (Z.testbit v j) * 2 ^ j.
Proof.
  intros Hj. apply Z.bits_inj'. intros k Hk. rewrite Z.land_spec, Z.pow2_bits_eqb by lia. destruct (Z.eqb_spec j k) as [<- | D].
  - rewrite andb_true_r. destruct (Z.testbit v j) eqn:E; cbn [Z.b2z]; [rewrite Z.mul_1_l, Z.pow2_bits_true by lia; reflexivity | symmetry; apply Z.bits_0].
  - rewrite andb_false_r. destruct (Z.testbit v j); cbn [Z.b2z]; [rewrite Z.mul_1_l, Z.pow2_bits_false by lia; reflexivity | symmetry; apply Z.bits_0].
Qed.
Lemma byte_bit a i j : 0 <= i -> 0 <= j < 8 -> Z.testbit ((a / 2 ^ (8 * i)) mod 256) j = Z.testbit a (8 * i + j).
Proof. intros Hi Hj. change 256 with (2 ^ 8). rewrite Z.mod_pow2_bits_low by lia. rewrite Z.div_pow2_bits by lia. f_equal. lia. Qed.
Lemma bit_value x y j : 0 <= j < 8 -> Z.land (Z.lxor x y) (2 ^ j) = Z.b2z (xorb (Z.testbit x j) (Z.testbit y j)) * 2 ^ j.
Proof. intros H. rewrite land_pow by lia. now rewrite Z.lxor_spec. Qed.
(** ** Sums *)
Fixpoint sum (f : nat -> Z) (n : nat) : Z := match n with O => 0 | S n' => sum f n' + f n' end.
Lemma sum_pairs f g n : (forall k, (k < n)%nat -> g k = f (2 * k)%nat + f (2 * k + 1)%nat) -> sum g n = sum f (2 * n).
Proof.
  induction n as [ | n IH]; intros H; [reflexivity | ]. replace (2 * S n)%nat with (S (S (2 * n))) by lia. cbn [sum]. rewrite IH by (intros k Hk; apply H; lia). rewrite (H n) by lia.
  replace (S (2 * n)) with (2 * n + 1)%nat by lia. lia.
Qed.
Lemma sum_count b n : sum (fun k => Z.b2z (b k)) n = Z.of_nat (length (filter b (seq 0 n))).
Proof.
  induction n as [ | n IH]; [reflexivity | ]. cbn [sum]. rewrite seq_S, filter_app, app_length. cbn [filter]. rewrite IH. cbn [Nat.add]. destruct (b n); cbn [Z.b2z length]; lia.
Qed.
(** The array after t steps of a level *)
Definition level (t : nat) (f : nat -> Z) : nat -> Z := fun k => if Nat.ltb k t then (f (2 * k)%nat + f (2 * k + 1)%nat) mod 256 else f k.
Fixpoint levels (j : nat) (f : nat -> Z) : nat -> Z := match j with O => f | S j' => levels j' (level (2 ^ j') f) end.
Lemma levels_sum j f b : (forall k, (k < 2 ^ j)%nat -> 0 <= f k <= b) -> b * 2 ^ Z.of_nat j < 256 -> levels j f 0%nat = sum f (2 ^ j).
Proof.
  revert f b. induction j as [ | j IH]; intros f b H B; [reflexivity | ]. cbn [levels].
  rewrite Nat2Z.inj_succ, Z.pow_succ_r in B by lia. assert (P : 1 <= 2 ^ Z.of_nat j) by (pose proof (Z.pow_pos_nonneg 2 (Z.of_nat j)); lia).
  assert (K : forall k, (k < 2 ^ j)%nat -> 0 <= f (2 * k)%nat <= b /\ 0 <= f (2 * k + 1)%nat <= b).
  { intros k Hk. split; apply H; cbn [Nat.pow]; lia. }
  assert (E : forall k, (k < 2 ^ j)%nat -> level (2 ^ j) f k = f (2 * k)%nat + f (2 * k + 1)%nat).
  { intros k Hk. unfold level. rewrite (proj2 (Nat.ltb_lt _ _)) by lia. destruct (K k Hk) as [K1 K2]. apply Z.mod_small. nia. }
  rewrite (IH _ (2 * b)); [ | | lia].
  - rewrite (sum_pairs f) by exact E. reflexivity.
  - intros k Hk. rewrite E by exact Hk. destruct (K k Hk). lia.
Qed.
Lemma far x k : (k < 32)%nat -> 2 ^ 24 <= x -> (x =? 196 + Z.of_nat k) = false.
Proof. intros. apply Z.eqb_neq. lia. Qed.
Lemma above x y : 4 * 2 ^ 24 <= x -> y < 3 * 2 ^ 24 -> (x - 0 <=? y) = false.
Proof. intros. apply Z.leb_gt. lia. Qed.
Section Hamming.
Variables (z : sizes) (a b : Z).
Hypothesis Zc : 57 <= code_size z.
Hypothesis Zo : 1 <= out_size z.
Hypothesis Zs : 64 <= stack_size z.
(** ** The memory *)
Record ham_mem (n : nat) (f : nat -> Z) (ret : Z) (M : memory) : Prop := {
  hm_code : code_at M ham_words;
  hm_d : forall k, (k < n)%nat -> M (196 + Z.of_nat k) = f k;
  hm_s : load_word M (4 * 2 ^ 24 + 4 * 63) = ret }.
Definition ham_in (M : memory) : Prop := forall i, (i < 4)%nat ->
  M (1 * 2 ^ 24 + Z.of_nat i) = (a / 2 ^ (8 * Z.of_nat i)) mod 256 /\ M (2 * 2 ^ 24 + Z.of_nat i) = (b / 2 ^ (8 * Z.of_nat i)) mod 256.
Lemma dist_writable k : (k < 32)%nat -> writable z (196 + Z.of_nat k) = true.
Proof. intros H. unfold writable. rewrite (Z.div_small (196 + Z.of_nat k)) by lia. cbn [Z.eqb]. rewrite Z.mod_small by lia. apply Z.ltb_lt. lia. Qed.
Lemma ham_store n f n' f' ret M k v : (k < 32)%nat -> ham_mem n f ret M -> (forall j, (j < n')%nat -> j <> k -> (j < n)%nat /\ f' j = f j) -> ((k < n')%nat -> f' k = v mod 256) ->
  ham_mem n' f' ret (store_byte z M (196 + Z.of_nat k) v).
Proof.
  intros Hk [H1 H2 H3] H4 H5. constructor.
  - intros x Hx. unfold store_byte. change (length ham_words) with 48%nat in Hx. replace (x =? _) with false by (symmetry; apply Z.eqb_neq; lia). rewrite andb_false_r. apply H1. exact Hx.
  - intros j Hj. unfold store_byte. rewrite dist_writable by exact Hk. cbn [andb]. destruct (Nat.eq_dec j k) as [-> | D].
    + rewrite Z.eqb_refl. symmetry. now apply H5.
    + replace (_ =? _) with false by (symmetry; apply Z.eqb_neq; lia). destruct (H4 j Hj D) as [A ->]. now apply H2.
  - rewrite <- H3. unfold load_word, store_byte. cbv zeta. change ((4 * 2 ^ 24 + 4 * 63) mod 4) with 0.
    rewrite !far by lia. now rewrite !andb_false_r.
Qed.
Lemma ham_in_store M k v : (k < 32)%nat -> ham_in M -> ham_in (store_byte z M (196 + Z.of_nat k) v).
Proof.
  intros Hk H i Hi. unfold store_byte. rewrite !far by lia. rewrite !andb_false_r. now apply H.
Qed.
(** ** The bits *)
Definition bit (k : nat) : Z := Z.b2z (xorb (Z.testbit a (Z.of_nat k)) (Z.testbit b (Z.of_nat k))).
Definition spread_regs (i : nat) (R : Z -> Z) : Prop :=
  R 0 = 1 * 2 ^ 24 /\ R 1 = 2 * 2 ^ 24 /\ R 2 = 3 * 2 ^ 24 /\ R 3 = Z.of_nat i /\ R 4 = 196 /\ R 5 = 196 /\ R 7 = 1 /\ R 13 = 4 * 2 ^ 24 + 4 * 58.
Definition bit_at (pc : Z) (i j : nat) (ret : Z) (s : arm) : Prop :=
  exists R F M, s = Arm R F pc M /\ ham_mem (8 * i + j) bit ret M /\ ham_in M /\ spread_regs i R /\ R 6 = 196 + 8 * Z.of_nat i /\ R 14 = Z.of_nat j.
Lemma bit_body i j ret : (i < 4)%nat -> (j < 8)%nat -> forall s, bit_at 68 i j ret s -> reaches z true s 17 (bit_at (if Nat.eqb (S j) 8 then 104 else 68) i (S j) ret).
Proof.
  intros Hi Hj s (R & F & M & -> & HM & HI & (R0 & R1 & R2 & R3 & R4 & R5 & R7 & R13) & R6 & R14). assert (Hc := hm_code _ _ _ _ HM). destruct (HI i Hi) as [Ia Ib].
  (* ldrb r8, [r0, r3] *)
  eapply (s_ldrb ham_words _ _ _ _ _ _ 0xe7d08003 (1 * 2 ^ 24 + Z.of_nat i)); [exact Hc | vm_compute; reflexivity | a23_address; rewrite R0, R3, Z.mod_small; [reflexivity | lia] | lia | ].
  rewrite Ia. a23_fields. change (68 + 4) with 72.
  (* ldrb r12, [r1, r3] *)
  eapply (s_ldrb ham_words _ _ _ _ _ _ 0xe7d1c003 (2 * 2 ^ 24 + Z.of_nat i)); [exact Hc | vm_compute; reflexivity | a23_address; regs; rewrite R1, R3, Z.mod_small; [reflexivity | lia] | lia | ].
  rewrite Ib. a23_fields. change (72 + 4) with 76.
  (* eor r12, r12, r8 *)
  eapply (s_dp ham_words _ _ _ _ _ _ 0xe02cc008); [exact Hc | vm_compute; reflexivity | a23_dp; reflexivity | ]. intros f1 _ _. change (76 + 4) with 80.
  match goal with |- reaches _ _ (Arm ?r _ _ _) _ _ => set (T := r) end.
  set (x := (a / 2 ^ (8 * Z.of_nat i)) mod 256) in *. set (y := (b / 2 ^ (8 * Z.of_nat i)) mod 256) in *.
  assert (Q : spread_regs i T /\ T 6 = 196 + 8 * Z.of_nat i /\ T 14 = Z.of_nat j /\ T 12 = Z.lxor y x).
  { unfold T, spread_regs. regs. repeat split; try assumption. }
  clearbody T. clear R0 R1 R2 R3 R4 R5 R7 R13 R6 R14. clear R. rename T into R. destruct Q as ((R0 & R1 & R2 & R3 & R4 & R5 & R7 & R13) & R6 & R14 & R12).
  assert (Js : Z.of_nat j mod 256 = Z.of_nat j) by (apply Z.mod_small; lia).
  assert (Bx : Z.land (Z.lxor y x) (2 ^ Z.of_nat j) = bit (8 * i + j) * 2 ^ Z.of_nat j).
  { rewrite bit_value by lia. unfold bit, x, y. rewrite !byte_bit by lia. rewrite xorb_comm. do 3 f_equal; f_equal; lia. }
  assert (Bb : 0 <= bit (8 * i + j) <= 1) by (unfold bit; destruct (xorb _ _); cbn [Z.b2z]; lia).
  assert (Pj : 0 < 2 ^ Z.of_nat j < 2 ^ 31) by (split; [apply Z.pow_pos_nonneg; lia | apply Z.pow_lt_mono_r; lia]).
  (* and r12, r12, r7, lsl lr *)
  eapply (s_dpr ham_words _ _ _ _ _ _ 0xe00cce17); [exact Hc | vm_compute; reflexivity | | | ].
  { unfold first_reg. a23_fields. cbn [Z.eqb Pos.eqb a_regs]. rewrite R14, Js. lia. }
  { a23_dp. rewrite R7, R14, R12, Js, shift_one, Bx by lia. reflexivity. }
  intros f2. change (80 + 4) with 84.
  (* mov r12, r12, asr lr *)
  eapply (s_dpr ham_words _ _ _ _ _ _ 0xe1a0ce5c); [exact Hc | vm_compute; reflexivity | | | ].
  { unfold first_reg. a23_fields. cbn [Z.eqb Pos.eqb a_regs]. regs. rewrite R14, Js. lia. }
  { a23_dp. regs. rewrite R14, Js, shift_asr, Z.div_mul by nia. reflexivity. }
  intros f3. change (84 + 4) with 88.
  (* strb r12, [r6, lr] *)
  eapply (s_strb ham_words _ _ _ _ _ _ 0xe7c6c00e (196 + Z.of_nat (8 * i + j))); [exact Hc | vm_compute; reflexivity | a23_address; regs; rewrite R6, R14 | change (length ham_words) with 48%nat; lia | ].
  { rewrite Z.mod_small; lia. }
  a23_fields. change (88 + 4) with 92. regs.
  assert (HN : ham_mem (8 * i + S j) bit ret (store_byte z M (196 + Z.of_nat (8 * i + j)) (bit (8 * i + j)))).
  { eapply ham_store; [lia | exact HM | intros q Hq D; split; [lia | reflexivity] | intros _; symmetry; apply Z.mod_small; lia]. }
  assert (HJ := ham_in_store M (8 * i + j) (bit (8 * i + j)) ltac:(lia) HI).
  set (N := store_byte z M (196 + Z.of_nat (8 * i + j)) (bit (8 * i + j))) in *. clearbody N. clear Hc HM HI Ia Ib M. assert (Hc := hm_code _ _ _ _ HN).
  match goal with |- reaches _ _ (Arm ?r _ _ _) _ _ => set (T := r) end.
  assert (Q : spread_regs i T /\ T 6 = 196 + 8 * Z.of_nat i /\ T 14 = Z.of_nat j).
  { unfold T, spread_regs. regs. repeat split; try assumption. }
  clearbody T. clear R0 R1 R2 R3 R4 R5 R7 R13 R6 R14 R12. clear R. rename T into R. destruct Q as ((R0 & R1 & R2 & R3 & R4 & R5 & R7 & R13) & R6 & R14).
  (* add lr, lr, #1 *)
  eapply (s_dp ham_words _ _ _ _ _ _ 0xe28ee001); [exact Hc | vm_compute; reflexivity | a23_dp; reflexivity | ]. intros f4 _ _. change (92 + 4) with 96.
  rewrite R14, Z.mod_small by lia.
  (* cmp lr, #8 *)
  eapply (s_dp ham_words _ _ _ _ _ _ 0xe35e0008); [exact Hc | vm_compute; reflexivity | a23_dp; reflexivity | ]. intros f5 _ Hf. change (96 + 4) with 100.
  specialize (Hf eq_refl). assert (E2 : fZ f5 = Nat.eqb (S j) 8).
  { rewrite Hf. a23_dp. regs. apply Bool.eq_true_iff_eq. rewrite Z.eqb_eq, Nat.eqb_eq. split; intros H.
    - apply Z.mod_divide in H; [ | lia]. destruct H as (m & H). nia.
    - replace (Z.of_nat j) with 7 by lia. reflexivity. }
  clear Hf.
  (* bne 68 *)
  eapply (s_branch ham_words _ _ _ _ _ _ 0x1afffff6); [exact Hc | vm_compute; reflexivity | | apply r_done].
  { unfold branch, branch_target, holds. a23_fields. rewrite cond_ne. cbn [a_flags]. rewrite E2. cbn [a_regs a_pc a_mem a_flags]. reflexivity. }
  eexists _, _, N. split; [ | split; [exact HN | split; [exact HJ | ]]].
  - destruct (Nat.eqb (S j) 8); reflexivity.
  - unfold spread_regs. regs. repeat split; first [assumption | lia].
Qed.
Definition byte_at (pc : Z) (i : nat) (ret : Z) (s : arm) : Prop :=
  exists R F M, s = Arm R F pc M /\ ham_mem (8 * i) bit ret M /\ ham_in M /\ spread_regs i R.
Lemma byte_body i ret : (i < 4)%nat -> forall s, byte_at 60 i ret s -> reaches z true s 143 (byte_at (if Nat.eqb (S i) 4 then 116 else 60) (S i) ret).
Proof.
  intros Hi s H. apply r_eq with (2 + (7 * 17 + (17 + 5)))%nat; [reflexivity | ].
  apply r_seq with (bit_at 68 i 0 ret).
  { destruct H as (R & F & M & -> & HM & HI & (R0 & R1 & R2 & R3 & R4 & R5 & R7 & R13)). assert (Hc := hm_code _ _ _ _ HM).
    (* add r6, r5, r3, lsl #3 *)
    eapply (s_dp ham_words _ _ _ _ _ _ 0xe0856183); [exact Hc | vm_compute; reflexivity | a23_dp; reflexivity | ]. intros f1 _ _. change (60 + 4) with 64.
    (* mov lr, #0 *)
    eapply (s_dp ham_words _ _ _ _ _ _ 0xe3a0e000); [exact Hc | vm_compute; reflexivity | a23_dp; reflexivity | ]. intros f2 _ _. change (64 + 4) with 68.
    apply r_done. eexists _, _, M. split; [reflexivity | ]. replace (8 * i + 0)%nat with (8 * i)%nat by lia. split; [exact HM | ]. split; [exact HI | ].
    split; [unfold spread_regs; regs; repeat split; assumption | ]. split; [ | reflexivity]. regs. rewrite R5, R3. unfold arm_shift. cbn [Z.eqb Pos.eqb fst]. change (2 ^ 3) with 8.
    rewrite (Z.mod_small (Z.of_nat i * 8)) by lia. rewrite Z.mod_small; lia. }
  clear s H. intros s H. apply r_seq with (bit_at 68 i 7 ret).
  { assert (A : forall j, (j < 8)%nat -> reaches z true s (j * 17) (bit_at 68 i j ret)).
    { intros j. induction j as [ | j IH]; intros Hj; [now apply r_done | ]. apply r_eq with (j * 17 + 17)%nat; [lia | ].
      apply r_seq with (bit_at 68 i j ret); [apply IH; lia | ]. intros s' Hs. pose proof (bit_body i j ret Hi ltac:(lia) s' Hs) as L.
      replace (Nat.eqb (S j) 8) with false in L by (symmetry; apply Nat.eqb_neq; lia). exact L. }
    apply A. lia. }
  clear s H. intros s H. apply r_seq with (bit_at 104 i 8 ret); [exact (bit_body i 7 ret Hi ltac:(lia) s H) | ].
  clear s H. intros s (R & F & M & -> & HM & HI & (R0 & R1 & R2 & R3 & R4 & R5 & R7 & R13) & R6 & R14). assert (Hc := hm_code _ _ _ _ HM).
  (* add r3, r3, #1 *)
  eapply (s_dp ham_words _ _ _ _ _ _ 0xe2833001); [exact Hc | vm_compute; reflexivity | a23_dp; reflexivity | ]. intros f1 _ _. change (104 + 4) with 108.
  rewrite R3, Z.mod_small by lia.
  (* cmp r3, #4 *)
  eapply (s_dp ham_words _ _ _ _ _ _ 0xe3530004); [exact Hc | vm_compute; reflexivity | a23_dp; reflexivity | ]. intros f2 _ Hf. change (108 + 4) with 112.
  specialize (Hf eq_refl). assert (E2 : fZ f2 = Nat.eqb (S i) 4).
  { rewrite Hf. a23_dp. regs. apply Bool.eq_true_iff_eq. rewrite Z.eqb_eq, Nat.eqb_eq. split; intros H.
    - apply Z.mod_divide in H; [ | lia]. destruct H as (m & H). nia.
    - replace (Z.of_nat i) with 3 by lia. reflexivity. }
  clear Hf.
  (* bne 60 *)
  eapply (s_branch ham_words _ _ _ _ _ _ 0x1afffff1); [exact Hc | vm_compute; reflexivity | | apply r_done].
  { unfold branch, branch_target, holds. a23_fields. rewrite cond_ne. cbn [a_flags]. rewrite E2. cbn [a_regs a_pc a_mem a_flags]. reflexivity. }
  eexists _, _, M. replace (8 * S i)%nat with (8 * i + 8)%nat by lia. split; [ | split; [exact HM | split; [exact HI | ]]].
  - destruct (Nat.eqb (S i) 4); reflexivity.
  - unfold spread_regs. regs. repeat split; first [assumption | lia].
Qed.
(** ** The levels *)
Definition tree_regs (j : Z) (R : Z -> Z) : Prop := R 2 = 3 * 2 ^ 24 /\ R 3 = j /\ R 4 = 196 /\ R 5 = 1 /\ R 13 = 4 * 2 ^ 24 + 4 * 58.
Definition pair_at (pc : Z) (j i : nat) (f : nat -> Z) (ret : Z) (s : arm) : Prop :=
  exists R F M, s = Arm R F pc M /\ ham_mem 32 f ret M /\ tree_regs (Z.of_nat j) R /\ R 0 = 196 + 2 * Z.of_nat i /\ R 1 = Z.of_nat i /\ R 14 = 2 ^ Z.of_nat j.
Definition found_at (pc : Z) (j i : nat) (f : nat -> Z) (ret : Z) (s : arm) : Prop :=
  exists R F M, s = Arm R F pc M /\ ham_mem 32 f ret M /\ tree_regs (Z.of_nat j) R /\ R 0 = 198 + 2 * Z.of_nat i /\ R 1 = Z.of_nat i /\ R 14 = 2 ^ Z.of_nat j.
Lemma small_pow j : (j < 5)%nat -> 1 <= 2 ^ Z.of_nat j <= 16.
Proof. intros H. change 1 with (2 ^ 0) at 1. change 16 with (2 ^ 4). split; apply Z.pow_le_mono_r; lia. Qed.
Lemma pair_test j i f ret : (j < 5)%nat -> (i <= 16)%nat -> forall s, pair_at 132 j i f ret s ->
  reaches z true s 5 (found_at (if Z.of_nat i =? 2 ^ Z.of_nat j then 168 else 144) j i f ret).
Proof.
  intros Hj Hi s (R & F & M & -> & HM & HR & R0 & R1 & R14). assert (Hc := hm_code _ _ _ _ HM). pose proof (small_pow j Hj) as Pj. destruct HR as (R2 & R3 & R4 & R5 & R13).
  (* add r0, r0, #2 *)
  eapply (s_dp ham_words _ _ _ _ _ _ 0xe2800002); [exact Hc | vm_compute; reflexivity | a23_dp; reflexivity | ]. intros f1 _ _. change (132 + 4) with 136.
  rewrite R0, Z.mod_small by lia.
  (* cmp r1, lr *)
  eapply (s_dp ham_words _ _ _ _ _ _ 0xe151000e); [exact Hc | vm_compute; reflexivity | a23_dp; reflexivity | ]. intros f2 _ Hf. change (136 + 4) with 140.
  specialize (Hf eq_refl). assert (E : fZ f2 = (Z.of_nat i =? 2 ^ Z.of_nat j)).
  { rewrite Hf. a23_dp. regs. rewrite R1, R14. cbn [arm_shift Z.eqb fst]. apply Bool.eq_true_iff_eq. rewrite !Z.eqb_eq. split; intros H.
    - apply Z.mod_divide in H; [ | lia]. destruct H as (m & H). nia.
    - rewrite H, Z.sub_diag. reflexivity. }
  clear Hf.
  (* beq 168 *)
  eapply (s_branch ham_words _ _ _ _ _ _ 0x0a000005); [exact Hc | vm_compute; reflexivity | | apply r_done].
  { unfold branch, branch_target, holds. a23_fields. rewrite cond_eq. cbn [a_flags]. rewrite E. cbn [a_regs a_pc a_mem a_flags]. reflexivity. }
  eexists _, _, M. split; [ | split; [exact HM | ]].
  - destruct (_ =? _); reflexivity.
  - unfold tree_regs. regs. repeat split; first [assumption | lia].
Qed.
Lemma pair_body j i f ret : (j < 5)%nat -> (i < 16)%nat -> (forall k, (k < 32)%nat -> 0 <= f k < 256) -> forall s, found_at 144 j i f ret s ->
  reaches z true s 14 (pair_at 132 j (S i) (fun k => if Nat.eqb k i then (f (2 * i)%nat + f (2 * i + 1)%nat) mod 256 else f k) ret).
Proof.
  intros Hj Hi Hf s (R & F & M & -> & HM & (R2 & R3 & R4 & R5 & R13) & R0 & R1 & R14). assert (Hc := hm_code _ _ _ _ HM). pose proof (small_pow j Hj) as Pj.
  assert (B1 := Hf (2 * i)%nat ltac:(lia)). assert (B2 := Hf (2 * i + 1)%nat ltac:(lia)).
  (* ldrb r12, [r0, #-2] *)
  eapply (s_ldrb ham_words _ _ _ _ _ _ 0xe550c002 (196 + Z.of_nat (2 * i))); [exact Hc | vm_compute; reflexivity | a23_address; rewrite R0, Z.mod_small; lia | lia | ].
  rewrite (hm_d _ _ _ _ HM) by lia. a23_fields. change (144 + 4) with 148.
  (* ldrb r6, [r0, #-1] *)
  eapply (s_ldrb ham_words _ _ _ _ _ _ 0xe5506001 (196 + Z.of_nat (2 * i + 1))); [exact Hc | vm_compute; reflexivity | a23_address; regs; rewrite R0, Z.mod_small; lia | lia | ].
  rewrite (hm_d _ _ _ _ HM) by lia. a23_fields. change (148 + 4) with 152.
  (* add r12, r12, r6 *)
  eapply (s_dp ham_words _ _ _ _ _ _ 0xe08cc006); [exact Hc | vm_compute; reflexivity | a23_dp; regs; cbn [arm_shift Z.eqb fst]; rewrite Z.mod_small by lia; reflexivity | ]. intros f1 _ _. change (152 + 4) with 156.
  (* strb r12, [r1, r4] *)
  eapply (s_strb ham_words _ _ _ _ _ _ 0xe7c1c004 (196 + Z.of_nat i)); [exact Hc | vm_compute; reflexivity | a23_address; regs; rewrite R1, R4; cbn [arm_shift Z.eqb fst]; rewrite Z.mod_small; lia | change (length ham_words) with 48%nat; lia | ].
  a23_fields. change (156 + 4) with 160. regs.
  match goal with |- reaches _ _ (Arm _ _ _ ?m) _ _ => set (N := m) end.
  match goal with |- reaches _ _ _ _ (pair_at _ _ _ ?q _) => set (f' := q) end.
  assert (HN : ham_mem 32 f' ret N).
  { unfold N, f'. eapply ham_store; [lia | exact HM | | ].
    - intros k Hk D. split; [exact Hk | ]. now rewrite (proj2 (Nat.eqb_neq _ _) D).
    - intros _. now rewrite Nat.eqb_refl. }
  clearbody N f'. clear Hc HM M. assert (Hc := hm_code _ _ _ _ HN).
  (* add r1, r1, #1 *)
  eapply (s_dp ham_words _ _ _ _ _ _ 0xe2811001); [exact Hc | vm_compute; reflexivity | a23_dp; reflexivity | ]. intros f2 _ _. change (160 + 4) with 164.
  (* b 132 *)
  eapply (s_branch ham_words _ _ _ _ _ _ 0xeafffff6); [exact Hc | vm_compute; reflexivity | unfold branch, branch_target; rewrite holds_al by reflexivity; a23_fields; cbv iota; cbn [a_regs a_flags a_pc a_mem]; reflexivity | apply r_done].
  eexists _, _, N. split; [reflexivity | ]. split; [exact HN | ]. unfold tree_regs. regs. rewrite R1, Z.mod_small by lia. repeat split; first [assumption | lia].
Qed.
Lemma ham_ext n f f' ret M : (forall k, (k < n)%nat -> f k = f' k) -> ham_mem n f ret M -> ham_mem n f' ret M.
Proof. intros H [H1 H2 H3]. constructor; [exact H1 | intros k Hk; rewrite <- H by exact Hk; now apply H2 | exact H3]. Qed.
Lemma level_step i f k : (if Nat.eqb k i then (level i f (2 * i) + level i f (2 * i + 1)) mod 256 else level i f k) = level (S i) f k.
Proof.
  unfold level. rewrite (proj2 (Nat.ltb_ge (2 * i) i)), (proj2 (Nat.ltb_ge (2 * i + 1) i)) by lia. destruct (Nat.eqb_spec k i) as [-> | D].
  - now rewrite (proj2 (Nat.ltb_lt i (S i))) by lia.
  - destruct (Nat.ltb_spec k i), (Nat.ltb_spec k (S i)); try lia; reflexivity.
Qed.
Lemma level_range i f : (forall k, (k < 32)%nat -> 0 <= f k < 256) -> forall k, (k < 32)%nat -> 0 <= level i f k < 256.
Proof. intros H k Hk. unfold level. destruct (Nat.ltb k i); [apply Z.mod_pos_bound; lia | now apply H]. Qed.
Definition tree_at (pc : Z) (j : Z) (f : nat -> Z) (ret : Z) (s : arm) : Prop :=
  exists R F M, s = Arm R F pc M /\ ham_mem 32 f ret M /\ tree_regs j R.
Lemma pow_nat j : 2 ^ Z.of_nat j = Z.of_nat (2 ^ j).
Proof. now rewrite Nat2Z.inj_pow. Qed.
Lemma level_body j f ret : (j < 5)%nat -> (forall k, (k < 32)%nat -> 0 <= f k < 256) -> forall s, tree_at 120 (Z.of_nat j) f ret s ->
  reaches z true s (14 + 19 * 2 ^ j) (tree_at (if Nat.eqb j 0 then 176 else 120) ((Z.of_nat j - 1) mod 2 ^ 32) (level (2 ^ j) f) ret).
Proof.
  intros Hj Hf s H. pose proof (small_pow j Hj) as Pj. rewrite pow_nat in Pj. apply r_eq with (5 + (19 * 2 ^ j + (5 + 4)))%nat; [lia | ].
  apply r_seq with (pair_at 132 j 0 f ret).
  { destruct H as (R & F & M & -> & HM & (R2 & R3 & R4 & R5 & R13)). assert (Hc := hm_code _ _ _ _ HM). assert (Js : Z.of_nat j mod 256 = Z.of_nat j) by (apply Z.mod_small; lia).
    (* mov lr, r5, lsl r3 *)
    eapply (s_dpr ham_words _ _ _ _ _ _ 0xe1a0e315); [exact Hc | vm_compute; reflexivity | | | ].
    { unfold first_reg. a23_fields. cbn [Z.eqb Pos.eqb a_regs]. rewrite R3, Js. lia. }
    { a23_dp. rewrite R5, R3, Js, shift_one by lia. reflexivity. }
    intros f1. change (120 + 4) with 124.
    (* ldr r0, [pc, #56] *)
    eapply (s_ldr ham_words _ _ _ _ _ _ 0xe59f0038 188); [exact Hc | vm_compute; reflexivity | a23_address; reflexivity | reflexivity | ].
    a23_fields. cbv iota. rewrite (code_word M ham_words 188 Hc) by reflexivity. replace (mem_read (load ham_words) 188) with 196 by (vm_compute; reflexivity). change (124 + 4) with 128.
    (* mov r1, #0 *)
    eapply (s_dp ham_words _ _ _ _ _ _ 0xe3a01000); [exact Hc | vm_compute; reflexivity | a23_dp; reflexivity | ]. intros f2 _ _. change (128 + 4) with 132.
    apply r_done. eexists _, _, M. split; [reflexivity | ]. split; [exact HM | ]. unfold tree_regs. regs. repeat split; assumption. }
  clear s H. intros s H. apply r_seq with (pair_at 132 j (2 ^ j) (level (2 ^ j) f) ret).
  { assert (A : forall i, (i <= 2 ^ j)%nat -> reaches z true s (19 * i) (pair_at 132 j i (level i f) ret)).
    { intros i. induction i as [ | i IH]; intros Hi.
      - apply r_done. exact H.
      - apply r_eq with (19 * i + (5 + 14))%nat; [lia | ]. apply r_seq with (pair_at 132 j i (level i f) ret); [apply IH; lia | ]. intros s1 H1.
        apply r_seq with (found_at 144 j i (level i f) ret).
        { pose proof (pair_test j i (level i f) ret Hj ltac:(lia) s1 H1) as T. rewrite pow_nat in T. replace (Z.of_nat i =? _) with false in T by (symmetry; apply Z.eqb_neq; lia). exact T. }
        intros s2 H2. pose proof (pair_body j i (level i f) ret Hj ltac:(lia) (level_range i f Hf) s2 H2) as T.
        intros p Rp Ip. destruct (T p Rp Ip) as (s3 & (R & F & M & E & HM & HR) & X). exists s3. split; [ | exact X]. exists R, F, M. split; [exact E | ]. split; [ | exact HR].
        eapply ham_ext; [ | exact HM]. intros k _. apply level_step. }
    apply A. lia. }
  clear s H. intros s H. set (g := level (2 ^ j) f) in *. clearbody g. apply r_seq with (found_at 168 j (2 ^ j) g ret).
  { pose proof (pair_test j (2 ^ j) g ret Hj ltac:(lia) s H) as T. rewrite pow_nat, Z.eqb_refl in T. exact T. }
  clear s H. intros s (R & F & M & -> & HM & (R2 & R3 & R4 & R5 & R13) & _). assert (Hc := hm_code _ _ _ _ HM).
  (* subs r3, r3, #1 *)
  eapply (s_dp ham_words _ _ _ _ _ _ 0xe2533001); [exact Hc | vm_compute; reflexivity | a23_dp; reflexivity | ]. intros f1 _ Hg. change (168 + 4) with 172.
  specialize (Hg eq_refl). assert (E : fC f1 = negb (Nat.eqb j 0)).
  { rewrite Hg. a23_dp. rewrite R3. apply Bool.eq_true_iff_eq. rewrite Z.leb_le, negb_true_iff, Nat.eqb_neq. lia. }
  clear Hg. rewrite R3.
  (* bcs 120 *)
  eapply (s_branch ham_words _ _ _ _ _ _ 0x2afffff1); [exact Hc | vm_compute; reflexivity | | apply r_done].
  { unfold branch, branch_target, holds. a23_fields. rewrite cond_hs. cbn [a_flags]. rewrite E. cbn [a_regs a_pc a_mem a_flags]. reflexivity. }
  eexists _, _, M. split; [ | split; [exact HM | ]].
  - destruct (Nat.eqb j 0); reflexivity.
  - unfold tree_regs. regs. repeat split; assumption.
Qed.
Fixpoint levels_time (j : nat) : nat := match j with O => O | S j' => (14 + 19 * 2 ^ j' + levels_time j')%nat end.
Lemma tree_body j f ret : (j < 5)%nat -> (forall k, (k < 32)%nat -> 0 <= f k < 256) -> forall s, tree_at 120 (Z.of_nat j) f ret s ->
  reaches z true s (levels_time (S j)) (fun s => exists r, tree_at 176 r (levels (S j) f) ret s).
Proof.
  revert f. induction j as [ | j IH]; intros f Hj Hf s H.
  - pose proof (level_body 0 f ret Hj Hf s H) as T. intros p Rp Ip. destruct (T p Rp Ip) as (s' & Q & X). exists s'. split; [eexists; exact Q | exact X].
  - change (levels_time (S (S j))) with (14 + 19 * 2 ^ S j + levels_time (S j))%nat. apply r_seq with (tree_at 120 (Z.of_nat j) (level (2 ^ S j) f) ret).
    + pose proof (level_body (S j) f ret Hj Hf s H) as T. replace ((Z.of_nat (S j) - 1) mod 2 ^ 32) with (Z.of_nat j) in T by (rewrite Z.mod_small; lia). exact T.
    + intros s' Hs. exact (IH (level (2 ^ S j) f) ltac:(lia) (level_range _ f Hf) s' Hs).
Qed.
(** ** Before and after *)
Lemma ham_init_code g e : code_at (mem_init ham_code g e) ham_words.
Proof.
  intros x Hx. change (length ham_words) with 48%nat in Hx. rewrite (init_code ham_code g e) by (first [vm_compute; discriminate | change (length ham_code) with 58%nat; lia]).
  unfold load, ham_code. rewrite app_nth1; [reflexivity | ]. change (length ham_words) with 48%nat. assert (0 <= x / 4 < 48) by (split; [apply Z.div_pos; lia | apply Z.div_lt_upper_bound; lia]). lia.
Qed.
Lemma ham_init_in : ham_in (mem_init ham_code [a] [b]).
Proof.
  intros i Hi. assert (B : forall w, bits w (8 * Z.of_nat i + 7) (8 * Z.of_nat i) = (w / 2 ^ (8 * Z.of_nat i)) mod 256) by (intros w; apply pair_shift; lia).
  rewrite <- !B. destruct i as [ | [ | [ | [ | i]]]]; [split; reflexivity | split; reflexivity | split; reflexivity | split; reflexivity | lia].
Qed.
Lemma ham_in_word M x v : aligned x -> 4 * 2 ^ 24 <= x -> ham_in M -> ham_in (store_word z M x v).
Proof.
  intros A Hx H i Hi. unfold store_word. rewrite A. cbv zeta. rewrite !above by lia. rewrite !andb_false_r. cbn [andb]. now apply H.
Qed.
Lemma ham_before F : reaches z true (Arm (fun _ => 0) F 0 (mem_init ham_code [a] [b])) 29 (byte_at 60 0 (arm_r15_word F 20)).
Proof.
  assert (A : forall r k, (r * 2 ^ 24 + 4 * k) mod 4 = 0) by exact aligned_4.
  assert (Hc := ham_init_code [a] [b]). assert (HI := ham_init_in).
  set (M := mem_init ham_code [a] [b]) in *. clearbody M. a23_prologue ham_words Hc M.
  (* bl 40 *)
  eapply (s_branch ham_words _ _ _ _ _ _ 0xeb000004); [exact Hc | vm_compute; reflexivity | unfold branch, branch_target; rewrite holds_al by reflexivity; a23_fields; cbv iota; cbn [a_regs a_flags a_pc a_mem]; reflexivity | ].
  change (16 + 8 + 16) with 40. change (16 + 4) with 20.
  (* push {r4, r5, r6, r7, r8, lr} *)
  eapply (s_multi ham_words _ _ _ _ _ _ 0xe92d41f0) with (n := 6%nat); [exact Hc | vm_compute; reflexivity | | | | | ].
  { split; [reflexivity | ]. split; [reflexivity | ]. split; [vm_compute; discriminate | ]. split; [vm_compute; discriminate | ]. vm_compute. split; [reflexivity | reflexivity]. }
  { unfold multi, multi_start, multi_base. rewrite holds_al by reflexivity. a23_fields. cbn [length store_regs]. a23_fields. cbv iota zeta. unfold first_reg. cbn [a_regs a_flags a_pc a_mem Z.eqb Pos.eqb]. regs.
    change ((67109120 - 4 * Z.of_nat 6) mod 2 ^ 32) with (4 * 2 ^ 24 + 4 * 58).
    change ((4 * 2 ^ 24 + 4 * 58 + 4) mod 2 ^ 32) with (4 * 2 ^ 24 + 4 * 59). change ((4 * 2 ^ 24 + 4 * 59 + 4) mod 2 ^ 32) with (4 * 2 ^ 24 + 4 * 60).
    change ((4 * 2 ^ 24 + 4 * 60 + 4) mod 2 ^ 32) with (4 * 2 ^ 24 + 4 * 61). change ((4 * 2 ^ 24 + 4 * 61 + 4) mod 2 ^ 32) with (4 * 2 ^ 24 + 4 * 62).
    change ((4 * 2 ^ 24 + 4 * 62 + 4) mod 2 ^ 32) with (4 * 2 ^ 24 + 4 * 63). reflexivity. }
  { cbn [a_mem]. repeat (apply store_code; [ | change (length ham_words) with 48%nat; lia | reflexivity]). exact Hc. }
  { cbn [a_pc]. split; [lia | split; [reflexivity | lia]]. }
  change (40 + 4) with 44.
  match goal with |- reaches _ _ (Arm _ _ _ ?m) _ _ => set (N := m) end.
  assert (HN : ham_mem 0 bit (arm_r15_word F 20) N).
  { unfold N. constructor.
    - repeat (apply store_code; [ | change (length ham_words) with 48%nat; lia | reflexivity]). exact Hc.
    - intros k Hk. lia.
    - apply load_store_same; [ | reflexivity | lia | ].
      + unfold writable. change ((4 * 2 ^ 24 + 4 * 63) / 2 ^ 24 =? 0) with false. change ((4 * 2 ^ 24 + 4 * 63) / 2 ^ 24 =? 3) with false. change ((4 * 2 ^ 24 + 4 * 63) / 2 ^ 24 =? 4) with true. change ((4 * 2 ^ 24 + 4 * 63) mod 2 ^ 24) with 252. apply Z.ltb_lt. lia.
      + unfold arm_r15_word. destruct F as [[] [] [] []]; cbn [fN fZ fC fV Z.b2z]; lia. }
  assert (HJ : ham_in N) by (unfold N; repeat (apply ham_in_word; [apply A | lia | ]); exact HI).
  clearbody N. clear HI Hc M. assert (Hc := hm_code _ _ _ _ HN).
  (* mov r3, #0 *)
  eapply (s_dp ham_words _ _ _ _ _ _ 0xe3a03000); [exact Hc | vm_compute; reflexivity | a23_dp; reflexivity | ]. intros f1 _ _. change (44 + 4) with 48.
  (* ldr r5, [pc, #132] *)
  eapply (s_ldr ham_words _ _ _ _ _ _ 0xe59f5084 188); [exact Hc | vm_compute; reflexivity | a23_address; reflexivity | reflexivity | ].
  a23_fields. cbv iota. rewrite (code_word N ham_words 188 Hc) by reflexivity. replace (mem_read (load ham_words) 188) with 196 by (vm_compute; reflexivity). change (48 + 4) with 52.
  (* mov r4, r5 *)
  eapply (s_dp ham_words _ _ _ _ _ _ 0xe1a04005); [exact Hc | vm_compute; reflexivity | a23_dp; reflexivity | ]. intros f2 _ _. change (52 + 4) with 56.
  (* mov r7, #1 *)
  eapply (s_dp ham_words _ _ _ _ _ _ 0xe3a07001); [exact Hc | vm_compute; reflexivity | a23_dp; reflexivity | ]. intros f3 _ _. change (56 + 4) with 60.
  apply r_done. eexists _, _, N. split; [reflexivity | ]. split; [exact HN | ]. split; [exact HJ | ]. unfold spread_regs. regs. repeat split.
Qed.
Lemma ham_spread ret s : byte_at 60 0 ret s -> reaches z true s (3 * 143 + 143) (byte_at 116 4 ret).
Proof.
  intros H. assert (A : forall i, (i < 4)%nat -> reaches z true s (i * 143) (byte_at 60 i ret)).
  { intros i. induction i as [ | i IH]; intros Hi; [now apply r_done | ]. apply r_eq with (i * 143 + 143)%nat; [lia | ].
    apply r_seq with (byte_at 60 i ret); [apply IH; lia | ]. intros s' Hs. pose proof (byte_body i ret ltac:(lia) s' Hs) as L.
    replace (Nat.eqb (S i) 4) with false in L by (symmetry; apply Nat.eqb_neq; lia). exact L. }
  apply r_seq with (byte_at 60 3 ret); [apply A; lia | ]. intros s' Hs. exact (byte_body 3 ret ltac:(lia) s' Hs).
Qed.
Lemma ham_middle ret s : byte_at 116 4 ret s -> reaches z true s 1 (tree_at 120 (Z.of_nat 4) bit ret).
Proof.
  intros (R & F & M & -> & HM & _ & (R0 & R1 & R2 & R3 & R4 & R5 & R7 & R13)). assert (Hc := hm_code _ _ _ _ HM).
  (* mov r5, #1 *)
  eapply (s_dp ham_words _ _ _ _ _ _ 0xe3a05001); [exact Hc | vm_compute; reflexivity | a23_dp; reflexivity | ]. intros f1 _ _. change (116 + 4) with 120.
  apply r_done. eexists _, _, M. split; [reflexivity | ]. split; [exact HM | ]. unfold tree_regs. regs. repeat split; assumption.
Qed.
Definition ham_over (f : nat -> Z) (s : arm) : Prop := a_pc s = 20 /\ code_at (a_mem s) ham_words /\ load_word (a_mem s) (3 * 2 ^ 24 + 4 * 0) = f O.
Lemma ham_after f r ret s : is_word (f O) -> word_pc ret = 20 -> tree_at 176 r f ret s -> reaches z true s 16 (ham_over f).
Proof.
  intros Wf Hr (R & F & M & -> & HM & (R2 & R3 & R4 & R5 & R13)). assert (Hc := hm_code _ _ _ _ HM). assert (A : forall r k, (r * 2 ^ 24 + 4 * k) mod 4 = 0) by exact aligned_4.
  (* ldrb r3, [r4] *)
  eapply (s_ldrb ham_words _ _ _ _ _ _ 0xe5d43000 (196 + Z.of_nat 0)); [exact Hc | vm_compute; reflexivity | a23_address; rewrite R4; reflexivity | lia | ].
  rewrite (hm_d _ _ _ _ HM) by lia. a23_fields. change (176 + 4) with 180.
  (* str r3, [r2] *)
  eapply (s_str ham_words _ _ _ _ _ _ 0xe5823000 (3 * 2 ^ 24 + 4 * 0)); [exact Hc | vm_compute; reflexivity | a23_address; regs; rewrite R2; reflexivity | apply A | change (length ham_words) with 48%nat; lia | ].
  a23_fields. change (180 + 4) with 184. regs.
  set (N := store_word z M (3 * 2 ^ 24 + 4 * 0) (f 0%nat)).
  assert (Hn : code_at N ham_words) by (apply store_code; [exact Hc | change (length ham_words) with 48%nat; lia | apply A]).
  assert (Ho : load_word N (3 * 2 ^ 24 + 4 * 0) = f 0%nat) by (apply load_store_same; [apply out_writes; lia | apply A | lia | exact Wf]).
  assert (Hs : load_word N (4 * 2 ^ 24 + 4 * 63) = ret) by (unfold N; rewrite load_store_other; [exact (hm_s _ _ _ _ HM) | apply A | apply A | lia]).
  clearbody N. clear HM Hc M.
  (* pop {r4, r5, r6, r7, r8, pc} *)
  eapply (s_multi ham_words _ _ _ _ _ _ 0xe8bd81f0) with (n := O); [exact Hn | vm_compute; reflexivity | | | | | ].
  { split; [reflexivity | ]. split; [reflexivity | ]. split; [vm_compute; discriminate | ]. split; [vm_compute; discriminate | ]. intros _. now rewrite holds_al by reflexivity. }
  { unfold multi, multi_start, multi_base. rewrite holds_al by reflexivity. a23_fields. cbn [length load_regs]. cbv iota zeta. unfold first_reg. cbn [a_regs a_flags a_pc a_mem Z.eqb Pos.eqb]. regs. rewrite R13.
    change ((4 * 2 ^ 24 + 4 * 58) mod 2 ^ 32) with (4 * 2 ^ 24 + 4 * 58).
    change ((4 * 2 ^ 24 + 4 * 58 + 4) mod 2 ^ 32) with (4 * 2 ^ 24 + 4 * 59). change ((4 * 2 ^ 24 + 4 * 59 + 4) mod 2 ^ 32) with (4 * 2 ^ 24 + 4 * 60).
    change ((4 * 2 ^ 24 + 4 * 60 + 4) mod 2 ^ 32) with (4 * 2 ^ 24 + 4 * 61). change ((4 * 2 ^ 24 + 4 * 61 + 4) mod 2 ^ 32) with (4 * 2 ^ 24 + 4 * 62).
    change ((4 * 2 ^ 24 + 4 * 62 + 4) mod 2 ^ 32) with (4 * 2 ^ 24 + 4 * 63). rewrite Hs, Hr. reflexivity. }
  { exact Hn. }
  { cbn [a_pc]. split; [lia | split; [reflexivity | lia]]. }
  apply r_done. split; [reflexivity | ]. split; [exact Hn | exact Ho].
Qed.
Lemma ham_stays f s : ham_over f s -> reaches z true s 3 (ham_over f).
Proof.
  intros (P & Hc & Ho). destruct s as [R F pc M]. cbn [a_pc a_mem] in *. subst pc.
  eapply (s_branch ham_words _ _ _ _ _ _ 0xeafffffe); [exact Hc | vm_compute; reflexivity | | apply r_done].
  - unfold branch, branch_target. rewrite holds_al by reflexivity. a23_fields. cbv iota. cbn [a_regs a_flags a_pc a_mem]. reflexivity.
  - split; [reflexivity | split; [exact Hc | exact Ho]].
Qed.
Lemma bit_range k : 0 <= bit k <= 1.
Proof. unfold bit. destruct (xorb _ _); cbn [Z.b2z]; lia. Qed.
Lemma levels_bits : levels 5 bit 0%nat = distance a b.
Proof.
  rewrite (levels_sum 5 bit 1); [ | intros; apply bit_range | reflexivity]. change (2 ^ 5)%nat with 32%nat. unfold bit, distance.
  apply (sum_count (fun k => xorb (Z.testbit a (Z.of_nat k)) (Z.testbit b (Z.of_nat k)))).
Qed.
Lemma distance_word : is_word (distance a b).
Proof.
  unfold distance, is_word. split; [lia | ]. set (f := fun k : nat => _). assert (L : (length (filter f (seq 0 32)) <= 32)%nat); [ | clearbody f; lia].
  transitivity (length (seq 0 32)); [ | now rewrite seq_length]. clear. induction (seq 0 32) as [ | x l IH]; [reflexivity | ]. cbn [filter length]. destruct (f x); cbn [length]; lia.
Qed.
Lemma ham_runs F m f : f = levels 5 bit -> reaches z true (Arm (fun _ => 0) F 0 (mem_init ham_code [a] [b])) (29 + (3 * 143 + 143 + (1 + (levels_time 5 + 16))) + 3 * m) (ham_over f).
Proof.
  intros Ef. assert (Wf : is_word (f O)) by (rewrite Ef, levels_bits; exact distance_word). induction m as [ | m IH].
  - rewrite Nat.mul_0_r, Nat.add_0_r. set (ret := arm_r15_word F 20). apply r_seq with (byte_at 60 0 ret); [apply ham_before | ].
    intros s1 H1. apply r_seq with (byte_at 116 4 ret); [exact (ham_spread ret s1 H1) | ]. intros s2 H2. apply r_seq with (tree_at 120 (Z.of_nat 4) bit ret); [exact (ham_middle ret s2 H2) | ].
    intros s3 H3. apply r_seq with (fun s => exists r, tree_at 176 r f ret s).
    { rewrite Ef. apply (tree_body 4); [lia | intros k _; pose proof (bit_range k); lia | exact H3]. }
    intros s4 (r & H4). apply (ham_after f r ret); [exact Wf | | exact H4]. unfold ret, word_pc, arm_r15_word. destruct F as [[] [] [] []]; reflexivity.
  - eapply r_eq; [ | apply r_seq with (ham_over f); [exact IH | intros s Hs; exact (ham_stays f s Hs)]]. lia.
Qed.
End Hamming.
Lemma hamming_core z a b t (f : nat -> Z) : (forall F m, reaches z true (Arm (fun _ => 0) F 0 (mem_init ham_code [a] [b])) (t + 3 * m) (ham_over f)) ->
  forall m n, n = (1 + (t + 3 * m))%nat -> let p := run z n (reset (mem_init ham_code [a] [b])) in terminate p = true /\ outputs (mem p) 1 = [f O].
Proof.
  intros B m n En p. unfold p. rewrite En. clear p En. rewrite run_app. change (run z 1 ?q) with (step z q).
  destruct (reset_ready z (mem_init ham_code [a] [b]) (init_range _ _ _)) as [R I].
  destruct (B _ m _ R (fun _ => I)) as (s & (P & _ & Ho) & R' & _).
  split; [exact (ready_terminate _ s R' P) | ]. pose proof R' as (_ & _ & _ & _ & _ & Hm & _).
  unfold outputs. cbn [seq map]. f_equal. rewrite <- Ho. unfold load_word. now rewrite !Hm.
Qed.
Lemma hamming_time m : (1278 + 3 * m = 1 + (29 + (3 * 143 + 143 + (1 + (levels_time 5 + 16))) + 3 * m))%nat.
Proof. replace (levels_time 5) with 659%nat by reflexivity. lia. Qed.
(** After 1278 cycles, and whenever the processor is back at the branch to itself, the output is the
    number of bits in which the inputs differ *)
Theorem hamming_program z a b m (p := run z (1278 + 3 * m) (reset (mem_init ham_code [a] [b]))) :
  57 <= code_size z -> 1 <= out_size z -> 64 <= stack_size z ->
  terminate p = true /\ outputs (mem p) 1 = [distance a b].
Proof.
  intros Zc Zo Zs. rewrite <- levels_bits. exact (hamming_core z a b _ _ (fun F m => ham_runs z a b Zc Zo Zs F m _ eq_refl) m _ (hamming_time m)).
Qed.
(** The test vector of the repository, a23/hamming/test *)
Lemma hamming_case (p := run (Sizes 64 64 64 64 64) 1278 (reset (mem_init ham_code [0x10101010] [0xdeadbeef]))) : terminate p = true /\ outputs (mem p) 1 = [24].
Proof.
  destruct (hamming_program (Sizes 64 64 64 64 64) 0x10101010 0xdeadbeef 0) as [T E];
    [vm_compute; discriminate | vm_compute; discriminate | vm_compute; discriminate | ].
  rewrite Nat.mul_0_r, Nat.add_0_r in T, E. split; [exact T | ]. etransitivity; [exact E | ]. vm_compute. reflexivity.
Qed.
