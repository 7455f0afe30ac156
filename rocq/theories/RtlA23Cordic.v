(** The shipped program for sine and cosine, executed by the processor a23. *)
From Coq Require Import Reals ZArith List Bool Lia.
From Verif Require Import Base Tcp A23Int A23Cordic.
From Verif Require Import RtlA23 RtlA23Units RtlA23Step RtlA23Jump RtlA23Mem RtlA23Mul RtlA23Multi RtlA23Run RtlA23Sum RtlA23Fill RtlA23Matrix RtlA23Hamming.
Import ListNotations.
Open Scope Z_scope.

(** * The program, a23/cordic/p.txt *)
Definition cordic_code : list Z :=
  [0xe59fd01c; 0xe59f000c; 0xe59f100c; 0xe59f200c; 0xeb000004; 0xeafffffe; 0x01000000; 0x02000000; 0x03000000;
   0x04000100; 0xe92d4070; 0xe5903000; 0xe5910000; 0xe0200003; 0xe59f404c; 0xe3a03000; 0xe1a0e003; 0xe59f6044;
   0xe1a01fc0; 0xe021535e; 0xe0455001; 0xe021c354; 0xe04cc001; 0xe08ee00c; 0xe796c103; 0xe02cc001; 0xe04c1001;
   0xe0400001; 0xe2833001; 0xe0444005; 0xe3530020; 0x1afffff1; 0xe5824004; 0xe582e000; 0xe8bd8070; 0x26dd3b6a;
   0x00000094; 0x3243f6a8; 0x1dac6705; 0x0fadbafc; 0x07f56ea6; 0x03feab76; 0x01ffd55b; 0x00fffaaa; 0x007fff55;
   0x003fffea; 0x001ffffd; 0x000fffff; 0x0007ffff; 0x0003ffff; 0x0001ffff; 0x0000ffff; 0x00007fff; 0x00003fff;
   0x00001fff; 0x00000fff; 0x000007ff; 0x000003ff; 0x000001ff; 0x000000ff; 0x0000007f; 0x0000003f; 0x0000001f;
   0x0000000f; 0x00000008; 0x00000004; 0x00000002; 0x00000001; 0x00000000; 0x00000000; 0x00000000].

(** * Proofs *)
(** ** Words and signed numbers *)
Lemma s32_uint x : is_int x -> s32 (to_uint x) = x.
Proof.
  unfold is_int, s32, to_uint. intros H. destruct (Z.lt_ge_cases x 0).
  - replace (x mod 2 ^ 32) with (x + 2 ^ 32) by (rewrite <- (Z.mod_add x 1) by lia; rewrite Z.mul_1_l; symmetry; apply Z.mod_small; lia). rewrite (proj2 (Z.ltb_ge _ _)) by lia. lia.
  - rewrite Z.mod_small by lia. rewrite (proj2 (Z.ltb_lt _ _)) by lia. reflexivity.
Qed.
Lemma s32_int w : is_word w -> is_int (s32 w) /\ to_uint (s32 w) = w.
Proof.
  intros H. unfold is_int, s32, is_word, to_uint in *. destruct (Z.ltb_spec w (2 ^ 31)).
  - split; [lia | apply Z.mod_small; lia].
  - split; [lia | ]. rewrite Zminus_mod, Z.mod_same, Z.sub_0_r, Z.mod_mod by lia. apply Z.mod_small. lia.
Qed.
Lemma asr_uint x k c : is_int x -> 0 <= k -> fst (arm_shift 2 (to_uint x) k c) = to_uint (Z.shiftr x k).
Proof.
  intros Hx Hk. rewrite Z.shiftr_div_pow2 by lia. unfold arm_shift. destruct (Z.eqb_spec k 0) as [-> | D]; [cbn [fst]; now rewrite Z.div_1_r | ]. cbn [Z.eqb Pos.eqb fst]. now rewrite s32_uint.
Qed.
Lemma lxor_uint a b : Z.lxor (to_uint a) (to_uint b) = to_uint (Z.lxor a b).
Proof.
  unfold to_uint. apply Z.bits_inj'. intros n Hn. rewrite Z.lxor_spec. destruct (Z.lt_ge_cases n 32).
  - now rewrite !Z.mod_pow2_bits_low, Z.lxor_spec by lia.
  - now rewrite !Z.mod_pow2_bits_high by lia.
Qed.
Lemma sub_uint a b : (to_uint a - to_uint b) mod 2 ^ 32 = to_uint (a - b).
Proof. unfold to_uint. now rewrite <- Zminus_mod. Qed.
Lemma add_uint a b : (to_uint a + to_uint b) mod 2 ^ 32 = to_uint (a + b).
Proof. unfold to_uint. now rewrite <- Zplus_mod. Qed.
Lemma uint_word x : is_word (to_uint x).
Proof. apply to_uint_range. Qed.
Lemma word_lxor a b : is_word a -> is_word b -> is_word (Z.lxor a b).
Proof.
  intros [A1 A2] [B1 B2]. assert (N : 0 <= Z.lxor a b) by (apply Z.lxor_nonneg; tauto). split; [exact N | ].
  destruct (Z.eq_dec (Z.lxor a b) 0) as [-> | D]; [lia | ]. apply Z.log2_lt_pow2; [lia | ]. assert (L := Z.log2_lxor a b A1 B1).
  destruct (Z.eq_dec a 0) as [-> | Da]; destruct (Z.eq_dec b 0) as [-> | Db]; cbn [Z.log2] in *.
  - lia.
  - assert (Z.log2 b < 32) by (apply Z.log2_lt_pow2; lia). lia.
  - assert (Z.log2 a < 32) by (apply Z.log2_lt_pow2; lia). lia.
  - assert (Z.log2 a < 32) by (apply Z.log2_lt_pow2; lia). assert (Z.log2 b < 32) by (apply Z.log2_lt_pow2; lia). lia.
Qed.
(** A step of the program in C, in words *)
Definition turned (v d : Z) : Z := to_int (Z.lxor v d - d).
Lemma step_wraps k x y u t : rd cordic_ctab (Z.of_nat k) = Some t -> cordic_step Wraps k (x, y, u) =
  Some (to_int (x - turned (Z.shiftr y (Z.of_nat k)) (Z.shiftr u 31)), to_int (y + turned (Z.shiftr x (Z.of_nat k)) (Z.shiftr u 31)), to_int (u - turned t (Z.shiftr u 31))).
Proof. intros H. unfold cordic_step. cbn [with_sign int_result obind]. rewrite H. reflexivity. Qed.
Lemma turned_uint v d : (Z.lxor (to_uint d) (to_uint v) - to_uint d) mod 2 ^ 32 = to_uint (turned v d).
Proof. rewrite lxor_uint, sub_uint. unfold turned. rewrite to_uint_to_int, Z.lxor_comm. reflexivity. Qed.
Lemma table_check : forallb (fun k => (mem_read (load cordic_code) (148 + 4 * Z.of_nat k) =? nth k cordic_ctab 0) && (148 + 4 * Z.of_nat k + 4 <=? 284) && (nth k cordic_ctab 0 <? 2 ^ 31) && (0 <=? nth k cordic_ctab 0)) (seq 0 32) = true.
Proof. vm_compute. reflexivity. Qed.
Lemma table_at M k : code_at M cordic_code -> (k < 32)%nat -> load_word M (148 + 4 * Z.of_nat k) = to_uint (nth k cordic_ctab 0) /\ rd cordic_ctab (Z.of_nat k) = Some (nth k cordic_ctab 0).
Proof.
  intros Hc Hk. pose proof (proj1 (forallb_forall _ _) table_check k (proj2 (in_seq _ _ _) (conj (Nat.le_0_l k) Hk))) as T.
  apply andb_prop in T. destruct T as [T T4]. apply andb_prop in T. destruct T as [T T3]. apply andb_prop in T. destruct T as [T T2]. apply Z.eqb_eq in T. apply Z.ltb_lt in T3. apply Z.leb_le in T4. split.
  - rewrite (code_word M cordic_code _ Hc); [rewrite T; symmetry; apply Z.mod_small; lia | ]. change (4 * Z.of_nat (length cordic_code)) with 284. rewrite T2.
    replace (148 + 4 * Z.of_nat k) with (0 * 2 ^ 24 + 4 * (37 + Z.of_nat k)) by lia. rewrite (aligned_4 0). rewrite (proj2 (Z.leb_le _ _)), (proj2 (Z.ltb_lt _ _)) by lia. reflexivity.
  - unfold rd. rewrite (proj2 (Z.ltb_ge _ _)) by lia. rewrite Nat2Z.id. apply nth_error_nth'. exact Hk.
Qed.
Section Cordic.
Variables (z : sizes) (a b : Z).
Hypothesis Wa : is_word a.
Hypothesis Wb : is_word b.
Hypothesis Zo : 2 <= out_size z.
Hypothesis Zs : 64 <= stack_size z.
Record cor_mem (ret : Z) (M : memory) : Prop := { cm_code : code_at M cordic_code; cm_s : load_word M (4 * 2 ^ 24 + 4 * 63) = ret }.
Definition turn_at (pc : Z) (k : nat) (ret : Z) (s : arm) : Prop :=
  exists R F M x y u, s = Arm R F pc M /\ cor_mem ret M /\ for_ k (cordic_step Wraps) (cordic_1K, 0, s32 (Z.lxor a b)) = Some (x, y, u) /\ is_int x /\ is_int y /\ is_int u /\
    R 4 = to_uint x /\ R 14 = to_uint y /\ R 0 = to_uint u /\ R 3 = Z.of_nat k /\ R 2 = 3 * 2 ^ 24 /\ R 6 = 148 /\ R 13 = 4 * 2 ^ 24 + 4 * 60.
Lemma turn_body k ret : (k < 32)%nat -> forall s, turn_at 72 k ret s -> reaches z true s 18 (turn_at (if Nat.eqb (S k) 32 then 128 else 72) (S k) ret).
Proof.
  intros Hk s (R & F & M & x & y & u & -> & HM & Hf & Ix & Iy & Iu & R4 & R14 & R0 & R3 & R2 & R6 & R13). assert (Hc := cm_code _ _ HM). destruct (table_at M k Hc Hk) as [Tw Tr].
  set (t := nth k cordic_ctab 0) in *. clearbody t. set (d := Z.shiftr u 31). assert (Ks : Z.of_nat k mod 256 = Z.of_nat k) by (apply Z.mod_small; lia).
  (* mov r1, r0, asr #31 *)
  eapply (s_dp cordic_code _ _ _ _ _ _ 0xe1a01fc0); [exact Hc | vm_compute; reflexivity | a23_dp; rewrite R0, asr_uint by (first [assumption | lia]); fold d; reflexivity | ]. intros f1 _ _. change (72 + 4) with 76.
  (* eor r5, r1, lr, asr r3 *)
  eapply (s_dpr cordic_code _ _ _ _ _ _ 0xe021535e); [exact Hc | vm_compute; reflexivity | | | ].
  { unfold first_reg. a23_fields. cbn [Z.eqb Pos.eqb a_regs]. regs. rewrite R3, Ks. lia. }
  { a23_dp. regs. rewrite R3, R14, Ks, asr_uint by (first [assumption | lia]). reflexivity. }
  intros f2. change (76 + 4) with 80.
  (* sub r5, r5, r1 *)
  eapply (s_dp cordic_code _ _ _ _ _ _ 0xe0455001); [exact Hc | vm_compute; reflexivity | a23_dp; regs; cbn [arm_shift Z.eqb fst]; rewrite turned_uint; reflexivity | ]. intros f3 _ _. change (80 + 4) with 84.
  (* eor r12, r1, r4, asr r3 *)
  eapply (s_dpr cordic_code _ _ _ _ _ _ 0xe021c354); [exact Hc | vm_compute; reflexivity | | | ].
  { unfold first_reg. a23_fields. cbn [Z.eqb Pos.eqb a_regs]. regs. rewrite R3, Ks. lia. }
  { a23_dp. regs. rewrite R3, R4, Ks, asr_uint by (first [assumption | lia]). reflexivity. }
  intros f4. change (84 + 4) with 88.
  (* sub r12, r12, r1 *)
  eapply (s_dp cordic_code _ _ _ _ _ _ 0xe04cc001); [exact Hc | vm_compute; reflexivity | a23_dp; regs; cbn [arm_shift Z.eqb fst]; rewrite turned_uint; reflexivity | ]. intros f5 _ _. change (88 + 4) with 92.
  (* add lr, lr, r12 *)
  eapply (s_dp cordic_code _ _ _ _ _ _ 0xe08ee00c); [exact Hc | vm_compute; reflexivity | a23_dp; regs; cbn [arm_shift Z.eqb fst]; rewrite R14, add_uint; reflexivity | ]. intros f6 _ _. change (92 + 4) with 96.
  match goal with |- reaches _ _ (Arm ?r _ _ _) _ _ => set (T := r) end.
  set (y' := y + turned (Z.shiftr x (Z.of_nat k)) d). set (q := turned (Z.shiftr y (Z.of_nat k)) d).
  assert (Q : T 4 = to_uint x /\ T 14 = to_uint y' /\ T 0 = to_uint u /\ T 1 = to_uint d /\ T 5 = to_uint q /\ T 3 = Z.of_nat k /\ T 2 = 3 * 2 ^ 24 /\ T 6 = 148 /\ T 13 = 4 * 2 ^ 24 + 4 * 60).
  { unfold T. regs. repeat split; assumption. }
  clearbody T. clear R4 R14 R0 R3 R2 R6 R13. clear R. rename T into R. destruct Q as (R4 & R14 & R0 & R1 & R5 & R3 & R2 & R6 & R13).
  (* ldr r12, [r6, r3, lsl #2] *)
  eapply (s_ldr cordic_code _ _ _ _ _ _ 0xe796c103 (148 + 4 * Z.of_nat k)); [exact Hc | vm_compute; reflexivity | a23_address; rewrite R6, R3 | | ].
  { unfold arm_shift. cbn [Z.eqb Pos.eqb fst]. rewrite (Z.mod_small (Z.of_nat k * 2 ^ 2)), Z.mod_small; lia. }
  { replace (148 + 4 * Z.of_nat k) with (0 * 2 ^ 24 + 4 * (37 + Z.of_nat k)) by lia. apply aligned_4. }
  rewrite Tw. a23_fields. change (96 + 4) with 100. cbv iota.
  (* eor r12, r12, r1 *)
  eapply (s_dp cordic_code _ _ _ _ _ _ 0xe02cc001); [exact Hc | vm_compute; reflexivity | a23_dp; regs; cbn [arm_shift Z.eqb fst]; rewrite R1, (Z.lxor_comm (to_uint t)); reflexivity | ]. intros f7 _ _. change (100 + 4) with 104.
  (* sub r1, r12, r1 *)
  eapply (s_dp cordic_code _ _ _ _ _ _ 0xe04c1001); [exact Hc | vm_compute; reflexivity | a23_dp; regs; cbn [arm_shift Z.eqb fst]; rewrite R1, turned_uint; reflexivity | ]. intros f8 _ _. change (104 + 4) with 108.
  (* sub r0, r0, r1 *)
  eapply (s_dp cordic_code _ _ _ _ _ _ 0xe0400001); [exact Hc | vm_compute; reflexivity | a23_dp; regs; cbn [arm_shift Z.eqb fst]; rewrite R0, sub_uint; reflexivity | ]. intros f9 _ _. change (108 + 4) with 112.
  (* add r3, r3, #1 *)
  eapply (s_dp cordic_code _ _ _ _ _ _ 0xe2833001); [exact Hc | vm_compute; reflexivity | a23_dp; regs; rewrite R3, Z.mod_small by lia; reflexivity | ]. intros f10 _ _. change (112 + 4) with 116.
  (* sub r4, r4, r5 *)
  eapply (s_dp cordic_code _ _ _ _ _ _ 0xe0444005); [exact Hc | vm_compute; reflexivity | a23_dp; regs; cbn [arm_shift Z.eqb fst]; rewrite R4, R5, sub_uint; reflexivity | ]. intros f11 _ _. change (116 + 4) with 120.
  (* cmp r3, #32 *)
  eapply (s_dp cordic_code _ _ _ _ _ _ 0xe3530020); [exact Hc | vm_compute; reflexivity | a23_dp; reflexivity | ]. intros f12 _ Hg. change (120 + 4) with 124.
  specialize (Hg eq_refl). assert (E2 : fZ f12 = Nat.eqb (S k) 32).
  { rewrite Hg. a23_dp. regs. apply Bool.eq_true_iff_eq. rewrite Z.eqb_eq, Nat.eqb_eq. split; intros H.
    - apply Z.mod_divide in H; [ | lia]. destruct H as (m & H). nia.
    - replace (Z.of_nat k) with 31 by lia. reflexivity. }
  clear Hg.
  (* bne 72 *)
  eapply (s_branch cordic_code _ _ _ _ _ _ 0x1afffff1); [exact Hc | vm_compute; reflexivity | | apply r_done].
  { unfold branch, branch_target, holds. a23_fields. rewrite cond_ne. cbn [a_flags]. rewrite E2. cbn [a_regs a_pc a_mem a_flags]. reflexivity. }
  eexists _, _, M, _, _, _. split; [destruct (Nat.eqb (S k) 32); reflexivity | ]. split; [exact HM | ]. split; [rewrite for_S, Hf; cbn [obind]; apply step_wraps; exact Tr | ].
  split; [apply to_int_range | ]. split; [apply to_int_range | ]. split; [apply to_int_range | ]. rewrite !to_uint_to_int. fold d. fold q. fold y'. regs. repeat split; first [assumption | lia].
Qed.
Lemma turn_loop ret s : turn_at 72 0 ret s -> reaches z true s (31 * 18 + 18) (turn_at 128 32 ret).
Proof.
  intros H. assert (A : forall i, (i < 32)%nat -> reaches z true s (i * 18) (turn_at 72 i ret)).
  { intros i. induction i as [ | i IH]; intros Hi; [now apply r_done | ]. apply r_eq with (i * 18 + 18)%nat; [lia | ].
    apply r_seq with (turn_at 72 i ret); [apply IH; lia | ]. intros s' Hs. pose proof (turn_body i ret ltac:(lia) s' Hs) as L.
    replace (Nat.eqb (S i) 32) with false in L by (symmetry; apply Nat.eqb_neq; lia). exact L. }
  apply r_seq with (turn_at 72 31 ret); [apply A; lia | ]. intros s' Hs. exact (turn_body 31 ret ltac:(lia) s' Hs).
Qed.
Lemma cor_before F : reaches z true (Arm (fun _ => 0) F 0 (mem_init cordic_code [a] [b])) 36 (turn_at 72 0 (arm_r15_word F 20)).
Proof.
  assert (A : forall r k, (r * 2 ^ 24 + 4 * k) mod 4 = 0) by exact aligned_4.
  assert (Hc : code_at (mem_init cordic_code [a] [b]) cordic_code) by (apply init_code; vm_compute; discriminate).
  assert (Ha : load_word (mem_init cordic_code [a] [b]) (1 * 2 ^ 24 + 4 * 0) = a).
  { apply (init_word cordic_code [a] [b] 1 0); cbn [Z.eqb Pos.eqb]; [now left | cbn; lia | cbn; lia | repeat constructor; exact (proj1 Wa) || exact (proj2 Wa)]. }
  assert (Hb : load_word (mem_init cordic_code [a] [b]) (2 * 2 ^ 24 + 4 * 0) = b).
  { apply (init_word cordic_code [a] [b] 2 0); cbn [Z.eqb Pos.eqb]; [now right | cbn; lia | cbn; lia | repeat constructor; exact (proj1 Wb) || exact (proj2 Wb)]. }
  set (M := mem_init cordic_code [a] [b]) in *. clearbody M. a23_prologue cordic_code Hc M.
  (* bl 40 *)
  eapply (s_branch cordic_code _ _ _ _ _ _ 0xeb000004); [exact Hc | vm_compute; reflexivity | unfold branch, branch_target; rewrite holds_al by reflexivity; a23_fields; cbv iota; cbn [a_regs a_flags a_pc a_mem]; reflexivity | ].
  change (16 + 8 + 16) with 40. change (16 + 4) with 20.
  (* push {r4, r5, r6, lr} *)
  eapply (s_multi cordic_code _ _ _ _ _ _ 0xe92d4070) with (n := 15%nat); [exact Hc | vm_compute; reflexivity | | | | | ].
  { split; [reflexivity | ]. split; [reflexivity | ]. split; [vm_compute; discriminate | ]. split; [vm_compute; discriminate | ]. vm_compute. split; [reflexivity | reflexivity]. }
  { unfold multi, multi_start, multi_base. rewrite holds_al by reflexivity. a23_fields. cbn [length store_regs]. a23_fields. cbv iota zeta. unfold first_reg. cbn [a_regs a_flags a_pc a_mem Z.eqb Pos.eqb]. regs.
    change ((67109120 - 4 * Z.of_nat 4) mod 2 ^ 32) with (4 * 2 ^ 24 + 4 * 60).
    change ((4 * 2 ^ 24 + 4 * 60 + 4) mod 2 ^ 32) with (4 * 2 ^ 24 + 4 * 61). change ((4 * 2 ^ 24 + 4 * 61 + 4) mod 2 ^ 32) with (4 * 2 ^ 24 + 4 * 62).
    change ((4 * 2 ^ 24 + 4 * 62 + 4) mod 2 ^ 32) with (4 * 2 ^ 24 + 4 * 63). reflexivity. }
  { cbn [a_mem]. repeat (apply store_code; [ | change (length cordic_code) with 71%nat; lia | reflexivity]). exact Hc. }
  { cbn [a_pc]. split; [lia | split; [reflexivity | lia]]. }
  change (40 + 4) with 44.
  match goal with |- reaches _ _ (Arm _ _ _ ?m) _ _ => set (N := m) end.
  assert (HN : cor_mem (arm_r15_word F 20) N).
  { unfold N. constructor.
    - repeat (apply store_code; [ | change (length cordic_code) with 71%nat; lia | reflexivity]). exact Hc.
    - apply load_store_same; [ | reflexivity | lia | ].
      + unfold writable. change ((4 * 2 ^ 24 + 4 * 63) / 2 ^ 24 =? 0) with false. change ((4 * 2 ^ 24 + 4 * 63) / 2 ^ 24 =? 3) with false. change ((4 * 2 ^ 24 + 4 * 63) / 2 ^ 24 =? 4) with true. change ((4 * 2 ^ 24 + 4 * 63) mod 2 ^ 24) with 252. apply Z.ltb_lt. lia.
      + unfold arm_r15_word. destruct F as [[] [] [] []]; cbn [fN fZ fC fV Z.b2z]; lia. }
  assert (Na : load_word N (1 * 2 ^ 24 + 4 * 0) = a) by (unfold N; rewrite !load_store_other by (first [apply A | lia]); exact Ha).
  assert (Nb : load_word N (2 * 2 ^ 24 + 4 * 0) = b) by (unfold N; rewrite !load_store_other by (first [apply A | lia]); exact Hb).
  clearbody N. clear Ha Hb Hc M. assert (Hc := cm_code _ _ HN).
  (* ldr r3, [r0] *)
  eapply (s_ldr cordic_code _ _ _ _ _ _ 0xe5903000 (1 * 2 ^ 24 + 4 * 0)); [exact Hc | vm_compute; reflexivity | a23_address; regs; reflexivity | reflexivity | ].
  rewrite Na. a23_fields. cbv iota. change (44 + 4) with 48.
  (* ldr r0, [r1] *)
  eapply (s_ldr cordic_code _ _ _ _ _ _ 0xe5910000 (2 * 2 ^ 24 + 4 * 0)); [exact Hc | vm_compute; reflexivity | a23_address; regs; reflexivity | reflexivity | ].
  rewrite Nb. a23_fields. cbv iota. change (48 + 4) with 52.
  (* eor r0, r0, r3 *)
  eapply (s_dp cordic_code _ _ _ _ _ _ 0xe0200003); [exact Hc | vm_compute; reflexivity | a23_dp; regs; cbn [arm_shift Z.eqb fst]; reflexivity | ]. intros f1 _ _. change (52 + 4) with 56.
  (* ldr r4, [pc, #76] *)
  eapply (s_ldr cordic_code _ _ _ _ _ _ 0xe59f404c 140); [exact Hc | vm_compute; reflexivity | a23_address; reflexivity | reflexivity | ].
  a23_fields. cbv iota. rewrite (code_word N cordic_code 140 Hc) by reflexivity. replace (mem_read (load cordic_code) 140) with cordic_1K by (vm_compute; reflexivity). change (56 + 4) with 60.
  (* mov r3, #0 *)
  eapply (s_dp cordic_code _ _ _ _ _ _ 0xe3a03000); [exact Hc | vm_compute; reflexivity | a23_dp; reflexivity | ]. intros f2 _ _. change (60 + 4) with 64.
  (* mov lr, r3 *)
  eapply (s_dp cordic_code _ _ _ _ _ _ 0xe1a0e003); [exact Hc | vm_compute; reflexivity | a23_dp; regs; cbn [arm_shift Z.eqb fst]; reflexivity | ]. intros f3 _ _. change (64 + 4) with 68.
  (* ldr r6, [pc, #68] *)
  eapply (s_ldr cordic_code _ _ _ _ _ _ 0xe59f6044 144); [exact Hc | vm_compute; reflexivity | a23_address; reflexivity | reflexivity | ].
  a23_fields. cbv iota. rewrite (code_word N cordic_code 144 Hc) by reflexivity. replace (mem_read (load cordic_code) 144) with 148 by (vm_compute; reflexivity). change (68 + 4) with 72.
  destruct (s32_int (Z.lxor a b) (word_lxor a b Wa Wb)) as [It Ut].
  apply r_done. eexists _, _, N, _, _, _. split; [reflexivity | ]. split; [exact HN | ]. split; [reflexivity | ].
  split; [unfold is_int, cordic_1K; lia | ]. split; [unfold is_int; lia | ]. split; [exact It | ]. rewrite Ut. regs. repeat split. apply Z.lxor_comm.
Qed.
Definition cor_over (x y : Z) (s : arm) : Prop :=
  a_pc s = 20 /\ code_at (a_mem s) cordic_code /\ load_word (a_mem s) (3 * 2 ^ 24 + 4 * 0) = to_uint y /\ load_word (a_mem s) (3 * 2 ^ 24 + 4 * 1) = to_uint x.
Lemma cor_after x y u ret s : for_ 32 (cordic_step Wraps) (cordic_1K, 0, s32 (Z.lxor a b)) = Some (x, y, u) -> word_pc ret = 20 -> turn_at 128 32 ret s -> reaches z true s 14 (cor_over x y).
Proof.
  intros Hf Hr (R & F & M & x' & y' & u' & -> & HM & Hf' & Ix & Iy & Iu & R4 & R14 & R0 & R3 & R2 & R6 & R13). assert (Hc := cm_code _ _ HM). rewrite Hf in Hf'. injection Hf' as <- <- <-.
  assert (A : forall r k, (r * 2 ^ 24 + 4 * k) mod 4 = 0) by exact aligned_4.
  (* str r4, [r2, #4] *)
  eapply (s_str cordic_code _ _ _ _ _ _ 0xe5824004 (3 * 2 ^ 24 + 4 * 1)); [exact Hc | vm_compute; reflexivity | a23_address; regs; rewrite R2; reflexivity | apply A | change (length cordic_code) with 71%nat; lia | ].
  a23_fields. change (128 + 4) with 132. rewrite R4.
  set (N := store_word z M (3 * 2 ^ 24 + 4 * 1) (to_uint x)).
  assert (Hn : code_at N cordic_code) by (apply store_code; [exact Hc | change (length cordic_code) with 71%nat; lia | apply A]).
  assert (Ho : load_word N (3 * 2 ^ 24 + 4 * 1) = to_uint x) by (apply load_store_same; [apply out_writes; lia | apply A | lia | apply uint_word]).
  assert (Hs : load_word N (4 * 2 ^ 24 + 4 * 63) = ret) by (unfold N; rewrite load_store_other; [exact (cm_s _ _ HM) | apply A | apply A | lia]).
  clearbody N. clear HM Hc M.
  (* str lr, [r2] *)
  eapply (s_str cordic_code _ _ _ _ _ _ 0xe582e000 (3 * 2 ^ 24 + 4 * 0)); [exact Hn | vm_compute; reflexivity | a23_address; regs; rewrite R2; reflexivity | apply A | change (length cordic_code) with 71%nat; lia | ].
  a23_fields. change (132 + 4) with 136. rewrite R14.
  set (M := store_word z N (3 * 2 ^ 24 + 4 * 0) (to_uint y)).
  assert (Hc : code_at M cordic_code) by (apply store_code; [exact Hn | change (length cordic_code) with 71%nat; lia | apply A]).
  assert (Hp : load_word M (3 * 2 ^ 24 + 4 * 0) = to_uint y) by (apply load_store_same; [apply out_writes; lia | apply A | lia | apply uint_word]).
  assert (Hq : load_word M (3 * 2 ^ 24 + 4 * 1) = to_uint x) by (unfold M; rewrite load_store_other; [exact Ho | apply A | apply A | lia]).
  assert (Ht : load_word M (4 * 2 ^ 24 + 4 * 63) = ret) by (unfold M; rewrite load_store_other; [exact Hs | apply A | apply A | lia]).
  clearbody M. clear Hn Ho Hs N.
  (* pop {r4, r5, r6, pc} *)
  eapply (s_multi cordic_code _ _ _ _ _ _ 0xe8bd8070) with (n := O); [exact Hc | vm_compute; reflexivity | | | | | ].
  { split; [reflexivity | ]. split; [reflexivity | ]. split; [vm_compute; discriminate | ]. split; [vm_compute; discriminate | ]. intros _. now rewrite holds_al by reflexivity. }
  { unfold multi, multi_start, multi_base. rewrite holds_al by reflexivity. a23_fields. cbn [length load_regs]. cbv iota zeta. unfold first_reg. cbn [a_regs a_flags a_pc a_mem Z.eqb Pos.eqb]. regs. rewrite R13.
    change ((4 * 2 ^ 24 + 4 * 60) mod 2 ^ 32) with (4 * 2 ^ 24 + 4 * 60).
    change ((4 * 2 ^ 24 + 4 * 60 + 4) mod 2 ^ 32) with (4 * 2 ^ 24 + 4 * 61). change ((4 * 2 ^ 24 + 4 * 61 + 4) mod 2 ^ 32) with (4 * 2 ^ 24 + 4 * 62).
    change ((4 * 2 ^ 24 + 4 * 62 + 4) mod 2 ^ 32) with (4 * 2 ^ 24 + 4 * 63). rewrite Ht, Hr. reflexivity. }
  { exact Hc. }
  { cbn [a_pc]. split; [lia | split; [reflexivity | lia]]. }
  apply r_done. split; [reflexivity | ]. split; [exact Hc | ]. split; [exact Hp | exact Hq].
Qed.
Lemma cor_stays x y s : cor_over x y s -> reaches z true s 3 (cor_over x y).
Proof.
  intros (P & Hc & Ho). destruct s as [R F pc M]. cbn [a_pc a_mem] in *. subst pc.
  eapply (s_branch cordic_code _ _ _ _ _ _ 0xeafffffe); [exact Hc | vm_compute; reflexivity | | apply r_done].
  - unfold branch, branch_target. rewrite holds_al by reflexivity. a23_fields. cbv iota. cbn [a_regs a_flags a_pc a_mem]. reflexivity.
  - split; [reflexivity | split; [exact Hc | exact Ho]].
Qed.
Lemma cor_runs F m x y u : for_ 32 (cordic_step Wraps) (cordic_1K, 0, s32 (Z.lxor a b)) = Some (x, y, u) -> reaches z true (Arm (fun _ => 0) F 0 (mem_init cordic_code [a] [b])) (626 + 3 * m) (cor_over x y).
Proof.
  intros Hf. induction m as [ | m IH].
  - apply r_eq with (36 + (31 * 18 + 18 + 14))%nat; [reflexivity | ]. set (ret := arm_r15_word F 20). apply r_seq with (turn_at 72 0 ret); [apply cor_before | ].
    intros s1 H1. apply r_seq with (turn_at 128 32 ret); [exact (turn_loop ret s1 H1) | ]. intros s2 H2. apply (cor_after x y u ret); [exact Hf | | exact H2].
    unfold ret, word_pc, arm_r15_word. destruct F as [[] [] [] []]; reflexivity.
  - apply r_eq with (626 + 3 * m + 3)%nat; [lia | ]. apply r_seq with (cor_over x y); [exact IH | ]. intros s Hs. exact (cor_stays x y s Hs).
Qed.
End Cordic.
Lemma cordic_core z a b t x y : (forall F m, reaches z true (Arm (fun _ => 0) F 0 (mem_init cordic_code [a] [b])) (t + 3 * m) (cor_over x y)) ->
  forall m n, n = (1 + (t + 3 * m))%nat -> let p := run z n (reset (mem_init cordic_code [a] [b])) in terminate p = true /\ outputs (mem p) 2 = [to_uint y; to_uint x].
Proof.
  intros B m n En p. unfold p. rewrite En. clear p En. rewrite run_app. change (run z 1 ?q) with (step z q).
  destruct (reset_ready z (mem_init cordic_code [a] [b]) (init_range _ _ _)) as [R I].
  destruct (B _ m _ R (fun _ => I)) as (st & (P & _ & Ho & Hp) & R' & _).
  split; [exact (ready_terminate _ st R' P) | ]. pose proof R' as (_ & _ & _ & _ & _ & Hm & _).
  unfold outputs. cbn [seq map]. f_equal; [ | f_equal].
  - transitivity (load_word (a_mem st) (3 * 2 ^ 24 + 4 * 0)); [unfold load_word; now rewrite !Hm | exact Ho].
  - transitivity (load_word (a_mem st) (3 * 2 ^ 24 + 4 * 1)); [unfold load_word; now rewrite !Hm | exact Hp].
Qed.
Lemma cordic_state t s c : cordic Wraps t = Some (s, c) -> exists u, for_ 32 (cordic_step Wraps) (cordic_1K, 0, t) = Some (c, s, u).
Proof. unfold cordic. destruct (for_ 32 (cordic_step Wraps) _) as [[[x y] u] | ]; [ | discriminate]. cbn [obind]. intros E. injection E as <- <-. now exists u. Qed.
Lemma table_entry k : (k < 32)%nat -> rd cordic_ctab (Z.of_nat k) = Some (nth k cordic_ctab 0).
Proof. intros H. do 32 (destruct k as [ | k]; [reflexivity | ]). lia. Qed.
Lemma cordic_total t : exists s c, cordic Wraps t = Some (s, c).
Proof.
  assert (A : forall k, (k <= 32)%nat -> exists st, for_ k (cordic_step Wraps) (cordic_1K, 0, t) = Some st).
  { induction k as [ | k IH]; intros Hk; [now exists (cordic_1K, 0, t) | ]. destruct IH as ([[x y] u] & E); [lia | ].
    eexists. rewrite for_S, E. cbn [obind]. apply (step_wraps k x y u (nth k cordic_ctab 0)). apply table_entry. lia. }
  destruct (A 32%nat (le_n 32)) as ([[x y] u] & E). unfold cordic. rewrite E. cbn [obind]. now exists y, x.
Qed.
(** The processor does what the C program says *)
Theorem cordic_program z a b m (p := run z (627 + 3 * m) (reset (mem_init cordic_code [a] [b]))) :
  is_word a -> is_word b -> 2 <= out_size z -> 64 <= stack_size z ->
  terminate p = true /\ exists s c, cordic Wraps (s32 (Z.lxor a b)) = Some (s, c) /\ outputs (mem p) 2 = [to_uint s; to_uint c].
Proof.
  intros Wa Wb Zo Zs. destruct (cordic_total (s32 (Z.lxor a b))) as (s & c & E). destruct (cordic_state _ s c E) as (u & Ef).
  assert (X : terminate p = true /\ outputs (mem p) 2 = [to_uint s; to_uint c]).
  { apply (cordic_core z a b 626 c s (fun F m => cor_runs z a b Wa Wb Zo Zs F m c s u Ef) m). lia. }
  destruct X as [X1 X2]. split; [exact X1 | ]. exists s, c. split; [exact E | exact X2].
Qed.
Lemma cordic_ints t s c : cordic Wraps t = Some (s, c) -> is_int s /\ is_int c.
Proof.
  unfold cordic. rewrite (for_S _ 31). destruct (for_ 31 (cordic_step Wraps) _) as [[[x y] u] | ]; [ | discriminate]. cbn [obind].
  rewrite (step_wraps 31 x y u 0) by reflexivity. cbn [obind]. intros E. injection E as <- <-. split; apply to_int_range.
Qed.
(** and so its output is the sine and the cosine of the angle of which the inputs are shares, to about 2^-23 *)
Theorem cordic_angles z a b m (p := run z (627 + 3 * m) (reset (mem_init cordic_code [a] [b]))) (t := s32 (Z.lxor a b)) :
  is_word a -> is_word b -> 2 <= out_size z -> 64 <= stack_size z -> Z.abs t <= 0x6487ED51 ->
  terminate p = true /\ exists s c, map s32 (outputs (mem p) 2) = [s; c] /\
  (Rabs (IZR s - 2 ^ 30 * sin (IZR t / 2 ^ 30)) <= 72 /\ Rabs (IZR c - 2 ^ 30 * cos (IZR t / 2 ^ 30)) <= 72)%R.
Proof.
  intros Wa Wb Zo Zs Ht. destruct (cordic_program z a b m Wa Wb Zo Zs) as (T & s & c & E & O). fold p in T, O. split; [exact T | ]. exists s, c.
  assert (I : is_int t) by (apply s32_int, word_lxor; assumption). destruct (cordic_ok Wraps t I) as (s' & c' & E' & B). unfold t in E'. rewrite E in E'. injection E' as <- <-.
  destruct (cordic_ints t s c E) as [Is Ic]. rewrite O. cbn [map]. rewrite !s32_uint by assumption. split; [reflexivity | ].
  assert (EU : (2 ^ 30)%R = U) by (unfold U; rewrite pow_IZR; reflexivity). rewrite !EU. exact (B Ht).
Qed.
(** The output for the shares of pi / 4, in units of 2^-30 *)
Lemma cordic_case (p := run (Sizes 128 64 64 64 64) 627 (reset (mem_init cordic_code [0x10101010] [Z.lxor 0x10101010 0x3243F6A8]))) :
  terminate p = true /\ map s32 (outputs (mem p) 2) = [759250128; 759250121].
Proof.
  destruct (cordic_program (Sizes 128 64 64 64 64) 0x10101010 (Z.lxor 0x10101010 0x3243F6A8) 0) as (T & s & c & E & O);
    [vm_compute; split; [discriminate | reflexivity] | vm_compute; split; [discriminate | reflexivity] | vm_compute; discriminate | vm_compute; discriminate | ].
  rewrite Nat.mul_0_r, Nat.add_0_r in T, O. split; [exact T | ]. etransitivity; [apply (f_equal (map s32)); exact O | ]. vm_compute in E. injection E as <- <-. vm_compute. reflexivity.
Qed.
