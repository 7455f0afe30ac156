(** The shipped program that adds two numbers of 1024 bits without the carry flag, executed by the processor a23. *)
From Coq Require Import ZArith List Bool Lia.
From Verif Require Import RtlA23 RtlA23Units RtlA23Step RtlA23Jump RtlA23Mem RtlA23Mul RtlA23Multi RtlA23Run RtlA23Sum RtlA23Fill RtlA23Matrix.
Import ListNotations.
Open Scope Z_scope.

(** * The program, a23/temp/p.txt *)
Definition temp_code : list Z :=
  [0xe59fd01c; 0xe59f000c; 0xe59f100c; 0xe59f200c; 0xeb000004; 0xeafffffe; 0x01000000; 0x02000000; 0x03000000;
   0x04000100; 0xe92d4070; 0xe3a0e000; 0xe1a0300e; 0xe790c10e; 0xe791410e; 0xe08cc004; 0xe08c3003; 0xe782310e;
   0xe790410e; 0xe1a05fa4; 0xe1a03fa3; 0xe791c10e; 0xe1a04fac; 0xe0256003; 0xe023c004; 0xe00cc006; 0xe0244005;
   0xe0233004; 0xe023300c; 0xe28ee001; 0xe35e0020; 0x1affffec; 0xe8bd8070; 0x00000000; 0x00000000].

(** * Proofs *)
(** AND that does not set the flags *)
Definition and_check (words : list Z) (pc i : Z) : bool :=
  (0 <=? pc) && (pc mod 4 =? 0) && (pc + 4 <=? 4 * Z.of_nat (length words)) && (pc <? 2 ^ 20) && (i =? mem_read (load words) pc) &&
  (bits i 27 26 =? 0) && (tb i 25 || negb (tb i 4)) && (negb (is_compare (bits i 24 21)) || tb i 20) && negb (bits i 15 12 =? 15) &&
  (tb i 25 || negb (bits i 11 7 =? 0) || (bits i 6 5 =? 0)) && negb (tb i 20).
Lemma s_and words z c R F pc M i r n Q : code_at M words -> and_check words pc i = true -> dp_regs (Arm R F pc M) i = r ->
  (forall f, reaches z true (Arm r f (pc + 4) M) n Q) -> reaches z c (Arm R F pc M) (1 + n) Q.
Proof.
  intros HM C <- H. unfold and_check in C. repeat (apply andb_prop in C; destruct C as [C ?X]). apply Z.leb_le in C. apply Z.eqb_eq in X8. apply Z.leb_le in X7. apply Z.ltb_lt in X6.
  apply Z.eqb_eq in X5. apply Z.eqb_eq in X4.
  apply (r_dp z c (Arm R F pc M) i n Q); cbn [a_pc a_mem].
  - rewrite (fetch M words pc HM) by lia. exact X5.
  - split; [exact X4 | ]. split; [ | split].
    + apply orb_prop in X3. destruct X3 as [E | E]; [left; exact E | right; left; now destruct (tb i 4)].
    + intros E. rewrite E in X2. exact X2.
    + apply negb_true_iff in X1. now apply Z.eqb_neq.
  - unfold shift_supported. destruct (tb i 25); [exact I | ]. cbn [orb] in *. apply negb_true_iff in X3. rewrite X3. apply orb_prop in X0.
    destruct X0 as [E | E]; [left; apply negb_true_iff in E; now apply Z.eqb_neq | right; now apply Z.eqb_eq].
  - lia.
  - intros _ E. rewrite E in X. discriminate X.
  - intros f _ _. apply H.
Qed.
Lemma four_j a j : a mod 4 = 0 -> (a + 4 * j) mod 4 = 0.
Proof. intros H. rewrite Z.add_mod, H by lia. rewrite (Z.mul_comm 4), Z.mod_mul by lia. reflexivity. Qed.
(** The carry from the highest bits of the summands and of the sum *)
Lemma top_bit a : is_word a -> exists t r, a = t * 2 ^ 31 + r /\ 0 <= r < 2 ^ 31 /\ (t = 0 \/ t = 1) /\ a / 2 ^ 31 = t.
Proof.
  unfold is_word. intros H. pose proof (Z.div_mod a (2 ^ 31) ltac:(lia)) as D. pose proof (Z.mod_pos_bound a (2 ^ 31) ltac:(lia)) as B.
  exists (a / 2 ^ 31), (a mod 2 ^ 31). repeat split; lia.
Qed.
Lemma has_carry a b c s : is_word a -> is_word b -> 0 <= c <= 1 -> s = (a + b + c) mod 2 ^ 32 ->
  Z.lxor (Z.lxor (s / 2 ^ 31) (Z.lxor (b / 2 ^ 31) (a / 2 ^ 31))) (Z.land (Z.lxor (s / 2 ^ 31) (b / 2 ^ 31)) (Z.lxor (a / 2 ^ 31) (s / 2 ^ 31))) = (a + b + c) / 2 ^ 32.
Proof.
  intros Ha Hb Hc Es. assert (Hs : is_word s) by (rewrite Es; unfold is_word; apply Z.mod_pos_bound; lia).
  pose proof (Z.div_mod (a + b + c) (2 ^ 32) ltac:(lia)) as D. rewrite <- Es in D. set (q := (a + b + c) / 2 ^ 32) in *. clearbody q. clear Es.
  destruct (top_bit a Ha) as (ta & ra & Ea & Ba & Ta & ->). destruct (top_bit b Hb) as (tb & rb & Eb & Bb & Tb & ->). destruct (top_bit s Hs) as (ts & rs & Es & Bs & Ts & ->).
  clear Ha Hb Hs. destruct Ta as [-> | ->], Tb as [-> | ->], Ts as [-> | ->]; cbn [Z.lxor Z.land Pos.lxor Pos.land]; cbv; lia.
Qed.
Section Temp.
Variables (z : sizes) (g e : list Z).
Hypothesis Lg : length g = 32%nat.
Hypothesis Le : length e = 32%nat.
Hypothesis Wg : Forall is_word g.
Hypothesis We : Forall is_word e.
Hypothesis Zo : 32 <= out_size z.
Hypothesis Zs : 64 <= stack_size z.
Definition tgw (k : nat) : Z := nth k g 0.
Definition tew (k : nat) : Z := nth k e 0.
Definition tsw (k : nat) : Z := (tgw k + tew k + carry g e k) mod 2 ^ 32.
(** The memory while the program runs *)
Record temp_mem (k : nat) (ret : Z) (M : memory) : Prop := {
  tm_code : code_at M temp_code;
  tm_g : forall j, (j < 32)%nat -> load_word M (2 ^ 24 + 4 * Z.of_nat j) = tgw j;
  tm_e : forall j, (j < 32)%nat -> load_word M (2 * 2 ^ 24 + 4 * Z.of_nat j) = tew j;
  tm_o : forall j, (j < k)%nat -> load_word M (3 * 2 ^ 24 + 4 * Z.of_nat j) = tsw j;
  tm_s : load_word M (4 * 2 ^ 24 + 4 * 63) = ret }.
Lemma temp_store k ret M : (k < 32)%nat -> temp_mem k ret M -> temp_mem (S k) ret (store_word z M (3 * 2 ^ 24 + 4 * Z.of_nat k) (tsw k)).
Proof.
  intros Hk [H1 H2 H3 H4 H5]. constructor.
  - apply store_code; [exact H1 | change (length temp_code) with 35%nat; lia | now apply four_j].
  - intros j Hj. rewrite load_store_other; [now apply H2 | now apply four_j | now apply four_j | lia].
  - intros j Hj. rewrite load_store_other; [now apply H3 | now apply four_j | now apply four_j | lia].
  - intros j Hj. destruct (Nat.eq_dec j k) as [-> | N].
    + apply load_store_same; [apply out_writes; lia | now apply four_j | lia | apply Z.mod_pos_bound; lia].
    + rewrite load_store_other; [apply H4; lia | now apply four_j | now apply four_j | lia].
  - rewrite load_store_other; [exact H5 | now apply four_j | now apply four_j | lia].
Qed.
(** ** The loop *)
Definition temp_regs (k : nat) (R : Z -> Z) : Prop :=
  R 0 = 2 ^ 24 /\ R 1 = 2 * 2 ^ 24 /\ R 2 = 3 * 2 ^ 24 /\ R 3 = carry g e k /\ R 13 = 4 * 2 ^ 24 + 4 * 60 /\ R 14 = Z.of_nat k.
Definition temp_at (pc : Z) (k : nat) (ret : Z) (s : arm) : Prop :=
  exists R F M, s = Arm R F pc M /\ temp_mem k ret M /\ temp_regs k R.
Lemma temp_body k ret : (k < 32)%nat -> forall s, temp_at 52 k ret s -> reaches z true s 31 (temp_at (if Nat.eqb (S k) 32 then 128 else 52) (S k) ret).
Proof.
  intros Hk s (R & F & M & -> & HM & (R0 & R1 & R2 & R3 & R13 & R14)). pose proof HM as [Hc Hg He Ho Hs].
  assert (Gk : is_word (tgw k)) by (eapply gw_range; eassumption). assert (Ek : is_word (tew k)) by (eapply ew_range; eassumption). assert (Ck : 0 <= carry g e k <= 1) by (apply carry_range; assumption).
  (* ldr r12, [r0, lr, lsl #2] *)
  eapply (s_ldr temp_code _ _ _ _ _ _ 0xe790c10e (2 ^ 24 + 4 * Z.of_nat k)); [exact Hc | vm_compute; reflexivity | a23_address; rewrite R0, R14; unfold arm_shift; cbn [Z.eqb Pos.eqb fst]; rewrite (Z.mod_small (Z.of_nat k * 2 ^ 2)), Z.mod_small; lia | now apply four_j | ].
  a23_fields. change (52 + 4) with 56. rewrite Hg by lia. cbv iota.
  (* ldr r4, [r1, lr, lsl #2] *)
  eapply (s_ldr temp_code _ _ _ _ _ _ 0xe791410e (2 * 2 ^ 24 + 4 * Z.of_nat k)); [exact Hc | vm_compute; reflexivity | a23_address; regs; rewrite R1, R14; unfold arm_shift; cbn [Z.eqb Pos.eqb fst]; rewrite (Z.mod_small (Z.of_nat k * 2 ^ 2)), Z.mod_small; lia | now apply four_j | ].
  a23_fields. change (56 + 4) with 60. rewrite He by lia. cbv iota.
  (* add r12, r12, r4 *)
  eapply (s_dp temp_code _ _ _ _ _ _ 0xe08cc004); [exact Hc | vm_compute; reflexivity | a23_dp; reflexivity | ]. intros f1 _ _. change (60 + 4) with 64. regs.
  (* add r3, r12, r3 *)
  eapply (s_dp temp_code _ _ _ _ _ _ 0xe08c3003); [exact Hc | vm_compute; reflexivity | a23_dp; reflexivity | ]. intros f2 _ _. change (64 + 4) with 68. regs.
  match goal with |- reaches _ _ (Arm ?r _ _ _) _ _ => set (T := r) end.
  assert (Q : T 0 = 2 ^ 24 /\ T 1 = 2 * 2 ^ 24 /\ T 2 = 3 * 2 ^ 24 /\ T 3 = tsw k /\ T 13 = 4 * 2 ^ 24 + 4 * 60 /\ T 14 = Z.of_nat k).
  { unfold T. cbn [Z.eqb Pos.eqb]. repeat split; try assumption. unfold tsw. rewrite R3. unfold arm_shift. cbn [Z.eqb Pos.eqb fst]. rewrite Z.add_mod_idemp_l by lia. reflexivity. }
  clearbody T. clear R0 R1 R2 R3 R13 R14. clear R. rename T into R. destruct Q as (R0 & R1 & R2 & R3 & R13 & R14).
  (* str r3, [r2, lr, lsl #2] *)
  eapply (s_str temp_code _ _ _ _ _ _ 0xe782310e (3 * 2 ^ 24 + 4 * Z.of_nat k)); [exact Hc | vm_compute; reflexivity | a23_address; rewrite R2, R14; unfold arm_shift; cbn [Z.eqb Pos.eqb fst]; rewrite (Z.mod_small (Z.of_nat k * 2 ^ 2)), Z.mod_small; lia | now apply four_j | change (length temp_code) with 35%nat; lia | ].
  a23_fields. change (68 + 4) with 72. rewrite R3. assert (HN := temp_store k ret M Hk HM).
  set (N := store_word z M (3 * 2 ^ 24 + 4 * Z.of_nat k) (tsw k)) in *. clearbody N. clear HM Hc Hg He Ho Hs M. pose proof HN as [Hc Hg He Ho Hs].
  (* ldr r4, [r0, lr, lsl #2] *)
  eapply (s_ldr temp_code _ _ _ _ _ _ 0xe790410e (2 ^ 24 + 4 * Z.of_nat k)); [exact Hc | vm_compute; reflexivity | a23_address; rewrite R0, R14; unfold arm_shift; cbn [Z.eqb Pos.eqb fst]; rewrite (Z.mod_small (Z.of_nat k * 2 ^ 2)), Z.mod_small; lia | now apply four_j | ].
  a23_fields. change (72 + 4) with 76. rewrite Hg by lia. cbv iota.
  (* mov r5, r4, lsr #31; mov r3, r3, lsr #31 *)
  eapply (s_dp temp_code _ _ _ _ _ _ 0xe1a05fa4); [exact Hc | vm_compute; reflexivity | a23_dp; reflexivity | ]. intros f3 _ _. change (76 + 4) with 80. regs.
  eapply (s_dp temp_code _ _ _ _ _ _ 0xe1a03fa3); [exact Hc | vm_compute; reflexivity | a23_dp; reflexivity | ]. intros f4 _ _. change (80 + 4) with 84. regs.
  match goal with |- reaches _ _ (Arm ?r _ _ _) _ _ => set (T := r) end.
  assert (Q : T 0 = 2 ^ 24 /\ T 1 = 2 * 2 ^ 24 /\ T 2 = 3 * 2 ^ 24 /\ T 3 = tsw k / 2 ^ 31 /\ T 5 = tgw k / 2 ^ 31 /\ T 13 = 4 * 2 ^ 24 + 4 * 60 /\ T 14 = Z.of_nat k).
  { unfold T. cbn [Z.eqb Pos.eqb]. repeat split; try assumption. rewrite R3. reflexivity. }
  clearbody T. clear R0 R1 R2 R3 R13 R14. clear R. rename T into R. destruct Q as (R0 & R1 & R2 & R3 & R5 & R13 & R14).
  (* ldr r12, [r1, lr, lsl #2] *)
  eapply (s_ldr temp_code _ _ _ _ _ _ 0xe791c10e (2 * 2 ^ 24 + 4 * Z.of_nat k)); [exact Hc | vm_compute; reflexivity | a23_address; rewrite R1, R14; unfold arm_shift; cbn [Z.eqb Pos.eqb fst]; rewrite (Z.mod_small (Z.of_nat k * 2 ^ 2)), Z.mod_small; lia | now apply four_j | ].
  a23_fields. change (84 + 4) with 88. rewrite He by lia. cbv iota.
  (* mov r4, r12, lsr #31; eor r6, r5, r3; eor r12, r3, r4 *)
  eapply (s_dp temp_code _ _ _ _ _ _ 0xe1a04fac); [exact Hc | vm_compute; reflexivity | a23_dp; reflexivity | ]. intros f5 _ _. change (88 + 4) with 92. regs.
  eapply (s_dp temp_code _ _ _ _ _ _ 0xe0256003); [exact Hc | vm_compute; reflexivity | a23_dp; reflexivity | ]. intros f6 _ _. change (92 + 4) with 96. regs.
  eapply (s_dp temp_code _ _ _ _ _ _ 0xe023c004); [exact Hc | vm_compute; reflexivity | a23_dp; reflexivity | ]. intros f7 _ _. change (96 + 4) with 100. regs.
  match goal with |- reaches _ _ (Arm ?r _ _ _) _ _ => set (T := r) end.
  assert (Q : T 0 = 2 ^ 24 /\ T 1 = 2 * 2 ^ 24 /\ T 2 = 3 * 2 ^ 24 /\ T 3 = tsw k / 2 ^ 31 /\ T 4 = tew k / 2 ^ 31 /\ T 5 = tgw k / 2 ^ 31 /\ T 6 = Z.lxor (tgw k / 2 ^ 31) (tsw k / 2 ^ 31) /\
    T 12 = Z.lxor (tsw k / 2 ^ 31) (tew k / 2 ^ 31) /\ T 13 = 4 * 2 ^ 24 + 4 * 60 /\ T 14 = Z.of_nat k).
  { unfold T. cbn [Z.eqb Pos.eqb]. unfold arm_shift. cbn [Z.eqb Pos.eqb fst]. rewrite R3, R5. repeat split; assumption. }
  clearbody T. clear R0 R1 R2 R3 R5 R13 R14. clear R. rename T into R. destruct Q as (R0 & R1 & R2 & R3 & R4 & R5 & R6 & R12 & R13 & R14).
  (* and r12, r12, r6 *)
  eapply (s_and temp_code _ _ _ _ _ _ 0xe00cc006); [exact Hc | vm_compute; reflexivity | a23_dp; reflexivity | ]. intros f8. change (100 + 4) with 104. regs.
  (* eor r4, r4, r5; eor r3, r3, r4; eor r3, r3, r12 *)
  eapply (s_dp temp_code _ _ _ _ _ _ 0xe0244005); [exact Hc | vm_compute; reflexivity | a23_dp; reflexivity | ]. intros f9 _ _. change (104 + 4) with 108. regs.
  eapply (s_dp temp_code _ _ _ _ _ _ 0xe0233004); [exact Hc | vm_compute; reflexivity | a23_dp; reflexivity | ]. intros f10 _ _. change (108 + 4) with 112. regs.
  eapply (s_dp temp_code _ _ _ _ _ _ 0xe023300c); [exact Hc | vm_compute; reflexivity | a23_dp; reflexivity | ]. intros f11 _ _. change (112 + 4) with 116. regs.
  match goal with |- reaches _ _ (Arm ?r _ _ _) _ _ => set (T := r) end.
  assert (Q : T 0 = 2 ^ 24 /\ T 1 = 2 * 2 ^ 24 /\ T 2 = 3 * 2 ^ 24 /\ T 3 = carry g e (S k) /\ T 13 = 4 * 2 ^ 24 + 4 * 60 /\ T 14 = Z.of_nat k).
  { unfold T. cbn [Z.eqb Pos.eqb]. unfold arm_shift. cbn [Z.eqb Pos.eqb fst]. rewrite R3, R4, R5, R6, R12. repeat split; try assumption.
    rewrite (has_carry (tgw k) (tew k) (carry g e k) (tsw k) Gk Ek Ck eq_refl). reflexivity. }
  clearbody T. clear R0 R1 R2 R3 R4 R5 R6 R12 R13 R14. clear R. rename T into R. destruct Q as (R0 & R1 & R2 & R3 & R13 & R14).
  (* add lr, lr, #1 *)
  eapply (s_dp temp_code _ _ _ _ _ _ 0xe28ee001); [exact Hc | vm_compute; reflexivity | a23_dp; reflexivity | ]. intros f12 _ _. change (116 + 4) with 120.
  rewrite R14, Z.mod_small by lia.
  (* cmp lr, #32 *)
  eapply (s_dp temp_code _ _ _ _ _ _ 0xe35e0020); [exact Hc | vm_compute; reflexivity | a23_dp; reflexivity | ]. intros f13 _ Hf. change (120 + 4) with 124.
  specialize (Hf eq_refl). assert (E2 : fZ f13 = Nat.eqb (S k) 32).
  { rewrite Hf. a23_dp. regs. apply Bool.eq_true_iff_eq. rewrite Z.eqb_eq, Nat.eqb_eq. split; intros H.
    - apply Z.mod_divide in H; [ | lia]. destruct H as (m & H). nia.
    - replace (Z.of_nat k) with 31 by lia. reflexivity. }
  clear Hf.
  (* bne 52 *)
  eapply (s_branch temp_code _ _ _ _ _ _ 0x1affffec); [exact Hc | vm_compute; reflexivity | | apply r_done].
  { unfold branch, branch_target, holds. a23_fields. rewrite cond_ne. cbn [a_flags]. rewrite E2. cbn [a_regs a_pc a_mem a_flags]. reflexivity. }
  eexists _, _, N. split; [destruct (Nat.eqb (S k) 32); reflexivity | ]. split; [exact HN | ].
  unfold temp_regs. regs. repeat split; first [assumption | lia].
Qed.
Lemma temp_loop ret s : temp_at 52 0 ret s -> reaches z true s (31 * 31 + 31) (temp_at 128 32 ret).
Proof.
  intros H. assert (A : forall k, (k < 32)%nat -> reaches z true s (k * 31) (temp_at 52 k ret)).
  { intros k. induction k as [ | k IH]; intros Hk; [now apply r_done | ]. apply r_eq with (k * 31 + 31)%nat; [lia | ].
    apply r_seq with (temp_at 52 k ret); [apply IH; lia | ]. intros s' Hs. pose proof (temp_body k ret ltac:(lia) s' Hs) as L.
    replace (Nat.eqb (S k) 32) with false in L by (symmetry; apply Nat.eqb_neq; lia). exact L. }
  apply r_seq with (temp_at 52 31 ret); [apply A; lia | ]. intros s' Hs. exact (temp_body 31 ret ltac:(lia) s' Hs).
Qed.
(** ** Before and after the loop *)
Lemma temp_before F : reaches z true (Arm (fun _ => 0) F 0 (mem_init temp_code g e)) 23 (temp_at 52 0 (arm_r15_word F 20)).
Proof.
  assert (Hc : code_at (mem_init temp_code g e) temp_code) by (apply init_code; vm_compute; discriminate).
  assert (Hg : forall j, (j < 32)%nat -> load_word (mem_init temp_code g e) (2 ^ 24 + 4 * Z.of_nat j) = tgw j).
  { intros j Hj. replace (2 ^ 24) with (1 * 2 ^ 24) by lia. rewrite (init_word temp_code g e 1) by (cbn [Z.eqb Pos.eqb]; first [now left | lia | rewrite Lg; lia | exact Wg]).
    unfold tgw. cbn [Z.eqb Pos.eqb]. now rewrite Nat2Z.id. }
  assert (He : forall j, (j < 32)%nat -> load_word (mem_init temp_code g e) (2 * 2 ^ 24 + 4 * Z.of_nat j) = tew j).
  { intros j Hj. rewrite (init_word temp_code g e 2) by (cbn [Z.eqb Pos.eqb]; first [now right | lia | rewrite Le; lia | exact We]).
    unfold tew. cbn [Z.eqb Pos.eqb]. now rewrite Nat2Z.id. }
  set (M := mem_init temp_code g e) in *. clearbody M. a23_prologue temp_code Hc M.
  (* bl 40 *)
  eapply (s_branch temp_code _ _ _ _ _ _ 0xeb000004); [exact Hc | vm_compute; reflexivity | unfold branch, branch_target; rewrite holds_al by reflexivity; a23_fields; cbv iota; cbn [a_regs a_flags a_pc a_mem]; reflexivity | ].
  change (16 + 8 + 16) with 40. change (16 + 4) with 20.
  (* push {r4, r5, r6, lr} *)
  eapply (s_multi temp_code _ _ _ _ _ _ 0xe92d4070) with (n := 2%nat); [exact Hc | vm_compute; reflexivity | | | | | ].
  { split; [reflexivity | ]. split; [reflexivity | ]. split; [vm_compute; discriminate | ]. split; [vm_compute; discriminate | ]. vm_compute. split; [reflexivity | reflexivity]. }
  { unfold multi, multi_start, multi_base. rewrite holds_al by reflexivity. a23_fields. cbn [length store_regs]. a23_fields. cbv iota zeta. unfold first_reg. cbn [a_regs a_flags a_pc a_mem Z.eqb Pos.eqb]. regs.
    change ((67109120 - 4 * Z.of_nat 4) mod 2 ^ 32) with (4 * 2 ^ 24 + 4 * 60).
    change ((4 * 2 ^ 24 + 4 * 60 + 4) mod 2 ^ 32) with (4 * 2 ^ 24 + 4 * 61). change ((4 * 2 ^ 24 + 4 * 61 + 4) mod 2 ^ 32) with (4 * 2 ^ 24 + 4 * 62).
    change ((4 * 2 ^ 24 + 4 * 62 + 4) mod 2 ^ 32) with (4 * 2 ^ 24 + 4 * 63). reflexivity. }
  { cbn [a_mem]. repeat (apply store_code; [ | change (length temp_code) with 35%nat; lia | reflexivity]). exact Hc. }
  { cbn [a_pc]. split; [lia | split; [reflexivity | lia]]. }
  change (40 + 4) with 44.
  match goal with |- reaches _ _ (Arm _ _ _ ?m) _ _ => set (N := m) end.
  assert (HN : temp_mem 0 (arm_r15_word F 20) N).
  { unfold N. constructor.
    - repeat (apply store_code; [ | change (length temp_code) with 35%nat; lia | reflexivity]). exact Hc.
    - intros j Hj. do 4 (rewrite load_store_other; [ | reflexivity | now apply four_j | lia]). now apply Hg.
    - intros j Hj. do 4 (rewrite load_store_other; [ | reflexivity | now apply four_j | lia]). now apply He.
    - lia.
    - apply load_store_same; [ | reflexivity | lia | ].
      + eapply stack_writable; first [eassumption | lia].
      + unfold arm_r15_word. destruct F as [[] [] [] []]; cbn [fN fZ fC fV Z.b2z]; lia. }
  clearbody N. clear Hc Hg He M. assert (Hc := tm_code _ _ _ HN).
  (* mov lr, #0; mov r3, lr *)
  eapply (s_dp temp_code _ _ _ _ _ _ 0xe3a0e000); [exact Hc | vm_compute; reflexivity | a23_dp; reflexivity | ]. intros f1 _ _. change (44 + 4) with 48.
  eapply (s_dp temp_code _ _ _ _ _ _ 0xe1a0300e); [exact Hc | vm_compute; reflexivity | a23_dp; reflexivity | ]. intros f2 _ _. change (48 + 4) with 52.
  apply r_done. eexists _, _, N. split; [reflexivity | ]. split; [exact HN | ]. unfold temp_regs. regs. repeat split.
Qed.
Definition temp_over (s : arm) : Prop := a_pc s = 20 /\ code_at (a_mem s) temp_code /\ forall j, (j < 32)%nat -> load_word (a_mem s) (3 * 2 ^ 24 + 4 * Z.of_nat j) = tsw j.
Lemma temp_after ret s : word_pc ret = 20 -> temp_at 128 32 ret s -> reaches z true s 8 temp_over.
Proof.
  intros Hr (R & F & M & -> & HM & (R0 & R1 & R2 & R3 & R13 & R14)). pose proof HM as [Hc Hg He Ho Hs].
  (* pop {r4, r5, r6, pc} *)
  eapply (s_multi temp_code _ _ _ _ _ _ 0xe8bd8070) with (n := O); [exact Hc | vm_compute; reflexivity | | | | | ].
  { split; [reflexivity | ]. split; [reflexivity | ]. split; [vm_compute; discriminate | ]. split; [vm_compute; discriminate | ]. intros _. now rewrite holds_al by reflexivity. }
  { unfold multi, multi_start, multi_base. rewrite holds_al by reflexivity. a23_fields. cbn [length load_regs]. cbv iota zeta. unfold first_reg. cbn [a_regs a_flags a_pc a_mem Z.eqb Pos.eqb]. regs. rewrite R13.
    change ((4 * 2 ^ 24 + 4 * 60) mod 2 ^ 32) with (4 * 2 ^ 24 + 4 * 60).
    change ((4 * 2 ^ 24 + 4 * 60 + 4) mod 2 ^ 32) with (4 * 2 ^ 24 + 4 * 61). change ((4 * 2 ^ 24 + 4 * 61 + 4) mod 2 ^ 32) with (4 * 2 ^ 24 + 4 * 62).
    change ((4 * 2 ^ 24 + 4 * 62 + 4) mod 2 ^ 32) with (4 * 2 ^ 24 + 4 * 63). rewrite Hs, Hr. reflexivity. }
  { exact Hc. }
  { cbn [a_pc]. split; [lia | split; [reflexivity | lia]]. }
  apply r_done. split; [reflexivity | ]. split; [exact Hc | exact Ho].
Qed.
Lemma temp_stays s : temp_over s -> reaches z true s 3 temp_over.
Proof.
  intros (P & Hc & Ho). destruct s as [R F pc M]. cbn [a_pc a_mem] in *. subst pc.
  eapply (s_branch temp_code _ _ _ _ _ _ 0xeafffffe); [exact Hc | vm_compute; reflexivity | | apply r_done].
  - unfold branch, branch_target. rewrite holds_al by reflexivity. a23_fields. cbv iota. cbn [a_regs a_flags a_pc a_mem]. reflexivity.
  - split; [reflexivity | split; [exact Hc | exact Ho]].
Qed.
Lemma temp_runs F m : reaches z true (Arm (fun _ => 0) F 0 (mem_init temp_code g e)) (1023 + 3 * m) temp_over.
Proof.
  induction m as [ | m IH].
  - apply r_eq with (23 + (31 * 31 + 31 + 8))%nat; [reflexivity | ]. apply r_seq with (temp_at 52 0 (arm_r15_word F 20)); [apply temp_before | ].
    intros s1 H1. apply r_seq with (temp_at 128 32 (arm_r15_word F 20)); [now apply temp_loop | ]. intros s2 H2. apply (temp_after (arm_r15_word F 20)); [ | exact H2].
    unfold word_pc, arm_r15_word. destruct F as [[] [] [] []]; reflexivity.
  - apply r_eq with (1023 + 3 * m + 3)%nat; [lia | ]. apply r_seq with temp_over; [exact IH | ]. intros s Hs. now apply temp_stays.
Qed.
Lemma temp_outputs M : (forall j, (j < 32)%nat -> load_word M (3 * 2 ^ 24 + 4 * Z.of_nat j) = tsw j) -> number (outputs M 32) = (number g + number e) mod 2 ^ 1024.
Proof.
  intros Ho. assert (E : outputs M 32 = map tsw (seq 0 32)).
  { apply map_ext_in. intros k Hk. apply in_seq in Hk. apply Ho. lia. }
  rewrite E. assert (S : number (map tsw (seq 0 32)) + 2 ^ (32 * Z.of_nat 32) * carry g e 32 = number (map tgw (seq 0 32)) + number (map tew (seq 0 32))) by (apply (sum_number g e); assumption).
  assert (Eg : map tgw (seq 0 32) = g) by (rewrite <- Lg; apply map_nth_seq). assert (Ee : map tew (seq 0 32) = e) by (rewrite <- Le; apply map_nth_seq). rewrite Eg, Ee in S.
  change (32 * Z.of_nat 32) with 1024 in S. apply Z.mod_unique with (carry g e 32); [left | lia]. change 1024 with (32 * Z.of_nat 32).
  rewrite <- (seq_length 32 0) at 3. rewrite <- (map_length tsw). apply number_range. apply Forall_forall. intros w Hw. apply in_map_iff in Hw. destruct Hw as (k & <- & _). apply Z.mod_pos_bound. lia.
Qed.
End Temp.
(** After 1024 cycles, and whenever the processor is back at the branch to itself, the output is the
    sum of the two numbers *)
Theorem temp_program z g e m (p := run z (1024 + 3 * m) (reset (mem_init temp_code g e))) :
  length g = 32%nat -> length e = 32%nat -> Forall is_word g -> Forall is_word e -> 32 <= out_size z -> 64 <= stack_size z ->
  terminate p = true /\ number (outputs (mem p) 32) = (number g + number e) mod 2 ^ 1024.
Proof.
  intros Lg Le Wg We Zo Zs. unfold p. replace (1024 + 3 * m)%nat with (1 + (1023 + 3 * m))%nat by lia. rewrite run_app. change (run z 1 ?q) with (step z q).
  destruct (reset_ready z (mem_init temp_code g e) (init_range _ _ _)) as [R I].
  destruct (temp_runs z g e Lg Le Wg We Zo Zs _ m _ R (fun _ => I)) as (s & (P & _ & Ho) & R' & _).
  split; [exact (ready_terminate _ s R' P) | ]. rewrite <- (temp_outputs g e Lg Le (a_mem s) Ho). f_equal. apply map_ext. intros k.
  pose proof R' as (_ & _ & _ & _ & _ & Hm & _). unfold load_word. now rewrite !Hm.
Qed.
(** A carry through all the words *)
Lemma temp_case_words : Forall is_word (repeat (2 ^ 32 - 1) 31 ++ [2 ^ 31]) /\ Forall is_word (1 :: repeat 0 30 ++ [1]).
Proof.
  assert (W : forall v n, is_word v -> Forall is_word (repeat v n)) by (intros v n Hv; apply Forall_forall; intros w Hw; apply repeat_spec in Hw; now subst w).
  split.
  - apply Forall_app. split; [apply W; unfold is_word; lia | ]. constructor; [unfold is_word; lia | constructor].
  - constructor; [unfold is_word; lia | ]. apply Forall_app. split; [apply W; unfold is_word; lia | ]. constructor; [unfold is_word; lia | constructor].
Qed.
Lemma temp_case_sum : (number (repeat (2 ^ 32 - 1) 31 ++ [2 ^ 31]) + number (1 :: repeat 0 30 ++ [1])) mod 2 ^ 1024 = (2 ^ 31 + 2) * 2 ^ 992.
Proof. vm_compute. reflexivity. Qed.
Lemma temp_case m (p := run (Sizes 64 64 64 64 64) (1024 + 3 * m) (reset (mem_init temp_code (repeat (2 ^ 32 - 1) 31 ++ [2 ^ 31]) (1 :: repeat 0 30 ++ [1])))) :
  terminate p = true /\ number (outputs (mem p) 32) = (2 ^ 31 + 2) * 2 ^ 992.
Proof.
  rewrite <- temp_case_sum. apply temp_program; [reflexivity | reflexivity | exact (proj1 temp_case_words) | exact (proj2 temp_case_words) | discriminate | discriminate].
Qed.
