(** The processor a23 executes the instructions of ARM. *)
From Coq Require Import ZArith List Bool Lia.
From Verif Require Import RtlA23 RtlA23Units.
Import ListNotations.
Open Scope Z_scope.

(** * Specification: the state of the architecture, and the instructions *)
(** r0 to r14, the flags, the address of the next instruction, the memory *)
Record arm : Type := Arm { a_regs : Z -> Z; a_flags : flags; a_pc : Z; a_mem : memory }.
(** r15 is the address of the instruction plus 8; as the second operand, and when it is saved, with
    the flags in the high bits and the mode in the bits 27 and 26 (and 1, 0, which stay 0 here) *)
Definition arm_r15_word (f : flags) (pc : Z) : Z :=
  2 ^ 31 * Z.b2z (fN f) + 2 ^ 30 * Z.b2z (fZ f) + 2 ^ 29 * Z.b2z (fC f) + 2 ^ 28 * Z.b2z (fV f) + 3 * 2 ^ 26 + pc.
Definition first_reg (s : arm) (r : Z) : Z := if r =? 15 then a_pc s + 8 else a_regs s r.
Definition second_reg (s : arm) (r : Z) : Z := if r =? 15 then arm_r15_word (a_flags s) (a_pc s + 8) else a_regs s r.
Definition rotate_right (x n : Z) : Z := x / 2 ^ n + (x * 2 ^ (32 - n)) mod 2 ^ 32.
(** A register shifted by a constant; the amount 0 stands for 32 places, and for RRX, but for LSL *)
Definition shifted_const (ty x n : Z) (c : bool) : Z * bool :=
  if n =? 0 then
    if ty =? 0 then (x, c) else if ty =? 3 then (x / 2 + Z.b2z c * 2 ^ 31, Z.testbit x 0) else arm_shift ty x 32 c
  else arm_shift ty x n c.
(** The second operand and the carry of the shifter *)
Definition operand (s : arm) (i : Z) : Z * bool :=
  let c := fC (a_flags s) in
  if tb i 25 then
    let v := rotate_right (bits i 7 0) (2 * bits i 11 8) in (v, if bits i 11 8 =? 0 then c else Z.testbit v 31)
  else
    let x := second_reg s (bits i 3 0) in
    if tb i 4 then arm_shift (bits i 6 5) x (first_reg s (bits i 11 8) mod 256) c
    else shifted_const (bits i 6 5) x (bits i 11 7) c.
(** The condition of an instruction: EQ, CS, MI, VS, HI, GE, GT, AL, and the opposite of each after it *)
Definition arm_condition (c : Z) (f : flags) : bool :=
  let b := match c / 2 with
           | 0 => fZ f | 1 => fC f | 2 => fN f | 3 => fV f
           | 4 => fC f && negb (fZ f) | 5 => Bool.eqb (fN f) (fV f) | 6 => negb (fZ f) && Bool.eqb (fN f) (fV f) | _ => true
           end in
  if Z.odd c then negb b else b.
Definition holds (s : arm) (i : Z) : bool := arm_condition (bits i 31 28) (a_flags s).
Definition put (r : Z -> Z) (n v : Z) : Z -> Z := fun k => if k =? n then v else r k.

(** * Proofs *)
(** ** The processor between two instructions *)
Definition pc_ok (a : Z) : Prop := 0 <= a /\ a mod 4 = 0 /\ a + 8 < 2 ^ 26.
Definition well (s : arm) : Prop :=
  (forall r, 0 <= r < 15 -> 0 <= a_regs s r < 2 ^ 32) /\ (forall a, 0 <= a_mem s a < 256) /\ pc_ok (a_pc s).
(** The execute stage when the instruction at a_pc s reaches it *)
Definition settled (x : executer) (s : arm) : Prop :=
  (forall r, 0 <= r < 15 -> regs x r = a_regs s r) /\ status x = a_flags s /\ pc_of (r15 x) = a_pc s + 8 /\
  address x = a_pc s + 8 /\ write_enable x = false.
Definition exe_nxt (p : processor) : executer := executer_nxt (ctl p) (exe p) (read_data (dec p)) (alignment (dec p)).
(** The instruction at a_pc s is being decoded, while the one before it finishes *)
Definition ready (p : processor) (s : arm) : Prop :=
  well s /\ valid (control_state (dec p)) = true /\ instruction (dec p) = mem_read (a_mem s) (a_pc s) /\
  address (exe p) = a_pc s + 4 /\ write_enable (exe p) = false /\ (forall a, mem p a = a_mem s a) /\ settled (exe_nxt p) s.

(** ** Lemmas on the model *)
Lemma mem_read_ext m m' a : (forall x, m x = m' x) -> mem_read m a = mem_read m' a.
Proof. intros H. unfold mem_read, word_at. now rewrite !H. Qed.
Lemma bits_align w : 0 <= w < 2 ^ 32 -> w mod 4 = 0 -> 4 * bits w 31 2 = w.
Proof.
  intros Hw E. unfold bits. change (2 ^ 2) with 4. change (31 - 2 + 1) with 30. rewrite Z.mod_small.
  - pose proof (Z.div_mod w 4). lia.
  - split; [apply Z.div_pos; lia | apply Z.div_lt_upper_bound; lia].
Qed.
Lemma mem_read_align m w : mem_read m (4 * bits w 31 2) = mem_read m w.
Proof.
  assert (H := bits_range w 31 2 ltac:(lia)). change (31 - 2 + 1) with 30 in H. unfold mem_read.
  rewrite (bits_align (4 * bits w 31 2)); [ | lia | rewrite Z.mul_comm; apply Z.mod_mul; lia].
  replace (bits (4 * bits w 31 2) 31 24) with (bits w 31 24); [reflexivity | ].
  apply tb_ext with 8; [lia | apply (bits_range w 31 24); lia | apply (bits_range (4 * bits w 31 2) 31 24); lia | ]. intros j Hj.
  rewrite !(tb_bits _ 31 24) by lia. replace (j <=? 31 - 24) with true by (symmetry; apply Z.leb_le; lia).
  replace (4 * bits w 31 2) with (catz (bits w 31 2) 2 0) by (unfold catz; lia). rewrite tb_catz by lia.
  replace (24 + j <? 2) with false by (symmetry; apply Z.ltb_ge; lia). rewrite tb_bits by lia.
  replace (24 + j - 2 <=? 31 - 2) with true by (symmetry; apply Z.leb_le; lia). f_equal. lia.
Qed.
Lemma word_range m a : (forall x, 0 <= m x < 256) -> 0 <= word_at m a < 2 ^ 32.
Proof. intros H. unfold word_at, catz. pose proof (H a). pose proof (H (a + 1)). pose proof (H (a + 2)). pose proof (H (a + 3)). lia. Qed.
Lemma mem_read_range m a : (forall x, 0 <= m x < 256) -> 0 <= mem_read m a < 2 ^ 32.
Proof. intros H. unfold mem_read. destruct (_ <=? 4); [now apply word_range | lia]. Qed.
Lemma valid_cases cs : valid cs = true -> cs = EXECUTE \/ cs = PRE_FETCH_EXEC.
Proof. unfold valid. rewrite orb_true_iff, !Z.eqb_eq. auto. Qed.
Lemma one_hot_tb sel r : 0 <= sel -> 0 <= r < 15 -> tb (one_hot sel) r = (r =? sel).
Proof.
  intros. unfold one_hot, tb. destruct (Z.ltb_spec sel 15).
  - rewrite Z.pow2_bits_eqb by lia. apply Z.eqb_sym.
  - rewrite Z.bits_0. symmetry. apply Z.eqb_neq. lia.
Qed.
Lemma nibble w h l : h = l + 3 -> 0 <= bits w h l < 16.
Proof. intros ->. pose proof (bits_range w (l + 3) l ltac:(lia)) as H. replace (l + 3 - l + 1) with 4 in H by lia. exact H. Qed.
Lemma holds_eq s i : conditional_execute (bits i 31 28) (a_flags s) = holds s i.
Proof.
  unfold holds. assert (H := nibble i 31 28 eq_refl). apply opcodes in H. cbn in H. destruct (a_flags s) as [[] [] [] []].
  all: repeat destruct H as [<- | H]; try reflexivity; destruct H.
Qed.
(** The fields of the state after the edge *)
Section Next.
Variables (k : control) (x : executer) (rdata align : Z).
Let out := fst (alu_both k x rdata align).
Let f := snd (alu_both k x rdata align).
Lemma nxt_regs r : regs (executer_nxt k x rdata align) r = if executes k x && tb (reg_bank_wen k) r then reg_write_nxt k x out else regs x r.
Proof. unfold executer_nxt, out. now destruct (alu_both k x rdata align). Qed.
Lemma nxt_status : status (executer_nxt k x rdata align) = if executes k x && flags_wen k then status_nxt k x out f else status x.
Proof. unfold executer_nxt, out, f. now destruct (alu_both k x rdata align). Qed.
Lemma nxt_r15 : r15 (executer_nxt k x rdata align) = if pc_wen k then bits (pc_nxt k x out) 25 2 else r15 x.
Proof. unfold executer_nxt, out. now destruct (alu_both k x rdata align). Qed.
Lemma nxt_address : address (executer_nxt k x rdata align) = address_nxt k x out.
Proof. unfold executer_nxt, out. now destruct (alu_both k x rdata align). Qed.
Lemma nxt_write : write_enable (executer_nxt k x rdata align) = executes k x && write_data_wen k.
Proof. unfold executer_nxt. now destruct (alu_both k x rdata align). Qed.
Lemma nxt_data : write_data (executer_nxt k x rdata align) = write_data_nxt k x (bits (pc_nxt k x out) 25 2).
Proof. unfold executer_nxt, out. now destruct (alu_both k x rdata align). Qed.
Lemma nxt_bytes : byte_enable (executer_nxt k x rdata align) = byte_enable_nxt k (address_nxt k x out).
Proof. unfold executer_nxt, out. now destruct (alu_both k x rdata align). Qed.
Lemma nxt_product : product (executer_nxt k x rdata align) = product_nxt k x.
Proof. unfold executer_nxt. now destruct (alu_both k x rdata align). Qed.
Lemma nxt_count : count (executer_nxt k x rdata align) = count_nxt k x.
Proof. unfold executer_nxt. now destruct (alu_both k x rdata align). Qed.
End Next.
Lemma bits_pc a : 0 <= a < 2 ^ 26 -> a mod 4 = 0 -> 4 * bits a 25 2 = a.
Proof.
  intros Ha E. unfold bits. change (2 ^ 2) with 4. change (25 - 2 + 1) with 24. rewrite Z.mod_small.
  - pose proof (Z.div_mod a 4). lia.
  - split; [apply Z.div_pos; lia | apply Z.div_lt_upper_bound; lia].
Qed.
Lemma w32_small a : 0 <= a < 2 ^ 32 -> w32 a = a.
Proof. apply Z.mod_small. Qed.
(** The values of the registers, in the execute stage *)
Lemma settled_first x s r : settled x s -> 0 <= r < 16 -> rn_of x r = first_reg s r /\ rs_of x r = first_reg s r.
Proof.
  intros (R & F & P & _) Hr. unfold rn_of, rs_of, first_reg. destruct (Z.eqb_spec r 15); [now rewrite P | ]. rewrite R by lia. auto.
Qed.
Lemma settled_second x s r : settled x s -> 0 <= r < 16 -> rm_of x r = second_reg s r.
Proof.
  intros (R & F & P & _) Hr. unfold rm_of, second_reg. destruct (Z.eqb_spec r 15); [ | apply R; lia].
  unfold pc_word, arm_r15_word, catz, word_of_flags. unfold pc_of in P. rewrite F, P. lia.
Qed.
Lemma first_range s r : well s -> 0 <= r < 16 -> 0 <= first_reg s r < 2 ^ 32.
Proof.
  intros (R & _ & (P1 & _ & P2)) Hr. unfold first_reg. destruct (Z.eqb_spec r 15); [lia | apply R; lia].
Qed.
Lemma second_range s r : well s -> 0 <= r < 16 -> 0 <= second_reg s r < 2 ^ 32.
Proof.
  intros (R & _ & (P1 & _ & P2)) Hr. unfold second_reg. destruct (Z.eqb_spec r 15); [ | apply R; lia].
  unfold arm_r15_word. destruct (a_flags s) as [[] [] [] []]; cbn [fN fZ fC fV Z.b2z]; lia.
Qed.
(** The cycle that decodes: nothing is written to memory, the word after the instruction is fetched *)
Lemma decode_cycle z p s : ready p s ->
  let q := step z p in
  exe q = exe_nxt p /\ settled (exe q) s /\ (forall a, mem q a = a_mem s a) /\
  read_data (dec q) = mem_read (a_mem s) (a_pc s + 4) /\
  ctl q = control_nxt (dec p) (ctl p) (address (exe p)) /\
  dec q = decoder_nxt (dec p) (address (exe p)) (mem_read (a_mem s) (a_pc s + 4)).
Proof.
  intros (W & V & I & Ad & We & M & S). cbv zeta.
  assert (E : mem_read (mem p) (4 * bits (address (exe p)) 31 2) = mem_read (a_mem s) (a_pc s + 4)).
  { rewrite mem_read_align, Ad. now apply mem_read_ext. }
  repeat split; try apply S.
  - intros a. cbn. rewrite We. cbn. apply M.
  - exact E.
  - unfold step. cbn [dec]. now rewrite E.
Qed.
(** The instruction that is in the execute stage has a next instruction at A + 4, whose address is
    on the bus already *)
Lemma ready_next p s R F M :
  well (Arm R F (a_pc s + 4) M) -> valid (control_state (dec p)) = true -> instruction (dec p) = mem_read M (a_pc s + 4) ->
  address (exe p) = a_pc s + 8 -> pc_of (r15 (exe p)) = a_pc s + 8 -> write_enable (exe p) = false -> (forall a, mem p a = M a) ->
  pc_wen (ctl p) = true -> pc_sel (ctl p) = 0 -> address_sel (ctl p) = 0 -> write_data_wen (ctl p) = false ->
  (forall r, 0 <= r < 15 -> regs (exe_nxt p) r = R r) -> status (exe_nxt p) = F ->
  ready p (Arm R F (a_pc s + 4) M).
Proof.
  intros W V I Ad P We Hm Pw Ps As Ww HR HF. pose proof W as (_ & _ & (P1 & P2 & P3)). cbn in P1, P2, P3.
  split; [exact W | ]. split; [exact V | ]. split; [exact I | ]. split; [cbn; lia | ]. split; [exact We | ]. split; [exact Hm | ].
  assert (E : a_pc s + 8 + 4 = a_pc s + 4 + 8) by lia.
  split; [exact HR | ]. split; [exact HF | ]. cbn [a_pc]. unfold exe_nxt. split; [ | split].
  - rewrite nxt_r15, Pw. unfold pc_nxt. rewrite Ps, P. cbn [Z.eqb]. rewrite w32_small by lia. unfold pc_of. rewrite bits_pc; [lia | lia | ].
    rewrite E, <- Z.add_mod_idemp_l, P2 by lia. reflexivity.
  - rewrite nxt_address. unfold address_nxt. rewrite As, P. cbn [Z.eqb]. rewrite w32_small; lia.
  - rewrite nxt_write, Ww. apply andb_false_r.
Qed.

(** ** Data processing *)
(** An instruction of data processing, as ARM encodes it: the bits 27 and 26 are 0, and it is not one
    of those that have 1 in the bits 7 and 4; the comparisons set the flags; here the destination is
    not r15 *)
Definition dp_form (i : Z) : Prop :=
  bits i 27 26 = 0 /\ (tb i 25 = true \/ tb i 4 = false \/ tb i 7 = false) /\
  (is_compare (bits i 24 21) = true -> tb i 20 = true) /\ bits i 15 12 <> 15.
(** The shifts that the processor supports *)
Definition shift_supported (s : arm) (i : Z) : Prop :=
  if tb i 25 then True
  else if tb i 4 then first_reg s (bits i 11 8) mod 256 < 32 \/ bits i 6 5 = 3
  else bits i 11 7 <> 0 \/ bits i 6 5 = 0.
(** No shift of a register *)
Definition unshifted (s : arm) (i : Z) : Prop :=
  tb i 25 = false /\ (if tb i 4 then first_reg s (bits i 11 8) mod 256 else bits i 11 7) = 0.
Lemma div_pow a m n : 0 <= m -> 0 <= n -> a / 2 ^ (m + n) = a / 2 ^ m / 2 ^ n.
Proof. intros. rewrite Z.pow_add_r by lia. rewrite Z.div_div; [reflexivity | pose proof (pow_pos m); lia | pose proof (pow_pos n); lia]. Qed.
Lemma bits_tb w h l j : 0 <= l <= j -> j <= h -> tb w j = tb (bits w h l) (j - l).
Proof. intros. rewrite tb_bits by lia. replace (j - l <=? h - l) with true by (symmetry; apply Z.leb_le; lia). f_equal. lia. Qed.
Lemma not_nine i : tb i 4 = false \/ tb i 7 = false -> bits i 7 4 =? 9 = false.
Proof.
  intros H. apply Z.eqb_neq. intros E. rewrite (bits_tb i 7 4 4), (bits_tb i 7 4 7), E in H by lia. destruct H; discriminate.
Qed.
Lemma part_zero w h l h' l' : 0 <= l -> l <= l' -> h' <= h -> l' <= h' -> bits w h l = 0 -> bits w h' l' = 0.
Proof.
  intros H1 H2 H3 H4 E. apply Z.bits_inj'. intros j Hj. rewrite Z.bits_0. change (tb (bits w h' l') j = false).
  rewrite tb_bits by lia. destruct (Z.leb_spec j (h' - l')); [ | reflexivity]. rewrite (bits_tb w h l) by lia. rewrite E. apply Z.bits_0.
Qed.
Lemma regop_type i : bits i 27 26 = 0 -> tb i 25 = true \/ tb i 4 = false \/ tb i 7 = false -> itype i = REGOP.
Proof.
  intros E H. unfold itype. assert (T : tb i 25 = true -> (bits i 27 23 =? 2) = false /\ (bits i 27 22 =? 0) = false).
  { intros T. rewrite (bits_tb i 27 23) in T by lia. split; apply Z.eqb_neq; intros E'.
    - rewrite E' in T. discriminate.
    - rewrite (part_zero i 27 22 27 23) in T by (try lia; assumption). discriminate. }
  rewrite E. cbn [Z.eqb]. destruct H as [H | H].
  - destruct (T H) as [-> ->]. reflexivity.
  - rewrite (not_nine i H). now rewrite !andb_false_r.
Qed.
Lemma rotated_imm_ok rot imm8 : 0 <= rot < 16 -> 0 <= imm8 < 256 -> rotated_imm rot imm8 = rotate_right imm8 (2 * rot).
Proof.
  intros Hr Hi. unfold rotated_imm, rotate_right, catz.
  assert (S : forall k, 0 <= k -> 8 <= k -> imm8 / 2 ^ k = 0).
  { intros k H1 H2. apply Z.div_small. split; [lia | ]. apply Z.lt_le_trans with (2 ^ 8); [lia | apply Z.pow_le_mono_r; lia]. }
  assert (B : forall h, In h [1; 3; 5] -> bits imm8 h 0 * 2 ^ (31 - h) = (imm8 * 2 ^ (31 - h)) mod 2 ^ 32).
  { intros h Hh. cbn in Hh. unfold bits. rewrite Z.div_1_r. destruct Hh as [<- | [<- | [<- | []]]].
    - change (2 ^ 32) with (2 ^ 2 * 2 ^ 30). rewrite <- Z.mul_mod_distr_r by lia. reflexivity.
    - change (2 ^ 32) with (2 ^ 4 * 2 ^ 28). rewrite <- Z.mul_mod_distr_r by lia. reflexivity.
    - change (2 ^ 32) with (2 ^ 6 * 2 ^ 26). rewrite <- Z.mul_mod_distr_r by lia. reflexivity. }
  assert (C : forall l, In l [2; 4; 6] -> bits imm8 7 l = imm8 / 2 ^ l).
  { intros l Hl. cbn in Hl. unfold bits. apply Z.mod_small. destruct Hl as [<- | [<- | [<- | []]]];
      (split; [apply Z.div_pos; lia | apply Z.div_lt_upper_bound; lia]). }
  apply opcodes in Hr. cbn in Hr. repeat destruct Hr as [<- | Hr]; try (destruct Hr; fail); cbn [Z.eqb Pos.eqb].
  - change (2 * 0) with 0. change (32 - 0) with 32. rewrite Z.mod_mul by lia. rewrite Z.div_1_r. lia.
  - change (2 * 1) with 2. change (32 - 2) with (31 - 1). rewrite <- B, C by (cbn; tauto). change (31 - 1) with 30. lia.
  - change (2 * 2) with 4. change (32 - 4) with (31 - 3). rewrite <- B, C by (cbn; tauto). change (31 - 3) with 28. lia.
  - change (2 * 3) with 6. change (32 - 6) with (31 - 5). rewrite <- B, C by (cbn; tauto). change (31 - 5) with 26. lia.
  - change (2 * 4) with 8. rewrite S by lia. change (32 - 8) with 24. rewrite Z.mod_small by lia. lia.
  - change (2 * 5) with 10. rewrite S by lia. change (32 - 10) with 22. rewrite Z.mod_small by lia. lia.
  - change (2 * 6) with 12. rewrite S by lia. change (32 - 12) with 20. rewrite Z.mod_small by lia. lia.
  - change (2 * 7) with 14. rewrite S by lia. change (32 - 14) with 18. rewrite Z.mod_small by lia. lia.
  - change (2 * 8) with 16. rewrite S by lia. change (32 - 16) with 16. rewrite Z.mod_small by lia. lia.
  - change (2 * 9) with 18. rewrite S by lia. change (32 - 18) with 14. rewrite Z.mod_small by lia. lia.
  - change (2 * 10) with 20. rewrite S by lia. change (32 - 20) with 12. rewrite Z.mod_small by lia. lia.
  - change (2 * 11) with 22. rewrite S by lia. change (32 - 22) with 10. rewrite Z.mod_small by lia. lia.
  - change (2 * 12) with 24. rewrite S by lia. change (32 - 24) with 8. rewrite Z.mod_small by lia. lia.
  - change (2 * 13) with 26. rewrite S by lia. change (32 - 26) with 6. rewrite Z.mod_small by lia. lia.
  - change (2 * 14) with 28. rewrite S by lia. change (32 - 28) with 4. rewrite Z.mod_small by lia. lia.
  - change (2 * 15) with 30. rewrite S by lia. change (32 - 30) with 2. rewrite Z.mod_small by lia. lia.
Qed.
Lemma rotated_range rot imm8 : 0 <= rot < 16 -> 0 <= imm8 < 256 -> 0 <= rotate_right imm8 (2 * rot) < 2 ^ 32.
Proof.
  intros Hr Hi. rewrite <- rotated_imm_ok by assumption. unfold rotated_imm, catz.
  assert (B1 : 0 <= bits imm8 1 0 < 4) by (apply (bits_range imm8 1 0); lia).
  assert (B2 : 0 <= bits imm8 3 0 < 16) by (apply (bits_range imm8 3 0); lia).
  assert (B3 : 0 <= bits imm8 5 0 < 64) by (apply (bits_range imm8 5 0); lia).
  assert (B4 : 0 <= bits imm8 7 2 < 64) by (apply (bits_range imm8 7 2); lia).
  assert (B5 : 0 <= bits imm8 7 4 < 16) by (apply (bits_range imm8 7 4); lia).
  assert (B6 : 0 <= bits imm8 7 6 < 4) by (apply (bits_range imm8 7 6); lia).
  apply opcodes in Hr. cbn in Hr. repeat destruct Hr as [<- | Hr]; try (destruct Hr; fail); cbn [Z.eqb Pos.eqb]; try lia.
  all: match goal with |- context [2 ^ ?e] => let v := eval vm_compute in e in change e with v end; lia.
Qed.
(** What the decoder makes of it *)
Lemma dp_control d k a (i := instruction d) : valid (control_state d) = true -> itype i = REGOP -> bits i 15 12 <> 15 ->
  control_nxt d k a =
  Control (rotated_imm (bits i 11 8) (bits i 7 0)) (bits i 11 7) (bits i 31 28) (bits i 3 0)
    (if negb (tb i 25) && tb i 4 then bits i 11 8 else bits i 15 12) (bits i 19 16)
    (if tb i 25 then 0 else if tb i 4 then 1 else 2) (if tb i 25 then 0 else 2) (if tb i 25 then 0 else bits i 6 5) (alu_code (bits i 24 21))
    (if one_of (bits i 24 21) [4; 11; 5] then shift_extend i else one_of (bits i 24 21) [6; 7; 1; 9; 12; 14; 13; 15]) false false
    0 0 0 (if is_logic (bits i 24 21) then 5 else 0) 0 false true
    (one_hot (if is_compare (bits i 24 21) then 15 else bits i 15 12)) (tb i 20).
Proof.
  intros V T N. unfold control_nxt. fold i. unfold imm32_nxt, rds_nxt, rn_nxt, shift_amount_sel_nxt, shift_data_sel_nxt, shift_function_nxt,
    use_carry_in_nxt, mult_enable_nxt, mult_accumulate_nxt, address_sel_nxt, pc_sel_nxt, byte_enable_sel_nxt, status_bits_sel_nxt, reg_write_sel_nxt,
    write_data_wen_nxt, pc_wen_nxt, reg_bank_wsel_nxt, flags_wen_nxt, load_op, opcode_compare, opcode, shift_imm. rewrite decoded_alu by assumption.
  rewrite T, V. cbn [is_regop is_mult is_trans is_mtrans is_branch andb orb].
  assert (E15 : bits i 15 12 =? 15 = false) by now apply Z.eqb_neq. rewrite E15.
  destruct (valid_cases _ V) as [-> | ->];
    cbn [one_of existsb Z.eqb Pos.eqb EXECUTE PRE_FETCH_EXEC MEM_WAIT1 MEM_WAIT2 MTRANS_EXEC1 MTRANS_EXEC2 MTRANS_EXEC3 MTRANS_EXEC3B MTRANS_EXEC4 MULT_PROC1 MULT_PROC2 MULT_STORE andb orb negb];
    rewrite ?andb_false_r, ?andb_true_r, ?orb_false_r; cbn [andb orb negb];
    unfold is_logic, is_compare, one_of; fold i;
    (f_equal; [now destruct (tb i 25), (tb i 4) | now destruct (tb i 25) | now destruct (tb i 25) | ..]).
  all: try reflexivity.
  all: f_equal; cbn [existsb];
    destruct (bits i 24 21 =? 8), (bits i 24 21 =? 9), (bits i 24 21 =? 10), (bits i 24 21 =? 11); rewrite ?orb_false_r; reflexivity.
Qed.
Lemma dp_state cs i d2 : valid cs = true -> itype i = REGOP -> bits i 15 12 <> 15 -> control_state_nxt cs i d2 = EXECUTE.
Proof.
  intros V T N. assert (E15 : bits i 15 12 =? 15 = false) by now apply Z.eqb_neq.
  unfold control_state_nxt, write_pc, pc_sel_nxt, load_op. rewrite T, V, E15.
  destruct (valid_cases _ V) as [-> | ->]; cbn; rewrite ?andb_false_r; reflexivity.
Qed.
Lemma arm_shift_zero ty x c : arm_shift ty x 0 c = (x, c).
Proof. reflexivity. Qed.
Lemma arm_shift_fst ty x n c c' : fst (arm_shift ty x n c) = fst (arm_shift ty x n c').
Proof. unfold arm_shift. now destruct (n =? 0), (ty =? 0), (ty =? 1), (ty =? 2). Qed.
Lemma arm_shift_snd ty x n c c' : n <> 0 -> snd (arm_shift ty x n c) = snd (arm_shift ty x n c').
Proof. intros N. unfold arm_shift. apply Z.eqb_neq in N. rewrite N. now destruct (ty =? 0), (ty =? 1), (ty =? 2). Qed.
Lemma barrel_range fn x n c : 0 <= fst (barrel_shift fn x n c) < 2 ^ 32.
Proof. unfold barrel_shift. cbn [fst]. apply (bits_range _ 31 0). lia. Qed.
Definition dp_carry (k : control) (x : executer) (rdata align : Z) : bool :=
  if shift_data_sel k =? 0 then (if bits (imm_shift_amount k) 4 1 =? 0 then fC (status x) else tb (imm32 k) 31)
  else snd (shifter k x rdata align).
Lemma dp_operand k x s i rdata align : settled x s -> well s -> shift_supported s i ->
  imm32 k = rotated_imm (bits i 11 8) (bits i 7 0) -> imm_shift_amount k = bits i 11 7 -> rm_sel k = bits i 3 0 ->
  rds_sel k = (if negb (tb i 25) && tb i 4 then bits i 11 8 else bits i 15 12) ->
  shift_amount_sel k = (if tb i 25 then 0 else if tb i 4 then 1 else 2) -> shift_data_sel k = (if tb i 25 then 0 else 2) ->
  shift_function k = (if tb i 25 then 0 else bits i 6 5) ->
  0 <= fst (operand s i) < 2 ^ 32 /\ fst (shifter k x rdata align) = fst (operand s i) /\
  (use_carry_in k = true \/ ~ unshifted s i -> dp_carry k x rdata align = snd (operand s i)).
Proof.
  intros S W Sup E1 E2 E3 E4 E5 E6 E7. pose proof S as (_ & F & _).
  assert (R1 := nibble i 11 8 eq_refl). assert (R2 := nibble i 3 0 eq_refl).
  assert (R3 : 0 <= bits i 7 0 < 256) by (apply (bits_range i 7 0); lia).
  assert (R4 : 0 <= bits i 11 7 < 32) by (apply (bits_range i 11 7); lia).
  assert (R5 : 0 <= bits i 6 5 < 4) by (apply (bits_range i 6 5); lia).
  unfold dp_carry, shifter, shift_in, shift_amount, operand, shift_supported in *.
  rewrite E7, E6, E5, E4, E3, E2, E1, F. unfold unshifted. destruct (tb i 25); cbn [Z.eqb Pos.eqb negb andb fst snd].
  - rewrite rotated_imm_ok by assumption. assert (RR := rotated_range _ _ R1 R3). split; [exact RR | ]. split.
    + rewrite barrel_shift_ok by lia. reflexivity.
    + intros _. replace (bits (bits i 11 7) 4 1) with (bits i 11 8); [reflexivity | ].
      apply tb_ext with 4; [lia | exact R1 | apply (bits_range (bits i 11 7) 4 1); lia | ]. intros j Hj.
      rewrite !tb_bits by lia. replace (j <=? 11 - 8) with true by (symmetry; apply Z.leb_le; lia).
      replace (j <=? 4 - 1) with true by (symmetry; apply Z.leb_le; lia). replace (1 + j <=? 11 - 7) with true by (symmetry; apply Z.leb_le; lia).
      f_equal. lia.
  - rewrite (settled_second x s) by assumption. set (v := second_reg s (bits i 3 0)).
    assert (Rv : 0 <= v < 2 ^ 32) by now apply second_range.
    destruct (tb i 4); cbn [Z.eqb Pos.eqb].
    + destruct (settled_first x s (bits i 11 8) S R1) as [_ ->].
      replace (bits (first_reg s (bits i 11 8)) 7 0) with (first_reg s (bits i 11 8) mod 256) by (unfold bits; now rewrite Z.div_1_r).
      set (n := first_reg s (bits i 11 8) mod 256) in *. assert (Rn : 0 <= n < 256) by (apply Z.mod_pos_bound; lia).
      pose proof (barrel_range (bits i 6 5) v n (fC (a_flags s))) as BR. rewrite barrel_shift_ok in BR by assumption. split; [exact BR | ].
      rewrite barrel_shift_ok by assumption. split; [apply arm_shift_fst | ]. intros [-> | N]; [reflexivity | ].
      apply arm_shift_snd. intros E. apply N. auto.
    + unfold shifted_const. destruct (Z.eqb_spec (bits i 11 7) 0) as [E | N].
      * destruct Sup as [H | T]; [contradiction | ]. rewrite T, E in *. cbn [Z.eqb]. rewrite barrel_shift_ok by lia. rewrite !arm_shift_zero.
        cbn [fst snd]. split; [exact Rv | ]. split; [reflexivity | ]. intros [-> | N]; [reflexivity | ]. exfalso. apply N. auto.
      * pose proof (barrel_range (bits i 6 5) v (bits i 11 7) (fC (a_flags s))) as BR. rewrite barrel_shift_ok in BR by lia. split; [exact BR | ].
        rewrite barrel_shift_ok by lia. split; [apply arm_shift_fst | ]. intros _. now apply arm_shift_snd.
Qed.
Lemma alu_both_eq k x rdata align : alu_both k x rdata align =
  alu (alu_function k) (rn_of x (rn_sel k)) (fst (shifter k x rdata align)) (dp_carry k x rdata align) (fC (status x)).
Proof. unfold alu_both, dp_carry. now destruct (shifter k x rdata align). Qed.
Lemma shifter_carry_irrelevant op a b sc sc' f : is_logic op = false -> arm_flags op a b sc f = arm_flags op a b sc' f /\ arm_carry op a b sc (fC f) = arm_carry op a b sc' (fC f).
Proof. intros E. unfold arm_flags, arm_carry. rewrite E. auto. Qed.
Lemma well_put s r v f a m : well s -> 0 <= v < 2 ^ 32 -> pc_ok a -> (forall x, 0 <= m x < 256) -> well (Arm (put (a_regs s) r v) f a m).
Proof.
  intros (R & _ & _) Hv Ha Hm. split; [ | split; assumption]. intros k Hk. cbn. unfold put. destruct (k =? r); [exact Hv | now apply R].
Qed.
(** What an instruction of data processing does *)
Section Dp.
Variables (s : arm) (i : Z).
Let op := bits i 24 21.
Let a := first_reg s (bits i 19 16).
Definition dp_regs : Z -> Z :=
  if holds s i && negb (is_compare op) then put (a_regs s) (bits i 15 12) (arm_result op a (fst (operand s i)) (fC (a_flags s))) else a_regs s.
Definition dp_flags : flags :=
  if holds s i && tb i 20 then arm_flags op a (fst (operand s i)) (snd (operand s i)) (a_flags s) else a_flags s.
End Dp.
(** The multiplier stands still *)
Definition idle (p : processor) : Prop := mult_enable (ctl p) = false.
Theorem dp_step z p s i : ready p s -> i = mem_read (a_mem s) (a_pc s) -> dp_form i -> shift_supported s i -> a_pc s + 12 < 2 ^ 26 ->
  exists f, ready (step z p) (Arm (dp_regs s i) f (a_pc s + 4) (a_mem s)) /\ idle (step z p) /\
    ((In (bits i 24 21) [0; 8] -> tb i 20 = true -> ~ unshifted s i) ->
     fC f = fC (dp_flags s i) /\ ((with_carry (bits i 24 21) = true -> tb i 20 = false) -> f = dp_flags s i)).
Proof.
  intros Rd Ei (T1 & T2 & T3 & T4) Sup Bound. destruct (decode_cycle z p s Rd) as (Ex & S & Hm & Rdata & K & D).
  set (q := step z p) in *. pose proof Rd as (W & V & I & _). rewrite <- Ei in I.
  assert (Ty := regop_type i T1 T2). rewrite dp_control in K by (rewrite ?I; assumption). rewrite I in K.
  assert (Rop := nibble i 24 21 eq_refl). assert (Rrd := nibble i 15 12 eq_refl). assert (Rrn := nibble i 19 16 eq_refl).
  destruct (dp_operand (ctl q) (exe q) s i (read_data (dec q)) (alignment (dec q)) S W Sup) as (Rb & Eb & Ec); try (rewrite K; reflexivity).
  assert (Al : alu_both (ctl q) (exe q) (read_data (dec q)) (alignment (dec q)) =
    alu (alu_code (bits i 24 21)) (first_reg s (bits i 19 16)) (fst (operand s i)) (dp_carry (ctl q) (exe q) (read_data (dec q)) (alignment (dec q))) (fC (a_flags s))).
  { rewrite alu_both_eq, Eb. pose proof S as (_ & -> & _). rewrite <- (proj1 (settled_first _ _ _ S Rrn)). rewrite K. reflexivity. }
  assert (Ra := first_range s _ W Rrn).
  destruct (alu_ok (bits i 24 21) (first_reg s (bits i 19 16)) (fst (operand s i)) (dp_carry (ctl q) (exe q) (read_data (dec q)) (alignment (dec q))) (a_flags s) Rop Ra Rb) as (O1 & O2 & O3).
  rewrite <- Al in O1, O2, O3. set (g := snd (alu_both _ _ _ _)) in *.
  assert (He : executes (ctl q) (exe q) = holds s i) by (rewrite <- holds_eq; unfold executes; pose proof S as (_ & -> & _); rewrite K; reflexivity).
  assert (Rr := arm_result_range (bits i 24 21) (first_reg s (bits i 19 16)) (fst (operand s i)) (fC (a_flags s)) Ra Rb).
  exists (status (exe_nxt q)). pose proof W as (W1 & W2 & (P1 & P2 & P3)). split; [ | split].
  - apply ready_next.
    + assert (pc_ok (a_pc s + 4)) by (split; [lia | split; [rewrite <- Z.add_mod_idemp_l, P2 by lia; reflexivity | lia]]).
      unfold dp_regs. destruct (holds s i && negb (is_compare (bits i 24 21))); [apply well_put; assumption | ].
      split; [exact W1 | split; assumption].
    + rewrite D. cbn [decoder_nxt control_state]. rewrite I, dp_state by assumption. reflexivity.
    + rewrite D. unfold instruction, decoder_nxt. cbn [control_state read_data]. rewrite I, dp_state by assumption. reflexivity.
    + apply S.
    + apply S.
    + apply S.
    + exact Hm.
    + now rewrite K.
    + now rewrite K.
    + now rewrite K.
    + now rewrite K.
    + intros r Hr. unfold exe_nxt. rewrite nxt_regs, He, O1. unfold reg_write_nxt, dp_regs. rewrite K. cbn [reg_bank_wen reg_write_sel Z.eqb].
      rewrite one_hot_tb by (destruct (is_compare (bits i 24 21)); lia). rewrite (proj1 S r Hr).
      destruct (holds s i), (is_compare (bits i 24 21)); cbn [andb negb]; try reflexivity.
      replace (r =? 15) with false by (symmetry; apply Z.eqb_neq; lia). reflexivity.
    + reflexivity.
  - unfold idle. now rewrite K.
  - intros Hand. unfold exe_nxt. rewrite nxt_status, He. fold g. unfold dp_flags. pose proof S as (_ & Fs & _).
    replace (flags_wen (ctl q)) with (tb i 20) by now rewrite K. destruct (holds s i) eqn:Hh; cbn [andb]; [ | rewrite Fs; auto].
    destruct (tb i 20) eqn:H20; [ | rewrite Fs; auto]. unfold status_nxt. rewrite Fs.
    replace (status_bits_sel (ctl q)) with (if is_logic (bits i 24 21) then 5 else 0) by now rewrite K.
    assert (Sc : is_logic (bits i 24 21) = true -> dp_carry (ctl q) (exe q) (read_data (dec q)) (alignment (dec q)) = snd (operand s i)).
    { intros L. apply Ec. rewrite K. cbn [use_carry_in]. revert L. generalize (Hand). unfold is_logic, one_of. cbn [existsb]. clear.
      destruct (Z.eqb_spec (bits i 24 21) 0) as [-> | _]; [intros H _; right; apply H; cbn; auto | ].
      destruct (Z.eqb_spec (bits i 24 21) 8) as [-> | _]; [intros H _; right; apply H; cbn; auto | ].
      intros _ L. left.
      destruct (bits i 24 21 =? 1) eqn:E1; [apply Z.eqb_eq in E1; rewrite E1; reflexivity | ].
      destruct (bits i 24 21 =? 9) eqn:E2; [apply Z.eqb_eq in E2; rewrite E2; reflexivity | ].
      destruct (bits i 24 21 =? 12) eqn:E3; [apply Z.eqb_eq in E3; rewrite E3; reflexivity | ].
      destruct (bits i 24 21 =? 13) eqn:E4; [apply Z.eqb_eq in E4; rewrite E4; reflexivity | ].
      destruct (bits i 24 21 =? 14) eqn:E5; [apply Z.eqb_eq in E5; rewrite E5; reflexivity | ].
      destruct (bits i 24 21 =? 15) eqn:E6; [apply Z.eqb_eq in E6; rewrite E6; reflexivity | discriminate L]. }
    assert (Cy : fC g = fC (arm_flags (bits i 24 21) (first_reg s (bits i 19 16)) (fst (operand s i)) (snd (operand s i)) (a_flags s)) /\
      (with_carry (bits i 24 21) = false -> Flags (fN g) (fZ g) (fC g) (if is_logic (bits i 24 21) then fV (a_flags s) else fV g) =
        arm_flags (bits i 24 21) (first_reg s (bits i 19 16)) (fst (operand s i)) (snd (operand s i)) (a_flags s))).
    { destruct (is_logic (bits i 24 21)) eqn:L.
      - specialize (Sc eq_refl). rewrite Sc in O2, O3. split; [exact O2 | exact O3].
      - split; [cbn [arm_flags fC]; rewrite O2; now apply shifter_carry_irrelevant | ].
        intros Wc. specialize (O3 Wc). cbv zeta in O3. etransitivity; [exact O3 | ]. now apply shifter_carry_irrelevant. }
    destruct Cy as [C1 C2]. destruct (is_logic (bits i 24 21)) eqn:L; cbn [Z.eqb Pos.eqb fC]; (split; [exact C1 | ]); intros Wc.
    + apply C2. destruct (with_carry _); [discriminate (Wc eq_refl) | reflexivity].
    + rewrite <- C2; [now destruct g | ]. destruct (with_carry _); [discriminate (Wc eq_refl) | reflexivity].
Qed.
