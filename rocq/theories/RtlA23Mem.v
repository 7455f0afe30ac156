(** The processor a23: loads and stores. *)
From Coq Require Import ZArith List Bool Lia.
From Verif Require Import RtlA23 RtlA23Units RtlA23Step RtlA23Jump.
Import ListNotations.
Open Scope Z_scope.

(** * Specification *)
(** Bytes, the lowest first; the memory ends at 0x05000000 *)
Definition load_word (m : memory) (a : Z) : Z :=
  let b := a - a mod 4 in
  if a <? 5 * 2 ^ 24 then m b + 2 ^ 8 * m (b + 1) + 2 ^ 16 * m (b + 2) + 2 ^ 24 * m (b + 3) else 0.
Definition load_byte (m : memory) (a : Z) : Z := if a <? 5 * 2 ^ 24 then m a else 0.
(** Code, outputs and stack are written, the inputs are not; the sizes are numbers of words *)
Definition writable (z : sizes) (a : Z) : bool :=
  if a / 2 ^ 24 =? 0 then a mod 2 ^ 24 <? 4 * code_size z
  else if a / 2 ^ 24 =? 3 then a mod 2 ^ 24 <? 4 * out_size z
  else if a / 2 ^ 24 =? 4 then a mod 2 ^ 24 <? 4 * stack_size z else false.
Definition store_word (z : sizes) (m : memory) (a v : Z) : memory :=
  let b := a - a mod 4 in fun x => if writable z a && (b <=? x) && (x <? b + 4) then (v / 2 ^ (8 * (x - b))) mod 256 else m x.
Definition store_byte (z : sizes) (m : memory) (a v : Z) : memory := fun x => if writable z a && (x =? a) then v mod 256 else m x.
(** The address of a load or a store, and the base register after it *)
Definition mem_offset (s : arm) (i : Z) : Z :=
  if tb i 25 then fst (shifted_const (bits i 6 5) (second_reg s (bits i 3 0)) (bits i 11 7) (fC (a_flags s))) else bits i 11 0.
Definition moved_base (s : arm) (i : Z) : Z :=
  let b := first_reg s (bits i 19 16) in (if tb i 23 then b + mem_offset s i else b - mem_offset s i) mod 2 ^ 32.
Definition mem_address (s : arm) (i : Z) : Z := if tb i 24 then moved_base s i else first_reg s (bits i 19 16).
Definition write_back (i : Z) : bool := negb (tb i 24) || tb i 21.
(** The effect: a word that is not aligned is rotated *)
Definition loaded (s : arm) (i : Z) : Z :=
  let a := mem_address s i in
  if tb i 22 then load_byte (a_mem s) a else rotate_right (load_word (a_mem s) a) (8 * (a mod 4)).
Definition stored (z : sizes) (s : arm) (i : Z) : memory :=
  (if tb i 22 then store_byte else store_word) z (a_mem s) (mem_address s i) (a_regs s (bits i 15 12)).
Definition transfer (z : sizes) (s : arm) (i : Z) : arm :=
  if holds s i then
    let r := if write_back i then put (a_regs s) (bits i 19 16) (moved_base s i) else a_regs s in
    if tb i 20 then Arm (put r (bits i 15 12) (loaded s i)) (a_flags s) (a_pc s + 4) (a_mem s)
    else Arm r (a_flags s) (a_pc s + 4) (stored z s i)
  else Arm (a_regs s) (a_flags s) (a_pc s + 4) (a_mem s).
(** A load or a store, of a register other than r15; r15 as the base is not written back; the
    shifts of the offset are those that the processor supports *)
Definition transfer_form (i : Z) : Prop :=
  bits i 27 26 = 1 /\ bits i 15 12 <> 15 /\ (write_back i = true -> bits i 19 16 <> 15) /\
  (tb i 25 = true -> bits i 11 7 <> 0 \/ bits i 6 5 = 0).

(** * Proofs *)
(** ** The memory *)
Ltac Zify.zify_post_hook ::= Z.to_euclidean_division_equations.
Lemma bits_31_24 a : 0 <= a < 2 ^ 32 -> bits a 31 24 = a / 2 ^ 24.
Proof. intros. unfold bits. change (2 ^ (31 - 24 + 1)) with 256. apply Z.mod_small. lia. Qed.
Lemma bits_31_2 a : 0 <= a < 2 ^ 32 -> 4 * bits a 31 2 = a - a mod 4.
Proof. intros. unfold bits. change (2 ^ (31 - 2 + 1)) with (2 ^ 30). change (2 ^ 2) with 4. rewrite Z.mod_small; lia. Qed.
Lemma bits_1_0 a : bits a 1 0 = a mod 4.
Proof. unfold bits. now rewrite Z.div_1_r. Qed.
Lemma load_word_eq m a : 0 <= a < 2 ^ 32 -> mem_read m a = load_word m a.
Proof.
  intros Ha. unfold mem_read, load_word. cbv zeta. rewrite bits_31_24, bits_31_2 by assumption.
  replace (a / 2 ^ 24 <=? 4) with (a <? 5 * 2 ^ 24) by (apply Bool.eq_true_iff_eq; rewrite Z.ltb_lt, Z.leb_le; lia).
  destruct (a <? 5 * 2 ^ 24); [ | reflexivity]. unfold word_at, catz. lia.
Qed.
Lemma writable_eq z a : 0 <= a < 2 ^ 32 -> (bits (4 * bits a 31 2) 23 2 <? written_size z (bits (4 * bits a 31 2) 31 24)) = writable z a.
Proof.
  intros Ha. rewrite bits_31_2 by assumption. rewrite bits_31_24 by lia.
  replace ((a - a mod 4) / 2 ^ 24) with (a / 2 ^ 24) by lia.
  replace (bits (a - a mod 4) 23 2) with (a mod 2 ^ 24 / 4) by (unfold bits; change (2 ^ (23 - 2 + 1)) with (2 ^ 22); change (2 ^ 2) with 4; lia).
  unfold written_size, writable. destruct (a / 2 ^ 24 =? 0); [ | destruct (a / 2 ^ 24 =? 3); [ | destruct (a / 2 ^ 24 =? 4)]];
    try (apply Bool.eq_true_iff_eq; rewrite !Z.ltb_lt; lia).
Qed.
Lemma pair_shift v k : 0 <= k -> bits v (8 * k + 7) (8 * k) = (v / 2 ^ (8 * k)) mod 256.
Proof. intros. unfold bits. now replace (8 * k + 7 - 8 * k + 1) with 8 by lia. Qed.
Lemma store_word_eq z m a v x : 0 <= a < 2 ^ 32 ->
  mem_write z m (4 * bits a 31 2) v true 15 x = store_word z m a v x.
Proof.
  intros Ha. unfold mem_write, store_word. rewrite writable_eq by assumption. cbv zeta. cbn [andb Z.eqb Pos.eqb].
  rewrite (bits_31_2 (4 * bits a 31 2)) by (rewrite bits_31_2 by assumption; lia). rewrite !bits_31_2 by assumption.
  replace (a - a mod 4 - (a - a mod 4) mod 4) with (a - a mod 4) by lia. set (b := a - a mod 4).
  destruct (writable z a); cbn [andb]; [ | reflexivity]. unfold set.
  destruct (Z.eqb_spec x b) as [-> | N0].
  { replace (b <=? b) with true by (symmetry; apply Z.leb_le; lia). replace (b <? b + 4) with true by (symmetry; apply Z.ltb_lt; lia).
    cbn [andb]. replace (b - b) with 0 by lia. rewrite <- pair_shift by lia. reflexivity. }
  destruct (Z.eqb_spec x (b + 1)) as [-> | N1].
  { replace (b <=? b + 1) with true by (symmetry; apply Z.leb_le; lia). replace (b + 1 <? b + 4) with true by (symmetry; apply Z.ltb_lt; lia).
    cbn [andb]. replace (b + 1 - b) with 1 by lia. rewrite <- pair_shift by lia. reflexivity. }
  destruct (Z.eqb_spec x (b + 2)) as [-> | N2].
  { replace (b <=? b + 2) with true by (symmetry; apply Z.leb_le; lia). replace (b + 2 <? b + 4) with true by (symmetry; apply Z.ltb_lt; lia).
    cbn [andb]. replace (b + 2 - b) with 2 by lia. rewrite <- pair_shift by lia. reflexivity. }
  destruct (Z.eqb_spec x (b + 3)) as [-> | N3].
  { replace (b <=? b + 3) with true by (symmetry; apply Z.leb_le; lia). replace (b + 3 <? b + 4) with true by (symmetry; apply Z.ltb_lt; lia).
    cbn [andb]. replace (b + 3 - b) with 3 by lia. rewrite <- pair_shift by lia. reflexivity. }
  destruct (Z.leb_spec b x), (Z.ltb_spec x (b + 4)); cbn [andb]; try reflexivity. lia.
Qed.
Lemma low_byte b : 0 <= b < 256 -> bits (catz b 24 (catz b 16 (catz b 8 b))) 7 0 = b.
Proof. intros. unfold bits, catz. change (2 ^ (7 - 0 + 1)) with 256. rewrite Z.div_1_r. lia. Qed.
Lemma store_byte_eq z m a v x : 0 <= a < 2 ^ 32 ->
  mem_write z m (4 * bits a 31 2) (let b := bits v 7 0 in catz b 24 (catz b 16 (catz b 8 b))) true (2 ^ bits a 1 0) x = store_byte z m a v x.
Proof.
  intros Ha. unfold mem_write, store_byte. rewrite writable_eq by assumption. cbv zeta. cbn [andb].
  rewrite (bits_31_2 (4 * bits a 31 2)) by (rewrite bits_31_2 by assumption; lia). rewrite !bits_31_2 by assumption.
  replace (a - a mod 4 - (a - a mod 4) mod 4) with (a - a mod 4) by lia. rewrite bits_1_0.
  assert (B : 0 <= bits v 7 0 < 256) by (apply (bits_range v 7 0); lia). rewrite low_byte by assumption.
  replace (v mod 256) with (bits v 7 0) by (unfold bits; now rewrite Z.div_1_r).
  destruct (writable z a); cbn [andb]; [ | reflexivity]. unfold set.
  assert (C : a mod 4 = 0 \/ a mod 4 = 1 \/ a mod 4 = 2 \/ a mod 4 = 3) by lia.
  destruct C as [C | [C | [C | C]]]; rewrite C; cbn [Z.eqb Pos.eqb Z.pow Z.pow_pos Pos.iter Z.mul Pos.mul].
  - now replace (a - 0) with a by lia.
  - now replace (a - 1 + 1) with a by lia.
  - now replace (a - 2 + 2) with a by lia.
  - now replace (a - 3 + 3) with a by lia.
Qed.
Lemma load_byte_eq m a : (forall x, 0 <= m x < 256) -> 0 <= a < 2 ^ 32 ->
  bits (rotate_right (load_word m a) (8 * (a mod 4))) 7 0 = load_byte m a.
Proof.
  intros Hm Ha. unfold load_word, load_byte. cbv zeta. destruct (a <? 5 * 2 ^ 24).
  2:{ unfold rotate_right. rewrite Z.div_0_l by (apply Z.pow_nonzero; lia). reflexivity. }
  set (b := a - a mod 4). pose proof (Hm b). pose proof (Hm (b + 1)). pose proof (Hm (b + 2)). pose proof (Hm (b + 3)).
  assert (C : a mod 4 = 0 \/ a mod 4 = 1 \/ a mod 4 = 2 \/ a mod 4 = 3) by lia.
  unfold bits, rotate_right. rewrite Z.div_1_r. change (2 ^ (7 - 0 + 1)) with 256.
  destruct C as [C | [C | [C | C]]]; rewrite C.
  - replace a with b by lia. change (8 * 0) with 0. change (32 - 0) with 32. rewrite Z.div_1_r, Z.mod_mul by lia. lia.
  - replace a with (b + 1) by lia. change (8 * 1) with 8. change (32 - 8) with 24. lia.
  - replace a with (b + 2) by lia. change (8 * 2) with 16. change (32 - 16) with 16. lia.
  - replace a with (b + 3) by lia. change (8 * 3) with 24. change (32 - 24) with 8. lia.
Qed.
Lemma load_word_range m a : (forall x, 0 <= m x < 256) -> 0 <= load_word m a < 2 ^ 32.
Proof.
  intros Hm. unfold load_word. cbv zeta. set (b := a - a mod 4). pose proof (Hm b). pose proof (Hm (b + 1)). pose proof (Hm (b + 2)). pose proof (Hm (b + 3)).
  destruct (_ <? _); lia.
Qed.
Lemma rotate_byte x k : 0 <= x < 2 ^ 32 -> 0 <= k < 4 -> fst (arm_shift (if k =? 0 then 0 else 3) x (8 * k) false) = rotate_right x (8 * k).
Proof.
  intros Hx Hk. unfold arm_shift, rotate_right. destruct (Z.eqb_spec k 0) as [-> | N].
  - cbn [Z.mul Z.eqb fst]. change (32 - 0) with 32. rewrite Z.div_1_r, Z.mod_mul by lia. lia.
  - replace (8 * k =? 0) with false by (symmetry; apply Z.eqb_neq; lia). cbn [Z.eqb Pos.eqb fst].
    replace ((8 * k) mod 32) with (8 * k) by (symmetry; apply Z.mod_small; lia). reflexivity.
Qed.
(** ** The pipeline *)
Ltac Zify.zify_post_hook ::= idtac.
Lemma transfer_type i : bits i 27 26 = 1 -> itype i = TRANS.
Proof.
  intros E. assert (T : tb i 26 = true) by (rewrite (bits_tb i 27 26), E by lia; reflexivity). unfold itype. rewrite E.
  replace (bits i 27 23 =? 2) with false; [replace (bits i 27 22 =? 0) with false; [reflexivity | ] | ]; symmetry; apply Z.eqb_neq; intros E'.
  - rewrite (bits_tb i 27 22), E' in T by lia. discriminate.
  - rewrite (bits_tb i 27 23), E' in T by lia. discriminate.
Qed.
Lemma mem_op_control d k a (i := instruction d) : valid (control_state d) = true -> itype i = TRANS -> (write_back i = true -> bits i 19 16 <> 15) ->
  exists uci, control_nxt d k a =
  Control (bits i 11 0) (bits i 11 7) (bits i 31 28) (bits i 3 0) (bits i 15 12) (bits i 19 16)
    (if tb i 25 && negb (bits i 11 7 =? 0) then 2 else 0) (if tb i 25 then 2 else 0) (if tb i 25 && negb (bits i 11 7 =? 0) then bits i 6 5 else 0)
    (alu_code (if tb i 23 then 4 else 2)) uci false false (if tb i 24 then 1 else 4) 0 (if negb (tb i 20) && tb i 22 then 1 else 0) 0 0
    (negb (tb i 20)) false (one_hot (if write_back i then bits i 19 16 else 15)) false.
Proof.
  intros V T N. exists (use_carry_in_nxt (control_state d) i).
  unfold control_nxt. fold i. unfold imm32_nxt, rds_nxt, shift_amount_sel_nxt, shift_data_sel_nxt, shift_function_nxt, alu_function_nxt,
    mult_enable_nxt, mult_accumulate_nxt, address_sel_nxt, pc_sel_nxt, byte_enable_sel_nxt, status_bits_sel_nxt, reg_write_sel_nxt,
    write_data_wen_nxt, pc_wen_nxt, reg_bank_wsel_nxt, flags_wen_nxt, load_op, shift_imm, rn_nxt. rewrite T, V.
  cbn [is_regop is_mult is_trans is_mtrans is_branch andb orb].
  assert (E : ((tb i 24 && tb i 21) || negb (tb i 24)) = write_back i) by (unfold write_back; now destruct (tb i 24), (tb i 21)).
  rewrite E. assert (E' : write_back i && (bits i 19 16 =? 15) = false).
  { destruct (write_back i); [cbn [andb]; apply Z.eqb_neq; auto | reflexivity]. }
  rewrite E'. assert (E2 : write_back i && negb (bits i 19 16 =? 15) = write_back i).
  { destruct (write_back i); [cbn [andb] in *; now rewrite E' | reflexivity]. } rewrite E2.
  destruct (valid_cases _ V) as [-> | ->];
    cbn [one_of existsb Z.eqb Pos.eqb EXECUTE PRE_FETCH_EXEC MEM_WAIT1 MEM_WAIT2 MTRANS_EXEC1 MTRANS_EXEC2 MTRANS_EXEC3 MTRANS_EXEC3B MTRANS_EXEC4 MULT_PROC1 MULT_PROC2 MULT_STORE andb orb negb];
    (f_equal; [now destruct (tb i 23) | now destruct (tb i 24) | ..]).
Qed.
Lemma mem_op_state cs i d2 : valid cs = true -> itype i = TRANS -> control_state_nxt cs i d2 = MEM_WAIT1.
Proof.
  intros V T. unfold control_state_nxt, write_pc, pc_wen_nxt. rewrite T, V. destruct (valid_cases _ V) as [-> | ->]; cbn; reflexivity.
Qed.
Lemma wait1_control d k a (i := instruction d) : control_state d = MEM_WAIT1 ->
  let k' := control_nxt d k a in
  condition k' = condition k /\ mult_enable k' = false /\ address_sel k' = 3 /\ pc_sel k' = 0 /\ write_data_wen k' = false /\ pc_wen k' = false /\
  reg_bank_wen k' = 0 /\ flags_wen k' = false.
Proof.
  intros C. unfold control_nxt, mult_enable_nxt, address_sel_nxt, pc_sel_nxt, write_data_wen_nxt, pc_wen_nxt, reg_bank_wsel_nxt, flags_wen_nxt.
  rewrite C. repeat split.
Qed.
Lemma wait2_control d k a (i := instruction d) : control_state d = MEM_WAIT2 -> itype i = TRANS -> bits i 15 12 <> 15 ->
  let k' := control_nxt d k a in
  condition k' = condition k /\ mult_enable k' = false /\ address_sel k' = 0 /\ pc_sel k' = 0 /\ write_data_wen k' = false /\ pc_wen k' = true /\
  reg_bank_wen k' = one_hot (if tb i 20 then bits i 15 12 else 15) /\ flags_wen k' = false /\ reg_write_sel k' = 0 /\
  (tb i 20 = true -> shift_amount_sel k' = 3 /\ shift_data_sel k' = 1 /\ shift_function k' = (if bits a 1 0 =? 0 then 0 else 3) /\
   alu_function k' = Alufn false false 0 false (if tb i 22 then 3 else 0)).
Proof.
  intros C T N. assert (E15 : bits i 15 12 =? 15 = false) by now apply Z.eqb_neq.
  unfold control_nxt, mult_enable_nxt, address_sel_nxt, pc_sel_nxt, write_data_wen_nxt, pc_wen_nxt, reg_bank_wsel_nxt, flags_wen_nxt, reg_write_sel_nxt,
    shift_amount_sel_nxt, shift_data_sel_nxt, shift_function_nxt, alu_function_nxt, load_op. fold i. rewrite C, T, E15. cbv zeta.
  cbn [control_state condition mult_enable address_sel pc_sel write_data_wen pc_wen reg_bank_wen flags_wen reg_write_sel shift_amount_sel shift_data_sel shift_function alu_function
    is_trans is_mtrans valid andb orb negb Z.eqb Pos.eqb MEM_WAIT2 one_of existsb EXECUTE PRE_FETCH_EXEC MEM_WAIT1 MTRANS_EXEC1 MTRANS_EXEC2 MTRANS_EXEC3 MTRANS_EXEC3B MTRANS_EXEC4 MULT_PROC1 MULT_PROC2 MULT_STORE].
  destruct (tb i 20); cbn [andb]; repeat split; try discriminate.
  - now destruct (bits a 1 0 =? 0).
Qed.
Lemma wait2_state i d2 : itype i = TRANS -> bits i 15 12 <> 15 -> control_state_nxt MEM_WAIT2 i d2 = PRE_FETCH_EXEC.
Proof.
  intros T N. assert (E15 : bits i 15 12 =? 15 = false) by now apply Z.eqb_neq.
  unfold control_state_nxt, write_pc, pc_sel_nxt, load_op. rewrite T, E15. cbn. rewrite ?andb_false_r. reflexivity.
Qed.
(** The address unit *)
Lemma mem_alu q x s i rdata align : settled x s -> well s -> (tb i 25 = true -> bits i 11 7 <> 0 \/ bits i 6 5 = 0) ->
  imm32 q = bits i 11 0 -> imm_shift_amount q = bits i 11 7 -> rm_sel q = bits i 3 0 -> rn_sel q = bits i 19 16 ->
  shift_amount_sel q = (if tb i 25 && negb (bits i 11 7 =? 0) then 2 else 0) -> shift_data_sel q = (if tb i 25 then 2 else 0) ->
  shift_function q = (if tb i 25 && negb (bits i 11 7 =? 0) then bits i 6 5 else 0) -> alu_function q = alu_code (if tb i 23 then 4 else 2) ->
  fst (alu_both q x rdata align) = moved_base s i.
Proof.
  intros S W Sup E1 E2 E3 E4 E5 E6 E7 E8. pose proof S as (_ & F & _).
  assert (R2 := nibble i 3 0 eq_refl). assert (R6 := nibble i 19 16 eq_refl).
  assert (R3 : 0 <= bits i 11 0 < 4096) by (apply (bits_range i 11 0); lia).
  assert (R4 : 0 <= bits i 11 7 < 32) by (apply (bits_range i 11 7); lia).
  assert (R5 : 0 <= bits i 6 5 < 4) by (apply (bits_range i 6 5); lia).
  assert (B : fst (shifter q x rdata align) = mem_offset s i).
  { unfold shifter, shift_in, shift_amount, mem_offset. rewrite E7, E6, E5, E3, E2, E1, F.
    destruct (tb i 25); cbn [andb Z.eqb Pos.eqb]; [ | rewrite barrel_shift_ok by lia; reflexivity].
    rewrite (settled_second x s) by assumption. assert (Rv := second_range s (bits i 3 0) W R2).
    unfold shifted_const. destruct (Z.eqb_spec (bits i 11 7) 0) as [E | N]; cbn [negb Z.eqb Pos.eqb].
    - destruct (Sup eq_refl) as [H | T]; [contradiction | ]. rewrite T. cbn [Z.eqb]. rewrite barrel_shift_ok by lia. reflexivity.
    - rewrite barrel_shift_ok by lia. apply arm_shift_fst. }
  assert (RB : 0 <= mem_offset s i < 2 ^ 32) by (rewrite <- B; unfold shifter; apply barrel_range).
  assert (RA := first_range s _ W R6).
  rewrite alu_both_eq, B, E8, E4, F, (proj1 (settled_first _ _ _ S R6)). unfold moved_base. cbv zeta.
  rewrite (proj1 (alu_ok (if tb i 23 then 4 else 2) _ _ _ _ ltac:(destruct (tb i 23); lia) RA RB)). unfold arm_result, arith. now destruct (tb i 23).
Qed.
Lemma moved_range s i : 0 <= moved_base s i < 2 ^ 32.
Proof. apply Z.mod_pos_bound. lia. Qed.
Lemma address_range s i : well s -> 0 <= mem_address s i < 2 ^ 32.
Proof. intros W. unfold mem_address. destruct (tb i 24); [apply moved_range | apply first_range; [exact W | apply nibble; reflexivity]]. Qed.
Lemma rotate_range x k : 0 <= x < 2 ^ 32 -> 0 <= k < 4 -> 0 <= rotate_right x (8 * k) < 2 ^ 32.
Proof.
  intros Hx Hk. rewrite <- rotate_byte by assumption.
  rewrite <- barrel_shift_ok; [apply barrel_range | | exact Hx | lia | lia]. destruct (k =? 0); lia.
Qed.
Lemma loaded_range s i : well s -> 0 <= loaded s i < 2 ^ 32.
Proof.
  intros W. pose proof W as (_ & Hm & _). unfold loaded. cbv zeta. destruct (tb i 22).
  - unfold load_byte. destruct (_ <? _); [ | lia]. pose proof (Hm (mem_address s i)). lia.
  - apply rotate_range; [now apply load_word_range | apply Z.mod_pos_bound; lia].
Qed.
Lemma stored_range z s i x : well s -> 0 <= stored z s i x < 256.
Proof.
  intros (_ & Hm & _). unfold stored, store_byte, store_word. cbv zeta. destruct (tb i 22).
  - destruct (_ && _); [apply Z.mod_pos_bound; lia | apply Hm].
  - destruct (_ && _); [apply Z.mod_pos_bound; lia | apply Hm].
Qed.
Lemma pc_ok_next a : pc_ok a -> a + 12 < 2 ^ 26 -> pc_ok (a + 4).
Proof. intros (P1 & P2 & P3) B. split; [lia | split; [rewrite <- Z.add_mod_idemp_l, P2 by lia; reflexivity | lia]]. Qed.
Theorem transfer_steps z p s i : ready p s -> i = mem_read (a_mem s) (a_pc s) -> transfer_form i -> a_pc s + 12 < 2 ^ 26 ->
  mem_read (a_mem (transfer z s i)) (a_pc s + 4) = mem_read (a_mem s) (a_pc s + 4) ->
  ready (run z 3 p) (transfer z s i) /\ idle (run z 3 p).
Proof.
  intros Rd Ei (T1 & T2 & T3 & T4) Bound Hcode. destruct (decode_cycle z p s Rd) as (Ex & S & Hm & Rdata & K & D).
  change (run z 3 p) with (step z (step z (step z p))). set (q := step z p) in *. pose proof Rd as (W & V & I & _). rewrite <- Ei in I.
  apply transfer_type in T1. destruct (mem_op_control (dec p) (ctl p) (address (exe p)) V) as (uci & K'); [now rewrite I | now rewrite I | ].
  rewrite I in K'. rewrite K' in K. clear K'. pose proof W as (W1 & W2 & P). pose proof S as (S1 & S2 & S3 & S4 & S5).
  assert (He : executes (ctl q) (exe q) = holds s i) by (rewrite <- holds_eq; unfold executes; rewrite S2, K; reflexivity).
  assert (Al : fst (alu_both (ctl q) (exe q) (read_data (dec q)) (alignment (dec q))) = moved_base s i)
    by (apply mem_alu; try assumption; now rewrite K).
  assert (Rrn := nibble i 19 16 eq_refl). assert (Rrd := nibble i 15 12 eq_refl). assert (RA := address_range s i W).
  (* the second cycle *)
  assert (C1 : control_state (dec q) = MEM_WAIT1) by (rewrite D; cbn [decoder_nxt control_state]; rewrite I; now apply mem_op_state).
  assert (I1 : instruction (dec q) = i).
  { unfold instruction. rewrite C1. cbn [use_saved one_of existsb Z.eqb Pos.eqb MEM_WAIT1 MEM_WAIT2 orb]. rewrite D. unfold decoder_nxt. cbn [saved_instruction].
    rewrite I. unfold saved_wen. rewrite T1, V. reflexivity. }
  assert (X1 : forall r, 0 <= r < 15 -> regs (exe_nxt q) r = if holds s i && write_back i && (r =? bits i 19 16) then moved_base s i else a_regs s r).
  { intros r Hr. unfold exe_nxt. rewrite nxt_regs, He, Al, S1 by exact Hr. unfold reg_write_nxt. rewrite K. cbn [reg_bank_wen reg_write_sel Z.eqb].
    rewrite one_hot_tb by (destruct (write_back i); lia). destruct (write_back i); [now rewrite andb_true_r | ].
    replace (r =? 15) with false by (symmetry; apply Z.eqb_neq; lia). now rewrite !andb_false_r. }
  assert (X2 : status (exe_nxt q) = a_flags s) by (unfold exe_nxt; rewrite nxt_status; replace (flags_wen (ctl q)) with false by (now rewrite K); rewrite andb_false_r; exact S2).
  assert (X3 : pc_of (r15 (exe_nxt q)) = a_pc s + 8) by (unfold exe_nxt; rewrite nxt_r15; replace (pc_wen (ctl q)) with false by (now rewrite K); exact S3).
  assert (X4 : address (exe_nxt q) = mem_address s i).
  { unfold exe_nxt. rewrite nxt_address, Al. unfold address_nxt. rewrite K. cbn [address_sel pc_wen pc_sel rn_sel andb]. unfold mem_address.
    destruct (tb i 24); cbn [Z.eqb Pos.eqb]; [reflexivity | ]. exact (proj1 (settled_first _ _ _ S Rrn)). }
  assert (X5 : write_enable (exe_nxt q) = holds s i && negb (tb i 20)) by (unfold exe_nxt; rewrite nxt_write, He, K; reflexivity).
  assert (X6 : tb i 20 = false -> write_data (exe_nxt q) = if tb i 22 then (let b := bits (a_regs s (bits i 15 12)) 7 0 in catz b 24 (catz b 16 (catz b 8 b))) else a_regs s (bits i 15 12)).
  { intros L. unfold exe_nxt. rewrite nxt_data. unfold write_data_nxt, rd_of. rewrite K. cbn [rds_sel byte_enable_sel]. rewrite L. cbn [negb andb].
    replace (bits i 15 12 =? 15) with false by (symmetry; now apply Z.eqb_neq). rewrite S1 by lia. now destruct (tb i 22). }
  assert (X7 : tb i 20 = false -> byte_enable (exe_nxt q) = if tb i 22 then 2 ^ bits (mem_address s i) 1 0 else 15).
  { intros L. rewrite <- X4. unfold exe_nxt. rewrite nxt_bytes, nxt_address. unfold byte_enable_nxt. rewrite K. cbn [byte_enable_sel]. rewrite L. cbn [negb andb]. now destruct (tb i 22). }
  destruct (wait1_control (dec q) (ctl q) (address (exe q)) C1) as (Y1 & Y2 & Y3 & Y4 & Y5 & Y6 & Y7 & Y8).
  assert (Hm1 : forall a, mem (step z q) a = a_mem s a) by (intros a; unfold step; cbn [mem]; rewrite S5; apply Hm).
  assert (C2 : control_state (dec (step z q)) = MEM_WAIT2) by (unfold step; cbn [dec decoder_nxt control_state]; rewrite C1; reflexivity).
  assert (I2 : instruction (dec (step z q)) = i).
  { unfold instruction. rewrite C2. cbn [use_saved one_of existsb Z.eqb Pos.eqb MEM_WAIT1 MEM_WAIT2 orb]. unfold step, decoder_nxt. cbn [dec saved_instruction].
    rewrite I1, T1, C1. unfold instruction in I1. rewrite C1 in I1. exact I1. }
  assert (F2 : pre_fetch (dec (step z q)) = mem_read (a_mem s) (a_pc s + 4)) by (unfold step, decoder_nxt; cbn [dec pre_fetch]; rewrite C1; exact Rdata).
  change (control_nxt (dec q) (ctl q) (address (exe q))) with (ctl (step z q)) in *. change (exe_nxt q) with (exe (step z q)) in *.
  clear D. set (u := step z q) in *.
  (* the third cycle *)
  assert (Hc2 : condition (ctl u) = bits i 31 28) by (rewrite Y1, K; reflexivity).
  assert (Z1 : forall r, 0 <= r < 15 -> regs (exe_nxt u) r = regs (exe u) r).
  { intros r Hr. unfold exe_nxt. rewrite nxt_regs, Y7. unfold tb at 1. rewrite Z.bits_0, andb_false_r. reflexivity. }
  assert (Z2 : status (exe_nxt u) = a_flags s) by (unfold exe_nxt; rewrite nxt_status, Y8, andb_false_r; exact X2).
  assert (Z3 : pc_of (r15 (exe_nxt u)) = a_pc s + 8) by (unfold exe_nxt; rewrite nxt_r15, Y6; exact X3).
  assert (Z4 : address (exe_nxt u) = a_pc s + 8) by (unfold exe_nxt; rewrite nxt_address; unfold address_nxt; rewrite Y3; exact X3).
  assert (Z5 : write_enable (exe_nxt u) = false) by (unfold exe_nxt; rewrite nxt_write, Y5; apply andb_false_r).
  destruct (wait2_control (dec u) (ctl u) (address (exe u)) C2) as (V1 & V2 & V3 & V4 & V5 & V6 & V7 & V8 & V9 & V10); try (rewrite I2; assumption).
  rewrite I2, X4 in *.
  assert (C3 : control_state (dec (step z u)) = PRE_FETCH_EXEC) by (unfold step; cbn [dec decoder_nxt control_state]; rewrite C2, I2; now apply wait2_state).
  assert (I3 : instruction (dec (step z u)) = mem_read (a_mem s) (a_pc s + 4)).
  { unfold instruction. rewrite C3. cbn [use_saved one_of existsb Z.eqb Pos.eqb orb]. unfold step, decoder_nxt. cbn [dec pre_fetch]. rewrite C2. exact F2. }
  assert (D3 : read_data (dec (step z u)) = load_word (a_mem s) (mem_address s i)).
  { transitivity (mem_read (mem u) (4 * bits (address (exe u)) 31 2)); [reflexivity | ]. rewrite mem_read_align, X4, (mem_read_ext _ _ _ Hm1). now apply load_word_eq. }
  assert (A3 : alignment (dec (step z u)) = 8 * (mem_address s i mod 4)).
  { transitivity (8 * bits (address (exe u)) 1 0); [reflexivity | ]. now rewrite X4, bits_1_0. }
  assert (M3 : forall a, mem (step z u) a = a_mem (transfer z s i) a).
  { intros a. unfold step. cbn [mem]. rewrite X5, X4. unfold transfer. destruct (holds s i); cbn [andb a_mem]; [ | apply Hm1].
    destruct (tb i 20); cbn [negb a_mem]; [apply Hm1 | ]. rewrite X6, X7 by reflexivity. unfold stored. destruct (tb i 22).
    - rewrite store_byte_eq by exact RA. unfold store_byte. now rewrite Hm1.
    - rewrite store_word_eq by exact RA. unfold store_word. now rewrite Hm1. }
  rewrite <- X4 in V1, V2, V3, V4, V5, V6, V7, V8, V9, V10.
  change (control_nxt (dec u) (ctl u) (address (exe u))) with (ctl (step z u)) in *. change (exe_nxt u) with (exe (step z u)) in *.
  set (v := step z u) in *.
  assert (Hv : executes (ctl v) (exe v) = holds s i) by (rewrite <- holds_eq; unfold executes; now rewrite V1, Hc2, Z2).
  assert (Lv : tb i 20 = true -> fst (alu_both (ctl v) (exe v) (read_data (dec v)) (alignment (dec v))) = loaded s i).
  { intros L. destruct (V10 L) as (L1 & L2 & L3 & L4). rewrite alu_both_eq, L4.
    assert (Hk := Z.mod_pos_bound (mem_address s i) 4 ltac:(lia)).
    assert (E : fst (shifter (ctl v) (exe v) (read_data (dec v)) (alignment (dec v))) = rotate_right (load_word (a_mem s) (mem_address s i)) (8 * (mem_address s i mod 4))).
    { unfold shifter, shift_in, shift_amount. rewrite L1, L2, L3, D3, A3, X4, bits_1_0. cbn [Z.eqb Pos.eqb].
      assert (RW := load_word_range (a_mem s) (mem_address s i) W2).
      rewrite barrel_shift_ok; [ | destruct (mem_address s i mod 4 =? 0); lia | exact RW | lia | lia]. rewrite <- rotate_byte by assumption. apply arm_shift_fst. }
    rewrite E. unfold loaded. cbv zeta. unfold alu. cbn [swap_sel not_sel out_sel cin_sel cout_sel fst].
    destruct (tb i 22); cbn [Z.eqb Pos.eqb]; [now apply load_byte_eq | reflexivity]. }
  split; [ | exact V2].
  assert (E : transfer z s i = Arm (a_regs (transfer z s i)) (a_flags s) (a_pc s + 4) (a_mem (transfer z s i))).
  { unfold transfer. now destruct (holds s i), (tb i 20). }
  rewrite E. apply ready_next; try assumption.
  - split; [ | split].
    + cbn [a_regs]. intros r Hr. unfold transfer. assert (LR := loaded_range s i W). assert (MR := moved_range s i). specialize (W1 r Hr).
      destruct (holds s i), (tb i 20), (write_back i); cbn [a_regs]; unfold put; repeat destruct (_ =? _); assumption.
    + cbn [a_mem]. intros x. unfold transfer. destruct (holds s i), (tb i 20); cbn [a_mem]; try apply W2. now apply stored_range.
    + now apply pc_ok_next.
  - now rewrite C3.
  - rewrite I3. now symmetry.
  - intros r Hr. unfold exe_nxt. rewrite nxt_regs, Hv, V7, Z1, X1 by exact Hr. rewrite one_hot_tb by (destruct (tb i 20); lia).
    unfold reg_write_nxt. rewrite V9. cbn [Z.eqb]. unfold transfer. destruct (holds s i); cbn [andb a_regs]; [ | reflexivity].
    destruct (tb i 20) eqn:L; cbn [a_regs].
    + rewrite (Lv eq_refl). unfold put. destruct (r =? bits i 15 12); [reflexivity | ]. destruct (write_back i); cbn [andb]; reflexivity.
    + replace (r =? 15) with false by (symmetry; apply Z.eqb_neq; lia). destruct (write_back i); cbn [andb]; reflexivity.
  - unfold exe_nxt. rewrite nxt_status, V8, andb_false_r. exact Z2.
Qed.
