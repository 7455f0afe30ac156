(** The processor a23: loads and stores of several registers. *)
From Coq Require Import ZArith List Bool Lia.
From Verif Require Import RtlA23 RtlA23Units RtlA23Step RtlA23Jump RtlA23Mem.
Import ListNotations.
Open Scope Z_scope.

(** * Specification *)
(** The registers of the list, the lowest first *)
Definition reg_list (i : Z) : list Z := filter (fun r => Z.testbit i r) (map Z.of_nat (seq 0 16)).
(** The address of the first of n words, and the base register after the transfer *)
Definition multi_start (s : arm) (i n : Z) : Z :=
  let b := first_reg s (bits i 19 16) in
  (if tb i 23 then (if tb i 24 then b + 4 else b) else (if tb i 24 then b - 4 * n else b - 4 * n + 4)) mod 2 ^ 32.
Definition multi_base (s : arm) (i n : Z) : Z :=
  let b := first_reg s (bits i 19 16) in (if tb i 23 then b + 4 * n else b - 4 * n) mod 2 ^ 32.
Fixpoint load_regs (r : Z -> Z) (m : memory) (l : list Z) (a : Z) : Z -> Z :=
  match l with [] => r | x :: l' => load_regs (put r x (load_word m a)) m l' ((a + 4) mod 2 ^ 32) end.
Fixpoint store_regs (z : sizes) (m : memory) (r : Z -> Z) (l : list Z) (a : Z) : memory :=
  match l with [] => m | x :: l' => store_regs z (store_word z m a (r x)) r l' ((a + 4) mod 2 ^ 32) end.
Definition multi (z : sizes) (s : arm) (i : Z) : arm :=
  let l := reg_list i in let n := Z.of_nat (length l) in
  if holds s i then
    let r := if tb i 21 then put (a_regs s) (bits i 19 16) (multi_base s i n) else a_regs s in
    if tb i 20 then
      let r' := load_regs r (a_mem s) l (multi_start s i n) in
      Arm r' (a_flags s) (if tb i 15 then word_pc (r' 15) else a_pc s + 4) (a_mem s)
    else Arm r (a_flags s) (a_pc s + 4) (store_regs z (a_mem s) (a_regs s) l (multi_start s i n))
  else Arm (a_regs s) (a_flags s) (a_pc s + 4) (a_mem s).
(** LDM and STM of one register or more; the base is not r15, and when it is written back not in the
    list of a store; r15 is not stored, and loaded only if the condition holds (the processor jumps
    anyway, as in C128); the bit S is not set *)
Definition multi_form (s : arm) (i : Z) : Prop :=
  bits i 27 25 = 4 /\ tb i 22 = false /\ bits i 19 16 <> 15 /\ reg_list i <> [] /\
  (if tb i 20 then tb i 15 = true -> holds s i = true else tb i 15 = false /\ (tb i 21 = true -> tb i (bits i 19 16) = false)).

(** * Proofs *)
(** ** The list of registers *)
Lemma first_bit_hd n k w d : d = k + Z.of_nat n -> first_bit n k w = hd d (filter (fun r => Z.testbit w r) (map (fun m => k + Z.of_nat m) (seq 0 n))).
Proof.
  revert k. induction n as [ | n IH]; intros k E; [cbn; lia | ]. cbn [first_bit seq map filter]. rewrite Z.add_0_r. unfold tb.
  destruct (Z.testbit w k); [reflexivity | ]. rewrite IH by lia. f_equal. f_equal. rewrite <- seq_shift, map_map. apply map_ext. intros. lia.
Qed.
Lemma mtrans_reg_hd i : mtrans_reg i = hd 15 (reg_list i).
Proof.
  unfold mtrans_reg, reg_list. rewrite (first_bit_hd 15 0 i 15) by reflexivity. rewrite (seq_app 15 1). rewrite map_app, filter_app.
  replace (map (fun m => 0 + Z.of_nat m) (seq 0 15)) with (map Z.of_nat (seq 0 15)) by (apply map_ext; intros; lia).
  destruct (filter _ (map Z.of_nat (seq 0 15))); [ | reflexivity]. cbn [app hd seq map filter Nat.add]. change (Z.of_nat 15) with 15. now destruct (Z.testbit i 15).
Qed.
Fixpoint increasing (l : list Z) : Prop := match l with [] => True | x :: l' => (forall y, In y l' -> x < y) /\ increasing l' end.
Lemma filter_tl f l : increasing l -> (forall x, In x l -> x <= 15) -> filter (fun k => (hd 15 (filter f l) <? k) && f k) l = tl (filter f l).
Proof.
  induction l as [ | x l IH]; intros H B; [reflexivity | ]. destruct H as [H1 H2]. cbn [filter]. destruct (f x) eqn:E.
  - cbn [hd tl]. rewrite Z.ltb_irrefl. cbn [andb]. apply filter_ext_in. intros y Hy. now rewrite (proj2 (Z.ltb_lt x y) (H1 y Hy)).
  - rewrite andb_false_r. apply IH; [assumption | intros; apply B; now right].
Qed.
Lemma seq_increasing a n : increasing (map Z.of_nat (seq a n)).
Proof.
  revert a. induction n as [ | n IH]; intros a; [exact I | ]. cbn [seq map increasing]. split; [ | apply IH].
  intros y Hy. apply in_map_iff in Hy. destruct Hy as (m & <- & Hm). apply in_seq in Hm. lia.
Qed.
Lemma reg_list_in i r : In r (reg_list i) <-> 0 <= r < 16 /\ tb i r = true.
Proof.
  unfold reg_list. rewrite filter_In, in_map_iff. split.
  - intros [(m & <- & Hm) H]. apply in_seq in Hm. split; [lia | exact H].
  - intros [Hr H]. split; [ | exact H]. exists (Z.to_nat r). split; [lia | apply in_seq; lia].
Qed.
Lemma mtrans_reg_range i : 0 <= mtrans_reg i < 16.
Proof.
  rewrite mtrans_reg_hd. destruct (reg_list i) as [ | r l] eqn:E; cbn [hd]; [lia | ].
  assert (In r (reg_list i)) as H by (rewrite E; now left). apply reg_list_in in H. lia.
Qed.
Lemma mtrans_nxt_tb i k : 0 <= i < 2 ^ 32 -> 0 <= k < 32 -> tb (mtrans_nxt i) k = if k <? 16 then (mtrans_reg i <? k) && tb i k else tb i k.
Proof.
  intros Hi Hk. unfold mtrans_nxt. assert (M := mtrans_reg_range i). set (m := mtrans_reg i) in *.
  assert (B : 0 <= bits i 15 (m + 1) < 2 ^ (15 - (m + 1) + 1)) by (apply bits_range; lia).
  assert (B' : 0 <= catz (bits i 15 (m + 1)) (m + 1) 0 < 2 ^ 16).
  { replace (2 ^ 16) with (2 ^ ((15 - (m + 1) + 1) + (m + 1))) by (f_equal; lia). apply catz_range; [lia | lia | | exact B]. split; [lia | apply pow_pos; lia]. }
  rewrite tb_catz by (try lia; exact B'). destruct (Z.ltb_spec k 16).
  - rewrite tb_catz by (first [lia | split; [lia | apply pow_pos; lia]]). destruct (Z.ltb_spec k (m + 1)), (Z.ltb_spec m k); try lia; cbn [andb].
    + unfold tb. now rewrite Z.bits_0.
    + rewrite tb_bits by lia. replace (k - (m + 1) <=? 15 - (m + 1)) with true by (symmetry; apply Z.leb_le; lia). f_equal. lia.
  - rewrite tb_bits by lia. replace (k - 16 <=? 31 - 16) with true by (symmetry; apply Z.leb_le; lia). f_equal. lia.
Qed.
Lemma mtrans_nxt_range i : 0 <= i < 2 ^ 32 -> 0 <= mtrans_nxt i < 2 ^ 32.
Proof.
  intros Hi. unfold mtrans_nxt. assert (M := mtrans_reg_range i). set (m := mtrans_reg i) in *. apply (catz_range _ 16 16); [lia | lia | | apply (bits_range i 31 16); lia].
  replace (2 ^ 16) with (2 ^ ((15 - (m + 1) + 1) + (m + 1))) by (f_equal; lia). apply catz_range; [lia | lia | | apply bits_range; lia]. split; [lia | apply pow_pos; lia].
Qed.
Lemma reg_list_nxt i : 0 <= i < 2 ^ 32 -> reg_list (mtrans_nxt i) = tl (reg_list i).
Proof.
  intros Hi. unfold reg_list at 2. rewrite <- filter_tl; [ | apply seq_increasing | ].
  - unfold reg_list at 1. apply filter_ext_in. intros r Hr. apply in_map_iff in Hr. destruct Hr as (m & <- & Hm). apply in_seq in Hm.
    fold (reg_list i). rewrite <- mtrans_reg_hd. assert (T := mtrans_nxt_tb i (Z.of_nat m) Hi ltac:(lia)).
    replace (Z.of_nat m <? 16) with true in T by (symmetry; apply Z.ltb_lt; lia). exact T.
  - intros x Hx. apply in_map_iff in Hx. destruct Hx as (m & <- & Hm). apply in_seq in Hm. lia.
Qed.
Lemma count_bits_length n w : count_bits n w = Z.of_nat (length (filter (fun r => Z.testbit w r) (map Z.of_nat (seq 0 n)))).
Proof.
  induction n as [ | n IH]; [reflexivity | ]. rewrite seq_S, map_app, filter_app, app_length. cbn [count_bits Nat.add map filter]. rewrite IH. unfold tb.
  destruct (Z.testbit w (Z.of_nat n)); cbn [Z.b2z length]; lia.
Qed.
Lemma mtrans_num_length i : mtrans_num i = Z.of_nat (length (reg_list i)).
Proof. exact (count_bits_length 16 i). Qed.
Lemma no_regs i : (bits i 15 0 =? 0) = match reg_list i with [] => true | _ => false end.
Proof.
  destruct (reg_list i) as [ | r l] eqn:E.
  - apply Z.eqb_eq. apply tb_ext with 16; [lia | apply (bits_range i 15 0); lia | lia | ]. intros j Hj. rewrite tb_bits by lia.
    replace (j <=? 15 - 0) with true by (symmetry; apply Z.leb_le; lia). rewrite Z.add_0_l. unfold tb at 2. rewrite Z.bits_0.
    destruct (tb i j) eqn:T; [ | reflexivity]. assert (In j (reg_list i)) as H by (apply reg_list_in; split; [lia | exact T]). rewrite E in H. destruct H.
  - apply Z.eqb_neq. intros B. assert (In r (reg_list i)) as H by (rewrite E; now left). apply reg_list_in in H. destruct H as [Hr H].
    rewrite (bits_tb i 15 0), B in H by lia. unfold tb in H. rewrite Z.bits_0 in H. discriminate.
Qed.
(** ** The fields in the high half *)
Definition same_high (i j : Z) : Prop := forall k, 16 <= k < 32 -> tb i k = tb j k.
Lemma high_bits i j h l : same_high i j -> 16 <= l <= h -> h < 32 -> bits i h l = bits j h l.
Proof.
  intros H H1 H2. apply tb_ext with (h - l + 1); [lia | apply bits_range; lia | apply bits_range; lia | ]. intros k Hk.
  rewrite !tb_bits by lia. replace (k <=? h - l) with true by (symmetry; apply Z.leb_le; lia). apply H. lia.
Qed.
Lemma nxt_high i : 0 <= i < 2 ^ 32 -> same_high (mtrans_nxt i) i.
Proof. intros Hi k Hk. rewrite mtrans_nxt_tb by lia. now replace (k <? 16) with false by (symmetry; apply Z.ltb_ge; lia). Qed.
Lemma multi_type i : bits i 27 25 = 4 -> itype i = MTRANS.
Proof.
  intros E. destruct (high_type i) as (H1 & H2 & H3 & H4); [rewrite (bits_tb i 27 25), E by lia; reflexivity | ].
  unfold itype. now rewrite H1, H2, H3, H4, E.
Qed.
(** ** What the decoder makes of it *)
Lemma multi_control d k a (i := instruction d) : valid (control_state d) = true -> itype i = MTRANS ->
  exists uci, control_nxt d k a =
  Control (4 * mtrans_num i) (bits i 11 7) (bits i 31 28) (bits i 3 0) (mtrans_reg i) (bits i 19 16)
    0 0 0 (alu_code (if tb i 23 then 4 else 2)) uci false false
    (if tb i 23 then (if tb i 24 then 7 else 4) else if tb i 24 then 1 else 6) 0 0 0 0
    (negb (tb i 20)) false (one_hot (if tb i 21 then bits i 19 16 else 15)) false.
Proof.
  intros V T. exists (use_carry_in_nxt (control_state d) i).
  unfold control_nxt. fold i. unfold imm32_nxt, rds_nxt, shift_amount_sel_nxt, shift_data_sel_nxt, shift_function_nxt, alu_function_nxt,
    mult_enable_nxt, mult_accumulate_nxt, address_sel_nxt, pc_sel_nxt, byte_enable_sel_nxt, status_bits_sel_nxt, reg_write_sel_nxt,
    write_data_wen_nxt, pc_wen_nxt, reg_bank_wsel_nxt, flags_wen_nxt, load_op, shift_imm, rn_nxt. rewrite T, V.
  cbn [is_regop is_mult is_trans is_mtrans is_branch andb orb].
  destruct (valid_cases _ V) as [-> | ->];
    cbn [one_of existsb Z.eqb Pos.eqb EXECUTE PRE_FETCH_EXEC MEM_WAIT1 MEM_WAIT2 MTRANS_EXEC1 MTRANS_EXEC2 MTRANS_EXEC3 MTRANS_EXEC3B MTRANS_EXEC4 MULT_PROC1 MULT_PROC2 MULT_STORE andb orb negb];
    (f_equal; [now destruct (tb i 23) | ..]).
Qed.
Lemma multi_state cs i d2 : valid cs = true -> itype i = MTRANS ->
  control_state_nxt cs i d2 = if mtrans_num i =? 0 then MTRANS_EXEC3 else if mtrans_num i =? 1 then MTRANS_EXEC3B else MTRANS_EXEC1.
Proof.
  intros V T. unfold control_state_nxt, write_pc, pc_wen_nxt. rewrite T, V. destruct (valid_cases _ V) as [-> | ->]; reflexivity.
Qed.
(** The states in which registers are transferred *)
Definition in_multi (cs : Z) : Prop := In cs [MTRANS_EXEC1; MTRANS_EXEC2; MTRANS_EXEC3; MTRANS_EXEC3B].
Lemma loop_control d k a (i := instruction d) (cs := control_state d) : in_multi cs -> itype i = MTRANS ->
  let k' := control_nxt d k a in
  condition k' = condition k /\ rds_sel k' = mtrans_reg i /\ shift_amount_sel k' = 0 /\ shift_function k' = 0 /\ alu_function k' = Alufn false false 0 false 0 /\
  mult_enable k' = false /\ pc_sel k' = 0 /\ byte_enable_sel k' = 0 /\ reg_write_sel k' = 0 /\ pc_wen k' = false /\ flags_wen k' = false /\
  address_sel k' = (if one_of cs [MTRANS_EXEC1; MTRANS_EXEC2] then 5 else 3) /\
  write_data_wen k' = (one_of cs [MTRANS_EXEC1; MTRANS_EXEC2] && negb (tb i 20)) /\
  shift_data_sel k' = (if one_of cs [MTRANS_EXEC2; MTRANS_EXEC3] then 1 else 0) /\
  reg_bank_wen k' = one_hot (if one_of cs [MTRANS_EXEC2; MTRANS_EXEC3] && tb i 20 then reg_d2 d else 15).
Proof.
  intros C T. unfold cs, i in *. unfold control_nxt, mult_enable_nxt, address_sel_nxt, pc_sel_nxt, write_data_wen_nxt, pc_wen_nxt, reg_bank_wsel_nxt, flags_wen_nxt, reg_write_sel_nxt, byte_enable_sel_nxt,
    rds_nxt, shift_amount_sel_nxt, shift_data_sel_nxt, shift_function_nxt, alu_function_nxt, load_op. rewrite T.
  unfold in_multi in C. cbn [In] in C. destruct C as [<- | [<- | [<- | [<- | []]]]]; repeat split; destruct (tb (instruction d) 20); reflexivity.
Qed.
Lemma loop_state cs i d2 : in_multi cs -> control_state_nxt cs i d2 =
  if cs =? MTRANS_EXEC1 then (if bits (mtrans_nxt i) 15 0 =? 0 then MTRANS_EXEC3 else MTRANS_EXEC2)
  else if cs =? MTRANS_EXEC2 then (if mtrans_num i =? 1 then MTRANS_EXEC3 else MTRANS_EXEC2) else MTRANS_EXEC4.
Proof.
  intros C. unfold control_state_nxt. unfold in_multi in C. cbn [In] in C. destruct C as [<- | [<- | [<- | [<- | []]]]]; reflexivity.
Qed.
Lemma last_control d k a (i := instruction d) : control_state d = MTRANS_EXEC4 -> itype i = MTRANS -> tb i 22 = false ->
  let k' := control_nxt d k a in let j := tb i 20 && (reg_d2 d =? 15) in
  condition k' = condition k /\ shift_amount_sel k' = 0 /\ shift_function k' = 0 /\ alu_function k' = Alufn false false 0 false 0 /\ shift_data_sel k' = 1 /\
  mult_enable k' = false /\ reg_write_sel k' = 0 /\ pc_wen k' = true /\ flags_wen k' = false /\ write_data_wen k' = false /\
  pc_sel k' = (if j then 1 else 0) /\ address_sel k' = (if j then 1 else 0) /\
  reg_bank_wen k' = one_hot (if tb i 20 then reg_d2 d else 15).
Proof.
  intros C T S. unfold i in *. unfold control_nxt, mult_enable_nxt, address_sel_nxt, pc_sel_nxt, write_data_wen_nxt, pc_wen_nxt, reg_bank_wsel_nxt, flags_wen_nxt, reg_write_sel_nxt,
    shift_amount_sel_nxt, shift_data_sel_nxt, shift_function_nxt, alu_function_nxt, load_op. rewrite C, T, S. cbv zeta.
  destruct (tb (instruction d) 20); [ | repeat split]. destruct (Z.eqb_spec (reg_d2 d) 15) as [E | N]; repeat split; cbn - [one_hot]; now rewrite ?E.
Qed.
Lemma last_state i d2 : itype i = MTRANS -> control_state_nxt MTRANS_EXEC4 i d2 = if tb i 20 && (d2 =? 15) then PC_STALL1 else PRE_FETCH_EXEC.
Proof.
  intros T. unfold control_state_nxt, write_pc, pc_sel_nxt, pc_wen_nxt, load_op. rewrite T. destruct (tb i 20), (d2 =? 15); reflexivity.
Qed.
(** ** Lists *)
Lemma filter_short {A} f (l : list A) : (length (filter f l) <= length l)%nat.
Proof. induction l as [ | x l IH]; [reflexivity | ]. cbn. destruct (f x); cbn; lia. Qed.
Lemma firstn_step {A} (l : list A) j d : (j < length l)%nat -> firstn (S j) l = firstn j l ++ [nth j l d].
Proof.
  revert j. induction l as [ | x l IH]; intros j H; [cbn in H; lia | ]. destruct j; [reflexivity | ].
  cbn [firstn nth app]. cbn [firstn] in IH. cbn [length] in H. f_equal. apply IH. lia.
Qed.
Lemma skipn_hd {A} (l : list A) j d : (j < length l)%nat -> hd d (skipn j l) = nth j l d.
Proof. revert j. induction l as [ | x l IH]; intros j H; [cbn in H; lia | ]. destruct j; [reflexivity | ]. cbn [skipn nth]. apply IH. cbn in H. lia. Qed.
Lemma skipn_tl {A} (l : list A) j : tl (skipn j l) = skipn (S j) l.
Proof. revert j. induction l as [ | x l IH]; intros j; [now destruct j | ]. destruct j; [reflexivity | ]. exact (IH j). Qed.
Lemma load_regs_snoc r m l x a : 0 <= a < 2 ^ 32 ->
  load_regs r m (l ++ [x]) a = put (load_regs r m l a) x (load_word m ((a + 4 * Z.of_nat (length l)) mod 2 ^ 32)).
Proof.
  revert r a. induction l as [ | y l IH]; intros r a Ha; cbn [app load_regs length].
  - change (4 * Z.of_nat 0) with 0. now rewrite Z.add_0_r, Z.mod_small by exact Ha.
  - rewrite IH by (apply Z.mod_pos_bound; lia). f_equal. f_equal. rewrite Z.add_mod_idemp_l by lia. f_equal. lia.
Qed.
Lemma store_regs_snoc z r m l x a : 0 <= a < 2 ^ 32 ->
  store_regs z m r (l ++ [x]) a = store_word z (store_regs z m r l a) ((a + 4 * Z.of_nat (length l)) mod 2 ^ 32) (r x).
Proof.
  revert m a. induction l as [ | y l IH]; intros m a Ha; cbn [app store_regs length].
  - change (4 * Z.of_nat 0) with 0. now rewrite Z.add_0_r, Z.mod_small by exact Ha.
  - rewrite IH by (apply Z.mod_pos_bound; lia). f_equal. rewrite Z.add_mod_idemp_l by lia. f_equal. lia.
Qed.
(** ** The pipeline *)
Section Pipeline.
Variables (z : sizes) (s : arm) (i : Z) (l : list Z).
Hypothesis El : reg_list i = l.
Let n := Z.of_nat (length l).
Let M := a_mem s.
Let R := a_regs s.
Let b := holds s i.
Let start := multi_start s i n.
Let R1 : Z -> Z := if b && tb i 21 then put R (bits i 19 16) (multi_base s i n) else R.
Let loads (j : nat) : Z -> Z := if b && tb i 20 then load_regs R1 M (firstn j l) start else R1.
Let stores (j : nat) : memory := if b && negb (tb i 20) then store_regs z M R (firstn j l) start else M.
Let addr (j : nat) : Z := (start + 4 * Z.of_nat j) mod 2 ^ 32.
(** In the cycle j after the one that decodes the instruction *)
Record multi_inv (j : nat) (w : processor) : Prop := {
  mi_one : (1 <= j)%nat; mi_range : 0 <= instruction (dec w) < 2 ^ 32; mi_high : same_high (instruction (dec w)) i;
  mi_list : reg_list (instruction (dec w)) = skipn j l;
  mi_state : control_state (dec w) = (if Nat.eqb j 1 then (if Nat.eqb (length l) 1 then MTRANS_EXEC3B else MTRANS_EXEC1)
                                      else if Nat.eqb j (length l) then MTRANS_EXEC3 else MTRANS_EXEC2);
  mi_d1 : reg_d1 (dec w) = nth (j - 1) l 15;
  mi_d2 : (2 <= j)%nat -> reg_d2 (dec w) = nth (j - 2) l 15;
  mi_cond : condition (ctl w) = bits i 31 28;
  mi_regs : forall r, 0 <= r < 15 -> regs (exe_nxt w) r = loads (j - 2) r;
  mi_status : status (exe_nxt w) = a_flags s; mi_pc : pc_of (r15 (exe_nxt w)) = a_pc s + 8;
  mi_addr : address (exe_nxt w) = addr (j - 1);
  mi_we : write_enable (exe_nxt w) = b && negb (tb i 20);
  mi_data : tb i 20 = false -> write_data (exe_nxt w) = R (nth (j - 1) l 15) /\ byte_enable (exe_nxt w) = 15;
  mi_mem : forall a, mem (step z w) a = stores (j - 1) a;
  mi_read : tb i 20 = true -> (2 <= j)%nat -> (forall a, mem w a = M a) /\ address (exe w) = addr (j - 2);
  mi_next : (if Nat.eqb j 1 then read_data (dec w) else pre_fetch (dec w)) = mem_read M (a_pc s + 4) }.
Hypothesis W : well s.
Hypothesis Fm : multi_form s i.
Hypothesis Ri : 0 <= i < 2 ^ 32.
Lemma multi_start_range : 0 <= start < 2 ^ 32.
Proof. apply Z.mod_pos_bound. lia. Qed.
Lemma addr_range j : 0 <= addr j < 2 ^ 32.
Proof. apply Z.mod_pos_bound. lia. Qed.
Lemma list_pos : (1 <= length l)%nat.
Proof. destruct Fm as (_ & _ & _ & H & _). rewrite El in H. destruct l; [contradiction | cbn; lia]. Qed.
Lemma list_bound : n <= 16.
Proof. unfold n. rewrite <- El. unfold reg_list. pose proof (filter_short (fun r => Z.testbit i r) (map Z.of_nat (seq 0 16))) as H. rewrite map_length, seq_length in H. lia. Qed.
Lemma nth_range j : 0 <= nth j l 15 < 16.
Proof.
  destruct (Nat.lt_ge_cases j (length l)) as [H | H]; [ | rewrite nth_overflow by exact H; lia].
  apply (nth_In l 15) in H. rewrite <- El in H at 2. apply reg_list_in in H. lia.
Qed.
Lemma loads_step j : (j < length l)%nat -> loads (S j) = if b && tb i 20 then put (loads j) (nth j l 15) (load_word M (addr j)) else loads j.
Proof.
  intros H. unfold loads, addr. destruct (b && tb i 20); [ | reflexivity]. rewrite (firstn_step l j 15) by exact H.
  rewrite load_regs_snoc by apply multi_start_range. now rewrite firstn_length_le by lia.
Qed.
Lemma stores_step j : (j < length l)%nat -> stores (S j) = if b && negb (tb i 20) then store_word z (stores j) (addr j) (R (nth j l 15)) else stores j.
Proof.
  intros H. unfold stores, addr. destruct (b && negb (tb i 20)); [ | reflexivity]. rewrite (firstn_step l j 15) by exact H.
  rewrite store_regs_snoc by apply multi_start_range. now rewrite firstn_length_le by lia.
Qed.
Lemma stored_reg j : tb i 20 = false -> (j < length l)%nat -> nth j l 15 < 15 /\ R1 (nth j l 15) = R (nth j l 15).
Proof.
  intros L H. destruct Fm as (_ & _ & _ & _ & F). rewrite L in F. destruct F as [F1 F2].
  assert (I := nth_In l 15 H). rewrite <- El in I at 2. apply reg_list_in in I. destruct I as [I1 I2]. split.
  - destruct (Z.eq_dec (nth j l 15) 15) as [E | N]; [rewrite E in I2; congruence | lia].
  - unfold R1. destruct (b && tb i 21) eqn:E; [ | reflexivity]. apply andb_prop in E. destruct E as [_ E].
    unfold put. destruct (Z.eqb_spec (nth j l 15) (bits i 19 16)) as [E' | ]; [ | reflexivity]. rewrite E', (F2 E) in I2. discriminate.
Qed.
(** The first cycle *)
Lemma multi_first p : ready p s -> i = mem_read M (a_pc s) -> multi_inv 1 (step z p).
Proof.
  intros Rd Ei. destruct (decode_cycle z p s Rd) as (Ex & S & Hm & Rdata & K & D).
  set (q := step z p) in *. pose proof Rd as (_ & V & I & _). fold M in I. rewrite <- Ei in I.
  destruct Fm as (T1 & T2 & T3 & T4 & T5). assert (Ty := multi_type i T1).
  destruct (multi_control (dec p) (ctl p) (address (exe p)) V) as (uci & K'); [now rewrite I | ].
  rewrite I in K'. rewrite K' in K. clear K'. pose proof W as (W1 & W2 & P). pose proof S as (S1 & S2 & S3 & S4 & S5).
  assert (He : executes (ctl q) (exe q) = b) by (unfold b; rewrite <- holds_eq; unfold executes; rewrite S2, K; reflexivity).
  assert (Rrn := nibble i 19 16 eq_refl). assert (Rf := first_range s (bits i 19 16) W Rrn). assert (Ln := list_bound). assert (Lp := list_pos).
  assert (Nn : mtrans_num i = n) by (unfold n; rewrite <- El; apply mtrans_num_length). assert (Np : 1 <= n) by (unfold n; lia).
  assert (Al : fst (alu_both (ctl q) (exe q) (read_data (dec q)) (alignment (dec q))) = multi_base s i n).
  { rewrite alu_both_eq, S2. replace (rn_sel (ctl q)) with (bits i 19 16) by now rewrite K. rewrite (proj1 (settled_first _ _ _ S Rrn)).
    replace (fst (shifter (ctl q) (exe q) (read_data (dec q)) (alignment (dec q)))) with (4 * n).
    2:{ unfold shifter, shift_in, shift_amount. rewrite K. cbn [shift_function shift_data_sel shift_amount_sel imm32 Z.eqb]. rewrite Nn, barrel_shift_ok by lia. reflexivity. }
    replace (alu_function (ctl q)) with (alu_code (if tb i 23 then 4 else 2)) by now rewrite K.
    assert (R4 : 0 <= 4 * n < 2 ^ 32) by lia.
    rewrite (proj1 (alu_ok (if tb i 23 then 4 else 2) _ _ _ _ ltac:(destruct (tb i 23); lia) Rf R4)). unfold multi_base, arm_result, arith. now destruct (tb i 23). }
  assert (Sv : saved_instruction (dec q) = mtrans_nxt i) by (rewrite D; unfold decoder_nxt; cbn [saved_instruction]; now rewrite I, Ty).
  assert (C1 : control_state (dec q) = if Nat.eqb (length l) 1 then MTRANS_EXEC3B else MTRANS_EXEC1).
  { rewrite D. unfold decoder_nxt. cbn [control_state]. rewrite I, multi_state, Nn by assumption. unfold n.
    replace (Z.of_nat (length l) =? 0) with false by (symmetry; apply Z.eqb_neq; lia).
    destruct (Nat.eqb_spec (length l) 1) as [E | N]; [now rewrite E | ]. now replace (Z.of_nat (length l) =? 1) with false by (symmetry; apply Z.eqb_neq; lia). }
  assert (I1 : instruction (dec q) = mtrans_nxt i) by (unfold instruction; rewrite C1; now destruct (Nat.eqb (length l) 1)).
  constructor; cbn [Nat.eqb Nat.sub]; rewrite ?I1; try assumption.
  - lia.
  - now apply mtrans_nxt_range.
  - now apply nxt_high.
  - rewrite reg_list_nxt, El by assumption. exact (skipn_tl l 0).
  - rewrite D. unfold decoder_nxt. cbn [reg_d1]. rewrite I, mtrans_reg_hd, El. rewrite <- (skipn_hd l 0 15) by lia. reflexivity.
  - lia.
  - now rewrite K.
  - intros r Hr. unfold exe_nxt. rewrite nxt_regs, He, Al, S1 by exact Hr. unfold reg_write_nxt. rewrite K. cbn [reg_bank_wen reg_write_sel Z.eqb].
    rewrite one_hot_tb by (destruct (tb i 21); lia). unfold loads. cbn [firstn load_regs]. replace (if b && tb i 20 then R1 else R1) with R1 by now destruct (b && tb i 20).
    unfold R1. destruct b; cbn [andb]; [ | reflexivity]. destruct (tb i 21); [reflexivity | ].
    now replace (r =? 15) with false by (symmetry; apply Z.eqb_neq; lia).
  - unfold exe_nxt. rewrite nxt_status. replace (flags_wen (ctl q)) with false by (now rewrite K). rewrite andb_false_r. exact S2.
  - unfold exe_nxt. rewrite nxt_r15. replace (pc_wen (ctl q)) with false by (now rewrite K). exact S3.
  - unfold exe_nxt. rewrite nxt_address, Al. unfold address_nxt. rewrite (proj1 (settled_first _ _ (rn_sel (ctl q)) S ltac:(rewrite K; exact Rrn))).
    rewrite K. cbn [address_sel pc_wen pc_sel rn_sel andb]. unfold addr. change (4 * Z.of_nat 0) with 0. rewrite Z.add_0_r, (Z.mod_small start) by apply multi_start_range.
    unfold start, multi_start, multi_base, w32. cbv zeta. destruct (tb i 23), (tb i 24); cbn [Z.eqb Pos.eqb].
    + reflexivity.
    + symmetry. now apply Z.mod_small.
    + reflexivity.
    + now rewrite Z.add_mod_idemp_l by lia.
  - unfold exe_nxt. rewrite nxt_write, He, K. reflexivity.
  - intros L. split; [ | unfold exe_nxt; rewrite nxt_bytes; unfold byte_enable_nxt; now rewrite K]. unfold exe_nxt. rewrite nxt_data. unfold write_data_nxt, rd_of. rewrite K. cbn [rds_sel byte_enable_sel Z.eqb].
    rewrite mtrans_reg_hd, El. change (hd 15 l) with (hd 15 (skipn 0 l)). rewrite skipn_hd by lia. destruct (stored_reg 0 L ltac:(lia)) as [E _]. assert (Nr := nth_range 0).
    replace (nth 0 l 15 =? 15) with false by (symmetry; apply Z.eqb_neq; lia). exact (S1 (nth 0 l 15) (conj (proj1 Nr) E)).
  - intros a. unfold step. cbn [mem]. rewrite S5. unfold stores. cbn [firstn store_regs]. replace (if b && negb (tb i 20) then M else M) with M by now destruct (b && negb (tb i 20)). apply Hm.
  - lia.
Qed.
(** The value that is loaded *)
Lemma read_alu k x v al : shift_amount_sel k = 0 -> shift_function k = 0 -> alu_function k = Alufn false false 0 false 0 -> shift_data_sel k = 1 ->
  0 <= v < 2 ^ 32 -> fst (alu_both k x v al) = v.
Proof.
  intros H1 H2 H3 H4 Hv. rewrite alu_both_eq, H3. unfold alu. cbn [swap_sel not_sel out_sel cin_sel cout_sel fst Z.eqb].
  unfold shifter, shift_in, shift_amount. rewrite H1, H2, H4. cbn [Z.eqb Pos.eqb]. rewrite barrel_shift_ok by lia. reflexivity.
Qed.
Lemma step_read w j : tb i 20 = true -> (forall a, mem w a = M a) -> address (exe w) = addr j -> read_data (dec (step z w)) = load_word M (addr j).
Proof.
  intros L Hm A. transitivity (mem_read (mem w) (4 * bits (address (exe w)) 31 2)); [reflexivity | ]. rewrite mem_read_align, A, (mem_read_ext _ _ _ Hm).
  apply load_word_eq, addr_range.
Qed.
Lemma step_mem w j : (forall a, mem w a = stores j a) -> (j < length l)%nat -> address (exe w) = addr j -> write_enable (exe w) = b && negb (tb i 20) ->
  (tb i 20 = false -> write_data (exe w) = R (nth j l 15) /\ byte_enable (exe w) = 15) -> forall a, mem (step z w) a = stores (S j) a.
Proof.
  intros Hm Hj A We Wd a. unfold step. cbn [mem]. rewrite We, A, stores_step by exact Hj. destruct b; cbn [andb]; [ | apply Hm].
  destruct (tb i 20); cbn [negb]; [apply Hm | ]. destruct (Wd eq_refl) as [-> ->]. rewrite store_word_eq by apply addr_range. unfold store_word. now rewrite Hm.
Qed.
Lemma multi_executes w : condition (ctl w) = bits i 31 28 -> status (exe w) = a_flags s -> executes (ctl w) (exe w) = b.
Proof. intros H1 H2. unfold executes, b. now rewrite H1, H2, holds_eq. Qed.
(** From one register to the next *)
Lemma multi_next j w : multi_inv j w -> (S j <= length l)%nat -> multi_inv (S j) (step z w).
Proof.
  intros H Hj. destruct H as [J1 Ir Ih Il C D1 D2 Co Rg St Pc Ad We Wd Mm Rd Nx].
  destruct Fm as (T1 & T2 & T3 & T4 & T5). pose proof W as (W1 & W2 & P).
  assert (Cs : control_state (dec w) = if Nat.eqb j 1 then MTRANS_EXEC1 else MTRANS_EXEC2).
  { rewrite C. destruct (Nat.eqb_spec j 1) as [-> | N]; [now replace (Nat.eqb (length l) 1) with false by (symmetry; apply Nat.eqb_neq; lia) | ].
    now replace (Nat.eqb j (length l)) with false by (symmetry; apply Nat.eqb_neq; lia). }
  assert (Cm : in_multi (control_state (dec w))) by (rewrite Cs; unfold in_multi; cbn; destruct (Nat.eqb j 1); auto).
  assert (Ty : itype (instruction (dec w)) = MTRANS) by (apply multi_type; rewrite <- T1; apply high_bits; [exact Ih | lia | lia]).
  destruct (loop_control (dec w) (ctl w) (address (exe w)) Cm Ty) as (K1 & K2 & K3 & K4 & K5 & K6 & K7 & K8 & K9 & K10 & K11 & K12 & K13 & K14 & K15).
  rewrite (Ih 20) in K13, K15 by lia.
  replace (one_of (control_state (dec w)) [MTRANS_EXEC1; MTRANS_EXEC2]) with true in K12, K13 by (rewrite Cs; now destruct (Nat.eqb j 1)).
  replace (one_of (control_state (dec w)) [MTRANS_EXEC2; MTRANS_EXEC3]) with (negb (Nat.eqb j 1)) in K14, K15 by (rewrite Cs; now destruct (Nat.eqb j 1)).
  rewrite mtrans_reg_hd, Il, skipn_hd in K2 by lia. cbn [andb] in K13.
  assert (C' : control_state (dec (step z w)) = if Nat.eqb (S j) (length l) then MTRANS_EXEC3 else MTRANS_EXEC2).
  { unfold step, decoder_nxt. cbn [dec control_state]. rewrite loop_state by exact Cm. rewrite no_regs, reg_list_nxt, mtrans_num_length, Il, skipn_tl, skipn_length by exact Ir.
    assert (Ls := skipn_length (S j) l). rewrite Cs. destruct (Nat.eqb j 1); cbn [Z.eqb Pos.eqb MTRANS_EXEC1 MTRANS_EXEC2].
    - destruct (skipn (S j) l) as [ | x l']; cbn [length] in Ls; destruct (Nat.eqb_spec (S j) (length l)); try reflexivity; lia.
    - destruct (Z.eqb_spec (Z.of_nat (length l - j)) 1), (Nat.eqb_spec (S j) (length l)); try reflexivity; lia. }
  assert (Sv : saved_instruction (dec (step z w)) = mtrans_nxt (instruction (dec w))) by (unfold step, decoder_nxt; cbn [dec saved_instruction]; now rewrite Ty).
  assert (I' : instruction (dec (step z w)) = mtrans_nxt (instruction (dec w))) by (unfold instruction at 1; rewrite C'; now destruct (Nat.eqb (S j) (length l))).
  assert (D1' : reg_d1 (dec (step z w)) = nth j l 15) by (unfold step, decoder_nxt; cbn [dec reg_d1]; rewrite mtrans_reg_hd, Il; apply skipn_hd; lia).
  assert (D2' : reg_d2 (dec (step z w)) = nth (j - 1) l 15) by exact D1.
  assert (Nx' : pre_fetch (dec (step z w)) = mem_read M (a_pc s + 4)).
  { unfold step, decoder_nxt. cbn [dec pre_fetch]. rewrite Cs. destruct (Nat.eqb j 1); exact Nx. }
  assert (Rd' : tb i 20 = true -> (2 <= j)%nat -> read_data (dec (step z w)) = load_word M (addr (j - 2))).
  { intros L J2. destruct (Rd L J2) as [E1 E2]. now apply step_read. }
  change (control_nxt (dec w) (ctl w) (address (exe w))) with (ctl (step z w)) in *. change (exe_nxt w) with (exe (step z w)) in *.
  set (u := step z w) in *.
  assert (He : executes (ctl u) (exe u) = b) by (apply multi_executes; [now rewrite K1 | exact St]).
  constructor; cbn [Nat.sub]; rewrite ?Nat.sub_0_r, ?I'; try assumption.
  - lia.
  - now apply mtrans_nxt_range.
  - intros k Hk. rewrite nxt_high by (assumption || lia). now apply Ih.
  - rewrite reg_list_nxt, Il by exact Ir. apply skipn_tl.
  - rewrite C'. now replace (Nat.eqb (S j) 1) with false by (symmetry; apply Nat.eqb_neq; lia).
  - intros _. exact D2'.
  - now rewrite K1.
  - intros r Hr. unfold exe_nxt. rewrite nxt_regs, He, K15, Rg by exact Hr. unfold reg_write_nxt. rewrite K9. cbn [Z.eqb].
    destruct (Nat.eqb_spec j 1) as [-> | Nj]; cbn [negb andb].
    + rewrite one_hot_tb by lia. replace (r =? 15) with false by (symmetry; apply Z.eqb_neq; lia). now rewrite andb_false_r.
    + replace (j - 1)%nat with (S (j - 2)) by lia. rewrite loads_step by lia. destruct (tb i 20) eqn:L.
      * rewrite D2 by lia. rewrite one_hot_tb by (pose proof (nth_range (j - 2)); lia). destruct b; cbn [andb]; [ | reflexivity].
        rewrite read_alu; [unfold put; now rewrite Rd' by lia | assumption | assumption | assumption | exact K14 | rewrite Rd' by (reflexivity || lia); now apply load_word_range].
      * rewrite one_hot_tb by lia. replace (r =? 15) with false by (symmetry; apply Z.eqb_neq; lia). now rewrite !andb_false_r.
  - unfold exe_nxt. rewrite nxt_status, K11, andb_false_r. exact St.
  - unfold exe_nxt. rewrite nxt_r15, K10. exact Pc.
  - unfold exe_nxt. rewrite nxt_address. unfold address_nxt. rewrite K12, Ad. cbn [Z.eqb Pos.eqb]. unfold w32, addr. rewrite Z.add_mod_idemp_l by lia. f_equal. lia.
  - unfold exe_nxt. now rewrite nxt_write, He, K13.
  - intros L. split; [ | unfold exe_nxt; rewrite nxt_bytes; unfold byte_enable_nxt; now rewrite K8]. unfold exe_nxt. rewrite nxt_data. unfold write_data_nxt, rd_of. rewrite K8, K2. cbn [Z.eqb].
    destruct (stored_reg j L ltac:(lia)) as [E1 E2]. assert (Nr := nth_range j). replace (nth j l 15 =? 15) with false by (symmetry; apply Z.eqb_neq; lia).
    rewrite Rg by lia. rewrite <- E2. unfold loads. rewrite L, andb_false_r. reflexivity.
  - replace j with (S (j - 1)) by lia. apply step_mem; try assumption. lia.
  - intros L _. split; [intros a; rewrite Mm; unfold stores; rewrite L, andb_false_r; reflexivity | exact Ad].
  - now replace (Nat.eqb (S j) 1) with false by (symmetry; apply Nat.eqb_neq; lia).
Qed.
Lemma run_snoc m p : run z (S m) p = step z (run z m p).
Proof. revert p. induction m as [ | m IH]; intros p; [reflexivity | ]. change (run z (S (S m)) p) with (run z (S m) (step z p)). now rewrite IH. Qed.
Lemma multi_all j p : ready p s -> i = mem_read M (a_pc s) -> (S j <= length l)%nat -> multi_inv (S j) (run z (S j) p).
Proof.
  intros Rd Ei. induction j as [ | j IH]; intros Hj; [now apply multi_first | ]. rewrite run_snoc. apply multi_next; [apply IH; lia | lia].
Qed.
Lemma put_range r v : (forall k, 0 <= k < 15 -> 0 <= r k < 2 ^ 32) -> 0 <= v < 2 ^ 32 -> forall x k, 0 <= k < 15 -> 0 <= put r x v k < 2 ^ 32.
Proof. intros H Hv x k Hk. unfold put. destruct (k =? x); [exact Hv | now apply H]. Qed.
Lemma moved_regs_range k : 0 <= k < 15 -> 0 <= R1 k < 2 ^ 32.
Proof.
  pose proof W as (W1 & _). unfold R1. destruct (b && tb i 21); [ | apply W1]. apply put_range; [exact W1 | apply Z.mod_pos_bound; lia].
Qed.
Lemma loads_range j k : (j <= length l)%nat -> 0 <= k < 15 -> 0 <= loads j k < 2 ^ 32.
Proof.
  pose proof W as (W1 & W2 & _). intros Hj. revert k. induction j as [ | j IH]; intros k Hk.
  - unfold loads. cbn [firstn load_regs]. destruct (b && tb i 20); now apply moved_regs_range.
  - rewrite loads_step by lia. destruct (b && tb i 20); [ | apply IH; lia]. apply put_range; [intros; apply IH; lia | now apply load_word_range | exact Hk].
Qed.
Lemma stores_range j a : (j <= length l)%nat -> 0 <= stores j a < 256.
Proof.
  pose proof W as (W1 & W2 & _). intros Hj. revert a. induction j as [ | j IH]; intros a.
  - unfold stores. cbn [firstn store_regs]. destruct (b && negb (tb i 20)); apply W2.
  - rewrite stores_step by lia. destruct (b && negb (tb i 20)); [ | apply IH; lia]. unfold store_word. cbv zeta.
    destruct (writable z (addr j) && _ && _); [apply Z.mod_pos_bound; lia | apply IH; lia].
Qed.
Lemma last_reg : (nth (length l - 1) l 15 =? 15) = tb i 15.
Proof.
  assert (Lp := list_pos). destruct (tb i 15) eqn:T.
  - apply Z.eqb_eq. assert (E : exists l', reg_list i = l' ++ [15]).
    { unfold reg_list. rewrite (seq_app 15 1), map_app, filter_app. eexists. f_equal.
      change (filter (fun r => tb i r) [15] = [15]). cbn [filter]. now rewrite T. }
    destruct E as (l' & E). rewrite El in E. rewrite E, app_length. cbn [length]. rewrite app_nth2 by lia. now replace (length l' + 1 - 1 - length l')%nat with O by lia.
  - apply Z.eqb_neq. intros E. assert (H : In 15 (reg_list i)) by (rewrite El, <- E; apply nth_In; lia). apply reg_list_in in H. destruct H. congruence.
Qed.
(** The last two cycles *)
Lemma multi_last w : multi_inv (length l) w -> let v := step z (step z w) in let j := tb i 20 && tb i 15 in
  control_state (dec v) = (if j then PC_STALL1 else PRE_FETCH_EXEC) /\ pre_fetch (dec v) = mem_read M (a_pc s + 4) /\
  (tb i 20 = true -> read_data (dec v) = load_word M (addr (length l - 1))) /\
  (forall r, 0 <= r < 15 -> regs (exe_nxt v) r = loads (length l) r) /\ (forall a, mem v a = stores (length l) a) /\
  status (exe_nxt v) = a_flags s /\ pc_of (r15 (exe v)) = a_pc s + 8 /\ address (exe v) = a_pc s + 8 /\ write_enable (exe v) = false /\
  pc_wen (ctl v) = true /\ pc_sel (ctl v) = (if j then 1 else 0) /\ address_sel (ctl v) = (if j then 1 else 0) /\ write_data_wen (ctl v) = false /\ mult_enable (ctl v) = false /\
  (j = true -> fst (alu_both (ctl v) (exe v) (read_data (dec v)) (alignment (dec v))) = load_word M (addr (length l - 1))).
Proof.
  intros H. destruct H as [J1 Ir Ih Il C D1 D2 Co Rg St Pc Ad We Wd Mm Rd Nx]. cbv zeta.
  destruct Fm as (T1 & T2 & T3 & T4 & T5). pose proof W as (W1 & W2 & P). set (m := length l) in *.
  assert (Cs : control_state (dec w) = if Nat.eqb m 1 then MTRANS_EXEC3B else MTRANS_EXEC3) by (rewrite C, Nat.eqb_refl; now destruct (Nat.eqb m 1)).
  assert (Cm : in_multi (control_state (dec w))) by (rewrite Cs; unfold in_multi; cbn; destruct (Nat.eqb m 1); auto).
  assert (Ty : itype (instruction (dec w)) = MTRANS) by (apply multi_type; rewrite <- T1; apply high_bits; [exact Ih | lia | lia]).
  destruct (loop_control (dec w) (ctl w) (address (exe w)) Cm Ty) as (K1 & K2 & K3 & K4 & K5 & K6 & K7 & K8 & K9 & K10 & K11 & K12 & K13 & K14 & K15).
  rewrite (Ih 20) in K13, K15 by lia.
  replace (one_of (control_state (dec w)) [MTRANS_EXEC1; MTRANS_EXEC2]) with false in K12, K13 by (rewrite Cs; now destruct (Nat.eqb m 1)).
  replace (one_of (control_state (dec w)) [MTRANS_EXEC2; MTRANS_EXEC3]) with (negb (Nat.eqb m 1)) in K14, K15 by (rewrite Cs; now destruct (Nat.eqb m 1)).
  cbn [andb] in K13.
  assert (C' : control_state (dec (step z w)) = MTRANS_EXEC4).
  { unfold step, decoder_nxt. cbn [dec control_state]. rewrite loop_state by exact Cm. rewrite Cs. now destruct (Nat.eqb m 1). }
  assert (Sv : saved_instruction (dec (step z w)) = mtrans_nxt (instruction (dec w))) by (unfold step, decoder_nxt; cbn [dec saved_instruction]; now rewrite Ty).
  assert (I' : instruction (dec (step z w)) = mtrans_nxt (instruction (dec w))) by (unfold instruction at 1; rewrite C'; exact Sv).
  assert (D2' : reg_d2 (dec (step z w)) = nth (m - 1) l 15) by exact D1.
  assert (Nx' : pre_fetch (dec (step z w)) = mem_read M (a_pc s + 4)).
  { unfold step, decoder_nxt. cbn [dec pre_fetch]. rewrite Cs. destruct (Nat.eqb m 1); exact Nx. }
  assert (Rd' : tb i 20 = true -> (2 <= m)%nat -> read_data (dec (step z w)) = load_word M (addr (m - 2))).
  { intros L J2. destruct (Rd L J2) as [E1 E2]. now apply step_read. }
  assert (Ih' : same_high (instruction (dec (step z w))) i) by (intros k Hk; rewrite I', nxt_high by (assumption || lia); now apply Ih).
  change (control_nxt (dec w) (ctl w) (address (exe w))) with (ctl (step z w)) in *. change (exe_nxt w) with (exe (step z w)) in *.
  set (u := step z w) in *.
  assert (Ty' : itype (instruction (dec u)) = MTRANS) by (apply multi_type; rewrite <- T1; apply high_bits; [exact Ih' | lia | lia]).
  assert (He : executes (ctl u) (exe u) = b) by (apply multi_executes; [now rewrite K1 | exact St]).
  assert (Rg' : forall r, 0 <= r < 15 -> regs (exe_nxt u) r = loads (m - 1) r).
  { intros r Hr. unfold exe_nxt. rewrite nxt_regs, He, K15, Rg by exact Hr. unfold reg_write_nxt. rewrite K9. cbn [Z.eqb].
    destruct (Nat.eqb_spec m 1) as [-> | Nj]; cbn [negb andb].
    + rewrite one_hot_tb by lia. replace (r =? 15) with false by (symmetry; apply Z.eqb_neq; lia). now rewrite andb_false_r.
    + replace (m - 1)%nat with (S (m - 2)) by lia. rewrite loads_step by (fold m; lia). destruct (tb i 20) eqn:L.
      * rewrite D2 by lia. rewrite one_hot_tb by (pose proof (nth_range (m - 2)); lia). destruct b; cbn [andb]; [ | reflexivity].
        rewrite read_alu; [unfold put; now rewrite Rd' by lia | assumption | assumption | assumption | exact K14 | rewrite Rd' by (reflexivity || lia); now apply load_word_range].
      * rewrite one_hot_tb by lia. replace (r =? 15) with false by (symmetry; apply Z.eqb_neq; lia). now rewrite !andb_false_r. }
  assert (St' : status (exe_nxt u) = a_flags s) by (unfold exe_nxt; rewrite nxt_status, K11, andb_false_r; exact St).
  assert (Pc' : pc_of (r15 (exe_nxt u)) = a_pc s + 8) by (unfold exe_nxt; rewrite nxt_r15, K10; exact Pc).
  assert (Ad' : address (exe_nxt u) = a_pc s + 8) by (unfold exe_nxt; rewrite nxt_address; unfold address_nxt; rewrite K12; exact Pc).
  assert (We' : write_enable (exe_nxt u) = false) by (unfold exe_nxt; rewrite nxt_write, K13; apply andb_false_r).
  assert (Mm' : forall a, mem (step z u) a = stores m a).
  { replace m with (S (m - 1)) by lia. apply step_mem; try assumption. fold m. lia. }
  assert (Tu : tb (instruction (dec u)) 22 = false) by (rewrite (Ih' 22) by lia; exact T2).
  destruct (last_control (dec u) (ctl u) (address (exe u)) C' Ty' Tu) as (V1 & V2 & V3 & V4 & V5 & V6 & V7 & V8 & V9 & V10 & V11 & V12 & V13).
  assert (Lr := last_reg). fold m in Lr. rewrite (Ih' 20), D2' in V11, V12, V13 by lia. rewrite Lr in V11, V12.
  assert (C2 : control_state (dec (step z u)) = if tb i 20 && tb i 15 then PC_STALL1 else PRE_FETCH_EXEC).
  { unfold step, decoder_nxt. cbn [dec control_state]. rewrite C', last_state by exact Ty'. now rewrite (Ih' 20), D2', Lr by lia. }
  assert (N2 : pre_fetch (dec (step z u)) = mem_read M (a_pc s + 4)) by (unfold step, decoder_nxt; cbn [dec pre_fetch]; rewrite C'; exact Nx').
  assert (R2 : tb i 20 = true -> read_data (dec (step z u)) = load_word M (addr (m - 1))).
  { intros L. apply step_read; [exact L | | exact Ad]. intros a. rewrite Mm. unfold stores. rewrite L, andb_false_r. reflexivity. }
  change (control_nxt (dec u) (ctl u) (address (exe u))) with (ctl (step z u)) in *. change (exe_nxt u) with (exe (step z u)) in *.
  set (v := step z u) in *.
  assert (Hv : executes (ctl v) (exe v) = b) by (apply multi_executes; [now rewrite V1, K1 | exact St']).
  assert (Al : tb i 20 = true -> fst (alu_both (ctl v) (exe v) (read_data (dec v)) (alignment (dec v))) = load_word M (addr (m - 1))).
  { intros L. rewrite read_alu; [now apply R2 | assumption | assumption | assumption | exact V5 | rewrite R2 by exact L; now apply load_word_range]. }
  split; [exact C2 | ]. split; [exact N2 | ]. split; [exact R2 | ]. split; [ | split; [exact Mm' | ]].
  { intros r Hr. unfold exe_nxt. rewrite nxt_regs, Hv, V13, Rg' by exact Hr. unfold reg_write_nxt. rewrite V7. cbn [Z.eqb].
    replace m with (S (m - 1)) at 3 by lia. rewrite loads_step by (fold m; lia). destruct (tb i 20) eqn:L.
    - rewrite one_hot_tb by (pose proof (nth_range (m - 1)); lia). destruct b; cbn [andb]; [ | reflexivity]. rewrite Al by reflexivity. reflexivity.
    - rewrite one_hot_tb by lia. replace (r =? 15) with false by (symmetry; apply Z.eqb_neq; lia). now rewrite !andb_false_r. }
  split; [unfold exe_nxt; rewrite nxt_status, V9, andb_false_r; exact St' | ].
  split; [exact Pc' | ]. split; [exact Ad' | ]. split; [exact We' | ]. split; [exact V8 | ]. split; [exact V11 | ]. split; [exact V12 | ]. split; [exact V10 | ]. split; [exact V6 | ].
  intros E. apply andb_prop in E. exact (Al (proj1 E)).
Qed.
Lemma multi_eq : multi z s i = Arm (loads (length l)) (a_flags s) (if b && (tb i 20 && tb i 15) then word_pc (load_word M (addr (length l - 1))) else a_pc s + 4) (stores (length l)).
Proof.
  assert (Lp := list_pos). unfold multi. rewrite El. fold n b. unfold loads, stores. rewrite !firstn_all. fold start R M. unfold R1. destruct b; cbn [andb]; [ | reflexivity].
  destruct (tb i 20) eqn:L; cbn [negb]; [ | reflexivity]. f_equal. destruct (tb i 15) eqn:T; cbn [andb]; [ | reflexivity]. f_equal.
  assert (Lr := last_reg). rewrite T in Lr. apply Z.eqb_eq in Lr. assert (E : l = firstn (length l - 1) l ++ [15]).
  { rewrite <- Lr, <- (firstn_step l (length l - 1) 15) by lia. replace (S (length l - 1)) with (length l) by lia. symmetry. apply firstn_all. }
  rewrite E at 1. rewrite load_regs_snoc by apply multi_start_range. rewrite firstn_length_le by lia. reflexivity.
Qed.
Lemma multi_end p : ready p s -> i = mem_read M (a_pc s) -> pc_ok (a_pc (multi z s i)) ->
  mem_read (a_mem (multi z s i)) (a_pc s + 4) = mem_read M (a_pc s + 4) ->
  let p' := run z (if tb i 20 && tb i 15 then 2 else 0) (run z (length l + 2) p) in ready p' (multi z s i) /\ idle p'.
Proof.
  intros Rd Ei Po Hc. cbv zeta. assert (Lp := list_pos).
  replace (run z (length l + 2) p) with (step z (step z (run z (length l) p))).
  2:{ replace (length l + 2)%nat with (S (S (length l))) by lia. now rewrite !run_snoc. }
  assert (Iv : multi_inv (length l) (run z (length l) p)) by (replace (length l) with (S (length l - 1)) by lia; apply multi_all; [exact Rd | exact Ei | lia]).
  destruct (multi_last _ Iv) as (C & N & Rv & Rg & Mm & St & Pc & Ad & We & Pw & Ps & As & Ww & Me & Al). clear Iv.
  set (v := step z (step z (run z (length l) p))) in *. clearbody v.
  rewrite multi_eq in *. cbn [a_mem a_pc] in Hc, Po. assert (Ws : forall pc, pc_ok pc -> well (Arm (loads (length l)) (a_flags s) pc (stores (length l)))).
  { intros pc Hp. split; [ | split; [ | exact Hp]].
    - intros r Hr. cbn [a_regs]. now apply loads_range.
    - intros a. cbn [a_mem]. now apply stores_range. }
  destruct (tb i 20 && tb i 15) eqn:J.
  - assert (B : b = true) by (apply andb_prop in J; destruct J as [J1 J2]; destruct Fm as (_ & _ & _ & _ & F); rewrite J1 in F; exact (F J2)).
    rewrite B in *. cbn [andb] in *. apply jump; [now apply Ws | exact C | exact We | exact Mm | exact Rg | exact St | | | ].
    + unfold exe_nxt. rewrite nxt_r15, Pw. unfold pc_nxt. rewrite Ps. cbn [Z.eqb Pos.eqb]. rewrite Al by reflexivity. reflexivity.
    + unfold exe_nxt. rewrite nxt_address. unfold address_nxt. rewrite As, Ps, Pw. cbn [Z.eqb Pos.eqb andb]. rewrite Al by reflexivity. reflexivity.
    + unfold exe_nxt. rewrite nxt_write, Ww. apply andb_false_r.
  - rewrite andb_false_r in *. cbn [run]. split; [ | exact Me]. apply ready_next; try assumption.
    + now apply Ws.
    + now rewrite C.
    + unfold instruction. rewrite C. cbn [use_saved one_of existsb Z.eqb Pos.eqb orb]. rewrite N. symmetry. exact Hc.
Qed.
End Pipeline.
(** The cycles of LDM and STM: two more than the registers, two more again if it jumps *)
Definition multi_cycles (i : Z) : nat := (length (reg_list i) + (if tb i 20 && tb i 15 then 4 else 2))%nat.
Lemma run_app z a c p : run z (a + c) p = run z c (run z a p).
Proof. revert p. induction a as [ | a IH]; intros p; [reflexivity | ]. exact (IH (step z p)). Qed.
Theorem multi_steps z p s i : ready p s -> i = mem_read (a_mem s) (a_pc s) -> multi_form s i -> pc_ok (a_pc (multi z s i)) ->
  mem_read (a_mem (multi z s i)) (a_pc s + 4) = mem_read (a_mem s) (a_pc s + 4) ->
  ready (run z (multi_cycles i) p) (multi z s i) /\ idle (run z (multi_cycles i) p).
Proof.
  intros Rd Ei Fm Po Hc. pose proof Rd as (W & _). assert (Ri : 0 <= i < 2 ^ 32).
  { rewrite Ei. pose proof W as (_ & W2 & (P1 & _ & P2)). rewrite load_word_eq by lia. now apply load_word_range. }
  pose proof (multi_end z s i (reg_list i) eq_refl W Fm Ri p Rd Ei Po Hc) as H. cbv zeta in H. rewrite <- run_app in H. unfold multi_cycles.
  replace (length (reg_list i) + (if tb i 20 && tb i 15 then 4 else 2))%nat with (length (reg_list i) + 2 + (if tb i 20 && tb i 15 then 2 else 0))%nat by (destruct (tb i 20 && tb i 15); lia).
  exact H.
Qed.
