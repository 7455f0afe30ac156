(** Lite_MIPS executes the instructions of MIPS I, with the differences [lite]. *)
From Coq Require Import ZArith List Bool Lia.
From Verif Require Import RtlBase RtlLib RtlArith RtlSeq RtlMips MipsSpec.
Open Scope Z_scope.

(** * Words *)
Lemma signed_val n v : (0 < n)%nat -> sval n v = signed (Z.of_nat n) (val n v).
Proof.
  intros H. unfold sval, signed. rewrite sign_val by exact H. replace (Z.of_nat n - 1) with (Z.of_nat (n - 1)) by lia.
  destruct (Z.leb_spec (2 ^ Z.of_nat (n - 1)) (val n v)), (Z.ltb_spec (val n v) (2 ^ Z.of_nat (n - 1))); lia.
Qed.
Lemma val_bits n v z : 0 <= z < 2 ^ Z.of_nat n -> (forall i, (i < n)%nat -> v i = Z.testbit z (Z.of_nat i)) -> val n v = z.
Proof.
  intros B H. apply Z.bits_inj'. intros i Hi. destruct (Z.ltb_spec i (Z.of_nat n)) as [L|L].
  - rewrite <- (Z2Nat.id i) by lia. rewrite val_testbit by lia. apply H. lia.
  - rewrite val_testbit_high by lia. rewrite <- (Z.mod_small z (2 ^ Z.of_nat n)) by lia. symmetry. apply Z.mod_pow2_bits_high. lia.
Qed.
Lemma bits_bound op n x y : (forall i, Z.testbit (op x y) i = true -> Z.testbit x i = true \/ Z.testbit y i = true) -> 0 <= op x y -> 0 <= x < 2 ^ Z.of_nat n -> 0 <= y < 2 ^ Z.of_nat n -> 0 <= op x y < 2 ^ Z.of_nat n.
Proof.
  intros H P X Y. split; [exact P|]. destruct (Z.ltb_spec (op x y) (2 ^ Z.of_nat n)) as [L|L]; [exact L|exfalso].
  assert (0 < op x y) by (pose proof (pow2_pos n); lia). assert (Q : Z.testbit (op x y) (Z.log2 (op x y)) = true) by (apply Z.bit_log2; lia).
  assert (Z.of_nat n <= Z.log2 (op x y)) by (apply Z.log2_le_pow2; lia).
  set (l := Z.log2 (op x y)) in *. clearbody l.
  destruct (H _ Q) as [E|E]; [rewrite <- (Z.mod_small x (2 ^ Z.of_nat n)) in E by lia|rewrite <- (Z.mod_small y (2 ^ Z.of_nat n)) in E by lia]; rewrite Z.mod_pow2_bits_high in E by lia; discriminate E.
Qed.
Lemma val_or n a b : val n (vor a b) = Z.lor (val n a) (val n b).
Proof.
  apply val_bits.
  - apply bits_bound; try apply val_bound; [|apply Z.lor_nonneg; split; apply val_bound]. intros i E. rewrite Z.lor_spec in E. apply orb_true_iff. exact E.
  - intros i Hi. rewrite Z.lor_spec, !val_testbit by lia. reflexivity.
Qed.
Lemma val_and n a b : val n (vand a b) = Z.land (val n a) (val n b).
Proof.
  apply val_bits.
  - apply bits_bound; try apply val_bound; [|apply Z.land_nonneg; left; apply val_bound]. intros i E. rewrite Z.land_spec in E. apply andb_true_iff in E. left. apply E.
  - intros i Hi. rewrite Z.land_spec, !val_testbit by lia. reflexivity.
Qed.
Lemma val_xor n a b : val n (vxor a b) = Z.lxor (val n a) (val n b).
Proof.
  apply val_bits.
  - apply bits_bound; try apply val_bound; [|apply Z.lxor_nonneg; pose proof (val_bound n a); pose proof (val_bound n b); tauto]. intros i E. rewrite Z.lxor_spec in E. destruct (Z.testbit (val n a) i); [left; reflexivity|right]. destruct (Z.testbit (val n b) i); [reflexivity|discriminate E].
  - intros i Hi. rewrite Z.lxor_spec, !val_testbit by lia. reflexivity.
Qed.
Lemma val_one n b : (0 < n)%nat -> val n (cat (rep false) 1 (bit b)) = Z.b2z b.
Proof. intros H. rewrite val_zext by lia. apply val_bit. Qed.

Lemma sign31 v : v 31%nat = (2 ^ 31 <=? val 32 v).
Proof. apply (sign_val 32 v). lia. Qed.

(** * The units on numbers *)
Definition aluZ (f x y : Z) : Z :=
  match f with
  | ALU_ADD => word (x + y) | ALU_SUBTRACT => word (x - y) | ALU_LESS_THAN => Z.b2z (x <? y) | ALU_LESS_THAN_SIGNED => Z.b2z (signed 32 x <? signed 32 y)
  | ALU_OR => Z.lor x y | ALU_AND => Z.land x y | ALU_XOR => Z.lxor x y | ALU_NOR => 2 ^ 32 - 1 - Z.lor x y | _ => 0
  end.
Lemma sub_sum (co : bool) d x y : d + Z.b2z co * 2 ^ 32 = x + (2 ^ 32 - 1 - y) + 1 -> 0 <= d < 2 ^ 32 -> 0 <= x < 2 ^ 32 -> 0 <= y < 2 ^ 32 ->
  d = word (x - y) /\ negb co = (x <? y) /\ (if 2 ^ 31 <=? x then 2 ^ 31 <=? y else negb (2 ^ 31 <=? y)) = negb (xorb (2 ^ 31 <=? x) (2 ^ 31 <=? y)).
Proof.
  intros E D X Y. unfold word. split; [|split].
  - destruct co; cbn [Z.b2z] in E; [apply (Z.mod_unique _ _ 0)|apply (Z.mod_unique _ _ (-1))]; lia.
  - destruct co; cbn [Z.b2z negb] in *; symmetry; [apply Z.ltb_ge|apply Z.ltb_lt]; lia.
  - destruct (2 ^ 31 <=? x), (2 ^ 31 <=? y); reflexivity.
Qed.
Theorem ALU_ok a b f c : ALU a b f c -> val 32 c = aluZ f (val 32 a) (val 32 b).
Proof.
  intros (bn & s & co & ci & CI & BN & AD & C). rewrite (val_ext _ _ _ C). apply ADD_ok in AD; [|lia]. apply val_ext in BN. change (Z.of_nat 32) with 32 in *.
  pose proof (val_bound 32 a) as BA. pose proof (val_bound 32 b) as BB. pose proof (val_bound 32 s) as BS. change (Z.of_nat 32) with 32 in *.
  assert (ADDS : ci = false -> val 32 s = word (val 32 a + val 32 b)).
  { intros ->. rewrite BN in AD. cbn [Z.b2z] in AD. unfold word. destruct co; cbn [Z.b2z] in AD; [apply (Z.mod_unique _ _ 1)|apply (Z.mod_unique _ _ 0)]; lia. }
  assert (SUBS : ci = true -> val 32 s = word (val 32 a - val 32 b) /\ negb co = (val 32 a <? val 32 b) /\ val 32 s + Z.b2z co * 2 ^ 32 = val 32 a + (2 ^ 32 - 1 - val 32 b) + 1).
  { intros ->. rewrite BN, val_not in AD. cbn [Z.b2z] in AD. change (Z.of_nat 32) with 32 in AD. assert (Q : val 32 s + Z.b2z co * 2 ^ 32 = val 32 a + (2 ^ 32 - 1 - val 32 b) + 1) by lia. destruct (sub_sum co (val 32 s) (val 32 a) (val 32 b) Q BS BA BB) as (P1 & P2 & _). split; [exact P1|]. split; [exact P2|exact Q]. }
  unfold aluZ. destruct f as [|[[[|[]|]|[[]|[]|]|]|[[|[]|]|[[]|[]|]|]|]|]; try apply val_rep_false; try (rewrite val_one by lia); try (apply ADDS; exact CI); try (apply SUBS; exact CI).
  all: try (rewrite ?val_not, ?val_or, ?val_and, ?val_xor; reflexivity).
  - destruct (SUBS CI) as (_ & -> & _). reflexivity.
  - destruct (SUBS CI) as (_ & _ & E). f_equal. rewrite (sign31 a), (sign31 b), (sign31 s). unfold signed. change (32 - 1) with 31.
    destruct (Z.leb_spec (2 ^ 31) (val 32 a)), (Z.leb_spec (2 ^ 31) (val 32 b)), (Z.leb_spec (2 ^ 31) (val 32 s)), (Z.ltb_spec (val 32 a) (2 ^ 31)), (Z.ltb_spec (val 32 b) (2 ^ 31)); try lia; cbn [andb orb negb xorb]; destruct co; cbn [Z.b2z] in E; symmetry; (apply Z.ltb_lt || apply Z.ltb_ge); lia.
Qed.
Theorem ALU_total a b f : exists c, ALU a b f c.
Proof.
  set (ci := match f with ALU_SUBTRACT | ALU_LESS_THAN | ALU_LESS_THAN_SIGNED => true | _ => false end). destruct (ADD_total 32 32 a (if ci then vnot b else b) ci) as (co & s & A).
  eexists. exists (if ci then vnot b else b), s, co, ci. split; [reflexivity|]. split; [intros i _; reflexivity|]. split; [exact A|]. intros i _. reflexivity.
Qed.
Definition shiftZ (f x k : Z) : Z :=
  match f with SHIFT_LEFT_UNSIGNED => do_shift Sll x k | SHIFT_RIGHT_UNSIGNED => do_shift Srl x k | SHIFT_RIGHT_SIGNED => do_shift Sra x k | _ => 0 end.
Lemma high_one x i : 0 <= x < 2 ^ 32 -> 32 <= i -> Z.testbit (x - 2 ^ 32) i = true.
Proof.
  intros H I. assert (2 ^ 32 <= 2 ^ i) by (apply Z.pow_le_mono_r; lia). rewrite Z.testbit_eqb by lia.
  replace ((x - 2 ^ 32) / 2 ^ i) with (-1); [reflexivity|]. apply (Z.div_unique_pos _ _ _ (x - 2 ^ 32 + 2 ^ i)); lia.
Qed.
Lemma sra_val v k : (k < 32)%nat -> val 32 (fun i => if (i + k <? 32)%nat then v (i + k)%nat else v 31%nat) = word (signed 32 (val 32 v) / 2 ^ Z.of_nat k).
Proof.
  intros K. rewrite <- (signed_val 32) by lia. apply val_bits; [apply Z.mod_pos_bound; reflexivity|]. intros i Hi.
  unfold word. rewrite Z.mod_pow2_bits_low by lia. rewrite <- Z.shiftr_div_pow2, Z.shiftr_spec by lia. unfold sval. change (32 - 1)%nat with 31%nat. change (Z.of_nat 32) with 32.
  assert (T : forall j, (j < 32)%nat -> Z.testbit (if v 31%nat then val 32 v - 2 ^ 32 else val 32 v) (Z.of_nat j) = v j).
  { intros j Hj. rewrite <- (val_testbit 32 v j) by exact Hj. destruct (v 31%nat); [|reflexivity]. replace (val 32 v - 2 ^ 32) with (val 32 v + (-1) * 2 ^ 32) by lia.
    rewrite <- (Z.mod_pow2_bits_low (val 32 v + (-1) * 2 ^ 32) 32) by lia. rewrite Z.mod_add by lia. rewrite Z.mod_pow2_bits_low by lia. reflexivity. }
  destruct (Nat.ltb_spec (i + k) 32) as [L|L].
  - rewrite <- Nat2Z.inj_add. symmetry. apply T. exact L.
  - pose proof (val_bound 32 v) as B. change (Z.of_nat 32) with 32 in B. destruct (v 31%nat).
    + symmetry. apply high_one; lia.
    + symmetry. rewrite <- Nat2Z.inj_add. apply val_testbit_high. lia.
Qed.
Local Opaque val.
Theorem Shifter_ok v sh f c : Shifter v sh f c -> val 32 c = shiftZ f (val 32 v) (val 5 sh).
Proof.
  unfold Shifter. intros H. rewrite (val_ext _ _ _ H). pose proof (val_bound 5 sh) as B. change (2 ^ Z.of_nat 5) with 32 in B.
  unfold shiftZ, do_shift. destruct f as [|[[]|[]|]|]; try apply val_rep_false.
  - rewrite sra_val by lia. rewrite Z2Nat.id by lia. reflexivity.
  - rewrite vshr_val, Z2Nat.id by lia. reflexivity.
  - rewrite vshl_val, Z2Nat.id by lia. unfold word. change (Z.of_nat 32) with 32. reflexivity.
Qed.

(** * Fields of an instruction *)
Lemma field v lo n : (lo + n <= 32)%nat -> val n (part lo v) = bits (Z.of_nat (lo + n) - 1) (Z.of_nat lo) (val 32 v).
Proof.
  intros H. unfold bits. replace (Z.of_nat (lo + n) - 1 - Z.of_nat lo + 1) with (Z.of_nat n) by lia.
  rewrite val_part, (val_mod (lo + n) 32 v H). rewrite pow2_add. pose proof (pow2_pos lo). pose proof (pow2_pos n).
  rewrite Z.rem_mul_r by lia. rewrite (Z.mul_comm (2 ^ Z.of_nat lo) (_ mod _)), Z.div_add by lia. rewrite Z.div_small by (apply Z.mod_pos_bound; lia). reflexivity.
Qed.
Lemma field0 v n : (n <= 32)%nat -> val n v = bits (Z.of_nat n - 1) 0 (val 32 v).
Proof. intros H. pose proof (field v 0 n ltac:(lia)) as E. cbn [Nat.add Z.of_nat] in E. rewrite <- E. apply val_ext. intros i _. reflexivity. Qed.
Lemma bits_split hi mid lo w : 0 <= lo -> lo <= mid -> mid <= hi -> bits hi lo w = bits hi (mid + 1) w * 2 ^ (mid + 1 - lo) + bits mid lo w.
Proof.
  intros H1 H2 H3. unfold bits. replace (hi - lo + 1) with ((mid - lo + 1) + (hi - (mid + 1) + 1)) by lia. rewrite Z.pow_add_r by lia.
  assert (0 < 2 ^ lo) by (apply Z.pow_pos_nonneg; lia). assert (0 < 2 ^ (mid - lo + 1)) by (apply Z.pow_pos_nonneg; lia). assert (0 < 2 ^ (hi - (mid + 1) + 1)) by (apply Z.pow_pos_nonneg; lia).
  rewrite Z.rem_mul_r by lia. rewrite Z.div_div by lia. rewrite <- Z.pow_add_r by lia. replace (lo + (mid - lo + 1)) with (mid + 1) by lia. replace (mid + 1 - lo) with (mid - lo + 1) by lia. lia.
Qed.
Lemma bits_range hi lo w : lo <= hi -> 0 <= bits hi lo w < 2 ^ (hi - lo + 1).
Proof. intros H. apply Z.mod_pos_bound. apply Z.pow_pos_nonneg; lia. Qed.
Definition control (w : Z) : ctl := Control_fields (bits 31 29 w) (bits 28 26 w) (bits 25 21 w) (bits 20 16 w) (bits 15 11 w) (bits 5 3 w) (bits 2 0 w).
Lemma Control_ok opcode : Control opcode = control (val 32 opcode).
Proof. unfold Control, control. rewrite !field by lia. rewrite (field0 opcode 3) by lia. reflexivity. Qed.

(** * The path of the data on numbers *)
Definition aZ (c : ctl) (w x : Z) : Z := match a_source c with A_FROM_REG_SOURCE => x | A_FROM_IMM10_6 => bits 10 6 w | _ => 0 end.
Definition bZ (c : ctl) (w y : Z) : Z := match b_source c with B_FROM_REG_TARGET => y | B_FROM_IMM => bits 15 0 w | B_FROM_SIGNED_IMM => word (signed 16 (bits 15 0 w)) | _ => 0 end.
Definition cZ (c : ctl) (a b : Z) : Z := Z.lor (aluZ (alu_func c) a b) (shiftZ (shift_func c) b (a mod 32)).
Definition dZ (c : ctl) (w r m next : Z) : Z := match c_source c with C_FROM_ALU => r | C_FROM_MEMORY => m | C_FROM_PC_PLUS4 => next | C_FROM_IMM_SHIFT16 => bits 15 0 w * 2 ^ 16 | _ => 0 end.
Definition branchZ (c : ctl) (r : Z) : bool :=
  match branch_func c with
  | BRANCH_LTZ => signed 32 r <? 0 | BRANCH_LEZ => signed 32 r <=? 0 | BRANCH_EQ => r =? 0 | BRANCH_NE => negb (r =? 0)
  | BRANCH_GEZ => 0 <=? signed 32 r | BRANCH_GTZ => 0 <? signed 32 r | BRANCH_YES => true | _ => false
  end.
Definition pcZ (c : ctl) (w p r : Z) (t : bool) : Z :=
  match pc_source c with
  | FROM_OPCODE25_0 => p / 2 ^ 28 * 2 ^ 28 + 4 * bits 25 0 w | FROM_BRANCH => if t then word (p + 4 * signed 16 (bits 15 0 w)) else word (p + 4) | FROM_LBRANCH => 4 * (r / 4) | _ => word (p + 4)
  end.
(** The signals that Control never gives *)
Definition used (c : ctl) : Prop := a_source c <> A_FROM_PC /\ b_source c <> B_FROM_IMMX4 /\ c_source c <> C_FROM_PC /\ c_source c <> C_FROM_REG_SOURCEN.

Definition byte (j : nat) (v : vec) : Z := val 8 (part (8 * j) v).
(** What the registers and memories contain *)
Record repr (L : nat) (prog : Z -> Z) (s : cpu) (z : state) : Prop := {
  repr_pc : 4 * val 30 (cpu_pc s) = pc z;
  repr_inst : forall i, (i < 2 ^ L)%nat -> val 32 (cpu_inst s i) = prog (Z.of_nat i);
  repr_regs : forall i, (i < 32)%nat -> val 32 (cpu_regs s i) = reg z (Z.of_nat i);
  repr_zero : reg z 0 = 0;
  repr_data : forall i j, (i < 2 ^ L)%nat -> (j < 4)%nat -> byte j (cpu_data s i) = mem z (4 * Z.of_nat i + Z.of_nat j) }.

Lemma word4 x : 4 * (x mod 2 ^ 30) = word (4 * x).
Proof. unfold word. change (2 ^ 32) with (4 * 2 ^ 30). rewrite Z.mul_mod_distr_l by lia. reflexivity. Qed.
Lemma of_val30 z v : veq 30 v (of_val z) -> 4 * val 30 v = word (4 * z).
Proof. intros H. rewrite (val_ext _ _ _ H), val_of_val. apply word4. Qed.
Lemma cat_low n k lo : (k <= n)%nat -> val n (cat (rep false) k lo) = val k lo.
Proof. apply val_zext. Qed.
Lemma shl2 v : val 32 (cat v 2 (rep false)) = 4 * val 30 v.
Proof. change 32%nat with (2 + 30)%nat. rewrite val_cat, val_rep_false. reflexivity. Qed.
Lemma datapath L prog s o s' z : Lite_MIPS_step L tt s o s' -> repr L prog s z -> (L <= 28)%nat -> pc z < 4 * 2 ^ Z.of_nat L ->
  let w := prog (pc z / 4) in let c := control w in used c -> 0 <= rs_index c < 32 -> 0 <= rt_index c < 32 ->
  let a := aZ c w (reg z (rs_index c)) in let b := bZ c w (reg z (rt_index c)) in let r := cZ c a b in
  exists (addr tgt mo : vec), val 32 addr = r /\ val 32 tgt = reg z (rt_index c) /\ Data_Mem L (cpu_data s) (mem_source c) addr tgt mo (cpu_data s') /\
    4 * val 30 (cpu_pc s') = pcZ c w (pc z) r (branchZ c r) /\
    (forall i, (i < 32)%nat -> val 32 (cpu_regs s' i) = if negb (rd_index c =? 0) && (Z.of_nat i =? rd_index c) then dZ c w r (val 32 mo) (word (pc z + 4)) else reg z (Z.of_nat i)) /\
    (forall i, (i < 2 ^ L)%nat -> val 32 (cpu_inst s' i) = prog (Z.of_nat i)).
Proof.
  intros (opcode & rsrc & rtgt & rdst & ab & bb & cb & ca & csh & cm & cmem & imm & pc4 & tk & H) R HL HP w c U RS RT a b r.
  destruct H as (HC & (pj & P4 & PJ & PN) & HI & HIM & HD & HIMM & (RB1 & RB2 & RB3) & (BM1 & BM2 & BM3 & BM4) & HA & HS & HM & _).
  pose proof (val_bound 30 (cpu_pc s)) as BP. change (2 ^ Z.of_nat 30) with (2 ^ 30) in BP. pose proof (repr_pc _ _ _ _ R) as RP.
  assert (PD : pc z / 4 = val 30 (cpu_pc s)) by (rewrite <- RP, Z.mul_comm, Z.div_mul by lia; reflexivity).
  assert (PI : val (L + 2) (cpu_pc s) = val 30 (cpu_pc s)).
  { rewrite (val_mod _ 30) by lia. apply Z.mod_small. rewrite pow2_add. change (2 ^ Z.of_nat 2) with 4. pose proof (pow2_pos L). lia. }
  assert (PB : (Z.to_nat (val 30 (cpu_pc s)) < 2 ^ L)%nat) by (apply Nat2Z.inj_lt; rewrite Z2Nat.id, pow2_nat by lia; lia).
  assert (W : val 32 opcode = w).
  { unfold Inst_Mem in HI. cbv zeta in HI. rewrite PI in HI. rewrite (val_ext _ _ _ (HI PB)), (repr_inst _ _ _ _ R) by exact PB. unfold w. rewrite PD, Z2Nat.id by lia. reflexivity. }
  rewrite Control_ok, W in *. fold c in PN, HD, RB1, RB2, RB3, BM1, BM2, BM3, BM4, HA, HS.
  assert (IM : val 16 imm = bits 15 0 w) by (rewrite (val_ext _ _ _ HIMM), (field0 opcode 16), W by lia; reflexivity).
  assert (SRC : val 32 rsrc = reg z (rs_index c)) by (rewrite (val_ext _ _ _ RB1), (repr_regs _ _ _ _ R), Z2Nat.id by lia; reflexivity).
  assert (TGT : val 32 rtgt = reg z (rt_index c)) by (rewrite (val_ext _ _ _ RB2), (repr_regs _ _ _ _ R), Z2Nat.id by lia; reflexivity).
  destruct U as (U1 & U2 & U3 & U4).
  assert (A : val 32 ab = a).
  { rewrite (val_ext _ _ _ BM1). unfold a, aZ. destruct (a_source c) as [|[[]|[]|]|]; try apply val_rep_false; [exact SRC|congruence|]. rewrite cat_low by lia.
    transitivity (val 5 (part 6 opcode)); [apply val_ext; intros i Hi; unfold part; apply HIMM; lia|]. rewrite (field opcode 6 5), W by lia. reflexivity. }
  assert (B : val 32 bb = b).
  { rewrite (val_ext _ _ _ BM2). unfold b, bZ. destruct (b_source c) as [|[[]|[]|]|]; try apply val_rep_false; [exact TGT|congruence| |]. 
    - pose proof (sext_val 32 16 imm ltac:(lia)) as SX. change (16 - 1)%nat with 15%nat in SX. rewrite SX, signed_val, IM by lia. reflexivity.
    - rewrite cat_low by lia. exact IM. }
  assert (C : val 32 cb = r).
  { rewrite (val_ext _ _ _ HC), !val_or, (val_ext _ _ _ HM), val_rep_false, Z.lor_0_r. rewrite (ALU_ok _ _ _ _ HA), (Shifter_ok _ _ _ _ HS), A, B. unfold r, cZ. do 2 f_equal. rewrite (val_mod 5 32), A by lia. reflexivity. }
  assert (N4 : 4 * val 30 pc4 = word (pc z + 4)) by (rewrite (of_val30 _ _ P4), <- RP; f_equal; lia).
  assert (SG : cb 31%nat = (signed 32 r <? 0) /\ is_zero cb = (r =? 0) /\ (signed 32 r = 0 <-> r = 0)).
  { pose proof (val_bound 32 cb) as Q. change (2 ^ Z.of_nat 32) with (2 ^ 32) in Q. unfold is_zero. rewrite sign31, C in *. unfold signed. change (32 - 1) with 31. split; [|split; [reflexivity|]].
    - destruct (Z.leb_spec (2 ^ 31) r), (Z.ltb_spec r (2 ^ 31)); try lia; symmetry; (apply Z.ltb_lt || apply Z.ltb_ge); lia.
    - destruct (Z.ltb_spec r (2 ^ 31)); lia. }
  destruct SG as (SG & SZ & S0).
  assert (T : tk = branchZ c r).
  { rewrite BM4, SG, SZ. unfold branchZ. destruct (branch_func c) as [|[[[]|[]|]|[[]|[]|]|]|]; try reflexivity.
    all: destruct (Z.ltb_spec (signed 32 r) 0), (Z.eqb_spec r 0); cbn [negb]; try reflexivity; symmetry; (apply Z.ltb_lt || apply Z.ltb_ge || apply Z.leb_le || apply Z.leb_gt); lia. }
  exists cb, rtgt, cmem. split; [exact C|]. split; [exact TGT|]. split; [exact HD|]. split; [|split].
  - rewrite (val_ext _ _ _ PN). unfold pcZ. destruct (pc_source c) as [|[[]|[]|]|]; try exact N4.
    + rewrite <- C. rewrite val_part. change (2 + 30)%nat with 32%nat. reflexivity.
    + rewrite <- T. destruct tk; [|exact N4]. rewrite (of_val30 _ _ PJ), Z.mul_add_distr_l, RP. pose proof (sext_val 30 16 opcode ltac:(lia)) as SX. change (16 - 1)%nat with 15%nat in SX. rewrite SX. rewrite signed_val by lia. rewrite (field0 opcode 16), W by lia. change (2 ^ Z.of_nat 30) with (2 ^ 30). rewrite word4. unfold word. rewrite Z.add_mod_idemp_r by lia. reflexivity.
    + change 30%nat with (26 + 4)%nat at 1. rewrite val_cat, val_part. change (26 + 4)%nat with 30%nat. rewrite (field0 opcode 26), W by lia. change (Z.of_nat 26) with 26. rewrite <- RP. change (2 ^ 28) with (4 * 2 ^ 26). rewrite Z.div_mul_cancel_l by lia. change (26 - 1) with 25. lia.
  - intros i Hi. rewrite (val_ext _ _ _ (RB3 i Hi)). destruct (negb (rd_index c =? 0) && (Z.of_nat i =? rd_index c)); [|apply (repr_regs _ _ _ _ R), Hi].
    rewrite (val_ext _ _ _ BM3). unfold dZ. destruct (c_source c) as [|[[[]|[]|]|[[]|[]|]|]|]; try apply val_rep_false; try congruence; try reflexivity; try exact C.
    + change 32%nat with (16 + 16)%nat. rewrite val_cat, val_rep_false, IM. change (2 ^ Z.of_nat 16) with (2 ^ 16). lia.
    + rewrite shl2. exact N4.
  - intros i Hi. rewrite (val_ext _ _ _ (HIM i Hi)). apply (repr_inst _ _ _ _ R), Hi.
Qed.
