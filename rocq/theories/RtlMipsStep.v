(** One cycle of Lite_MIPS is one instruction. *)
From Coq Require Import ZArith List Bool Lia.
From Verif Require Import RtlBase RtlLib RtlArith RtlSeq RtlMips MipsSpec RtlMipsOk.
Open Scope Z_scope.
Local Opaque val.

(** * The memory *)
Lemma part_0 n v : val n (part 0 v) = val n v.
Proof. apply val_ext. intros i _. reflexivity. Qed.
Lemma part_part n a b v : val n (part a (part b v)) = val n (part (b + a) v).
Proof. apply val_ext. intros i _. unfold part. f_equal. lia. Qed.
Lemma half_bytes v : val 16 v = byte 0 v + 2 ^ 8 * byte 1 v.
Proof. change 16%nat with (8 + 8)%nat. rewrite val_split. unfold byte. cbn [Nat.mul]. rewrite part_0. reflexivity. Qed.
Lemma upper_bytes v : val 16 (part 16 v) = byte 2 v + 2 ^ 8 * byte 3 v.
Proof. rewrite half_bytes. unfold byte. rewrite !part_part. reflexivity. Qed.
Lemma word_bytes v : val 32 v = byte 0 v + 2 ^ 8 * byte 1 v + 2 ^ 16 * byte 2 v + 2 ^ 24 * byte 3 v.
Proof. change 32%nat with (16 + 16)%nat. rewrite val_split, half_bytes, upper_bytes. change (2 ^ Z.of_nat 16) with (2 ^ 16). lia. Qed.
Lemma byte_val j v : (j < 4)%nat -> byte j v = val 32 v / 2 ^ (8 * Z.of_nat j) mod 2 ^ 8.
Proof. intros H. unfold byte. rewrite field by lia. unfold bits. do 2 f_equal; [f_equal|]; try f_equal; lia. Qed.
Lemma low_byte v : val 8 v = byte 0 v.
Proof. unfold byte. cbn [Nat.mul]. rewrite part_0. reflexivity. Qed.
(** {..., lo} and {hi, ...}, bytewise *)
Lemma byte_cat_low j n hi lo : (8 * j + 8 <= n)%nat -> byte j (cat hi n lo) = byte j lo.
Proof. intros H. apply val_ext. intros i Hi. unfold part, cat. destruct (Nat.ltb_spec (8 * j + i) n); [reflexivity|lia]. Qed.
Lemma byte_cat_high j k hi lo : (k <= j)%nat -> byte j (cat hi (8 * k) lo) = byte (j - k) hi.
Proof. intros H. apply val_ext. intros i Hi. unfold part, cat. destruct (Nat.ltb_spec (8 * j + i) (8 * k)); [lia|]. f_equal. lia. Qed.
Lemma byte_part j k v : byte j (part (8 * k) v) = byte (k + j) v.
Proof. unfold byte. rewrite part_part. do 2 f_equal. lia. Qed.
Lemma byte_ext j a b : (j < 4)%nat -> veq 32 a b -> byte j a = byte j b.
Proof. intros H E. apply val_ext. intros i Hi. apply E. lia. Qed.
Lemma sign_byte v : v 7%nat = (2 ^ 7 <=? byte 0 v).
Proof. rewrite <- low_byte. apply (sign_val 8 v). lia. Qed.
Lemma sign_ext n v : (n <= 32)%nat -> forall b, val 32 (cat (rep b) n v) = val n v + if b then 2 ^ 32 - 2 ^ Z.of_nat n else 0.
Proof.
  intros H b. replace 32%nat with (n + (32 - n))%nat at 1 by lia. rewrite val_cat. destruct b; [rewrite val_rep_true|rewrite val_rep_false]; [|lia]. rewrite Z.mul_sub_distr_l, <- pow2_add. replace (n + (32 - n))%nat with 32%nat by lia. change (Z.of_nat 32) with 32. lia.
Qed.
Lemma word_signed n x : 0 < n <= 32 -> 0 <= x < 2 ^ n -> word (signed n x) = if x <? 2 ^ (n - 1) then x else x + (2 ^ 32 - 2 ^ n).
Proof.
  intros H X. assert (2 ^ n <= 2 ^ 32) by (apply Z.pow_le_mono_r; lia). unfold word, signed. destruct (Z.ltb_spec x (2 ^ (n - 1))) as [L|L]; [apply Z.mod_small; lia|].
  symmetry. apply (Z.mod_unique _ _ (-1)); lia.
Qed.

Definition read_code (w : width) (sg : bool) : Z :=
  match w, sg with Word, _ => MEM_READ32 | Half, false => MEM_READ16 | Half, true => MEM_READ16S | Byte, false => MEM_READ8 | Byte, true => MEM_READ8S end.
Definition write_code (w : width) : Z := match w with Word => MEM_WRITE32 | Half => MEM_WRITE16 | Byte => MEM_WRITE8 end.
Definition writes (m : Z) : bool := match m with MEM_WRITE32 | MEM_WRITE16 | MEM_WRITE8 => true | _ => false end.

Section Memory.
Variables (L : nat) (data data' : nat -> vec) (addr tgt mo : vec) (m : Z -> Z) (a ms : Z).
Hypothesis HL : (L <= 28)%nat.
Hypothesis DM : Data_Mem L data ms addr tgt mo data'.
Hypothesis A : val 32 addr = a.
Hypothesis M : forall i j, (i < 2 ^ L)%nat -> (j < 4)%nat -> byte j (data i) = m (4 * Z.of_nat i + Z.of_nat j).

Lemma unchanged : writes ms = false -> forall i j, (i < 2 ^ L)%nat -> (j < 4)%nat -> byte j (data' i) = m (4 * Z.of_nat i + Z.of_nat j).
Proof.
  intros W i j Hi Hj. rewrite <- M by assumption. apply byte_ext; [exact Hj|]. destruct DM as (D & _). intros b Hb. rewrite (D i Hi b Hb).
  destruct (Nat.eqb_spec i (Z.to_nat (val L (part 2 addr)))) as [->|]; [|reflexivity]. unfold writes in W. destruct ms as [|[[[[]|[]|]|[[]|[]|]|]|[[[]|[]|]|[[]|[]|]|]|]|]; try reflexivity; discriminate W.
Qed.
Hypothesis V : a < 4 * 2 ^ Z.of_nat L.
Lemma addr_bound : 0 <= a.
Proof. rewrite <- A. apply val_bound. Qed.
Lemma addr_word : val L (part 2 addr) = a / 4.
Proof.
  pose proof addr_bound. rewrite val_part, (val_mod (2 + L) 32) by lia. rewrite A, pow2_add. change (2 ^ Z.of_nat 2) with 4. rewrite Z.mod_small by lia. reflexivity.
Qed.
Lemma addr_low : val 2 addr = a mod 4.
Proof. rewrite (val_mod 2 32), A by lia. reflexivity. Qed.
Lemma addr_1 : addr 1%nat = (2 <=? a mod 4).
Proof. rewrite <- addr_low. apply (sign_val 2 addr). lia. Qed.
Lemma word_index : (Z.to_nat (a / 4) < 2 ^ L)%nat.
Proof. pose proof addr_bound. apply Nat2Z.inj_lt. rewrite Z2Nat.id, pow2_nat by (apply Z.div_pos; lia). apply Z.div_lt_upper_bound; lia. Qed.
Lemma cell j : 0 <= j < 4 -> byte (Z.to_nat j) (data (Z.to_nat (a / 4))) = m (a - a mod 4 + j).
Proof.
  intros H. pose proof addr_bound. rewrite M by (try apply word_index; lia). rewrite !Z2Nat.id by (try apply Z.div_pos; lia). f_equal. pose proof (Z.div_mod a 4 ltac:(lia)). lia.
Qed.
Lemma cell0 : byte 0 (data (Z.to_nat (a / 4))) = m (a - a mod 4).
Proof. rewrite <- (Z.add_0_r (a - a mod 4)). apply (cell 0). lia. Qed.
Lemma read_ok w sg : ms = read_code w sg -> a mod size w = 0 -> val 32 mo = if sg then extend true m w a (load m w a) else load m w a.
Proof.
  intros -> AL. destruct DM as (_ & D). rewrite addr_word, addr_low, addr_1 in D. rewrite (val_ext _ _ _ D). set (v := data (Z.to_nat (a / 4))).
  pose proof (cell 0 ltac:(lia)) as C0. pose proof (cell 1 ltac:(lia)) as C1. pose proof (cell 2 ltac:(lia)) as C2. pose proof (cell 3 ltac:(lia)) as C3. fold v in C0, C1, C2, C3.
  change (Z.to_nat 0) with 0%nat in C0. change (Z.to_nat 1) with 1%nat in C1. change (Z.to_nat 2) with 2%nat in C2. change (Z.to_nat 3) with 3%nat in C3. rewrite Z.add_0_r in C0.
  pose proof (Z.mod_pos_bound a 4 ltac:(lia)) as B4.
  destruct w; cbn [size] in AL; unfold load, extend.
  - (* a byte *)
    assert (Q : a mod 4 = 0 \/ a mod 4 = 1 \/ a mod 4 = 2 \/ a mod 4 = 3) by lia.
    assert (S : (m (a - a mod 4) <? 2 ^ 7) = negb (v 7%nat)) by (rewrite sign_byte, C0; destruct (Z.ltb_spec (m (a - a mod 4)) (2 ^ 7)), (Z.leb_spec (2 ^ 7) (m (a - a mod 4))); lia || reflexivity).
    assert (E : forall j, byte j v = m a -> forall b, val 32 (cat (rep b) 8 (part (8 * j) v)) = if b then m a + (2 ^ 32 - 2 ^ 8) else m a).
    { intros j Ej b. rewrite sign_ext by lia. change (val 8 (part (8 * j) v)) with (byte j v). rewrite Ej. destruct b; [reflexivity|lia]. }
    destruct Q as [Q|[Q|[Q|Q]]]; rewrite Q in *; destruct sg; cbn [read_code]; rewrite ?S.
    + rewrite sign_ext, low_byte, C0 by lia. replace (a - 0) with a by lia. destruct (v 7%nat); cbn [negb]; [reflexivity|lia].
    + rewrite sign_ext, low_byte, C0 by lia. replace (a - 0) with a by lia. lia.
    + rewrite (E 1%nat) by (rewrite C1; f_equal; lia). destruct (v 7%nat); reflexivity.
    + apply (E 1%nat). rewrite C1. f_equal. lia.
    + rewrite (E 2%nat) by (rewrite C2; f_equal; lia). destruct (v 7%nat); reflexivity.
    + apply (E 2%nat). rewrite C2. f_equal. lia.
    + rewrite (E 3%nat) by (rewrite C3; f_equal; lia). destruct (v 7%nat); reflexivity.
    + apply (E 3%nat). rewrite C3. f_equal. lia.
  - (* a half *)
    assert (Q : a mod 4 = 0 \/ a mod 4 = 2) by (pose proof (Z.div_mod a 4 ltac:(lia)); pose proof (Z.div_mod a 2 ltac:(lia)); lia).
    destruct Q as [Q|Q]; rewrite Q in *; change (2 <=? 0) with false in *; change (2 <=? 2) with true in *.
    + assert (E : val 16 v = m a + 2 ^ 8 * m (a + 1)) by (rewrite half_bytes, C0, C1; replace (a - 0) with a by lia; reflexivity).
      pose proof (val_bound 16 v) as B. change (2 ^ Z.of_nat 16) with (2 ^ 16) in B. destruct sg; cbn [read_code]; rewrite sign_ext, E by lia; [|lia]. rewrite E in B. cbn [andb Z.eqb]. rewrite word_signed by lia. change (16 - 1) with 15. pose proof (sign_val 16 v ltac:(lia)) as SV. change (16 - 1)%nat with 15%nat in SV. rewrite SV, E. change (Z.of_nat 15) with 15. change (Z.of_nat 16) with 16.
      destruct (Z.leb_spec (2 ^ 15) (m a + 2 ^ 8 * m (a + 1))), (Z.ltb_spec (m a + 2 ^ 8 * m (a + 1)) (2 ^ 15)); lia.
    + assert (E : val 16 (part 16 v) = m a + 2 ^ 8 * m (a + 1)) by (rewrite upper_bytes, C2, C3; replace (a - 2 + 2) with a by lia; replace (a - 2 + 3) with (a + 1) by lia; reflexivity).
      destruct sg; cbn [read_code]; rewrite sign_ext, E by lia; [|lia]. cbn [andb]. change (2 =? 2) with true. cbv iota. rewrite <- E. rewrite Zmod_odd.
      assert (O : Z.odd (val 16 (part 16 v)) = v 16%nat) by (rewrite <- Z.bit0_odd; apply (val_testbit 16 (part 16 v) 0); lia). rewrite O. destruct (v 16%nat); cbn [Z.eqb]; change (Z.of_nat 16) with 16; lia.
  - (* a word *)
    rewrite AL in *. destruct sg; cbn [read_code]; rewrite word_bytes, C0, C1, C2, C3; replace (a - 0) with a by lia; reflexivity.
Qed.
Lemma write_ok w : ms = write_code w -> a mod size w = 0 -> forall i j, (i < 2 ^ L)%nat -> (j < 4)%nat -> byte j (data' i) = store m w a (val 32 tgt) (4 * Z.of_nat i + Z.of_nat j).
Proof.
  intros -> AL i j Hi Hj. destruct DM as (D & _). rewrite addr_word, addr_low, addr_1 in D. rewrite (byte_ext j _ _ Hj (D i Hi)). pose proof addr_bound as A0. pose proof (Z.div_mod a 4 ltac:(lia)) as DA. pose proof (Z.mod_pos_bound a 4 ltac:(lia)) as B4. assert (0 <= a / 4) by (apply Z.div_pos; lia).
  unfold store. destruct (Nat.eqb_spec i (Z.to_nat (a / 4))) as [->|NE].
  - rewrite Z2Nat.id by lia. set (v := data (Z.to_nat (a / 4))).
    assert (OLD : byte j v = m (4 * (a / 4) + Z.of_nat j)) by (unfold v; rewrite M, Z2Nat.id by (try apply word_index; lia); reflexivity).
    assert (NEW : forall k, (k < 4)%nat -> a = 4 * (a / 4) + Z.of_nat j - Z.of_nat k -> byte k tgt = val 32 tgt / 2 ^ (8 * (4 * (a / 4) + Z.of_nat j - a)) mod 2 ^ 8).
    { intros k Hk E. rewrite byte_val by exact Hk. replace (4 * (a / 4) + Z.of_nat j - a) with (Z.of_nat k) by lia. reflexivity. }
    assert (SEL : forall n, 4 * (a / 4) + Z.of_nat j = a - a mod 4 + Z.of_nat j /\ (a <=? 4 * (a / 4) + Z.of_nat j) = (a mod 4 <=? Z.of_nat j) /\ (4 * (a / 4) + Z.of_nat j <? a + n) = (Z.of_nat j <? a mod 4 + n)).
    { intros n. split; [lia|]. split; [destruct (Z.leb_spec a (4 * (a / 4) + Z.of_nat j)), (Z.leb_spec (a mod 4) (Z.of_nat j))|destruct (Z.ltb_spec (4 * (a / 4) + Z.of_nat j) (a + n)), (Z.ltb_spec (Z.of_nat j) (a mod 4 + n))]; lia || reflexivity. }
    destruct (SEL (size w)) as (_ & -> & ->). rewrite <- OLD. clear SEL OLD.
    assert (NEW' : forall k, (k < 4)%nat -> a mod 4 = Z.of_nat j - Z.of_nat k -> val 32 tgt / 2 ^ (8 * (4 * (a / 4) + Z.of_nat j - a)) mod 2 ^ 8 = byte k tgt) by (intros; symmetry; apply NEW; lia). clear NEW.
    assert (JJ : j = 0%nat \/ j = 1%nat \/ j = 2%nat \/ j = 3%nat) by lia.
    assert (H8 : forall hi lo, byte j (cat hi 8 lo) = if (j <? 1)%nat then byte j lo else byte (j - 1) hi) by (intros; destruct (Nat.ltb_spec j 1); [apply byte_cat_low|apply (byte_cat_high j 1)]; lia).
    assert (H16 : forall hi lo, byte j (cat hi 16 lo) = if (j <? 2)%nat then byte j lo else byte (j - 2) hi) by (intros; destruct (Nat.ltb_spec j 2); [apply byte_cat_low|apply (byte_cat_high j 2)]; lia).
    assert (H24 : forall hi lo, byte j (cat hi 24 lo) = if (j <? 3)%nat then byte j lo else byte (j - 3) hi) by (intros; destruct (Nat.ltb_spec j 3); [apply byte_cat_low|apply (byte_cat_high j 3)]; lia).
    destruct w; cbn [size] in *; cbn [write_code].
    + assert (Q : a mod 4 = 0 \/ a mod 4 = 1 \/ a mod 4 = 2 \/ a mod 4 = 3) by lia.
      assert (K8 : forall hi lo n, byte n (cat hi 8 lo) = if (n <? 1)%nat then byte n lo else byte (n - 1) hi) by (intros; destruct (Nat.ltb_spec n 1); [apply byte_cat_low|apply (byte_cat_high n 1)]; lia).
      assert (P1 : forall n, byte n (part 8 v) = byte (1 + n) v) by (intros; apply (byte_part n 1)). assert (P2 : forall n, byte n (part 16 v) = byte (2 + n) v) by (intros; apply (byte_part n 2)). assert (P3 : forall n, byte n (part 24 v) = byte (3 + n) v) by (intros; apply (byte_part n 3)).
      destruct Q as [Q|[Q|[Q|Q]]]; rewrite Q in *; destruct JJ as [->|[->|[->| ->]]]; rewrite ?H8, ?H16, ?H24; cbn [Nat.ltb Nat.leb Nat.sub]; rewrite ?K8, ?P1, ?P2, ?P3; cbn -[byte Z.pow Z.div Z.modulo Z.mul Z.sub]; try reflexivity; symmetry; apply NEW'; cbn; lia.
    + assert (Q : a mod 4 = 0 \/ a mod 4 = 2) by (pose proof (Z.div_mod a 2 ltac:(lia)); lia).
      assert (P2 : forall n, byte n (part 16 v) = byte (2 + n) v) by (intros; apply (byte_part n 2)).
      destruct Q as [Q|Q]; rewrite Q in *; destruct JJ as [->|[->|[->| ->]]]; change (2 <=? 0) with false; change (2 <=? 2) with true; cbv iota; rewrite ?H16; cbn [Nat.ltb Nat.leb Nat.sub]; rewrite ?P2; cbn -[byte Z.pow Z.div Z.modulo Z.mul Z.sub]; try reflexivity; symmetry; apply NEW'; cbn; lia.
    + rewrite AL in *. destruct JJ as [->|[->|[->| ->]]]; cbn -[byte Z.pow Z.div Z.modulo Z.mul Z.sub]; symmetry; apply NEW'; cbn; lia.
  - rewrite M by assumption. destruct (Z.leb_spec a (4 * Z.of_nat i + Z.of_nat j)), (Z.ltb_spec (4 * Z.of_nat i + Z.of_nat j) (a + size w)); cbn [andb]; try reflexivity. exfalso. apply NE. apply Nat2Z.inj. rewrite Z2Nat.id by lia.
    assert (a mod 4 + size w <= 4). { destruct w; cbn [size] in *; [lia| |rewrite AL; lia]. pose proof (Z.div_mod a 2 ltac:(lia)). lia. } lia.
Qed.
End Memory.

(** * Instructions *)
Section Step.
Variables (L : nat) (prog : Z -> Z) (s : cpu) (o : vec) (s' : cpu) (z : state).
Hypothesis ST : Lite_MIPS_step L tt s o s'.
Hypothesis R : repr L prog s z.
Hypothesis HL : (L <= 28)%nat.
Hypothesis HP : pc z < 4 * 2 ^ Z.of_nat L.
Let w := prog (pc z / 4).
Let n := 4 * 2 ^ Z.of_nat L.

Lemma r_range i : 0 <= i < 32 -> 0 <= reg z i < 2 ^ 32.
Proof. intros H. rewrite <- (Z2Nat.id i) by lia. rewrite <- (repr_regs _ _ _ _ R) by lia. apply (val_bound 32). Qed.
Lemma plain c z' : control w = c -> used c -> 0 <= rs_index c < 32 -> 0 <= rt_index c < 32 -> writes (mem_source c) = false -> c_source c <> C_FROM_MEMORY ->
  let r := cZ c (aZ c w (reg z (rs_index c))) (bZ c w (reg z (rt_index c))) in
  pc z' = pcZ c w (pc z) r (branchZ c r) -> (forall i, 0 <= i < 32 -> reg z' i = set (rd_index c) (dZ c w r 0 (word (pc z + 4))) (reg z) i) -> mem z' = mem z -> repr L prog s' z'.
Proof.
  intros C U RS RT MS CS r PC RG ME. pose proof (datapath L prog s o s' z ST R HL HP) as D. cbv zeta in D. fold w in D. rewrite C in D. specialize (D U RS RT). fold r in D.
  destruct D as (addr & tgt & mo & DA & DT & DM & DP & DR & DI). split.
  - rewrite DP. symmetry. exact PC.
  - exact DI.
  - intros i Hi. rewrite DR, RG by lia. unfold set. rewrite andb_comm. destruct ((Z.of_nat i =? rd_index c) && negb (rd_index c =? 0)); [|reflexivity]. unfold dZ. destruct (c_source c) as [|[[]|[]|]|]; congruence.
  - rewrite RG by lia. unfold set. destruct (Z.eqb_spec 0 (rd_index c)) as [<-|]; cbn [andb negb Z.eqb]; apply (repr_zero _ _ _ _ R).
  - intros i j Hi Hj. rewrite ME. apply (unchanged L (cpu_data s) (cpu_data s') addr tgt mo (mem z) (mem_source c) DM); auto. apply (repr_data _ _ _ _ R).
Qed.
Lemma loads c wd sg z' : control w = c -> used c -> 0 <= rs_index c < 32 -> 0 <= rt_index c < 32 -> mem_source c = read_code wd sg -> c_source c = C_FROM_MEMORY ->
  let a := cZ c (aZ c w (reg z (rs_index c))) (bZ c w (reg z (rt_index c))) in
  pc z' = pcZ c w (pc z) a (branchZ c a) -> valid n wd a = true ->
  (forall i, 0 <= i < 32 -> reg z' i = set (rd_index c) (let v := load (mem z) wd a in if sg then extend true (mem z) wd a v else v) (reg z) i) -> mem z' = mem z -> repr L prog s' z'.
Proof.
  intros C U RS RT MS CS a PC VA RG ME. pose proof (datapath L prog s o s' z ST R HL HP) as D. cbv zeta in D. fold w in D. rewrite C in D. specialize (D U RS RT). fold a in D.
  destruct D as (addr & tgt & mo & DA & DT & DM & DP & DR & DI). unfold valid in VA. apply andb_true_iff in VA. destruct VA as [V1 V2]. apply Z.ltb_lt in V1. apply Z.eqb_eq in V2.
  pose proof (read_ok L (cpu_data s) (cpu_data s') addr tgt mo (mem z) a (mem_source c) HL DM DA (repr_data _ _ _ _ R) V1 wd sg MS V2) as RD. split.
  - rewrite DP. symmetry. exact PC.
  - exact DI.
  - intros i Hi. rewrite DR, RG by lia. unfold set. rewrite andb_comm. destruct ((Z.of_nat i =? rd_index c) && negb (rd_index c =? 0)); [|reflexivity]. unfold dZ. rewrite CS. exact RD.
  - rewrite RG by lia. unfold set. destruct (Z.eqb_spec 0 (rd_index c)) as [<-|]; cbn [andb negb Z.eqb]; apply (repr_zero _ _ _ _ R).
  - intros i j Hi Hj. rewrite ME. apply (unchanged L (cpu_data s) (cpu_data s') addr tgt mo (mem z) (mem_source c) DM); auto; [apply (repr_data _ _ _ _ R)|]. rewrite MS. destruct wd, sg; reflexivity.
Qed.
Lemma stores c wd z' : control w = c -> used c -> 0 <= rs_index c < 32 -> 0 <= rt_index c < 32 -> mem_source c = write_code wd -> rd_index c = 0 ->
  let a := cZ c (aZ c w (reg z (rs_index c))) (bZ c w (reg z (rt_index c))) in
  pc z' = pcZ c w (pc z) a (branchZ c a) -> valid n wd a = true -> reg z' = reg z -> mem z' = store (mem z) wd a (reg z (rt_index c)) -> repr L prog s' z'.
Proof.
  intros C U RS RT MS CS a PC VA RG ME. pose proof (datapath L prog s o s' z ST R HL HP) as D. cbv zeta in D. fold w in D. rewrite C in D. specialize (D U RS RT). fold a in D.
  destruct D as (addr & tgt & mo & DA & DT & DM & DP & DR & DI). unfold valid in VA. apply andb_true_iff in VA. destruct VA as [V1 V2]. apply Z.ltb_lt in V1. apply Z.eqb_eq in V2.
  pose proof (write_ok L (cpu_data s) (cpu_data s') addr tgt mo (mem z) a (mem_source c) HL DM DA (repr_data _ _ _ _ R) V1 wd MS V2) as WR. split.
  - rewrite DP. symmetry. exact PC.
  - exact DI.
  - intros i Hi. rewrite DR, RG, CS by lia. reflexivity.
  - rewrite RG. apply (repr_zero _ _ _ _ R).
  - intros i j Hi Hj. rewrite ME, <- DT. apply WR; assumption.
Qed.
Lemma op_split : bits 31 26 w = 8 * bits 31 29 w + bits 28 26 w.
Proof. rewrite (bits_split 31 28 26) by lia. change (28 + 1 - 26) with 3. change (28 + 1) with 29. lia. Qed.
Lemma fn_split : bits 5 0 w = 8 * bits 5 3 w + bits 2 0 w.
Proof. rewrite (bits_split 5 2 0) by lia. change (2 + 1 - 0) with 3. change (2 + 1) with 3. lia. Qed.
Lemma eight x : 0 <= x < 8 -> x = 0 \/ x = 1 \/ x = 2 \/ x = 3 \/ x = 4 \/ x = 5 \/ x = 6 \/ x = 7.
Proof. lia. Qed.
Lemma set_0 v f i : set 0 v f i = f i.
Proof. unfold set. rewrite andb_false_r. reflexivity. Qed.
Lemma sa_mod : bits 10 6 w mod 32 = bits 10 6 w.
Proof. apply Z.mod_small. apply (bits_range 10 6). lia. Qed.
Lemma lxor_zero x y : (Z.lxor x y =? 0) = (x =? y).
Proof. destruct (Z.eqb_spec (Z.lxor x y) 0) as [E|E], (Z.eqb_spec x y) as [F|F]; try reflexivity; [apply Z.lxor_eq in E; contradiction|subst; rewrite Z.lxor_nilpotent in E; contradiction]. Qed.
Lemma aligned x : x mod 4 = 0 -> 4 * (x / 4) = x.
Proof. intros H. pose proof (Z.div_mod x 4 ltac:(lia)). lia. Qed.

Lemma word_word x y : word (x + word y) = word (x + y).
Proof. unfold word. rewrite Z.add_mod_idemp_r by lia. reflexivity. Qed.
Lemma mod_split x k : 0 <= x < 32 -> x = k -> x / 8 = k / 8 /\ x mod 8 = k mod 8.
Proof. intros _ ->. split; reflexivity. Qed.
Lemma some_inj {A} (x y : A) : Some x = Some y -> x = y.
Proof. congruence. Qed.
Ltac simpl_dp := cbv zeta; cbn [pc reg mem hi lo rs_index rt_index rd_index alu_func shift_func mult_func a_source b_source c_source branch_func pc_source mem_source]; unfold pcZ, cZ, aZ, bZ, dZ, branchZ;
  cbn [rs_index rt_index rd_index alu_func shift_func mult_func a_source b_source c_source branch_func pc_source mem_source]; unfold aluZ, shiftZ; cbv iota.
Ltac fields C := cbv beta iota zeta delta [Control_fields Control_special] in C.
Ltac plain_with C :=
  fields C; eapply plain; [exact C|repeat split; cbn; discriminate|cbn [rs_index]; lia|cbn [rt_index]; lia|reflexivity|cbn; discriminate|simpl_dp|intros i Hi; simpl_dp|reflexivity].
Ltac load_with C E wd sg :=
  cbn [exec] in E; cbv zeta in E; match type of E with (if ?b then _ else _) = _ => destruct b eqn:?; [|discriminate E] end; apply some_inj in E; subst; fields C;
  eapply (loads _ wd sg); [exact C|repeat split; cbn; discriminate|cbn [rs_index]; lia|cbn [rt_index]; lia|reflexivity|reflexivity|simpl_dp; reflexivity|simpl_dp; rewrite Z.lor_0_r, word_word; assumption|intros i Hi; simpl_dp; rewrite Z.lor_0_r, word_word; reflexivity|reflexivity].
Ltac store_with C E wd :=
  cbn [exec] in E; cbv zeta in E; match type of E with (if ?b then _ else _) = _ => destruct b eqn:?; [|discriminate E] end; apply some_inj in E; subst; fields C;
  eapply (stores _ wd); [exact C|repeat split; cbn; discriminate|cbn [rs_index]; lia|cbn [rt_index]; lia|reflexivity|reflexivity|simpl_dp; reflexivity|simpl_dp; rewrite Z.lor_0_r, word_word; assumption|reflexivity|simpl_dp; rewrite Z.lor_0_r, word_word; reflexivity].
Ltac get E := cbn [exec do_arith orb andb immediate] in E; cbv zeta in E; apply some_inj in E; subst.
Ltac simple_plain C E := get E; plain_with C; [reflexivity|rewrite ?Z.lor_0_r, ?sa_mod, ?set_0; reflexivity].
Ltac jump_with C E Z0 :=
  cbn [exec] in E; cbv zeta in E; match type of E with (if ?b then _ else _) = _ => destruct b eqn:?; [|discriminate E] end; apply some_inj in E; subst; match goal with H : (_ =? 0) = true |- _ => apply Z.eqb_eq in H end;
  plain_with C; [rewrite Z0, !Z.lor_0_r; symmetry; apply aligned; assumption|rewrite ?set_0; reflexivity].
Lemma thirtytwo x : 0 <= x < 32 -> In x (map Z.of_nat (seq 0 32)).
Proof. intros H. apply in_map_iff. exists (Z.to_nat x). split; [lia|]. apply in_seq. lia. Qed.
Lemma low5_add x : 0 <= x < 32 -> low5 (32 + x) = x.
Proof. intros H. unfold low5. symmetry. apply (Z.mod_unique _ _ 1); lia. Qed.
Theorem exec_ok z' : exec true n (decode w) z = Some z' -> repr L prog s' z'.
Proof.
  intros E. unfold decode in E. rewrite op_split, fn_split in E. cbv zeta in E.
  pose proof (bits_range 25 21 w ltac:(lia)) as B1. pose proof (bits_range 20 16 w ltac:(lia)) as B2. pose proof (bits_range 15 11 w ltac:(lia)) as B3.
  change (2 ^ (25 - 21 + 1)) with 32 in B1. change (2 ^ (20 - 16 + 1)) with 32 in B2. change (2 ^ (15 - 11 + 1)) with 32 in B3.
  assert (C : control w = Control_fields (bits 31 29 w) (bits 28 26 w) (bits 25 21 w) (bits 20 16 w) (bits 15 11 w) (bits 5 3 w) (bits 2 0 w)) by reflexivity.
  pose proof (repr_zero _ _ _ _ R) as Z0.
  destruct (eight _ (bits_range 31 29 w ltac:(lia))) as [H|[H|[H|[H|[H|[H|[H|H]]]]]]]; rewrite H in C, E;
  destruct (eight _ (bits_range 28 26 w ltac:(lia))) as [H'|[H'|[H'|[H'|[H'|[H'|[H'|H']]]]]]]; rewrite H' in C, E; cbn [Z.mul Z.add Pos.mul Pos.add Pos.succ Pos.add_carry] in E; try discriminate E.
  - (* SPECIAL *)
    fields C.
    destruct (eight _ (bits_range 5 3 w ltac:(lia))) as [F|[F|[F|[F|[F|[F|[F|F]]]]]]]; rewrite F in C, E;
    destruct (eight _ (bits_range 2 0 w ltac:(lia))) as [F'|[F'|[F'|[F'|[F'|[F'|[F'|F']]]]]]]; try rewrite F' in C; rewrite F' in E; cbn [Z.mul Z.add Pos.mul Pos.add Pos.succ Pos.add_carry] in E; try discriminate E.
    + simple_plain C E.
    + simple_plain C E.
    + simple_plain C E.
    + simple_plain C E.
    + simple_plain C E.
    + simple_plain C E.
    + jump_with C E Z0.
    + jump_with C E Z0.
    + fields C. change (low5 63) with 31 in C. change (low5 46) with 14 in C. cbn [exec andb] in E. jump_with C E Z0.
    + fields C. change (low5 63) with 31 in C. change (low5 46) with 14 in C. cbn [exec andb] in E. jump_with C E Z0.
    + simple_plain C E.
    + simple_plain C E.
    + simple_plain C E.
    + simple_plain C E.
    + simple_plain C E.
    + simple_plain C E.
    + simple_plain C E.
    + simple_plain C E.
    + simple_plain C E.
    + simple_plain C E.
    + simple_plain C E.
    + simple_plain C E.
    + simple_plain C E.
    + simple_plain C E.
    + simple_plain C E.
    + simple_plain C E.
    + simple_plain C E.
    + simple_plain C E.
    + simple_plain C E.
  - (* REGIMM *)
    fields C. pose proof (thirtytwo _ B2) as Q. cbn [seq map In Z.of_nat Pos.of_succ_nat Pos.succ] in Q.
    repeat (destruct Q as [Q|Q]; [rewrite <- Q in C, E; cbn [Z.div Z.modulo Z.div_eucl Z.pos_div_eucl Z.leb Z.ltb Z.compare Pos.compare Pos.compare_cont Z.mul Z.add Z.sub Z.opp Z.pos_sub Pos.pred_double Pos.mul Pos.add Pos.succ] in C; try discriminate E|]); [..|destruct Q].
    all: get E; plain_with C; [rewrite Z0, !Z.lor_0_r; reflexivity|rewrite ?set_0; reflexivity].
  - simple_plain C E.
  - simple_plain C E.
  - get E. plain_with C; [rewrite Z.lor_0_r, lxor_zero; reflexivity|rewrite set_0; reflexivity].
  - get E. plain_with C; [rewrite Z.lor_0_r, lxor_zero; reflexivity|rewrite set_0; reflexivity].
  - get E. plain_with C; [rewrite Z0, !Z.lor_0_r; reflexivity|rewrite set_0; reflexivity].
  - get E. plain_with C; [rewrite Z0, !Z.lor_0_r; reflexivity|rewrite set_0; reflexivity].
  - simple_plain C E.
  - simple_plain C E.
  - simple_plain C E.
  - simple_plain C E.
  - simple_plain C E.
  - simple_plain C E.
  - simple_plain C E.
  - simple_plain C E.
  - (* COP0 *)
    fields C. pose proof (thirtytwo _ B1) as Q. cbn [seq map In Z.of_nat Pos.of_succ_nat Pos.succ] in Q.
    repeat (destruct Q as [Q|Q]; [rewrite <- Q in C, E; try discriminate E|]); [..|destruct Q].
    all: rewrite low5_add in C by exact B3; get E; plain_with C; [reflexivity|rewrite Z0, !Z.lor_0_r; reflexivity].
  - load_with C E Byte true.
  - load_with C E Half true.
  - load_with C E Word false.
  - load_with C E Byte false.
  - load_with C E Half false.
  - store_with C E Byte.
  - store_with C E Half.
  - store_with C E Word.
Qed.
End Step.
