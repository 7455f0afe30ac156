(** Runs of Lite_MIPS. *)
From Coq Require Import ZArith List Bool Lia.
From Verif Require Import RtlBase RtlLib RtlArith RtlSeq RtlMips MipsSpec RtlMipsOk RtlMipsStep.
Import ListNotations.
Open Scope Z_scope.
Local Opaque val.

(** * Runs: the words of the program and the bytes of the data, as given at the reset *)
Definition words_of (g : vec) (i : Z) : Z := val 32 (part (32 * Z.to_nat i) g).
Definition bytes_of (e : vec) (a : Z) : Z := val 8 (part (8 * Z.to_nat a) e).
Lemma init_repr L g e s : Lite_MIPS_init L g e s -> repr L (words_of g) s (start (bytes_of e)).
Proof.
  intros (I1 & I2 & I3 & I4). split; cbn [pc reg mem start].
  - rewrite (val_ext _ _ _ I1), val_rep_false. reflexivity.
  - intros i Hi. rewrite (val_ext _ _ _ (I2 i Hi)). unfold words_of. rewrite Nat2Z.id, Nat.mul_comm. reflexivity.
  - intros i Hi. rewrite (val_ext _ _ _ (I4 i Hi)). apply val_rep_false.
  - reflexivity.
  - intros i j Hi Hj. rewrite (byte_ext j _ _ Hj (I3 i Hi)). unfold byte, bytes_of. rewrite part_part. do 2 f_equal. lia.
Qed.
Lemma run_S lite n prog k z z' : run lite n prog (S k) z = Some z' <-> exists y, run lite n prog k z = Some y /\ step lite n prog y = Some z'.
Proof.
  revert z. induction k as [|k IH]; intros z.
  - cbn [run]. split.
    + intros H. exists z. split; [reflexivity|]. destruct (step lite n prog z); exact H.
    + intros (y & E & S). injection E as ->. rewrite S. reflexivity.
  - change (run lite n prog (S (S k)) z) with (match step lite n prog z with Some y => run lite n prog (S k) y | None => None end). change (run lite n prog (S k) z) with (match step lite n prog z with Some y => run lite n prog k y | None => None end). destruct (step lite n prog z) as [y|]; [apply IH|]. split; [discriminate|intros (y & E & _); discriminate E].
Qed.
Lemma run_repr L g e c i s z t : (forall u, (u < c)%nat -> exists o, Lite_MIPS_step L (i u) (s u) o (s (S u))) -> Lite_MIPS_init L g e (s 0%nat) -> (L <= 28)%nat -> (t <= c)%nat ->
  run true (4 * 2 ^ Z.of_nat L) (words_of g) t (start (bytes_of e)) = Some z -> repr L (words_of g) (s t) z.
Proof.
  intros ST I HL. revert z. induction t as [|t IH]; intros z Ht H.
  - injection H as <-. apply init_repr, I.
  - apply run_S in H. destruct H as (y & H & S). specialize (IH y ltac:(lia) H). destruct (ST t ltac:(lia)) as (o & STEP). unfold step in S. destruct (Z.ltb_spec (pc y) (4 * 2 ^ Z.of_nat L)) as [P|P]; [|discriminate S].
    destruct (i t). exact (exec_ok L (words_of g) (s t) o (s (Datatypes.S t)) y STEP IH HL P z S).
Qed.
(** After [t] instructions the output shows the memory. *)
Theorem mips_ok L g e c i o z t : Lite_MIPS L g e c i o -> (L <= 28)%nat -> (t < c)%nat ->
  run true (4 * 2 ^ Z.of_nat L) (words_of g) t (start (bytes_of e)) = Some z ->
  forall a, 0 <= a < 4 * 2 ^ Z.of_nat L -> bytes_of (o t) a = mem z a.
Proof.
  intros (s & I & ST) HL Ht H a Ha. assert (ST' : forall u, (u < c)%nat -> exists o, Lite_MIPS_step L (i u) (s u) o (s (S u))) by (intros u Hu; exists (o u); apply ST, Hu).
  pose proof (run_repr L g e c i s z t ST' I HL ltac:(lia) H) as R. destruct (ST t Ht) as (op & rs & rt & rd & ab & bb & cb & ca & cs & cm & cme & im & p4 & tb & HH).
  destruct HH as (_ & _ & _ & _ & _ & _ & _ & _ & _ & _ & _ & OUT).
  pose proof (Z.div_mod a 4 ltac:(lia)) as D. pose proof (Z.mod_pos_bound a 4 ltac:(lia)) as B. assert (Q : 0 <= a / 4) by (apply Z.div_pos; lia).
  assert (IL : (Z.to_nat (a / 4) < 2 ^ L)%nat) by (apply Nat2Z.inj_lt; rewrite Z2Nat.id, pow2_nat by exact Q; apply Z.div_lt_upper_bound; lia).
  replace (mem z a) with (mem z (4 * Z.of_nat (Z.to_nat (a / 4)) + Z.of_nat (Z.to_nat (a mod 4)))) by (f_equal; rewrite !Z2Nat.id; lia).
  rewrite <- (repr_data _ _ _ _ R) by (exact IL || lia). assert (J4 : (Z.to_nat (a mod 4) < 4)%nat) by lia. rewrite <- (byte_ext _ _ _ J4 (OUT _ IL)). unfold bytes_of, byte. rewrite part_part. do 2 f_equal.
  apply Nat2Z.inj. rewrite Nat2Z.inj_add, !Nat2Z.inj_mul, !Z2Nat.id by lia. change (Z.of_nat 32) with 32. change (Z.of_nat 8) with 8. lia.
Qed.
Theorem mips_total L g e k i : exists o, Lite_MIPS L g e k i o.
Proof.
  apply clocked_total; [exists (Cpu (rep false) (fun j => part (j * 32) g) (fun j => part (j * 32) e) (fun _ => rep false)); repeat split; intros; intros b _; reflexivity|].
  intros u s. set (op := cpu_inst s (Z.to_nat (val (L + 2) (cpu_pc s)))). set (c := Control op).
  set (rs := cpu_regs s (Z.to_nat (rs_index c))). set (rt := cpu_regs s (Z.to_nat (rt_index c))). set (p4 := of_val (val 30 (cpu_pc s) + 1)). set (pj := of_val (val 30 (cpu_pc s) + val 30 (cat (rep (op 15%nat)) 16 op))).
  set (ab := match a_source c with A_FROM_REG_SOURCE => rs | A_FROM_IMM10_6 => cat (rep false) 5 (part 6 op) | A_FROM_PC => cat (cpu_pc s) 2 (rep false) | _ => rep false end).
  set (bb := match b_source c with B_FROM_REG_TARGET => rt | B_FROM_IMM => cat (rep false) 16 op | B_FROM_SIGNED_IMM => cat (rep (op 15%nat)) 16 op | B_FROM_IMMX4 => cat (cat (rep false) 16 op) 2 (rep false) | _ => rep false end).
  destruct (ALU_total ab bb (alu_func c)) as (ca & CA). assert (CS : exists cs, Shifter bb ab (shift_func c) cs) by (eexists; intros b _; reflexivity). destruct CS as (cs & CS).
  set (cb := vor ca (vor cs (rep false))). assert (DM : exists mo data', Data_Mem L (cpu_data s) (mem_source c) cb rt mo data') by (eexists; eexists; split; [intros j _ b _; reflexivity|intros b _; reflexivity]). destruct DM as (mo & data' & DM).
  destruct (joined_exists 32 (2 ^ L) (cpu_data s)) as (O & OJ). unfold joined in OJ.
  eexists O, (Cpu _ (cpu_inst s) data' _), op, rs, rt, _, ab, bb, cb, ca, cs, (rep false), mo, op, p4, _.
  split; [intros b _; reflexivity|]. split; [exists pj; split; [intros b _; reflexivity|]; split; [intros b _; reflexivity|intros b _; reflexivity]|]. split; [intros _ b _; reflexivity|]. split; [intros j _ b _; reflexivity|]. split; [exact DM|].
  split; [intros b _; reflexivity|]. split; [split; [intros b _; reflexivity|]; split; [intros b _; reflexivity|]; intros j _ b _; reflexivity|].
  split; [split; [intros b _; reflexivity|]; split; [intros b _; reflexivity|]; split; [intros b _; reflexivity|reflexivity]|]. split; [exact CA|]. split; [exact CS|]. split; [intros b _; reflexivity|]. intros j Hj. apply OJ, Hj.
Qed.

(** * Where the processor agrees with the architecture *)
Definition differs (z : state) (i : instr) : bool :=
  match i with
  | ArithI Sltu _ _ imm => 2 ^ 15 <=? imm
  | Load Byte true _ base off => negb (word (reg z base + signed 16 off) mod 4 =? 0)
  | Load Half true _ base off => word (reg z base + signed 16 off) mod 4 =? 2
  | Branch c _ rs rt _ => taken c (reg z rs) (reg z rt)
  | Jump _ _ => negb (pc z / 2 ^ 28 =? word (pc z + 4) / 2 ^ 28)
  | Mfhi _ | Mflo _ | Mthi _ | Mtlo _ | Mult _ _ _ | Div _ _ _ => true
  | _ => false
  end.
Lemma exec_same n i z z' : (forall a, 0 <= mem z a < 2 ^ 8) -> (match i with ArithI _ _ _ imm => 0 <= imm < 2 ^ 16 | _ => True end) -> differs z i = false -> exec false n i z = Some z' -> exec true n i z = Some z'.
Proof.
  intros HM HI D E. destruct i; cbn [differs] in D; cbn [exec] in *; try discriminate; try exact E.
  - destruct o; try exact E; cbn [do_arith orb] in *; match type of E with context [if in_range ?x then _ else _] => destruct (in_range x); [exact E|discriminate E] end.
  - destruct o; try exact E; cbn [do_arith immediate orb] in *; try (match type of E with context [if in_range ?x then _ else _] => destruct (in_range x); [exact E|discriminate E] end).
    rewrite word_signed in E by lia. change (16 - 1) with 15 in E. apply Z.leb_gt in D. destruct (Z.ltb_spec imm (2 ^ 15)); [exact E|lia].
  - cbv zeta in *. rename signed into sg. set (a := word (reg z base + MipsSpec.signed 16 off)) in *. destruct (valid n w a); [|discriminate E]. destruct sg as [|]; [|exact E]. rewrite <- E. do 3 f_equal. destruct w; cbn [extend load]; [| |reflexivity].
    + apply negb_false_iff, Z.eqb_eq in D. rewrite D, Z.sub_0_r. rewrite word_signed by (try apply HM; lia). reflexivity.
    + cbn [andb]. rewrite D. reflexivity.
  - cbv zeta in *. rewrite D in *. exact E.
  - apply negb_false_iff, Z.eqb_eq in D. cbv zeta in *. rewrite D. exact E.
Qed.

(** * Runs of the architecture in which no instruction differs *)
Fixpoint alike (n : Z) (prog : Z -> Z) (k : nat) (z : state) : bool :=
  match k with
  | O => true
  | S j => negb (differs z (decode (prog (pc z / 4)))) && match step false n prog z with Some z' => alike n prog j z' | None => true end
  end.
Lemma bits_lt hi lo w : 0 <= lo <= hi -> 0 <= bits hi lo w < 2 ^ (hi - lo + 1).
Proof. intros H. unfold bits. apply Z.mod_pos_bound. apply Z.pow_pos_nonneg; lia. Qed.
Lemma decode_imm w : match decode w with ArithI _ _ _ imm => 0 <= imm < 2 ^ 16 | _ => True end.
Proof.
  pose proof (bits_lt 15 0 w ltac:(lia)) as B. change (2 ^ (15 - 0 + 1)) with (2 ^ 16) in B. unfold decode. generalize (bits 15 0 w) B. intros im HB. clear B.
  generalize (bits 31 26 w) (bits 5 0 w) (bits 25 21 w) (bits 20 16 w). intros x y u v.
  repeat (match goal with |- match (match ?x with _ => _ end) with _ => _ end => is_var x; destruct x; try exact I; try exact HB end).
Qed.
Lemma exec_bytes lite n i z z' : (forall a, 0 <= mem z a < 2 ^ 8) -> exec lite n i z = Some z' -> forall a, 0 <= mem z' a < 2 ^ 8.
Proof.
  intros HM E. assert (ST : forall w a v b, 0 <= store (mem z) w a v b < 2 ^ 8) by (intros; unfold store; destruct (_ && _); [apply Z.mod_pos_bound; lia|apply HM]).
  destruct i; cbn [exec] in E; cbv zeta in E;
    repeat match type of E with context [match ?x with Some _ => _ | None => _ end] => destruct x | (if ?b then _ else _) = _ => destruct b end;
    try discriminate E; apply some_inj in E; subst z'; cbn [mem]; (apply ST || apply HM).
Qed.
Lemma run_same n prog k z z' : (forall a, 0 <= mem z a < 2 ^ 8) -> alike n prog k z = true -> run false n prog k z = Some z' -> run true n prog k z = Some z'.
Proof.
  revert z. induction k as [|k IH]; intros z HM A H; [exact H|]. cbn [run alike] in *. apply andb_prop in A. destruct A as (D & A). apply negb_true_iff in D.
  destruct (step false n prog z) as [y|] eqn:S; [|discriminate H]. assert (S' : step true n prog z = Some y).
  { unfold step in *. destruct (pc z <? n); [|discriminate S]. apply exec_same; [exact HM|apply decode_imm|exact D|exact S]. }
  rewrite S'. apply IH; [|exact A|exact H]. unfold step in S. destruct (pc z <? n); [|discriminate S]. exact (exec_bytes _ _ _ _ _ HM S).
Qed.
Theorem mips_standard L g e c i o z t : Lite_MIPS L g e c i o -> (L <= 28)%nat -> (t < c)%nat ->
  run false (4 * 2 ^ Z.of_nat L) (words_of g) t (start (bytes_of e)) = Some z ->
  alike (4 * 2 ^ Z.of_nat L) (words_of g) t (start (bytes_of e)) = true ->
  forall a, 0 <= a < 4 * 2 ^ Z.of_nat L -> bytes_of (o t) a = mem z a.
Proof. intros C HL Ht R A. apply (mips_ok L g e c i o z t C HL Ht). apply run_same; [|exact A|exact R]. intros a. exact (val_bound 8 (part (8 * Z.to_nat a) e)). Qed.

(** * Where it does not *)
Definition shows (g e : Z) (k : nat) (a x : Z) : Prop :=
  forall o, Lite_MIPS 4 (of_val g) (of_val e) (S k) (fun _ => tt) o -> bytes_of (o k) a = x.
Definition should_show (g e : Z) (k : nat) (a x : Z) : Prop :=
  exists z, run false 64 (words_of (of_val g)) k (start (bytes_of (of_val e))) = Some z /\ mem z a = x.
(** The numbers that a list of words makes *)
Fixpoint image (l : list Z) : Z := match l with [] => 0 | w :: r => w + 2 ^ 32 * image r end.
Definition seen (lite : bool) (g e : Z) (k : nat) (a : Z) : option Z := option_map (fun z => mem z a) (run lite 64 (words_of (of_val g)) k (start (bytes_of (of_val e)))).
Lemma shows_intro g e k a x : 0 <= a < 64 -> seen true g e k a = Some x -> shows g e k a x.
Proof.
  unfold seen. intros Ha H o C. destruct (run true 64 _ _ _) as [z|] eqn:R; [|discriminate H]. cbn [option_map] in H. apply some_inj in H. subst x.
  apply (mips_ok 4 _ _ _ _ _ z k C); [lia|lia|exact R|exact Ha].
Qed.
Lemma should_intro g e k a x : seen false g e k a = Some x -> should_show g e k a x.
Proof. unfold seen, should_show. intros H. destruct (run false 64 _ _ _) as [z|] eqn:R; [|discriminate H]. cbn [option_map] in H. apply some_inj in H. exists z. split; [reflexivity|exact H]. Qed.

(** addiu $1,$0,7; beq $0,$0,.+8; sw $1,0($0): the branch skips the store *)
Definition branch_prog : Z := image [0x24010007; 0x10000001; 0xac010000; 0].
Theorem branch_wrong : should_show branch_prog 0 3 0 0 /\ shows branch_prog 0 3 0 7.
Proof. split; [apply should_intro|apply shows_intro; [lia|]]; vm_compute; reflexivity. Qed.
(** lui $2,1; sltiu $1,$2,-1; sw $1,0($0) *)
Definition sltiu_prog : Z := image [0x3c020001; 0x2c41ffff; 0xac010000].
Theorem sltiu_wrong : should_show sltiu_prog 0 3 0 1 /\ shows sltiu_prog 0 3 0 0.
Proof. split; [apply should_intro|apply shows_intro; [lia|]]; vm_compute; reflexivity. Qed.
(** lb $1,1($0); sw $1,4($0), the byte being 0x80 *)
Definition lb_prog : Z := image [0x80010001; 0xac010004].
Theorem lb_wrong : should_show lb_prog (image [0x8000]) 2 5 255 /\ shows lb_prog (image [0x8000]) 2 5 0.
Proof. split; [apply should_intro|apply shows_intro; [lia|]]; vm_compute; reflexivity. Qed.
(** lh $1,2($0); sw $1,4($0), the half being 0x8000 *)
Definition lh_prog : Z := image [0x84010002; 0xac010004].
Theorem lh_wrong : should_show lh_prog (image [0x80000000]) 2 6 255 /\ shows lh_prog (image [0x80000000]) 2 6 0.
Proof. split; [apply should_intro|apply shows_intro; [lia|]]; vm_compute; reflexivity. Qed.
(** addiu $1,$0,3; mult $1,$1; mflo $2; sw $2,0($0) *)
Definition mult_prog : Z := image [0x24010003; 0x00210018; 0x00001012; 0xac020000].
Theorem mult_wrong : should_show mult_prog 0 4 0 9 /\ shows mult_prog 0 4 0 0.
Proof. split; [apply should_intro|apply shows_intro; [lia|]]; vm_compute; reflexivity. Qed.
(** lui $1,0x7fff; ori $1,$1,0xffff; addi $1,$1,1; sw $1,0($0): the third instruction must trap *)
Definition add_prog : Z := image [0x3c017fff; 0x3421ffff; 0x20210001; 0xac010000].
Theorem add_wrong : run false 64 (words_of (of_val add_prog)) 4 (start (bytes_of (of_val 0))) = None /\ shows add_prog 0 4 3 128.
Proof. split; [|apply shows_intro; [lia|]]; vm_compute; reflexivity. Qed.
(** A program none of whose instructions differs: the sum and the difference of two words. *)
Definition plain_prog : Z := image [0x8c010000; 0x8c020004; 0x00221821; 0x00222023; 0xac030008; 0xac04000c].
Example standard_case : alike 64 (words_of (of_val plain_prog)) 6 (start (bytes_of (of_val (image [300; 45])))) = true /\
  should_show plain_prog (image [300; 45]) 6 8 (345 mod 256) /\ should_show plain_prog (image [300; 45]) 6 9 1 /\ should_show plain_prog (image [300; 45]) 6 12 255.
Proof. repeat split; try apply should_intro; vm_compute; reflexivity. Qed.

(** * Mult, by itself *)
Theorem Mult_ok (sg : bool) a b Hi Lo c r' : Mult_step (a, b, if sg then MULT_SIGNED_MULT else MULT_MULT) (Hi, Lo) c r' ->
  val 32 (fst r') * 2 ^ 32 + val 32 (snd r') = (if sg then sval 32 a * sval 32 b else val 32 a * val 32 b) mod 2 ^ 64.
Proof.
  assert (H : forall x, val 32 (part 32 (of_val x)) * 2 ^ 32 + val 32 (of_val x) = x mod 2 ^ 64).
  { intros x. change (2 ^ 64) with (2 ^ Z.of_nat (32 + 32)). rewrite <- (val_of_val (32 + 32) x). rewrite (val_split 32 32 (of_val x)). change (Z.of_nat 32) with 32. lia. }
  intros (_ & H1 & H2). destruct sg; rewrite (val_ext _ _ _ H1), (val_ext _ _ _ H2); apply H.
Qed.
Theorem Mult_divide_wrong : exists a b c r', val 32 a = 7 /\ val 32 b = 2 /\ Mult_step (a, b, MULT_DIVIDE) (rep false, rep false) c r' /\ val 32 (snd r') <> 7 / 2.
Proof.
  exists (of_val 7), (of_val 2), (rep false), (rep false, rep false). repeat split; try (intros b _; reflexivity); vm_compute; congruence.
Qed.
