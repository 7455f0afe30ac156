(** The processor a23: multiplications. *)
From Coq Require Import ZArith List Bool Lia.
From Verif Require Import RtlA23 RtlA23Units RtlA23Step RtlA23Jump RtlA23Mem.
Import ListNotations.
Open Scope Z_scope.

(** * Specification *)
(** MUL and MLA: the product of two registers, and a third; with S the flags N and Z are set *)
Definition mul_value (s : arm) (i : Z) : Z :=
  (first_reg s (bits i 11 8) * second_reg s (bits i 3 0) + (if tb i 21 then first_reg s (bits i 15 12) else 0)) mod 2 ^ 32.
Definition mul (s : arm) (i : Z) : arm :=
  if holds s i then
    Arm (put (a_regs s) (bits i 19 16) (mul_value s i))
      (if tb i 20 then Flags (s32 (mul_value s i) <? 0) (mul_value s i =? 0) (fC (a_flags s)) (fV (a_flags s)) else a_flags s) (a_pc s + 4) (a_mem s)
  else Arm (a_regs s) (a_flags s) (a_pc s + 4) (a_mem s).
Definition mul_form (i : Z) : Prop := bits i 27 22 = 0 /\ bits i 7 4 = 9 /\ bits i 19 16 <> 15.

(** * Proofs *)
Lemma mul_type i : bits i 27 22 = 0 -> bits i 7 4 = 9 -> itype i = MULT.
Proof.
  intros E1 E2. unfold itype. rewrite E1, E2. cbn [Z.eqb Pos.eqb andb].
  rewrite (part_zero i 27 22 27 23) by (try lia; assumption). reflexivity.
Qed.
Lemma mul_control d k a (i := instruction d) : In (control_state d) [EXECUTE; PRE_FETCH_EXEC; MULT_PROC1; MULT_PROC2] -> itype i = MULT ->
  let k' := control_nxt d k a in
  condition k' = (if valid (control_state d) then bits i 31 28 else condition k) /\
  mult_enable k' = (if valid (control_state d) then true else mult_enable k) /\
  rm_sel k' = bits i 3 0 /\ rds_sel k' = bits i 11 8 /\
  address_sel k' = (if control_state d =? MULT_PROC2 then 3 else 0) /\ pc_sel k' = 0 /\ write_data_wen k' = false /\ pc_wen k' = false /\
  reg_bank_wen k' = 0 /\ flags_wen k' = false.
Proof.
  intros C T. unfold control_nxt, mult_enable_nxt, address_sel_nxt, pc_sel_nxt, write_data_wen_nxt, pc_wen_nxt, reg_bank_wsel_nxt, flags_wen_nxt, rds_nxt, load_op.
  fold i. rewrite T. cbn [In] in C. destruct C as [<- | [<- | [<- | [<- | []]]]]; repeat split; cbn; rewrite ?andb_false_r; reflexivity.
Qed.
Lemma store_control d k a (i := instruction d) : control_state d = MULT_STORE -> itype i = MULT ->
  let k' := control_nxt d k a in
  condition k' = condition k /\ address_sel k' = 0 /\ pc_sel k' = 0 /\ write_data_wen k' = false /\ pc_wen k' = true /\
  reg_bank_wen k' = one_hot (bits i 19 16) /\ reg_write_sel k' = 2 /\ flags_wen k' = tb i 20 /\ status_bits_sel k' = (if tb i 20 then 4 else 0).
Proof.
  intros C T. unfold control_nxt, address_sel_nxt, pc_sel_nxt, write_data_wen_nxt, pc_wen_nxt, reg_bank_wsel_nxt, flags_wen_nxt, reg_write_sel_nxt, status_bits_sel_nxt, load_op.
  fold i. rewrite C, T. repeat split; cbn; rewrite ?andb_false_r; reflexivity.
Qed.
Lemma mul_state cs i d2 : In cs [EXECUTE; PRE_FETCH_EXEC; MULT_PROC1; MULT_PROC2; MULT_STORE] -> itype i = MULT ->
  control_state_nxt cs i d2 = if valid cs then MULT_PROC1 else if cs =? MULT_PROC1 then MULT_PROC2 else if cs =? MULT_PROC2 then MULT_STORE else PRE_FETCH_EXEC.
Proof.
  intros C T. unfold control_state_nxt. rewrite T. cbn [In] in C. destruct C as [<- | [<- | [<- | [<- | [<- | []]]]]]; reflexivity.
Qed.
(** The product of the two registers is written whether or not a third is to be added *)
Theorem mul_product z p s i : ready p s -> idle p -> i = mem_read (a_mem s) (a_pc s) -> mul_form i -> a_pc s + 12 < 2 ^ 26 ->
  let v := (first_reg s (bits i 11 8) * second_reg s (bits i 3 0)) mod 2 ^ 32 in
  ready (run z 4 p) (Arm (if holds s i then put (a_regs s) (bits i 19 16) v else a_regs s)
    (if holds s i && tb i 20 then Flags (s32 v <? 0) (v =? 0) (fC (a_flags s)) (fV (a_flags s)) else a_flags s) (a_pc s + 4) (a_mem s)).
Proof.
  intros Rd Id Ei (T1 & T2 & T3) Bound v. destruct (decode_cycle z p s Rd) as (Ex & S & Hm & Rdata & K & D).
  change (run z 4 p) with (step z (step z (step z (step z p)))). pose proof Rd as (W & V & I & _). rewrite <- Ei in I.
  apply (mul_type i T1) in T2. pose proof W as (W1 & W2 & P). pose proof P as (P1 & P2 & P3). pose proof S as (S1 & S2 & S3 & S4 & S5).
  assert (Rrs := nibble i 11 8 eq_refl). assert (Rrm := nibble i 3 0 eq_refl). assert (Rrd := nibble i 19 16 eq_refl).
  assert (Cv : In (control_state (dec p)) [EXECUTE; PRE_FETCH_EXEC; MULT_PROC1; MULT_PROC2]) by (destruct (valid_cases _ V) as [-> | ->]; cbn; auto).
  destruct (mul_control (dec p) (ctl p) (address (exe p)) Cv) as (A1 & A2 & A3 & A4 & A5 & A6 & A7 & A8 & A9 & A10); [now rewrite I | ].
  rewrite V, I in *. assert (A5' : address_sel (control_nxt (dec p) (ctl p) (address (exe p))) = 0) by (rewrite A5; destruct (valid_cases _ V) as [-> | ->]; reflexivity).
  assert (Ct : count (exe (step z p)) = 0) by (rewrite Ex; unfold exe_nxt; rewrite nxt_count; unfold count_nxt; now rewrite Id).
  assert (C1 : control_state (dec (step z p)) = MULT_PROC1).
  { rewrite D. cbn [decoder_nxt control_state]. rewrite I, mul_state by (try assumption; destruct (valid_cases _ V) as [-> | ->]; cbn; auto). now rewrite V. }
  assert (G1 : saved_instruction (dec (step z p)) = i).
  { rewrite D. unfold decoder_nxt. cbn [saved_instruction]. rewrite I. unfold saved_wen. rewrite T2, V. reflexivity. }
  rewrite <- K in *. clear D K A5. set (q := step z p) in *.
  assert (I1 : instruction (dec q) = i) by (unfold instruction; rewrite C1; exact G1).
  (* the second cycle *)
  assert (Stay : forall w, (pc_wen (ctl w) = false -> write_data_wen (ctl w) = false -> reg_bank_wen (ctl w) = 0 -> flags_wen (ctl w) = false ->
    pc_of (r15 (exe w)) = a_pc s + 8 -> (address_sel (ctl w) = 0 \/ address_sel (ctl w) = 3) ->
    (forall r, regs (exe_nxt w) r = regs (exe w) r) /\ status (exe_nxt w) = status (exe w) /\ pc_of (r15 (exe_nxt w)) = a_pc s + 8 /\
    write_enable (exe_nxt w) = false /\ (address_sel (ctl w) = 3 -> address (exe_nxt w) = a_pc s + 8))).
  { intros w H1 H2 H3 H4 H5 H6. unfold exe_nxt. rewrite nxt_status, nxt_r15, nxt_write, nxt_address, H1, H2, H4, !andb_false_r. repeat split; try assumption.
    - intros r. rewrite nxt_regs, H3. unfold tb. now rewrite Z.bits_0, andb_false_r.
    - intros E. unfold address_nxt. rewrite E. exact H5. }
  assert (Mem : forall w, write_enable (exe w) = false -> (forall a, mem w a = a_mem s a) -> forall a, mem (step z w) a = a_mem s a)
    by (intros w H H' a; unfold step; cbn [mem]; rewrite H; apply H').
  assert (Cyc : forall w, control_state (dec w) = MULT_PROC1 \/ control_state (dec w) = MULT_PROC2 \/ control_state (dec w) = MULT_STORE -> saved_instruction (dec w) = i ->
    saved_instruction (dec (step z w)) = i /\ control_state (dec (step z w)) = (if control_state (dec w) =? MULT_PROC1 then MULT_PROC2 else if control_state (dec w) =? MULT_PROC2 then MULT_STORE else PRE_FETCH_EXEC) /\
    pre_fetch (dec (step z w)) = (if control_state (dec w) =? MULT_PROC1 then read_data (dec w) else pre_fetch (dec w)) /\ instruction (dec w) = i).
  { intros w Cw Gw. assert (Iw : instruction (dec w) = i) by (unfold instruction; destruct Cw as [-> | [-> | ->]]; exact Gw).
    unfold step, decoder_nxt. cbn [dec saved_instruction control_state pre_fetch]. rewrite Iw, T2.
    unfold saved_wen, pre_fetch_wen. rewrite mul_state by (try assumption; destruct Cw as [-> | [-> | ->]]; cbn; auto 6).
    destruct Cw as [-> | [-> | ->]]; repeat split; try exact Gw; exact Iw. }
  destruct (Cyc q (or_introl C1) G1) as (G2 & C2 & F2 & _). rewrite C1 in C2, F2. cbn [Z.eqb Pos.eqb MULT_PROC1] in C2, F2.
  destruct (mul_control (dec q) (ctl q) (address (exe q))) as (B1 & B2 & B3 & B4 & B5 & B6 & B7 & B8 & B9 & B10); [rewrite C1; cbn; auto | now rewrite I1 | ].
  rewrite C1, I1 in *. cbn [valid Z.eqb Pos.eqb orb EXECUTE PRE_FETCH_EXEC MULT_PROC1 MULT_PROC2] in B1, B2, B5.
  destruct (Stay q A8 A7 A9 A10 S3 (or_introl A5')) as (X1 & X2 & X3 & X4 & _).
  assert (Hm2 := Mem q S5 Hm).
  assert (He : executes (ctl q) (exe q) = holds s i) by (rewrite <- holds_eq; unfold executes; now rewrite S2, A1).
  assert (Pr2 : holds s i = true -> product (exe_nxt q) = v).
  { intros H. unfold exe_nxt. rewrite nxt_product. unfold product_nxt. rewrite A2, Ct, He, H, A3, A4. cbn [andb Z.eqb].
    rewrite (proj2 (settled_first _ _ _ S Rrs)), (settled_second _ _ _ S Rrm). reflexivity. }
  assert (Ct2 : count (exe_nxt q) = 1) by (unfold exe_nxt; rewrite nxt_count; unfold count_nxt; rewrite A2, Ct; reflexivity).
  change (control_nxt (dec q) (ctl q) (address (exe q))) with (ctl (step z q)) in *. change (exe_nxt q) with (exe (step z q)) in *. set (u := step z q) in *.
  (* the third cycle *)
  destruct (Cyc u (or_intror (or_introl C2)) G2) as (G3 & C3 & F3 & I2). rewrite C2 in C3, F3. cbn [Z.eqb Pos.eqb MULT_PROC1 MULT_PROC2] in C3, F3.
  destruct (mul_control (dec u) (ctl u) (address (exe u))) as (D1 & D2 & D3 & D4 & D5 & D6 & D7 & D8 & D9 & D10); [rewrite C2; cbn; auto | now rewrite I2 | ].
  rewrite C2, I2 in *. cbn [valid Z.eqb Pos.eqb orb EXECUTE PRE_FETCH_EXEC MULT_PROC1 MULT_PROC2] in D1, D2, D5.
  destruct (Stay u B8 B7 B9 B10 X3 (or_introl B5)) as (Y1 & Y2 & Y3 & Y4 & _).
  assert (Hm3 := Mem u X4 Hm2).
  assert (Pr3 : product (exe_nxt u) = product (exe u)).
  { unfold exe_nxt. rewrite nxt_product. unfold product_nxt. rewrite B2, A2, Ct2. cbn [Z.eqb Pos.eqb]. now rewrite !andb_false_r. }
  assert (Ct3 : count (exe_nxt u) = 2) by (unfold exe_nxt; rewrite nxt_count; unfold count_nxt; rewrite B2, A2, Ct2; reflexivity).
  change (control_nxt (dec u) (ctl u) (address (exe u))) with (ctl (step z u)) in *. change (exe_nxt u) with (exe (step z u)) in *. set (w := step z u) in *.
  (* the fourth cycle *)
  destruct (Cyc w (or_intror (or_intror C3)) G3) as (_ & C4 & F4 & I3). rewrite C3 in C4, F4. cbn [Z.eqb Pos.eqb MULT_PROC1 MULT_PROC2 MULT_STORE] in C4, F4.
  destruct (store_control (dec w) (ctl w) (address (exe w)) C3) as (E1 & E2 & E3 & E4 & E5 & E6 & E7 & E8 & E9); [now rewrite I3 | ]. rewrite I3 in *.
  destruct (Stay w D8 D7 D9 D10 Y3 (or_intror D5)) as (Q1 & Q2 & Q3 & Q4 & Q5). specialize (Q5 D5).
  assert (Hm4 := Mem w Y4 Hm3).
  assert (Pr4 : product (exe_nxt w) = product (exe w)).
  { unfold exe_nxt. rewrite nxt_product. unfold product_nxt. rewrite D2, B2, A2, Ct3. cbn [Z.eqb Pos.eqb]. now rewrite !andb_false_r. }
  change (control_nxt (dec w) (ctl w) (address (exe w))) with (ctl (step z w)) in *. change (exe_nxt w) with (exe (step z w)) in *. set (y := step z w) in *.
  assert (St : status (exe y) = a_flags s) by congruence.
  assert (Hy : executes (ctl y) (exe y) = holds s i) by (rewrite <- holds_eq; unfold executes; now rewrite E1, D1, B1, A1, St).
  assert (Pv : holds s i = true -> product (exe y) = v) by (intros H; rewrite Pr4, Pr3; auto).
  assert (Rv : 0 <= v < 2 ^ 32) by (apply Z.mod_pos_bound; lia).
  apply ready_next; try assumption.
  - split; [ | split; [exact W2 | now apply pc_ok_next]]. cbn [a_regs]. intros r Hr. destruct (holds s i); [ | now apply W1]. unfold put. destruct (r =? _); [exact Rv | now apply W1].
  - now rewrite C4.
  - unfold instruction. rewrite C4. cbn [use_saved one_of existsb Z.eqb Pos.eqb PRE_FETCH_EXEC orb]. rewrite F4, F3, F2. exact Rdata.
  - intros r Hr. unfold exe_nxt. rewrite nxt_regs, Hy, E6. unfold reg_write_nxt. rewrite E7, one_hot_tb by lia. cbn [Z.eqb Pos.eqb].
    rewrite Q1, Y1, X1, S1 by exact Hr. destruct (holds s i); cbn [andb]; [ | reflexivity]. rewrite Pv by reflexivity. reflexivity.
  - unfold exe_nxt. rewrite nxt_status, Hy, E8. unfold status_nxt. rewrite E9, St.
    destruct (holds s i); cbn [andb]; [ | reflexivity]. destruct (tb i 20); cbn [Z.eqb Pos.eqb]; [ | reflexivity]. rewrite Pv by reflexivity.
    rewrite tb_top by (try lia; exact Rv). f_equal. unfold s32. apply Bool.eq_true_iff_eq. rewrite Z.leb_le, Z.ltb_lt. destruct (Z.ltb_spec v (2 ^ 31)); lia.
Qed.
Theorem mul_steps z p s i : ready p s -> idle p -> i = mem_read (a_mem s) (a_pc s) -> mul_form i -> tb i 21 = false -> a_pc s + 12 < 2 ^ 26 ->
  ready (run z 4 p) (mul s i).
Proof.
  intros Rd Id Ei F A B. pose proof (mul_product z p s i Rd Id Ei F B) as H. cbv zeta in H. unfold mul, mul_value. rewrite A, Z.add_0_r.
  destruct (holds s i); exact H.
Qed.
(** mov r1, #2; mov r2, #3 *)
Definition two_movs (rest : list Z) : memory := load (3818917890 :: 3818921987 :: rest).
Lemma after_movs rest (z := Sizes 64 64 64 64 64) : exists s, ready (run z 3 (reset (two_movs rest))) s /\ idle (run z 3 (reset (two_movs rest))) /\
  s = Arm (put (put (fun _ => 0) 1 2) 2 3) (Flags false false false false) 8 (two_movs rest).
Proof.
  change (run z 3 (reset (two_movs rest))) with (step z (step z (step z (reset (two_movs rest))))).
  destruct (reset_ready z (two_movs rest) (load_range _)) as [R0 _]. set (p := step z (reset _)) in *.
  destruct (dp_step z p _ 3818917890 R0 eq_refl) as (f & R1 & _ & H1); [repeat split; try (vm_compute; congruence); now left | exact I | reflexivity | ].
  destruct H1 as [_ H1]; [discriminate | ]. specialize (H1 (fun _ => eq_refl)). subst f.
  destruct (dp_step z _ _ 3818921987 R1 eq_refl) as (f & R2 & Id & H2); [repeat split; try (vm_compute; congruence); now left | exact I | reflexivity | ].
  destruct H2 as [_ H2]; [discriminate | ]. specialize (H2 (fun _ => eq_refl)). subst f.
  eexists. split; [exact R2 | ]. split; [exact Id | ]. reflexivity.
Qed.
Lemma not_ready z n p s r v : regs (exe_nxt (run z n p)) r = v -> 0 <= r < 15 -> a_regs s r <> v -> ~ ready (run z n p) s.
Proof. intros E Hr N (_ & _ & _ & _ & _ & _ & (R & _)). apply N. rewrite <- E. symmetry. now apply R. Qed.
(** mla r3, r1, r1, r2: 2 * 2 + 3 is 4 *)
Theorem mla_refuted : exists z p s i, ready p s /\ idle p /\ i = mem_read (a_mem s) (a_pc s) /\ mul_form i /\ tb i 21 = true /\ a_pc s + 12 < 2 ^ 26 /\
  ~ ready (run z 4 p) (mul s i).
Proof.
  destruct (after_movs [3760398737]) as (s & R & Id & E).
  exists (Sizes 64 64 64 64 64), (run (Sizes 64 64 64 64 64) 3 (reset (two_movs [3760398737]))), s, 3760398737.
  split; [exact R | ]. split; [exact Id | ]. subst s. split; [vm_compute; reflexivity | ].
  split; [repeat split; try (vm_compute; reflexivity); vm_compute; discriminate | ]. split; [reflexivity | ]. split; [reflexivity | ].
  apply not_ready with 3 4; [vm_compute; reflexivity | lia | vm_compute; discriminate].
Qed.
(** mul r3, r1, r1 and mul r4, r2, r2: the second gives the first product *)
Theorem mul_after_mul_refuted : exists z p s i, ready p s /\ i = mem_read (a_mem s) (a_pc s) /\ mul_form i /\ tb i 21 = false /\ a_pc s + 12 < 2 ^ 26 /\
  ~ ready (run z 4 p) (mul s i).
Proof.
  destruct (after_movs [3758293393; 3758359186]) as (s & R & Id & E). set (z := Sizes 64 64 64 64 64) in *.
  assert (R' : ready (run z 4 (run z 3 (reset (two_movs [3758293393; 3758359186])))) (mul s 3758293393)).
  { apply mul_steps; [exact R | exact Id | subst s; vm_compute; reflexivity | | reflexivity | subst s; vm_compute; reflexivity].
    repeat split; try (vm_compute; reflexivity); vm_compute; discriminate. }
  exists z, (run z 4 (run z 3 (reset (two_movs [3758293393; 3758359186])))), (mul s 3758293393), 3758359186.
  split; [exact R' | ]. subst s. split; [vm_compute; reflexivity | ].
  split; [repeat split; try (vm_compute; reflexivity); vm_compute; discriminate | ]. split; [reflexivity | ]. split; [reflexivity | ].
  apply not_ready with 4 4; [vm_compute; reflexivity | lia | vm_compute; discriminate].
Qed.
