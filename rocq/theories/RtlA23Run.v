(** The processor a23: sequences of instructions. *)
From Coq Require Import ZArith List Bool Lia.
From Verif Require Import RtlA23 RtlA23Units RtlA23Step RtlA23Jump RtlA23Mem RtlA23Mul RtlA23Multi.
Import ListNotations.
Open Scope Z_scope.

(** From the state s of the architecture the processor reaches, n cycles later, a state in Q; c: the
    multiplier may be used *)
Definition reaches (z : sizes) (c : bool) (s : arm) (n : nat) (Q : arm -> Prop) : Prop :=
  forall p, ready p s -> (c = true -> idle p) -> exists s', Q s' /\ ready (run z n p) s' /\ idle (run z n p).
Lemma r_done z s (Q : arm -> Prop) : Q s -> reaches z true s 0 Q.
Proof. intros H p R I. exists s. auto. Qed.
Lemma r_seq z c s n m (P Q : arm -> Prop) : reaches z c s n P -> (forall s', P s' -> reaches z true s' m Q) -> reaches z c s (n + m) Q.
Proof. intros H1 H2 p R I. destruct (H1 p R I) as (s' & Ps & R' & I'). rewrite run_app. exact (H2 s' Ps _ R' (fun _ => I')). Qed.
Lemma r_well z c s n Q : (well s -> reaches z c s n Q) -> reaches z c s n Q.
Proof. intros H p R I. pose proof R as (W & _). exact (H W p R I). Qed.
Lemma r_eq z c s n n' Q : n = n' -> reaches z c s n Q -> reaches z c s n' Q.
Proof. now intros ->. Qed.
(** ** One instruction *)
Lemma r_dp z c s i n Q : i = mem_read (a_mem s) (a_pc s) -> dp_form i -> shift_supported s i -> a_pc s + 12 < 2 ^ 26 ->
  (In (bits i 24 21) [0; 8] -> tb i 20 = true -> ~ unshifted s i) ->
  (forall f, fC f = fC (dp_flags s i) -> ((with_carry (bits i 24 21) = true -> tb i 20 = false) -> f = dp_flags s i) ->
    reaches z true (Arm (dp_regs s i) f (a_pc s + 4) (a_mem s)) n Q) ->
  reaches z c s (1 + n) Q.
Proof.
  intros Ei F Sup B U H p R I. destruct (dp_step z p s i R Ei F Sup B) as (f & R' & I' & Hf). destruct (Hf U) as [H1 H2].
  rewrite run_app. exact (H f H1 H2 _ R' (fun _ => I')).
Qed.
Lemma r_branch z c s i n Q : i = mem_read (a_mem s) (a_pc s) -> bits i 27 25 = 5 -> 0 <= a_pc (branch s i) -> a_pc (branch s i) + 8 < 2 ^ 26 ->
  reaches z true (branch s i) n Q -> reaches z c s (3 + n) Q.
Proof.
  intros Ei T B1 B2 H p R I. destruct (branch_steps z p s i R Ei T B1 B2) as (R' & I'). rewrite run_app. exact (H _ R' (fun _ => I')).
Qed.
Lemma r_transfer z c s i n Q : i = mem_read (a_mem s) (a_pc s) -> transfer_form i -> a_pc s + 12 < 2 ^ 26 ->
  mem_read (a_mem (transfer z s i)) (a_pc s + 4) = mem_read (a_mem s) (a_pc s + 4) ->
  reaches z true (transfer z s i) n Q -> reaches z c s (3 + n) Q.
Proof.
  intros Ei F B Hc H p R I. destruct (transfer_steps z p s i R Ei F B Hc) as (R' & I'). rewrite run_app. exact (H _ R' (fun _ => I')).
Qed.
Lemma r_multi z c s i n Q : i = mem_read (a_mem s) (a_pc s) -> multi_form s i -> pc_ok (a_pc (multi z s i)) ->
  mem_read (a_mem (multi z s i)) (a_pc s + 4) = mem_read (a_mem s) (a_pc s + 4) ->
  reaches z true (multi z s i) n Q -> reaches z c s (multi_cycles i + n) Q.
Proof.
  intros Ei F B Hc H p R I. destruct (multi_steps z p s i R Ei F B Hc) as (R' & I'). rewrite run_app. exact (H _ R' (fun _ => I')).
Qed.
Lemma r_to_pc z c s i n Q : i = mem_read (a_mem s) (a_pc s) -> to_pc_form i -> shift_supported s i -> word_pc (pc_result s i) + 8 < 2 ^ 26 -> holds s i = true ->
  reaches z true (to_pc s i) n Q -> reaches z c s (3 + n) Q.
Proof.
  intros Ei F Sup B Hh H p R I. destruct (to_pc_steps z p s i R Ei F Sup B Hh) as (R' & I'). rewrite run_app. exact (H _ R' (fun _ => I')).
Qed.
Lemma r_mul z s i n Q : i = mem_read (a_mem s) (a_pc s) -> mul_form i -> tb i 21 = false -> a_pc s + 12 < 2 ^ 26 ->
  reaches z false (mul s i) n Q -> reaches z true s (4 + n) Q.
Proof.
  intros Ei F A B H p R I. assert (R' := mul_steps z p s i R (I eq_refl) Ei F A B). rewrite run_app. refine (H _ R' _). discriminate.
Qed.
(** At the address of the branch to itself the output terminate is set *)
Lemma ready_terminate p s : ready p s -> a_pc s = 20 -> terminate p = true.
Proof.
  intros (_ & _ & _ & A & _ & _ & (_ & _ & _ & A' & _)) E. unfold terminate. fold (exe_nxt p). rewrite A, A', E. reflexivity.
Qed.
(** ** The program in the memory *)
Definition code_at (m : memory) (words : list Z) : Prop := forall a, 0 <= a < 4 * Z.of_nat (length words) -> m a = load words a.
Lemma fetch m words pc : code_at m words -> 0 <= pc -> pc mod 4 = 0 -> pc + 4 <= 4 * Z.of_nat (length words) -> pc < 2 ^ 24 -> mem_read m pc = mem_read (load words) pc.
Proof.
  intros H H1 H2 H3 H4. unfold mem_read. destruct (_ <=? 4); [ | reflexivity]. rewrite bits_align by lia. unfold word_at. rewrite !H by lia. reflexivity.
Qed.
Lemma store_code z m words a v : code_at m words -> 4 * Z.of_nat (length words) <= a -> a mod 4 = 0 -> code_at (store_word z m a v) words.
Proof.
  intros H H1 H2 x Hx. unfold store_word. rewrite H2, Z.sub_0_r. replace (a <=? x) with false by (symmetry; apply Z.leb_gt; lia). rewrite andb_false_r. now apply H.
Qed.
Lemma load_store_other z m a v x : a mod 4 = 0 -> x mod 4 = 0 -> x <> a -> load_word (store_word z m a v) x = load_word m x.
Proof.
  intros H1 H2 N. unfold load_word. destruct (x <? _); [ | reflexivity]. unfold store_word. rewrite H1, H2, !Z.sub_0_r.
  assert (E : forall k, 0 <= k < 4 -> writable z a && (a <=? x + k) && (x + k <? a + 4) = false).
  { intros k Hk. destruct (writable z a); [ | reflexivity]. cbn [andb]. pose proof (Z.div_mod a 4). pose proof (Z.div_mod x 4).
    destruct (Z.leb_spec a (x + k)), (Z.ltb_spec (x + k) (a + 4)); try reflexivity. lia. }
  rewrite !E by lia. assert (E0 := E 0 ltac:(lia)). rewrite Z.add_0_r in E0. now rewrite E0.
Qed.
Lemma load_store_same z m a v : writable z a = true -> a mod 4 = 0 -> a < 5 * 2 ^ 24 -> 0 <= v < 2 ^ 32 -> load_word (store_word z m a v) a = v.
Proof.
  intros H1 H2 H3 Hv. unfold load_word. replace (a <? 5 * 2 ^ 24) with true by (symmetry; now apply Z.ltb_lt). unfold store_word. rewrite H1, H2, !Z.sub_0_r. cbn [andb].
  assert (E : forall k, 0 <= k < 4 -> (a <=? a + k) && (a + k <? a + 4) = true).
  { intros k Hk. destruct (Z.leb_spec a (a + k)), (Z.ltb_spec (a + k) (a + 4)); try reflexivity; lia. }
  rewrite !E by lia. assert (E0 := E 0 ltac:(lia)). rewrite Z.add_0_r in E0. rewrite E0.
  replace (8 * (a - a)) with 0 by lia. replace (8 * (a + 1 - a)) with 8 by lia. replace (8 * (a + 2 - a)) with 16 by lia. replace (8 * (a + 3 - a)) with 24 by lia.
  rewrite Z.div_1_r. change (2 ^ 8) with 256 in *. change (2 ^ 16) with (256 * 256). change (2 ^ 24) with (256 * 256 * 256). change (2 ^ 32) with (256 * 256 * 256 * 256) in Hv.
  rewrite <- !Z.div_div by lia. pose proof (Z.div_mod v 256 ltac:(lia)). pose proof (Z.div_mod (v / 256) 256 ltac:(lia)). pose proof (Z.div_mod (v / 256 / 256) 256 ltac:(lia)).
  assert (v / 256 / 256 / 256 < 256) by (repeat apply Z.div_lt_upper_bound; lia). assert (0 <= v / 256 / 256 / 256) by (repeat apply Z.div_pos; lia).
  rewrite (Z.mod_small (v / 256 / 256 / 256)) by lia. lia.
Qed.
(** The inputs in the memory after the reset *)
Lemma init_word p g e r k (words := if r =? 1 then g else e) : r = 1 \/ r = 2 -> 0 <= k < Z.of_nat (length words) -> Z.of_nat (length words) < 2 ^ 22 -> Forall (fun w => 0 <= w < 2 ^ 32) words ->
  load_word (mem_init p g e) (r * 2 ^ 24 + 4 * k) = nth (Z.to_nat k) words 0.
Proof.
  intros Hr Hk Hl Hw. unfold load_word. replace ((r * 2 ^ 24 + 4 * k) mod 4) with 0.
  2:{ symmetry. replace (r * 2 ^ 24 + 4 * k) with ((r * 2 ^ 22 + k) * 4) by lia. apply Z.mod_mul. lia. }
  rewrite Z.sub_0_r. replace (_ <? _) with true by (symmetry; apply Z.ltb_lt; lia).
  assert (Wk : 0 <= nth (Z.to_nat k) words 0 < 2 ^ 32) by (rewrite Forall_forall in Hw; apply Hw, nth_In; lia).
  assert (E : forall d, 0 <= d < 4 -> mem_init p g e (r * 2 ^ 24 + 4 * k + d) = (nth (Z.to_nat k) words 0 / 2 ^ (8 * d)) mod 256).
  { intros d Hd. unfold mem_init. cbv zeta.
    replace (bits (r * 2 ^ 24 + 4 * k + d) 31 24) with r.
    2:{ rewrite bits_31_24 by lia. symmetry. replace (r * 2 ^ 24 + 4 * k + d) with ((4 * k + d) + r * 2 ^ 24) by lia. rewrite Z.div_add, Z.div_small by lia. lia. }
    replace (bits (r * 2 ^ 24 + 4 * k + d) 23 0) with (4 * k + d).
    2:{ symmetry. unfold bits. change (2 ^ 0) with 1. rewrite Z.div_1_r. change (23 - 0 + 1) with 24.
        replace (r * 2 ^ 24 + 4 * k + d) with ((4 * k + d) + r * 2 ^ 24) by lia. rewrite Z.mod_add, Z.mod_small by lia. reflexivity. }
    assert (L : load words (4 * k + d) = (nth (Z.to_nat k) words 0 / 2 ^ (8 * d)) mod 256).
    { unfold load. replace ((4 * k + d) / 4) with k by (rewrite Z.mul_comm, Z.add_comm, Z.div_add by lia; rewrite Z.div_small by lia; lia).
      replace ((4 * k + d) mod 4) with d by (rewrite Z.mul_comm, Z.add_comm, Z.mod_add by lia; now rewrite Z.mod_small).
      unfold bits. now replace (8 * d + 7 - 8 * d + 1) with 8 by lia. }
    destruct Hr as [-> | ->]; exact L. }
  assert (E0 := E 0 ltac:(lia)). rewrite Z.add_0_r in E0. rewrite E0, !E by lia. set (v := nth (Z.to_nat k) words 0) in *.
  change (2 ^ (8 * 0)) with 1. change (8 * 1) with 8. change (8 * 2) with 16. change (8 * 3) with 24.
  rewrite Z.div_1_r. change (2 ^ 8) with 256 in *. change (2 ^ 16) with (256 * 256). change (2 ^ 24) with (256 * 256 * 256). change (2 ^ 32) with (256 * 256 * 256 * 256) in Wk.
  rewrite <- !Z.div_div by lia. pose proof (Z.div_mod v 256 ltac:(lia)). pose proof (Z.div_mod (v / 256) 256 ltac:(lia)). pose proof (Z.div_mod (v / 256 / 256) 256 ltac:(lia)).
  assert (v / 256 / 256 / 256 < 256) by (repeat apply Z.div_lt_upper_bound; lia). assert (0 <= v / 256 / 256 / 256) by (repeat apply Z.div_pos; lia).
  rewrite (Z.mod_small (v / 256 / 256 / 256)) by lia. lia.
Qed.
Lemma init_code p g e : Z.of_nat (length p) <= 2 ^ 22 -> code_at (mem_init p g e) p.
Proof.
  intros H a Ha. unfold mem_init. cbv zeta. replace (bits a 31 24) with 0 by (rewrite bits_31_24 by lia; symmetry; apply Z.div_small; lia).
  cbn [Z.eqb]. unfold bits at 1. change (2 ^ 0) with 1. rewrite Z.div_1_r, Z.mod_small; [reflexivity | change (23 - 0 + 1) with 24; lia].
Qed.
Lemma init_range p g e a : 0 <= mem_init p g e a < 256.
Proof.
  unfold mem_init. cbv zeta. destruct (_ =? 0); [apply load_range | ]. destruct (_ =? 1); [apply load_range | ]. destruct (_ =? 2); [apply load_range | lia].
Qed.
(** ** The rules with the checks that only depend on the program *)
Definition dp_check (words : list Z) (pc i : Z) : bool :=
  (0 <=? pc) && (pc mod 4 =? 0) && (pc + 4 <=? 4 * Z.of_nat (length words)) && (pc <? 2 ^ 20) && (i =? mem_read (load words) pc) &&
  (bits i 27 26 =? 0) && (tb i 25 || negb (tb i 4)) && (negb (is_compare (bits i 24 21)) || tb i 20) && negb (bits i 15 12 =? 15) &&
  (tb i 25 || negb (bits i 11 7 =? 0) || (bits i 6 5 =? 0)) && negb (existsb (Z.eqb (bits i 24 21)) [0; 8]).
Lemma s_dp words z c R F pc M i r n Q : code_at M words -> dp_check words pc i = true -> dp_regs (Arm R F pc M) i = r ->
  (forall f, fC f = fC (dp_flags (Arm R F pc M) i) -> (with_carry (bits i 24 21) && tb i 20 = false -> f = dp_flags (Arm R F pc M) i) ->
    reaches z true (Arm r f (pc + 4) M) n Q) -> reaches z c (Arm R F pc M) (1 + n) Q.
Proof.
  intros HM C <- H. unfold dp_check in C. repeat (apply andb_prop in C; destruct C as [C ?X]). apply Z.leb_le in C. apply Z.eqb_eq in X8. apply Z.leb_le in X7. apply Z.ltb_lt in X6.
  apply Z.eqb_eq in X5. apply Z.eqb_eq in X4.
  apply (r_dp z c (Arm R F pc M) i n Q); cbn [a_pc a_mem].
  - rewrite (fetch M words pc HM) by lia. exact X5.
  - split; [exact X4 | ]. split; [ | split].
    + apply orb_prop in X3. destruct X3 as [E | E]; [left; exact E | right; left; now destruct (tb i 4)].
    + intros E. rewrite E in X2. exact X2.
    + apply negb_true_iff in X1. now apply Z.eqb_neq.
  - unfold shift_supported. destruct (tb i 25); [exact I | ]. cbn [orb] in *. apply negb_true_iff in X3. rewrite X3. apply orb_prop in X0.
    destruct X0 as [E | E]; [left; apply negb_true_iff in E; now apply Z.eqb_neq | right; now apply Z.eqb_eq].
  - lia.
  - intros E. apply negb_true_iff in X. cbn [existsb] in X. rewrite orb_false_r in X. apply orb_false_iff in X. destruct X as [A B]. apply Z.eqb_neq in A. apply Z.eqb_neq in B.
    cbn [In] in E. destruct E as [E | [E | []]]; congruence.
  - intros f H1 H2. apply H; [exact H1 | ]. intros E. apply H2. intros E'. rewrite E' in E. exact E.
Qed.
Definition tr_check (words : list Z) (pc i : Z) : bool :=
  (0 <=? pc) && (pc mod 4 =? 0) && (pc + 8 <=? 4 * Z.of_nat (length words)) && (pc <? 2 ^ 20) && (i =? mem_read (load words) pc) &&
  (bits i 27 26 =? 1) && negb (bits i 15 12 =? 15) && (negb (write_back i) || negb (bits i 19 16 =? 15)) && (negb (tb i 25) || negb (bits i 11 7 =? 0) || (bits i 6 5 =? 0)).
Lemma s_transfer words z c R F pc M i s n Q : code_at M words -> tr_check words pc i = true -> transfer z (Arm R F pc M) i = s -> code_at (a_mem s) words ->
  reaches z true s n Q -> reaches z c (Arm R F pc M) (3 + n) Q.
Proof.
  intros HM C <- HM' H. unfold tr_check in C. repeat (apply andb_prop in C; destruct C as [C ?X]). apply Z.leb_le in C. apply Z.eqb_eq in X6. apply Z.leb_le in X5. apply Z.ltb_lt in X4.
  apply Z.eqb_eq in X3. apply Z.eqb_eq in X2. apply negb_true_iff in X1. apply Z.eqb_neq in X1.
  assert (P4 : (pc + 4) mod 4 = 0) by (rewrite <- Z.add_mod_idemp_l, X6 by lia; reflexivity).
  apply (r_transfer z c (Arm R F pc M) i n Q); cbn [a_pc a_mem]; [ | | lia | | exact H].
  - rewrite (fetch M words pc HM) by lia. exact X3.
  - split; [exact X2 | ]. split; [exact X1 | ]. split.
    + intros E. rewrite E in X0. cbn [negb orb] in X0. apply negb_true_iff in X0. now apply Z.eqb_neq.
    + intros E. rewrite E in X. cbn [negb orb] in X. apply orb_prop in X. destruct X as [X | X]; [left; apply negb_true_iff in X; now apply Z.eqb_neq | right; now apply Z.eqb_eq].
  - now rewrite (fetch M words (pc + 4) HM), (fetch _ words (pc + 4) HM') by lia.
Qed.
Definition br_check (words : list Z) (pc i : Z) : bool :=
  (0 <=? pc) && (pc mod 4 =? 0) && (pc + 4 <=? 4 * Z.of_nat (length words)) && (pc <? 2 ^ 20) && (i =? mem_read (load words) pc) && (bits i 27 25 =? 5) &&
  (0 <=? pc + 8 + offset i) && (pc + 8 + offset i <? 2 ^ 20).
Lemma s_branch words z c R F pc M i s n Q : code_at M words -> br_check words pc i = true -> branch (Arm R F pc M) i = s ->
  reaches z true s n Q -> reaches z c (Arm R F pc M) (3 + n) Q.
Proof.
  intros HM C <- H. unfold br_check in C. repeat (apply andb_prop in C; destruct C as [C ?X]). apply Z.leb_le in C. apply Z.eqb_eq in X5. apply Z.leb_le in X4. apply Z.ltb_lt in X3.
  apply Z.eqb_eq in X2. apply Z.eqb_eq in X1. apply Z.leb_le in X0. apply Z.ltb_lt in X.
  assert (B : 0 <= a_pc (branch (Arm R F pc M) i) < 2 ^ 20 + 4).
  { unfold branch, branch_target. destruct (holds _ _); cbn [a_pc]; lia. }
  apply (r_branch z c (Arm R F pc M) i n Q); cbn [a_pc a_mem]; [ | exact X1 | lia | lia | exact H].
  rewrite (fetch M words pc HM) by lia. exact X2.
Qed.
Lemma s_multi words z c R F pc M i s n Q : code_at M words -> (0 <=? pc) && (pc mod 4 =? 0) && (pc + 8 <=? 4 * Z.of_nat (length words)) && (pc <? 2 ^ 20) && (i =? mem_read (load words) pc) = true ->
  multi_form (Arm R F pc M) i -> multi z (Arm R F pc M) i = s -> code_at (a_mem s) words -> pc_ok (a_pc s) ->
  reaches z true s n Q -> reaches z c (Arm R F pc M) (multi_cycles i + n) Q.
Proof.
  intros HM C Fm <- HM' P H. repeat (apply andb_prop in C; destruct C as [C ?X]). apply Z.leb_le in C. apply Z.eqb_eq in X2. apply Z.leb_le in X1. apply Z.ltb_lt in X0. apply Z.eqb_eq in X.
  assert (P4 : (pc + 4) mod 4 = 0) by (rewrite <- Z.add_mod_idemp_l, X2 by lia; reflexivity).
  apply (r_multi z c (Arm R F pc M) i n Q); cbn [a_pc a_mem]; [ | exact Fm | exact P | | exact H].
  - rewrite (fetch M words pc HM) by lia. exact X.
  - now rewrite (fetch M words (pc + 4) HM), (fetch _ words (pc + 4) HM') by lia.
Qed.
(** ** Conditions *)
Lemma holds_al s i : bits i 31 28 = 14 -> holds s i = true.
Proof. intros E. unfold holds. now rewrite E. Qed.
Lemma cond_al f : arm_condition 14 f = true. Proof. reflexivity. Qed.
Lemma cond_eq f : arm_condition 0 f = fZ f. Proof. reflexivity. Qed.
Lemma cond_ne f : arm_condition 1 f = negb (fZ f). Proof. reflexivity. Qed.
Lemma cond_hs f : arm_condition 2 f = fC f. Proof. reflexivity. Qed.
Lemma cond_lo f : arm_condition 3 f = negb (fC f). Proof. reflexivity. Qed.
(** The fields of an instruction that is a constant *)
Ltac a23_fields :=
  repeat match goal with
    | |- context [bits (Zpos ?i) ?h ?l] => let v := eval vm_compute in (bits (Zpos i) h l) in change (bits (Zpos i) h l) with v
    | |- context [tb (Zpos ?i) ?k] => let v := eval vm_compute in (tb (Zpos i) k) in change (tb (Zpos i) k) with v
    | |- context [write_back (Zpos ?i)] => let v := eval vm_compute in (write_back (Zpos i)) in change (write_back (Zpos i)) with v
    | |- context [offset (Zpos ?i)] => let v := eval vm_compute in (offset (Zpos i)) in change (offset (Zpos i)) with v
    | |- context [reg_list (Zpos ?i)] => let v := eval vm_compute in (reg_list (Zpos i)) in change (reg_list (Zpos i)) with v
    end.
(** ** Loads and stores of aligned words, always executed *)
Lemma rotate_none x : rotate_right x (8 * 0) = x.
Proof. unfold rotate_right. change (2 ^ (8 * 0)) with 1. change (2 ^ (32 - 8 * 0)) with (2 ^ 32). rewrite Z.mod_mul, Z.div_1_r by lia. lia. Qed.
Lemma s_ldr words z c R F pc M i a n Q : code_at M words -> tr_check words pc i && (bits i 31 28 =? 14) && tb i 20 && negb (tb i 22) = true ->
  mem_address (Arm R F pc M) i = a -> a mod 4 = 0 ->
  reaches z true (Arm (put (if write_back i then put R (bits i 19 16) (moved_base (Arm R F pc M) i) else R) (bits i 15 12) (load_word M a)) F (pc + 4) M) n Q ->
  reaches z c (Arm R F pc M) (3 + n) Q.
Proof.
  intros HM C A A4 H. apply andb_prop in C. destruct C as [C C3]. apply andb_prop in C. destruct C as [C C2]. apply andb_prop in C. destruct C as [C C1].
  apply Z.eqb_eq in C1. apply negb_true_iff in C3. eapply (s_transfer words); [exact HM | exact C | | | exact H]; [ | exact HM].
  unfold transfer. rewrite holds_al, C2 by exact C1. cbn [a_regs a_flags a_pc a_mem]. unfold loaded. cbv zeta. rewrite A, A4, C3. cbn [a_mem]. now rewrite rotate_none.
Qed.
Lemma s_str words z c R F pc M i a n Q : code_at M words -> tr_check words pc i && (bits i 31 28 =? 14) && negb (tb i 20) && negb (tb i 22) && negb (write_back i) = true ->
  mem_address (Arm R F pc M) i = a -> a mod 4 = 0 -> 4 * Z.of_nat (length words) <= a ->
  reaches z true (Arm R F (pc + 4) (store_word z M a (R (bits i 15 12)))) n Q -> reaches z c (Arm R F pc M) (3 + n) Q.
Proof.
  intros HM C A A4 Ac H. apply andb_prop in C. destruct C as [C C4]. apply andb_prop in C. destruct C as [C C3]. apply andb_prop in C. destruct C as [C C2]. apply andb_prop in C. destruct C as [C C1].
  apply Z.eqb_eq in C1. apply negb_true_iff in C2. apply negb_true_iff in C3. apply negb_true_iff in C4. eapply (s_transfer words); [exact HM | exact C | | | exact H].
  - unfold transfer. rewrite holds_al, C2, C4 by exact C1. cbn [a_regs a_flags a_pc a_mem]. unfold stored. now rewrite A, C3.
  - cbn [a_mem]. now apply store_code.
Qed.
(** The effect of an instruction that is a constant *)
Ltac a23_address := unfold mem_address, moved_base, mem_offset, shifted_const, first_reg, second_reg; a23_fields; cbn [Z.eqb Pos.eqb a_regs a_mem a_pc fst].
Ltac a23_dp :=
  unfold dp_regs, dp_flags, holds, operand, shifted_const, first_reg, second_reg; a23_fields;
  rewrite ?cond_al, ?cond_eq, ?cond_ne, ?cond_hs, ?cond_lo;
  unfold arm_flags, arm_result, arm_carry, logic, arith; cbn [is_logic is_compare existsb Z.eqb Pos.eqb andb orb negb a_regs a_flags fst snd fN fZ fC fV];
  repeat match goal with
    | |- context [rotate_right ?a (2 * ?b)] => let v := eval vm_compute in (rotate_right a (2 * b)) in change (rotate_right a (2 * b)) with v
    end.
Lemma code_word m words a : code_at m words -> (0 <=? a) && (a mod 4 =? 0) && (a + 4 <=? 4 * Z.of_nat (length words)) && (a <? 2 ^ 24) = true -> load_word m a = mem_read (load words) a.
Proof.
  intros H C. repeat (apply andb_prop in C; destruct C as [C ?X]). apply Z.leb_le in C. apply Z.eqb_eq in X1. apply Z.leb_le in X0. apply Z.ltb_lt in X.
  rewrite <- (load_word_eq m a) by lia. apply fetch; assumption.
Qed.
(** ldr sp, [pc, #28]; ldr r0, [pc, #12]; ldr r1, [pc, #12]; ldr r2, [pc, #12], as every shipped program begins *)
Ltac a23_prologue code Hc M :=
  eapply (s_ldr code _ _ _ _ _ _ 0xe59fd01c 36); [exact Hc | vm_compute; reflexivity | a23_address; reflexivity | reflexivity | ];
    a23_fields; cbv iota; rewrite (code_word M code 36 Hc) by reflexivity; replace (mem_read (load code) 36) with 67109120 by (vm_compute; reflexivity); change (0 + 4) with 4;
  eapply (s_ldr code _ _ _ _ _ _ 0xe59f000c 24); [exact Hc | vm_compute; reflexivity | a23_address; reflexivity | reflexivity | ];
    a23_fields; cbv iota; rewrite (code_word M code 24 Hc) by reflexivity; replace (mem_read (load code) 24) with (2 ^ 24) by (vm_compute; reflexivity); change (4 + 4) with 8;
  eapply (s_ldr code _ _ _ _ _ _ 0xe59f100c 28); [exact Hc | vm_compute; reflexivity | a23_address; reflexivity | reflexivity | ];
    a23_fields; cbv iota; rewrite (code_word M code 28 Hc) by reflexivity; replace (mem_read (load code) 28) with (2 * 2 ^ 24) by (vm_compute; reflexivity); change (8 + 4) with 12;
  eapply (s_ldr code _ _ _ _ _ _ 0xe59f200c 32); [exact Hc | vm_compute; reflexivity | a23_address; reflexivity | reflexivity | ];
    a23_fields; cbv iota; rewrite (code_word M code 32 Hc) by reflexivity; replace (mem_read (load code) 32) with (3 * 2 ^ 24) by (vm_compute; reflexivity); change (12 + 4) with 16.
Ltac regs := unfold put; cbn [Z.eqb Pos.eqb].
