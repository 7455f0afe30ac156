(** Circuits of circuit_synthesis/ that work on parts of their inputs, one clock cycle
    after the other: sum, compare, hamming; and mult. *)
From Coq Require Import ZArith List Bool Lia.
From Verif Require Import RtlBase RtlLib RtlArith.
Import ListNotations.
Open Scope Z_scope.

(** * Model *)

(** A module with registers: [init] what the reset does, [step] inputs, registers, outputs
    and the registers after the next edge of the clock; [n] cycles.  An
    always@(posedge clk or posedge rst) block gives both parts. *)
Definition clocked {I S O : Type} (init : S -> Prop) (step : I -> S -> O -> S -> Prop)
    (n : nat) (i : nat -> I) (o : nat -> O) : Prop :=
  exists s : nat -> S, init (s 0%nat) /\ forall t, (t < n)%nat -> step (i t) (s t) (o t) (s (Datatypes.S t)).

(** sum, sum/sum.v:3-72 *)
Definition sum_step (N CC : nat) (i : vec * vec) (carry_on : bool) (o : vec) (carry_on' : bool) : Prop :=
  let '(g_input, e_input) := i in
  if (1 <? CC)%nat then
    exists carry_on_d, carry_on' = carry_on_d /\ ADD (N / CC) (N / CC) g_input e_input carry_on carry_on_d o
  else exists co, ADD (N / CC) (N / CC) g_input e_input false co o.
Definition sum (N CC : nat) := clocked (fun carry_on => carry_on = false) (sum_step N CC).
(** compare, compare/compare.v:3-61 *)
Definition compare_step (N CC : nat) (i : vec * vec) (r : bool) (o r' : bool) : Prop :=
  let '(g_input, e_input) := i in let M := (N / CC)%nat in
  exists (ci co : bool) (s : vec), ADD M M g_input (vnot e_input) ci co s /\ o = co /\
    if (1 <? CC)%nat then ci = r /\ r' = co else ci = true.
Definition compare (N CC : nat) := clocked (fun ci => ci = true) (compare_step N CC).
(** hamming, hamming/hamming.v:3-93 *)
Definition hamming_step (N CC : nat) (i : vec * vec) (oglobal : vec) (o oglobal' : vec) : Prop :=
  let '(g_input, e_input) := i in let M := (N / CC)%nat in
  exists xy olocal, veq M xy (vxor g_input e_input) /\ COUNT M xy olocal /\
    if (1 <? CC)%nat then
      (exists co, ADD (log2 N) (log2 N) oglobal (cat (rep false) (log2 M) olocal) false co o) /\ veq (log2 N) oglobal' o
    else veq (log2 N) o olocal.
Definition hamming (N CC : nat) := clocked (fun oglobal => veq (log2 N) oglobal (rep false)) (hamming_step N CC).
(** mult, mult/mult.v:3-73: without registers; the port B of MULT has N/CC bits only. *)
Definition mult (N CC : nat) (g_input e_input o : vec) : Prop :=
  exists o_large, veq N o o_large /\ MULT N (N / CC) g_input e_input o_large.

(** non_secret_test, non_secret_test/non_secret_test.v:3-70 *)
Definition non_secret_step (N : nat) (i : vec * vec) (sel : bool) (o : vec) (sel' : bool) : Prop :=
  let '(g_input, e_input) := i in
  exists (o_add o_sub : vec) (c1 c2 : bool), ADD N N g_input e_input false c1 o_add /\ SUB N N g_input e_input c2 o_sub /\
    MUX N o_add o_sub sel o /\ sel' = negb sel.
Definition non_secret_test (N : nat) := clocked (fun sel => sel = false) (non_secret_step N).
(** public_test, public_test/public_test.v:3-54 *)
Definition public_step (i : vec * vec * vec) (r : vec * vec * vec) (o : vec) (r' : vec * vec * vec) : Prop :=
  let '(p_input, g_input, e_input) := i in
  let '(reg_1, reg_2, reg_3) := r in let '(reg_1', reg_2', reg_3') := r' in
  exists o1 o2 o3, veq 32 o1 (cat (rep false) 8 (vxor e_input reg_1)) /\ veq 32 o2 (cat (rep false) 16 (vxor g_input reg_2)) /\
    veq 32 o3 (vxor p_input reg_3) /\ veq 32 o (vxor (vxor o1 o2) o3) /\
    veq 8 reg_1' (vxor e_input reg_1) /\ veq 16 reg_2' (vxor g_input reg_2) /\ veq 32 reg_3' (vxor p_input reg_3).
Definition public_test (p_init g_init e_init : vec) :=
  clocked (fun r => let '(reg_1, reg_2, reg_3) := r in veq 8 reg_1 p_init /\ veq 16 reg_2 g_init /\ veq 32 reg_3 e_init) public_step.

(** * Specification *)
(** The inputs [G] and [E] are fed in pieces of [M] bits, the lowest first. *)
Definition pieces (M : nat) (G E : vec) : nat -> vec * vec := fun t => (part (t * M) G, part (t * M) E).
(** [O] is what comes out in [n] cycles. *)
Definition joined (M n : nat) (o : nat -> vec) (O : vec) : Prop := forall t, (t < n)%nat -> veq M (part (t * M) O) (o t).

(** * Runs *)
Lemma clocked_total {I S O : Type} (init : S -> Prop) (step : I -> S -> O -> S -> Prop) :
  (exists s, init s) -> (forall i s, exists o s', step i s o s') -> forall n i, exists o, clocked init step n i o.
Proof.
  intros (s0 & I0) T n i. induction n as [|n (o & s & IS & ST)].
  - destruct (T (i 0%nat) s0) as (o0 & _). exists (fun _ => o0), (fun _ => s0). split; [exact I0|]. intros; lia.
  - destruct (T (i n) (s n)) as (o1 & s1 & T1). exists (fun t => if (t <? n)%nat then o t else o1), (fun t => if (t <=? n)%nat then s t else s1). split; [exact IS|].
    intros t Ht. destruct (Nat.leb_spec t n); [|lia]. destruct (Nat.ltb_spec t n).
    + destruct (Nat.leb_spec (Datatypes.S t) n); [apply ST; lia|lia].
    + destruct (Nat.leb_spec (Datatypes.S t) n); [lia|]. replace t with n by lia. exact T1.
Qed.
Lemma val_grow k M v : val (Datatypes.S k * M) v = val (k * M) v + 2 ^ Z.of_nat (k * M) * val M (part (k * M) v).
Proof. replace (Datatypes.S k * M)%nat with (k * M + M)%nat by lia. rewrite val_split. reflexivity. Qed.
Lemma ones_grow k M v : ones (Datatypes.S k * M) v = ones (k * M) v + ones M (part (k * M) v).
Proof. replace (Datatypes.S k * M)%nat with (k * M + M)%nat by lia. apply ones_split. Qed.
(** A vector can be put together from pieces. *)
Lemma joined_exists M n o : exists O, joined M n o O.
Proof.
  exists (fun i => o (i / M)%nat (i mod M)%nat). intros t Ht i Hi. unfold part.
  assert (M <> 0)%nat by lia. rewrite (Nat.add_comm (t * M)), Nat.div_add, Nat.mod_add, Nat.div_small, Nat.mod_small by lia. reflexivity.
Qed.

(** * sum *)
Theorem sum_ok N CC G E o O : (0 < CC)%nat -> let M := (N / CC)%nat in
  sum N CC CC (pieces M G E) o -> joined M CC o O ->
  val (CC * M) O = (val (CC * M) G + val (CC * M) E) mod 2 ^ Z.of_nat (CC * M).
Proof.
  intros HC M (s & S0 & ST) J. unfold sum_step, pieces in ST. destruct (Nat.ltb_spec 1 CC) as [C|C].
  - assert (I : forall k, (k <= CC)%nat -> val (k * M) O + 2 ^ Z.of_nat (k * M) * Z.b2z (s k) = val (k * M) G + val (k * M) E).
    { induction k as [|k IH]; intros Hk; [rewrite S0; reflexivity|]. destruct (ST k Hk) as (d & -> & AD). apply ADD_ok in AD; [|apply le_n]. fold M in AD.
      rewrite !val_grow. rewrite (val_ext _ _ _ (J k Hk)). specialize (IH ltac:(lia)).
      replace (Datatypes.S k * M)%nat with (k * M + M)%nat by lia. rewrite pow2_add. nia. }
    specialize (I CC (le_n _)). pose proof (val_bound (CC * M) O). apply (Zmod_unique _ _ (Z.b2z (s CC))); lia.
  - assert (CC = 1)%nat by lia. subst CC. destruct (ST 0%nat ltac:(lia)) as (co & AD). apply ADD_sum in AD; [|apply le_n]. destruct AD as [AD _]. fold M in AD. cbn [Z.b2z] in AD. rewrite Z.add_0_r in AD.
    rewrite !val_grow. rewrite (val_ext _ _ _ (J 0%nat ltac:(lia))). change (0 * M)%nat with 0%nat in *. change (2 ^ Z.of_nat 0) with 1. cbn [val]. rewrite AD. replace (1 * M)%nat with M by lia. rewrite !Z.mul_1_l, !Z.add_0_l. reflexivity.
Qed.
Theorem sum_total N CC n i : exists o, sum N CC n i o.
Proof.
  apply clocked_total; [exists false; reflexivity|]. intros (g, e) c. unfold sum_step. destruct (1 <? CC)%nat.
  - destruct (ADD_total (N / CC) (N / CC) g e c) as (co & s & H). exists s, co, co. split; [reflexivity|exact H].
  - destruct (ADD_total (N / CC) (N / CC) g e false) as (co & s & H). exists s, co, co. exact H.
Qed.

(** * compare *)
Theorem compare_ok N CC G E o : (0 < CC)%nat -> let M := (N / CC)%nat in
  compare N CC CC (pieces M G E) o -> o (CC - 1)%nat = (val (CC * M) E <=? val (CC * M) G).
Proof.
  intros HC M (s & S0 & ST). unfold compare_step, pieces in ST.
  assert (D : forall k g e (ci co : bool) v, ADD M M (part (k * M) g) (vnot (part (k * M) e)) ci co v -> ci = (val (k * M) e <=? val (k * M) g) ->
    co = (val (Datatypes.S k * M) e <=? val (Datatypes.S k * M) g)).
  { intros k g e ci co v AD C. apply ADD_ok in AD; [|apply le_n]. rewrite val_not in AD. rewrite !val_grow. pose proof (val_bound M v). pose proof (pow2_pos (k * M)) as P.
    pose proof (val_bound M (part (k * M) g)). pose proof (val_bound M (part (k * M) e)). pose proof (val_bound (k * M) g). pose proof (val_bound (k * M) e).
    set (a := val M (part (k * M) g)) in *. set (b := val M (part (k * M) e)) in *. set (q := 2 ^ Z.of_nat (k * M)) in *. set (p := 2 ^ Z.of_nat M) in *.
    destruct (Z.leb_spec (val (k * M) e) (val (k * M) g)); subst ci; cbn [Z.b2z] in AD; destruct co; cbn [Z.b2z] in AD; symmetry.
    - apply Z.leb_le. assert (b <= a) by lia. nia.
    - apply Z.leb_gt. assert (a < b) by lia. nia.
    - apply Z.leb_le. assert (b < a) by lia. nia.
    - apply Z.leb_gt. assert (a <= b) by lia. nia. }
  destruct (Nat.ltb_spec 1 CC) as [C|C].
  - assert (I : forall k, (k < CC)%nat -> s k = (val (k * M) E <=? val (k * M) G) /\ o k = (val (Datatypes.S k * M) E <=? val (Datatypes.S k * M) G)).
    { induction k as [|k IH]; intros Hk.
      - destruct (ST 0%nat Hk) as (ci & co & v & AD & OE & CI & _). fold M in AD. rewrite S0 in *. split; [reflexivity|]. rewrite OE. eapply D; [exact AD|]. rewrite CI. reflexivity.
      - destruct (IH ltac:(lia)) as [_ IO]. destruct (ST k ltac:(lia)) as (ci0 & co0 & v0 & _ & OE0 & _ & R0). destruct (ST (Datatypes.S k) Hk) as (ci & co & v & AD & OE & CI & _). fold M in AD.
        assert (SE : s (Datatypes.S k) = (val (Datatypes.S k * M) E <=? val (Datatypes.S k * M) G)) by (rewrite R0, <- OE0; exact IO).
        split; [exact SE|]. rewrite OE. eapply D; [exact AD|]. rewrite CI. exact SE. }
    destruct (I (CC - 1)%nat ltac:(lia)) as [_ IO]. replace (Datatypes.S (CC - 1)) with CC in IO by lia. exact IO.
  - assert (CC = 1)%nat by lia. subst CC. destruct (ST 0%nat ltac:(lia)) as (ci & co & v & AD & OE & CI). fold M in AD. cbn [Nat.sub]. rewrite OE. eapply D; [exact AD|]. rewrite CI. reflexivity.
Qed.
Theorem compare_total N CC n i : exists o, compare N CC n i o.
Proof.
  apply clocked_total; [exists true; reflexivity|]. intros (g, e) c. unfold compare_step.
  destruct (ADD_total (N / CC) (N / CC) g (vnot e) (if (1 <? CC)%nat then c else true)) as (co & s & H). exists co, co, (if (1 <? CC)%nat then c else true), co, s. split; [exact H|]. split; [reflexivity|].
  destruct (1 <? CC)%nat; auto.
Qed.

(** * hamming *)
Lemma log2_le a b : Z.of_nat b < 2 ^ 32 -> (a <= b)%nat -> (log2 a <= log2 b)%nat.
Proof.
  intros B H. destruct (Nat.eq_dec a 0) as [->|]; [rewrite log2_0; lia|]. destruct (log2_ok a ltac:(lia) ltac:(lia)) as [A0 A1]. destruct (log2_ok b B ltac:(lia)) as [B0 B1].
  destruct (Nat.le_gt_cases (log2 a) (log2 b)) as [|C]; [auto|]. pose proof (Nat.pow_le_mono_r 2 (log2 b) (log2 a - 1) ltac:(lia) ltac:(lia)). lia.
Qed.
Theorem hamming_ok N CC G E o : (0 < CC)%nat -> let M := (N / CC)%nat in Z.of_nat N < 2 ^ 32 -> (0 < M)%nat ->
  hamming N CC CC (pieces M G E) o -> val (log2 N) (o (CC - 1)%nat) = ones (CC * M) (vxor G E).
Proof.
  intros HC M BN HM (s & S0 & ST). unfold hamming_step, pieces in ST.
  assert (MN : (CC * M <= N)%nat) by (apply Nat.mul_div_le; lia).
  destruct (log2_ok N BN ltac:(nia)) as [K0 KB]. assert (KZ : Z.of_nat N < 2 ^ Z.of_nat (log2 N)) by (rewrite <- pow2_nat; lia).
  assert (LM : (log2 M <= log2 N)%nat) by (apply log2_le; [exact BN|nia]).
  assert (CN : forall k xy ol, veq M xy (vxor (part (k * M) G) (part (k * M) E)) -> COUNT M xy ol -> val (log2 M) ol = ones M (part (k * M) (vxor G E))).
  { intros k xy ol XE C. apply COUNT_ok in C; [|nia]. rewrite C. apply ones_ext. intros i Hi. rewrite XE by exact Hi. reflexivity. }
  destruct (Nat.ltb_spec 1 CC) as [C|C].
  - assert (STEP : forall k, (k < CC)%nat -> val (log2 N) (s k) = ones (k * M) (vxor G E) -> val (log2 N) (o k) = ones (Datatypes.S k * M) (vxor G E)).
    { intros k Hk SV. destruct (ST k Hk) as (xy & ol & XE & CT & (co & AD) & _). fold M in XE, CT, AD. apply ADD_sum in AD; [|apply le_n]. destruct AD as [AD _].
      rewrite SV, val_zext, (CN k _ _ XE CT) in AD by exact LM. cbn [Z.b2z] in AD. rewrite Z.add_0_r, <- ones_grow in AD. rewrite AD. apply Z.mod_small.
      pose proof (ones_bound (Datatypes.S k * M) (vxor G E)). nia. }
    assert (I : forall k, (k < CC)%nat -> val (log2 N) (s k) = ones (k * M) (vxor G E)).
    { induction k as [|k IH]; intros Hk; [rewrite (val_ext _ _ _ S0), val_rep_false; reflexivity|]. destruct (ST k ltac:(lia)) as (xy & ol & _ & _ & _ & SE). rewrite (val_ext _ _ _ SE). apply STEP; [lia|apply IH; lia]. }
    replace CC with (Datatypes.S (CC - 1)) at 2 by lia. apply STEP; [lia|apply I; lia].
  - assert (CC = 1)%nat by lia. subst CC. destruct (ST 0%nat ltac:(lia)) as (xy & ol & XE & CT & OE). fold M in XE, CT. cbn [Nat.sub]. rewrite (val_ext _ _ _ OE).
    assert (NM : N = M) by (unfold M; rewrite Nat.div_1_r; reflexivity). rewrite NM at 1. rewrite (CN 0%nat _ _ XE CT). replace (1 * M)%nat with M by lia. reflexivity.
Qed.
Theorem hamming_total N CC n i : (0 < CC)%nat -> Z.of_nat N < 2 ^ 32 -> (0 < N / CC)%nat -> exists o, hamming N CC n i o.
Proof.
  intros HC BN HM. apply clocked_total; [exists (rep false); intros j _; reflexivity|]. intros (g, e) s. unfold hamming_step.
  assert (N / CC <= N)%nat by (apply Nat.div_le_upper_bound; [lia|nia]).
  destruct (COUNT_total (N / CC) (vxor g e) HM ltac:(lia)) as (ol & CT). destruct (1 <? CC)%nat.
  - destruct (ADD_total (log2 N) (log2 N) s (cat (rep false) (log2 (N / CC)) ol) false) as (co & o & AD). exists o, o, (vxor g e), ol. split; [intros j _; reflexivity|]. split; [exact CT|]. split; [exists co; exact AD|intros j _; reflexivity].
  - exists ol, s, (vxor g e), ol. split; [intros j _; reflexivity|]. split; [exact CT|]. intros j _. reflexivity.
Qed.

(** * mult *)
Theorem mult_ok N CC g e o : (0 < N)%nat -> (0 < CC)%nat -> mult N CC g e o ->
  val N o = (val N g * val (N / CC) e) mod 2 ^ Z.of_nat N.
Proof.
  intros HN HC (ol & OE & MU). apply MULT_ok in MU; [|exact HN]. rewrite (val_ext _ _ _ OE). rewrite (val_mod N (N + N / CC)) by lia. rewrite MU. reflexivity.
Qed.
Theorem mult_1cc N g e o : (0 < N)%nat -> mult N 1 g e o -> val N o = (val N g * val N e) mod 2 ^ Z.of_nat N.
Proof. intros HN H. apply mult_ok in H; [|exact HN|lia]. rewrite Nat.div_1_r in H. exact H. Qed.
Theorem mult_circuit_total N CC g e : exists o, mult N CC g e o.
Proof. destruct (MULT_total N (N / CC) g e) as (o & H). exists o, o. split; [intros i _; reflexivity|exact H]. Qed.
(** In several cycles: only the low bits of the second number are used. *)
Theorem mult_cycles : exists N CC g e o, (1 < CC)%nat /\ (N mod CC = 0)%nat /\ mult N CC g e o /\ val N o <> (val N g * val N e) mod 2 ^ Z.of_nat N.
Proof.
  exists 8%nat, 2%nat, (of_val 3), (of_val 0x25). destruct (mult_circuit_total 8 2 (of_val 3) (of_val 0x25)) as (o & H). exists o. split; [lia|]. split; [reflexivity|]. split; [exact H|].
  apply mult_ok in H; [|lia|lia]. rewrite H. vm_compute. discriminate.
Qed.

(** * The two test circuits *)
Theorem non_secret_ok N n g e o : non_secret_test N n (fun t => (g t, e t)) o ->
  forall t, (t < n)%nat -> val N (o t) = (if Nat.even t then val N (g t) + val N (e t) else val N (g t) - val N (e t)) mod 2 ^ Z.of_nat N.
Proof.
  intros (s & S0 & ST). assert (I : forall t, (t <= n)%nat -> s t = Nat.odd t).
  { induction t as [|t IH]; intros Ht; [exact S0|]. destruct (ST t ltac:(lia)) as (a & b & c1 & c2 & _ & _ & _ & E). rewrite E, IH by lia. rewrite Nat.odd_succ, <- Nat.negb_odd. reflexivity. }
  intros t Ht. destruct (ST t Ht) as (a & b & c1 & c2 & AD & SB & MX & _). apply MUX_val in MX. apply ADD_sum in AD; [|apply le_n]. apply SUB_ok in SB; [|apply le_n]. rewrite MX, (I t ltac:(lia)), <- Nat.negb_even. destruct (Nat.even t); cbn [negb].
  - destruct AD as [AD _]. cbn [Z.b2z] in AD. rewrite Z.add_0_r in AD. exact AD.
  - apply SB.
Qed.
Theorem non_secret_total N n i : exists o, non_secret_test N n i o.
Proof.
  apply clocked_total; [exists false; reflexivity|]. intros (g, e) s. destruct (ADD_total N N g e false) as (c1 & a & AD). destruct (SUB_total N N g e) as (c2 & b & SB). destruct (MUX_total N a b s) as (o & MX).
  exists o, (negb s), a, b, c1, c2. auto.
Qed.
(** the exclusive or of the first [n] *)
Fixpoint xors (n : nat) (v : nat -> vec) : vec := match n with O => rep false | Datatypes.S n => vxor (xors n v) (v n) end.
Lemma vxor_eq n a b c d : veq n a c -> veq n b d -> veq n (vxor a b) (vxor c d).
Proof. intros H1 H2 i Hi. unfold vxor. rewrite H1, H2 by exact Hi. reflexivity. Qed.
Theorem public_ok p0 g0 e0 n p g e o : public_test p0 g0 e0 n (fun t => (p t, g t, e t)) o ->
  forall t, (t < n)%nat -> veq 32 (o t) (vxor (vxor (cat (rep false) 8 (vxor p0 (xors (t + 1) e))) (cat (rep false) 16 (vxor g0 (xors (t + 1) g)))) (vxor e0 (xors (t + 1) p))).
Proof.
  intros (s & S0 & ST).
  assert (I : forall t, (t <= n)%nat -> let '(r1, r2, r3) := s t in veq 8 r1 (vxor p0 (xors t e)) /\ veq 16 r2 (vxor g0 (xors t g)) /\ veq 32 r3 (vxor e0 (xors t p))).
  { induction t as [|t IH]; intros Ht.
    - destruct (s 0%nat) as [[r1 r2] r3]. destruct S0 as (A & B & C). cbn [xors]. split; [|split]; intros i Hi; unfold vxor, rep; rewrite xorb_false_r; auto.
    - specialize (IH ltac:(lia)). specialize (ST t ltac:(lia)). unfold public_step in ST. destruct (s t) as [[r1 r2] r3]. destruct (s (Datatypes.S t)) as [[q1 q2] q3].
      destruct ST as (o1 & o2 & o3 & _ & _ & _ & _ & Q1 & Q2 & Q3). destruct IH as (A & B & C). cbn [xors]. split; [|split]; intros i Hi; [rewrite Q1 by exact Hi|rewrite Q2 by exact Hi|rewrite Q3 by exact Hi]; unfold vxor in *; [rewrite A by exact Hi|rewrite B by exact Hi|rewrite C by exact Hi]; rewrite xorb_comm, xorb_assoc; reflexivity. }
  intros t Ht. specialize (I t ltac:(lia)). specialize (ST t Ht). unfold public_step in ST. destruct (s t) as [[r1 r2] r3]. destruct (s (Datatypes.S t)) as [[q1 q2] q3].
  destruct ST as (o1 & o2 & o3 & E1 & E2 & E3 & EO & _). destruct I as (A & B & C). rewrite Nat.add_1_r. cbn [xors].
  intros i Hi. rewrite EO by exact Hi. unfold vxor at 1 2. rewrite E1, E2, E3 by exact Hi. unfold cat, rep, vxor in *.
  destruct (Nat.ltb_spec i 8), (Nat.ltb_spec i 16); try lia; rewrite ?A, ?B, ?C by lia.
  - rewrite (xorb_comm (e t i)), (xorb_comm (g t i)), (xorb_comm (p t i)), !xorb_assoc. reflexivity.
  - rewrite (xorb_comm (g t i)), (xorb_comm (p t i)), !xorb_assoc. reflexivity.
  - rewrite (xorb_comm (p t i)), !xorb_assoc. reflexivity.
Qed.
Theorem public_total p0 g0 e0 n i : exists o, public_test p0 g0 e0 n i o.
Proof.
  apply clocked_total; [exists (p0, g0, e0); split; [|split]; intros j _; reflexivity|]. intros [[p g] e] [[r1 r2] r3].
  exists (vxor (vxor (cat (rep false) 8 (vxor e r1)) (cat (rep false) 16 (vxor g r2))) (vxor p r3)), (vxor e r1, vxor g r2, vxor p r3).
  do 3 eexists. repeat split; intros j _; reflexivity.
Qed.

(** * Cases *)
Lemma sum_case : exists o O, sum 64 8 8 (pieces 8 (of_val (2 ^ 64 - 1)) (of_val 0x1234)) o /\ joined 8 8 o O /\ val 64 O = 0x1233.
Proof.
  destruct (sum_total 64 8 8 (pieces 8 (of_val (2 ^ 64 - 1)) (of_val 0x1234))) as (o & H). destruct (joined_exists 8 8 o) as (O & J). exists o, O. split; [exact H|]. split; [exact J|].
  pose proof (sum_ok 64 8 _ _ _ _ ltac:(lia) H J) as E. change (8 * (64 / 8))%nat with 64%nat in E. rewrite E, !val_of_val. vm_compute. reflexivity.
Qed.
Lemma compare_case : exists o, compare 64 8 8 (pieces 8 (of_val 0xff00) (of_val 0xff01)) o /\ o 7%nat = false.
Proof.
  destruct (compare_total 64 8 8 (pieces 8 (of_val 0xff00) (of_val 0xff01))) as (o & H). exists o. split; [exact H|].
  pose proof (compare_ok 64 8 _ _ _ ltac:(lia) H) as E. cbn [Nat.sub] in E. rewrite E. change (8 * (64 / 8))%nat with 64%nat. rewrite !val_of_val. vm_compute. reflexivity.
Qed.
(** The example of README.md:75-84, in one cycle and in four *)
Lemma hamming_case : forall CC, CC = 1%nat \/ CC = 4%nat -> exists o, hamming 32 CC CC (pieces (32 / CC) (of_val 0xFF55AA77) (of_val 0x12345678)) o /\ val (log2 32) (o (CC - 1)%nat) = 0x13.
Proof.
  intros CC HC. assert (C0 : (0 < CC)%nat) by lia. assert (M0 : (0 < 32 / CC)%nat) by (destruct HC; subst; cbn; lia).
  destruct (hamming_total 32 CC CC (pieces (32 / CC) (of_val 0xFF55AA77) (of_val 0x12345678)) C0 ltac:(lia) M0) as (o & H). exists o. split; [exact H|].
  pose proof (hamming_ok 32 CC _ _ _ C0 ltac:(lia) M0 H) as E. rewrite E. destruct HC; subst; vm_compute; reflexivity.
Qed.
