(** circuit_synthesis/syn_lib: adders, subtracter, comparator, multiplexer. *)
From Coq Require Import ZArith List Bool Lia.
From Verif Require Import RtlBase.
Import ListNotations.
Open Scope Z_scope.

(** * Model *)

(** FA, syn_lib/FA.v:3-17 *)
Definition FA (A B CI S CO : bool) : Prop :=
  exists n1 n2 n3, n1 = xorb A CI /\ n2 = xorb B CI /\ n3 = n1 && n2 /\ S = xorb n1 B /\ CO = xorb n3 CI.

(** The generate loops of ADD.v:29-64, SUB.v:20-59, COMP.v:29-68 and MUX.v:12-33: the
    body for every index below [N], in two levels when there are many. *)
Definition MAX_LOOP : nat := 512.
Definition gen_loop (N : nat) (body : nat -> Prop) : Prop :=
  if (N <? MAX_LOOP)%nat then forall g, (g < N)%nat -> body g
  else (forall h, (h < N / MAX_LOOP)%nat -> forall g, (g < MAX_LOOP)%nat -> body (h * MAX_LOOP + g)%nat) /\
       (forall g, (N / MAX_LOOP * MAX_LOOP <= g)%nat -> (g < N)%nat -> body g).

(** ADD, syn_lib/ADD.v:3-66 *)
Definition ADD (N M : nat) (A B : vec) (CI CO : bool) (S : vec) : Prop :=
  exists BB C : vec,
    (if (M <? N)%nat then veq N BB (cat (rep false) M B) else veq N BB B) /\
    C O = CI /\ CO = C N /\
    gen_loop N (fun g => FA (A g) (BB g) (C g) (S g) (C (g + 1)%nat)).
(** SUB, syn_lib/SUB.v:3-60 *)
Definition SUB (N M : nat) (A B : vec) (CO : bool) (S : vec) : Prop :=
  exists BB C : vec, veq N BB (cat (rep false) M B) /\ C O = true /\ CO = C N /\
    gen_loop N (fun g => FA (A g) (negb (BB g)) (C g) (S g) (C (g + 1)%nat)).
(** COMP, syn_lib/COMP.v:3-70; the port S is not connected. *)
Definition COMP (N M : nat) (A B : vec) (O : bool) : Prop :=
  exists BB C : vec,
    (if (M <? N)%nat then veq N BB (cat (rep false) M B) else veq N BB B) /\
    C 0%nat = true /\ O = C N /\
    gen_loop N (fun g => exists s, FA (A g) (negb (BB g)) (C g) s (C (g + 1)%nat)).
(** MUX, syn_lib/MUX.v:3-36 *)
Definition MUX (N : nat) (A B : vec) (S : bool) (O : vec) : Prop :=
  gen_loop N (fun g => O g = xorb (xorb (A g) (B g) && S) (A g)).
(** TwosComplement, syn_lib/TwosComplement.v:3-17 *)
Definition TwosComplement (N : nat) (A O : vec) : Prop := exists co, ADD N N (vnot A) (rep false) true co O.
(** ADD_, syn_lib/ADD_.v:3-35 *)
Definition ADD_ (N M : nat) (A B O : vec) : Prop :=
  exists (BB : vec) (CO : bool),
    (if (M <? N)%nat then veq N BB (cat (rep (B (M - 1)%nat)) M B) else veq N BB B) /\
    MUX 1 (bit CO) (bit (O (N - 1)%nat)) (xorb (A (N - 1)%nat) (B (M - 1)%nat)) (bit (O N)) /\
    ADD N N A BB false CO O.
(** SUB_, syn_lib/SUB_.v:3-34 *)
Definition SUB_ (N M : nat) (A B O : vec) : Prop :=
  exists (BB : vec) (CO : bool),
    (if (M <? N)%nat then veq N BB (cat (rep (B (M - 1)%nat)) M B) else veq N BB B) /\
    MUX 1 (bit CO) (bit (O (N - 1)%nat)) (negb (xorb (A (N - 1)%nat) (B (M - 1)%nat))) (bit (O N)) /\
    ADD N N A (vnot BB) true CO O.

(** * Loops and chains *)
Lemma two_levels L N (P : nat -> Prop) : (0 < L)%nat ->
  ((forall h, (h < N / L)%nat -> forall g, (g < L)%nat -> P (h * L + g)%nat) /\ (forall g, (N / L * L <= g)%nat -> (g < N)%nat -> P g)) <->
  (forall g, (g < N)%nat -> P g).
Proof.
  intros HL. pose proof (Nat.div_mod N L ltac:(lia)) as DM. split.
  - intros [H1 H2] g Hg. destruct (Nat.lt_ge_cases g (N / L * L)) as [C|C]; [|auto].
    pose proof (Nat.div_mod g L ltac:(lia)) as DG. pose proof (Nat.mod_upper_bound g L ltac:(lia)). rewrite DG, Nat.mul_comm. apply H1; [|lia].
    apply Nat.div_lt_upper_bound; [lia|]. rewrite Nat.mul_comm. exact C.
  - intros H. split; [|auto]. intros h Hh g Hg. apply H. assert (h * L + L <= N / L * L)%nat by nia. lia.
Qed.
Lemma gen_loop_iff N P : gen_loop N P <-> forall g, (g < N)%nat -> P g.
Proof.
  unfold gen_loop. destruct (Nat.ltb_spec N MAX_LOOP); [reflexivity|]. apply two_levels. unfold MAX_LOOP. lia.
Qed.
Lemma FA_ok a b c s co : FA a b c s co -> Z.b2z s + 2 * Z.b2z co = Z.b2z a + Z.b2z b + Z.b2z c.
Proof. intros (n1 & n2 & n3 & -> & -> & -> & -> & ->). destruct a, b, c; reflexivity. Qed.
Definition fa_s (a b c : bool) : bool := xorb (xorb a c) b.
Definition fa_co (a b c : bool) : bool := xorb (xorb a c && xorb b c) c.
Lemma FA_total a b c : FA a b c (fa_s a b c) (fa_co a b c).
Proof. unfold FA. do 3 eexists. repeat split. Qed.
Lemma chain_ok N (A B C S : vec) : (forall g, (g < N)%nat -> FA (A g) (B g) (C g) (S g) (C (g + 1)%nat)) ->
  val N S + 2 ^ Z.of_nat N * Z.b2z (C N) = val N A + val N B + Z.b2z (C O).
Proof.
  induction N as [|N IH]; intros H. { cbn [val]. change (2 ^ Z.of_nat 0) with 1. lia. }
  cbn [val]. rewrite pow2_S. specialize (IH ltac:(intros; apply H; lia)). pose proof (FA_ok _ _ _ _ _ (H N ltac:(lia))) as F.
  rewrite Nat.add_1_r in F. nia.
Qed.
Fixpoint carry (A B : vec) (ci : bool) (n : nat) : bool := match n with O => ci | S n => fa_co (A n) (B n) (carry A B ci n) end.
Lemma carry_chain N A B ci : forall g, (g < N)%nat -> FA (A g) (B g) (carry A B ci g) (fa_s (A g) (B g) (carry A B ci g)) (carry A B ci (g + 1)%nat).
Proof. intros g _. rewrite Nat.add_1_r. apply FA_total. Qed.

Lemma val_zext N M B : (M <= N)%nat -> val N (cat (rep false) M B) = val M B.
Proof. intros H. replace N with (M + (N - M))%nat by lia. rewrite val_cat, val_rep_false. lia. Qed.
Lemma pad_ok N M (BB B : vec) : (M <= N)%nat -> (if (M <? N)%nat then veq N BB (cat (rep false) M B) else veq N BB B) -> val N BB = val M B.
Proof.
  intros H. destruct (Nat.ltb_spec M N); intros E; rewrite (val_ext _ _ _ E); [apply val_zext; lia|]. replace N with M by lia. reflexivity.
Qed.
Definition padded (N M : nat) (B : vec) : vec := if (M <? N)%nat then cat (rep false) M B else B.
Lemma pad_total N M B : if (M <? N)%nat then veq N (padded N M B) (cat (rep false) M B) else veq N (padded N M B) B.
Proof. unfold padded. destruct (M <? N)%nat; intros i _; reflexivity. Qed.

(** * What the modules compute *)
Theorem ADD_ok N M A B CI CO S : (M <= N)%nat -> ADD N M A B CI CO S ->
  val N S + 2 ^ Z.of_nat N * Z.b2z CO = val N A + val M B + Z.b2z CI.
Proof.
  intros H (BB & C & P & C0 & CN & G). rewrite gen_loop_iff in G. pose proof (chain_ok _ _ _ _ _ G) as E.
  rewrite (pad_ok N M BB B H P), C0 in E. rewrite CN. exact E.
Qed.
Theorem ADD_total N M A B CI : exists CO S, ADD N M A B CI CO S.
Proof.
  exists (carry A (padded N M B) CI N), (fun g => fa_s (A g) (padded N M B g) (carry A (padded N M B) CI g)).
  exists (padded N M B), (carry A (padded N M B) CI). split; [apply pad_total|]. split; [reflexivity|]. split; [reflexivity|].
  rewrite gen_loop_iff. apply carry_chain.
Qed.
Corollary ADD_sum N M A B CI CO S : (M <= N)%nat -> ADD N M A B CI CO S ->
  val N S = (val N A + val M B + Z.b2z CI) mod 2 ^ Z.of_nat N /\ CO = (2 ^ Z.of_nat N <=? val N A + val M B + Z.b2z CI).
Proof.
  intros H D. pose proof (ADD_ok _ _ _ _ _ _ _ H D) as E. pose proof (val_bound N S) as BS. pose proof (pow2_pos N). rewrite <- E. split.
  - rewrite Z.mul_comm, Z.mod_add by lia. rewrite Z.mod_small by lia. reflexivity.
  - symmetry. destruct CO; cbn [Z.b2z]; [apply Z.leb_le|apply Z.leb_gt]; lia.
Qed.

Theorem SUB_ok N M A B CO S : (M <= N)%nat -> SUB N M A B CO S ->
  val N S = (val N A - val M B) mod 2 ^ Z.of_nat N /\ CO = (val M B <=? val N A).
Proof.
  intros H (BB & C & P & C0 & CN & G). rewrite gen_loop_iff in G.
  assert (G' : forall g, (g < N)%nat -> FA (A g) (vnot BB g) (C g) (S g) (C (g + 1)%nat)) by exact G.
  pose proof (chain_ok _ _ _ _ _ G') as E. rewrite val_not, (val_ext _ _ _ P), val_zext, C0, <- CN in E by exact H. cbn [Z.b2z] in E.
  pose proof (val_bound N S) as BS. pose proof (val_bound N A). pose proof (val_bound M B). pose proof (pow2_pos N).
  split.
  - replace (val N A - val M B) with (val N S + (Z.b2z CO - 1) * 2 ^ Z.of_nat N) by lia. rewrite Z.mod_add by lia. rewrite Z.mod_small by lia. reflexivity.
  - symmetry. destruct CO; cbn [Z.b2z] in E; [apply Z.leb_le|apply Z.leb_gt]; lia.
Qed.
Theorem SUB_total N M A B : exists CO S, SUB N M A B CO S.
Proof.
  set (BB := cat (rep false) M B). exists (carry A (vnot BB) true N), (fun g => fa_s (A g) (vnot BB g) (carry A (vnot BB) true g)).
  exists BB, (carry A (vnot BB) true). split; [intros i _; reflexivity|]. split; [reflexivity|]. split; [reflexivity|].
  rewrite gen_loop_iff. exact (carry_chain N A (vnot BB) true).
Qed.

Theorem COMP_ok N M A B O : (M <= N)%nat -> COMP N M A B O -> O = (val M B <=? val N A).
Proof.
  intros H (BB & C & P & C0 & CN & G). rewrite gen_loop_iff in G.
  set (S := fun g => fa_s (A g) (vnot BB g) (C g)).
  assert (G' : forall g, (g < N)%nat -> FA (A g) (vnot BB g) (C g) (S g) (C (g + 1)%nat)).
  { intros g Hg. destruct (G g Hg) as (s & F). pose proof F as (n1 & n2 & n3 & -> & -> & -> & -> & E). unfold vnot. rewrite E. apply FA_total. }
  pose proof (chain_ok _ _ _ _ _ G') as E. rewrite val_not, (pad_ok _ _ _ _ H P), C0, <- CN in E. cbn [Z.b2z] in E.
  pose proof (val_bound N S) as BS. symmetry. destruct O; cbn [Z.b2z] in E; [apply Z.leb_le|apply Z.leb_gt]; lia.
Qed.
Theorem COMP_total N M A B : exists O, COMP N M A B O.
Proof.
  set (BB := padded N M B). exists (carry A (vnot BB) true N), BB, (carry A (vnot BB) true). split; [apply pad_total|]. split; [reflexivity|]. split; [reflexivity|].
  rewrite gen_loop_iff. intros g Hg. eexists. exact (carry_chain N A (vnot BB) true g Hg).
Qed.

Theorem MUX_ok N A B S O : MUX N A B S O <-> veq N O (if S then B else A).
Proof.
  unfold MUX. rewrite gen_loop_iff. unfold veq. split; intros H i Hi; specialize (H i Hi); rewrite H; destruct S, (A i), (B i); reflexivity.
Qed.
Lemma MUX_val N A B S O : MUX N A B S O -> val N O = if S then val N B else val N A.
Proof. rewrite MUX_ok. intros H. rewrite (val_ext _ _ _ H). destruct S; reflexivity. Qed.

Theorem TwosComplement_ok N A O : TwosComplement N A O -> val N O = (- val N A) mod 2 ^ Z.of_nat N.
Proof.
  intros (co & H). destruct (ADD_sum _ _ _ _ _ _ _ (le_n N) H) as [E _]. rewrite E, val_not, val_rep_false. cbn [Z.b2z].
  replace (2 ^ Z.of_nat N - 1 - val N A + 0 + 1) with (- val N A + 1 * 2 ^ Z.of_nat N) by lia. apply Z.mod_add. pose proof (pow2_pos N). lia.
Qed.
Theorem TwosComplement_total N A : exists O, TwosComplement N A O.
Proof. destruct (ADD_total N N (vnot A) (rep false) true) as (co & S & H). exists S, co. exact H. Qed.

(** ** With signs *)
Lemma sext_val N M B : (0 < M <= N)%nat -> val N (cat (rep (B (M - 1)%nat)) M B) = sval M B mod 2 ^ Z.of_nat N.
Proof.
  intros H. replace N with (M + (N - M))%nat by lia. rewrite val_cat. unfold sval. pose proof (val_bound M B). pose proof (pow2_pos (N - M)). rewrite pow2_add.
  destruct (B (M - 1)%nat).
  - rewrite val_rep_true. apply (Z.mod_unique _ _ (-1)); [left; nia|nia].
  - rewrite val_rep_false. rewrite Z.mod_small by nia. lia.
Qed.
Lemma spad_ok N M (BB B : vec) : (0 < M <= N)%nat -> (if (M <? N)%nat then veq N BB (cat (rep (B (M - 1)%nat)) M B) else veq N BB B) ->
  val N BB = sval M B mod 2 ^ Z.of_nat N /\ BB (N - 1)%nat = B (M - 1)%nat.
Proof.
  intros H. destruct (Nat.ltb_spec M N); intros E.
  - split; [rewrite (val_ext _ _ _ E); apply sext_val; exact H|]. rewrite E by lia. unfold cat, rep. destruct (Nat.ltb_spec (N - 1) M); [|reflexivity]. f_equal. lia.
  - assert (M = N) by lia. subst M. split; [rewrite (val_ext _ _ _ E), sval_mod by lia; reflexivity|]. apply E. lia.
Qed.
Lemma spad_total N M B : exists BB : vec, if (M <? N)%nat then veq N BB (cat (rep (B (M - 1)%nat)) M B) else veq N BB B.
Proof. destruct (M <? N)%nat; eexists; intros i _; reflexivity. Qed.
Lemma top_bit N O : val (N + 1) O = val N O + Z.b2z (O N) * 2 ^ Z.of_nat N.
Proof. rewrite Nat.add_1_r. reflexivity. Qed.
Lemma sext_sval N M B : (0 < M <= N)%nat -> sval N (cat (rep (B (M - 1)%nat)) M B) = sval M B.
Proof.
  intros H. apply sval_unique; [lia| |apply sext_val; exact H]. pose proof (sval_bound M B ltac:(lia)). assert (2 ^ Z.of_nat (M - 1) <= 2 ^ Z.of_nat (N - 1)) by (apply Z.pow_le_mono_r; lia). lia.
Qed.
Lemma spad_sval N M (BB B : vec) : (0 < M <= N)%nat -> (if (M <? N)%nat then veq N BB (cat (rep (B (M - 1)%nat)) M B) else veq N BB B) ->
  sval N BB = sval M B.
Proof.
  intros H E. destruct (spad_ok N M BB B H E) as [V _]. apply sval_unique; [lia| |exact V].
  pose proof (sval_bound M B ltac:(lia)). assert (2 ^ Z.of_nat (M - 1) <= 2 ^ Z.of_nat (N - 1)) by (apply Z.pow_le_mono_r; lia). lia.
Qed.

Theorem ADD__ok N M A B O : (0 < M <= N)%nat -> ADD_ N M A B O -> sval (N + 1) O = sval N A + sval M B.
Proof.
  intros H (BB & CO & P & MX & AD). pose proof (spad_sval _ _ _ _ H P) as SB. destruct (spad_ok _ _ _ _ H P) as [_ TB]. pose proof (ADD_ok _ _ _ _ _ _ _ (le_n N) AD) as E.
  apply MUX_ok in MX. specialize (MX 0%nat ltac:(lia)). unfold bit in MX. cbn [Z.b2z] in E. rewrite Z.add_0_r in E.
  pose proof (sval_bound N A ltac:(lia)). pose proof (sval_bound N BB ltac:(lia)). rewrite <- SB.
  rewrite (sval_cases N A), (sval_cases N BB) in * by lia. rewrite sval_cases by lia. replace (N + 1 - 1)%nat with N by lia. rewrite MX. rewrite <- TB. clear MX P SB TB AD.
  destruct N as [|n]; [lia|]. replace (S n - 1)%nat with n in * by lia. cbn [val] in *. rewrite pow2_S in *.
  pose proof (val_bound n O). pose proof (val_bound n A). pose proof (val_bound n BB).
  destruct (A n), (BB n), CO, (O n); cbn [Z.b2z xorb] in *; lia.
Qed.
Theorem SUB__ok N M A B O : (0 < M <= N)%nat -> SUB_ N M A B O -> sval (N + 1) O = sval N A - sval M B.
Proof.
  intros H (BB & CO & P & MX & AD). pose proof (spad_sval _ _ _ _ H P) as SB. destruct (spad_ok _ _ _ _ H P) as [_ TB]. pose proof (ADD_ok _ _ _ _ _ _ _ (le_n N) AD) as E.
  apply MUX_ok in MX. specialize (MX 0%nat ltac:(lia)). unfold bit in MX. cbn [Z.b2z] in E. rewrite val_not in E.
  rewrite <- SB. rewrite (sval_cases N A), (sval_cases N BB) by lia. rewrite sval_cases by lia. replace (N + 1 - 1)%nat with N by lia. rewrite MX. rewrite <- TB. clear MX P SB TB AD.
  destruct N as [|n]; [lia|]. replace (S n - 1)%nat with n in * by lia. cbn [val] in *. rewrite pow2_S in *.
  pose proof (val_bound n O). pose proof (val_bound n A). pose proof (val_bound n BB).
  destruct (A n), (BB n), CO, (O n); cbn [Z.b2z xorb negb] in *; lia.
Qed.
Lemma top_total N (S : vec) (x : bool) : exists O : vec, veq N O S /\ O N = x.
Proof.
  exists (fun i => if (i =? N)%nat then x else S i). split; [|rewrite Nat.eqb_refl; reflexivity]. intros i Hi. destruct (Nat.eqb_spec i N); [lia|reflexivity].
Qed.
Lemma ADD_ext N M A B CI CO S S' : veq N S S' -> ADD N M A B CI CO S -> ADD N M A B CI CO S'.
Proof.
  intros E (BB & C & P & C0 & CN & G). exists BB, C. split; [exact P|]. split; [exact C0|]. split; [exact CN|]. rewrite gen_loop_iff in *. intros g Hg. rewrite <- E by exact Hg. apply G, Hg.
Qed.
Theorem ADD__total N M A B : (0 < N)%nat -> exists O, ADD_ N M A B O.
Proof.
  intros H. destruct (spad_total N M B) as (BB & P). destruct (ADD_total N N A BB false) as (CO & S & AD).
  destruct (top_total N S (if xorb (A (N - 1)%nat) (B (M - 1)%nat) then S (N - 1)%nat else CO)) as (O & E & T).
  exists O, BB, CO. split; [exact P|]. split; [|eapply ADD_ext; [|exact AD]; intros i Hi; symmetry; apply E, Hi].
  apply MUX_ok. intros i _. unfold bit. rewrite T, (E (N - 1)%nat) by lia. destruct (xorb _ _); reflexivity.
Qed.
Theorem SUB__total N M A B : (0 < N)%nat -> exists O, SUB_ N M A B O.
Proof.
  intros H. destruct (spad_total N M B) as (BB & P). destruct (ADD_total N N A (vnot BB) true) as (CO & S & AD).
  destruct (top_total N S (if negb (xorb (A (N - 1)%nat) (B (M - 1)%nat)) then S (N - 1)%nat else CO)) as (O & E & T).
  exists O, BB, CO. split; [exact P|]. split; [|eapply ADD_ext; [|exact AD]; intros i Hi; symmetry; apply E, Hi].
  apply MUX_ok. intros i _. unfold bit. rewrite T, (E (N - 1)%nat) by lia. destruct (negb _); reflexivity.
Qed.
