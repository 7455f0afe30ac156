(** Circuits written in Verilog (circuit_synthesis/): vectors of wires. *)
From Coq Require Import ZArith List Bool Lia.
Import ListNotations.
Open Scope Z_scope.

(** * Model

    A module is the relation that its assignments and instances establish between the
    values of its ports (in one clock cycle); the wires inside are existentially
    quantified.  Wires have the values 0 and 1.  Of a vector of width [n] the
    elements below [n] count. *)
Definition vec := nat -> bool.
(** assign a = b, for vectors of width [n] *)
Definition veq (n : nat) (a b : vec) : Prop := forall i, (i < n)%nat -> a i = b i.
(** {hi, lo}, [lo] having the width [n] *)
Definition cat (hi : vec) (n : nat) (lo : vec) : vec := fun i => if (i <? n)%nat then lo i else hi (i - n)%nat.
(** {n{b}} *)
Definition rep (b : bool) : vec := fun _ => b.
(** ~a *)
Definition vnot (a : vec) : vec := fun i => negb (a i).
(** v[hi:lo], of width hi + 1 - lo *)
Definition part (lo : nat) (v : vec) : vec := fun i => v (lo + i)%nat.
(** a ^ b *)
Definition vxor (a b : vec) : vec := fun i => xorb (a i) (b i).
(** A one-bit port connected to a wire *)
Definition bit (b : bool) : vec := fun _ => b.

(** * Specification: the numbers that vectors stand for *)
Fixpoint val (n : nat) (v : vec) : Z :=
  match n with O => 0 | S k => val k v + Z.b2z (v k) * 2 ^ Z.of_nat k end.
(** two's complement *)
Definition sval (n : nat) (v : vec) : Z := if v (n - 1)%nat then val n v - 2 ^ Z.of_nat n else val n v.

(** * Lemmas *)
Lemma pow2_S n : 2 ^ Z.of_nat (S n) = 2 * 2 ^ Z.of_nat n.
Proof. rewrite Nat2Z.inj_succ, Z.pow_succ_r by lia. reflexivity. Qed.
Lemma pow2_pos n : 0 < 2 ^ Z.of_nat n.
Proof. apply Z.pow_pos_nonneg; lia. Qed.
Lemma pow2_add n m : 2 ^ Z.of_nat (n + m) = 2 ^ Z.of_nat n * 2 ^ Z.of_nat m.
Proof. rewrite Nat2Z.inj_add, Z.pow_add_r by lia. reflexivity. Qed.
Lemma b2z_bound b : 0 <= Z.b2z b <= 1.
Proof. destruct b; cbn; lia. Qed.
Lemma val_bound n v : 0 <= val n v < 2 ^ Z.of_nat n.
Proof.
  induction n as [|n IH]; [cbn; lia|]. cbn [val]. rewrite pow2_S. pose proof (b2z_bound (v n)). pose proof (pow2_pos n). nia.
Qed.
Lemma val_ext n a b : veq n a b -> val n a = val n b.
Proof.
  induction n as [|n IH]; intros H; [reflexivity|]. cbn [val]. rewrite IH by (intros i Hi; apply H; lia). rewrite (H n) by lia. reflexivity.
Qed.
Lemma val_inj n a b : val n a = val n b -> veq n a b.
Proof.
  induction n as [|n IH]; intros H i Hi; [lia|]. cbn [val] in H.
  pose proof (val_bound n a). pose proof (val_bound n b).
  assert (E : a n = b n). { destruct (a n), (b n); cbn [Z.b2z] in H; auto; lia. }
  rewrite E in H. assert (V : val n a = val n b) by lia. destruct (Nat.eq_dec i n) as [->|]; [exact E|]. apply IH; [exact V|lia].
Qed.
Lemma val_rep_false n : val n (rep false) = 0.
Proof. induction n; [reflexivity|]. cbn [val]. rewrite IHn. reflexivity. Qed.
Lemma val_rep_true n : val n (rep true) = 2 ^ Z.of_nat n - 1.
Proof. induction n; [reflexivity|]. cbn [val]. rewrite IHn, pow2_S. cbn [rep Z.b2z]. lia. Qed.
Lemma val_not n v : val n (vnot v) = 2 ^ Z.of_nat n - 1 - val n v.
Proof. induction n; [reflexivity|]. cbn [val]. rewrite IHn, pow2_S. unfold vnot. destruct (v n); cbn [negb Z.b2z]; lia. Qed.
Lemma val_split n m v : val (n + m) v = val n v + 2 ^ Z.of_nat n * val m (part n v).
Proof.
  induction m as [|m IH]. { rewrite Nat.add_0_r. cbn [val]. lia. }
  rewrite Nat.add_succ_r. cbn [val]. rewrite IH, pow2_add. unfold part at 3. ring.
Qed.
Lemma val_cat n m hi lo : val (n + m) (cat hi n lo) = val n lo + 2 ^ Z.of_nat n * val m hi.
Proof.
  rewrite val_split. f_equal.
  - apply val_ext. intros i Hi. unfold cat. destruct (Nat.ltb_spec i n); [reflexivity|lia].
  - f_equal. apply val_ext. intros i _. unfold part, cat. destruct (Nat.ltb_spec (n + i) n); [lia|]. f_equal. lia.
Qed.
Lemma val_mod n m v : (n <= m)%nat -> val n v = val m v mod 2 ^ Z.of_nat n.
Proof.
  intros H. replace m with (n + (m - n))%nat by lia. rewrite val_split, Z.mul_comm, Z.mod_add by (pose proof (pow2_pos n); lia).
  rewrite Z.mod_small by apply val_bound. reflexivity.
Qed.
Lemma val_part n m v : val m (part n v) = val (n + m) v / 2 ^ Z.of_nat n.
Proof.
  rewrite val_split, Z.mul_comm, Z.div_add by (pose proof (pow2_pos n); lia). rewrite Z.div_small by apply val_bound. lia.
Qed.
Lemma val_bit b : val 1 (bit b) = Z.b2z b.
Proof. cbn. destruct b; reflexivity. Qed.
Lemma val_1 v : val 1 v = Z.b2z (v O).
Proof. cbn. lia. Qed.
(** The bits of the number *)
Lemma val_testbit n v i : (i < n)%nat -> Z.testbit (val n v) (Z.of_nat i) = v i.
Proof.
  intros H. replace n with (i + (1 + (n - i - 1)))%nat by lia. rewrite val_split. set (x := val (1 + (n - i - 1)) (part i v)).
  rewrite Z.testbit_eqb by lia. rewrite Z.mul_comm, Z.div_add by (pose proof (pow2_pos i); lia). rewrite Z.div_small by apply val_bound. cbn [Z.add].
  unfold x. rewrite val_split, val_1. unfold part at 1. rewrite Nat.add_0_r. change (2 ^ Z.of_nat 1) with 2. rewrite (Z.mul_comm 2), Z.mod_add by lia.
  destruct (v i); reflexivity.
Qed.
Lemma val_testbit_high n v i : Z.of_nat n <= i -> Z.testbit (val n v) i = false.
Proof.
  intros H. pose proof (val_bound n v). rewrite <- (Z.mod_small (val n v) (2 ^ Z.of_nat n)) by lia. apply Z.mod_pow2_bits_high. lia.
Qed.
(** Every number below 2^n is one. *)
Definition of_val (z : Z) : vec := fun i => Z.testbit z (Z.of_nat i).
Lemma val_of_val n z : val n (of_val z) = z mod 2 ^ Z.of_nat n.
Proof.
  induction n as [|n IH]. { cbn. rewrite Z.mod_1_r. reflexivity. }
  cbn [val]. rewrite IH. unfold of_val. rewrite pow2_S. pose proof (pow2_pos n). rewrite (Z.mul_comm 2), Z.rem_mul_r by lia.
  rewrite Z.testbit_eqb by lia. pose proof (Z.mod_pos_bound (z / 2 ^ Z.of_nat n) 2 ltac:(lia)).
  destruct (Z.eqb_spec ((z / 2 ^ Z.of_nat n) mod 2) 1) as [E|E]; cbn [Z.b2z]; [rewrite E; lia|]. replace ((z / 2 ^ Z.of_nat n) mod 2) with 0 by lia. lia.
Qed.
(** The sign *)
Lemma sval_cases n v : (0 < n)%nat -> sval n v = val (n - 1) v - Z.b2z (v (n - 1)%nat) * 2 ^ Z.of_nat (n - 1).
Proof.
  intros H. destruct n as [|n]; [lia|]. unfold sval. replace (S n - 1)%nat with n by lia. cbn [val]. rewrite pow2_S. destruct (v n); cbn [Z.b2z]; lia.
Qed.
Lemma sval_bound n v : (0 < n)%nat -> - 2 ^ Z.of_nat (n - 1) <= sval n v < 2 ^ Z.of_nat (n - 1).
Proof. intros H. rewrite sval_cases by exact H. pose proof (val_bound (n - 1) v). destruct (v (n - 1)%nat); cbn [Z.b2z]; lia. Qed.
Lemma sval_mod n v : (0 < n)%nat -> sval n v mod 2 ^ Z.of_nat n = val n v.
Proof.
  intros H. unfold sval. pose proof (val_bound n v). destruct (v (n - 1)%nat).
  - replace (val n v - 2 ^ Z.of_nat n) with (val n v + (-1) * 2 ^ Z.of_nat n) by lia. rewrite Z.mod_add by lia. apply Z.mod_small. lia.
  - apply Z.mod_small. lia.
Qed.
Lemma sign_val n v : (0 < n)%nat -> v (n - 1)%nat = (2 ^ Z.of_nat (n - 1) <=? val n v).
Proof.
  intros H. destruct n as [|n]; [lia|]. replace (S n - 1)%nat with n by lia. cbn [val]. pose proof (val_bound n v).
  destruct (v n); cbn [Z.b2z]; symmetry; [apply Z.leb_le|apply Z.leb_gt]; lia.
Qed.
(** A number in the range of n bits is the one its residue stands for. *)
Lemma sval_unique n v x : (0 < n)%nat -> - 2 ^ Z.of_nat (n - 1) <= x < 2 ^ Z.of_nat (n - 1) -> val n v = x mod 2 ^ Z.of_nat n -> sval n v = x.
Proof.
  intros H B E. pose proof (sval_bound n v H) as SB. pose proof (sval_mod n v H) as M. rewrite E in M.
  assert (P : 2 ^ Z.of_nat n = 2 * 2 ^ Z.of_nat (n - 1)) by (replace n with (S (n - 1)) at 1 by lia; apply pow2_S).
  pose proof (pow2_pos n). pose proof (Z.div_mod (sval n v) (2 ^ Z.of_nat n) ltac:(lia)) as D1. pose proof (Z.div_mod x (2 ^ Z.of_nat n) ltac:(lia)) as D2. rewrite M in D1.
  assert (K : sval n v - x = 2 ^ Z.of_nat n * (sval n v / 2 ^ Z.of_nat n - x / 2 ^ Z.of_nat n)) by (rewrite Z.mul_sub_distr_l; lia).
  set (k := sval n v / 2 ^ Z.of_nat n - x / 2 ^ Z.of_nat n) in *. assert (k = 0) by nia. nia.
Qed.
