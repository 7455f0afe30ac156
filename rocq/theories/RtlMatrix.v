(** circuit_synthesis/matrix_mult: products of matrices, in one cycle or several. *)
From Coq Require Import ZArith List Bool Lia.
From Verif Require Import RtlBase RtlLib RtlArith RtlSeq.
Import ListNotations.
Open Scope Z_scope.

(** * Model *)
(** The operators + and * of Verilog on vectors without sign *)
Definition vadd (n : nat) (a b : vec) : vec := of_val (val n a + val n b).
Definition vmul (n : nat) (a b : vec) : vec := of_val (val n a * val n b).

(** matrix_mult_N_M_0, matrix_mult/matrix_mult_N_M_0.v:3-73 *)
Definition matrix_mult_0 (N M : nat) (g_input e_input o : vec) : Prop :=
  exists (xij yij oij : nat -> nat -> vec) (oijk xyijk : nat -> nat -> nat -> vec),
    (forall i j, (i < N)%nat -> (j < N)%nat ->
      veq M (xij i j) (part (M * (N * i + j)) g_input) /\
      veq M (yij i j) (part (M * (N * i + j)) e_input) /\
      veq M (part (M * (N * i + j)) o) (oij i j) /\
      veq M (oijk i j 0%nat) (xyijk i j 0%nat) /\
      veq M (oij i j) (oijk i j (N - 1)%nat)) /\
    (forall i j k, (i < N)%nat -> (j < N)%nat -> (k < N)%nat -> veq (2 * M) (xyijk i j k) (vmul M (xij i k) (yij k j))) /\
    (forall i j k, (i < N)%nat -> (j < N)%nat -> (1 <= k)%nat -> (k < N)%nat -> veq M (oijk i j k) (vadd M (xyijk i j k) (oijk i j (k - 1)%nat))).
(** matrix_mult_N_M_1, matrix_mult/matrix_mult_N_M_1.v:3-113 *)
Definition matrix_mult_1_step (N M : nat) (inp : vec * vec) (oi : nat -> vec) (o : vec) (oi' : nat -> vec) : Prop :=
  let '(g_input, e_input) := inp in
  exists (xi : nat -> vec) (yij xyij oij : nat -> nat -> vec),
    (forall i, (i < N)%nat -> veq M (xi i) (part (M * i) g_input) /\ veq M (part (M * i) o) (oi i) /\
      (forall j, (j < N)%nat -> veq M (yij i j) (part (M * (N * i + j)) e_input))) /\
    (forall i k, (i < N)%nat -> (k < N)%nat -> MULT M M (xi k) (yij k i) (xyij i k)) /\
    (forall i, (i < N)%nat -> veq M (oij i 0%nat) (oi i)) /\
    (forall i k, (i < N)%nat -> (k < N)%nat -> exists co, ADD M M (xyij i k) (oij i k) false co (oij i (k + 1)%nat)) /\
    (forall i, (i < N)%nat -> veq M (oi' i) (oij i N)).
Definition matrix_mult_1 (N M : nat) := clocked (fun oi => forall i, (i < N)%nat -> veq M (oi i) (rep false)) (matrix_mult_1_step N M).
(** matrix_mult_N_M_2, matrix_mult/matrix_mult_N_M_2.v:3-89; the output is a register. *)
Definition matrix_mult_2_step (N M : nat) (inp : vec * vec) (r : vec) (o : vec) (r' : vec) : Prop :=
  let '(g_input, e_input) := inp in
  exists xi yi xyi oi : nat -> vec,
    (forall i, (i < N)%nat -> veq M (xi i) (part (M * i) g_input) /\ veq M (yi i) (part (M * i) e_input)) /\
    (forall i, (i < N)%nat -> MULT M M (xi i) (yi i) (xyi i)) /\
    veq M (oi 0%nat) r /\
    (forall i, (i < N)%nat -> exists co, ADD M M (xyi i) (oi i) false co (oi (i + 1)%nat)) /\
    veq M o r /\ veq M r' (oi N).
Definition matrix_mult_2 (N M : nat) := clocked (fun o => veq M o (rep false)) (matrix_mult_2_step N M).
(** matrix_mult_N_M_3, matrix_mult/matrix_mult_N_M_3.v:3-37 *)
Definition matrix_mult_3_step (M : nat) (inp : vec * vec) (o_reg : vec) (o o_reg' : vec) : Prop :=
  let '(g_input, e_input) := inp in
  exists xy, veq (2 * M) xy (vmul M g_input e_input) /\ veq M o (vadd M xy o_reg) /\ veq M o_reg' o.
Definition matrix_mult_3 (M : nat) := clocked (fun o_reg => veq M o_reg (rep false)) (matrix_mult_3_step M).

(** * Specification *)
(** f 0 + ... + f (n - 1) *)
Fixpoint total (n : nat) (f : nat -> Z) : Z := match n with O => 0 | S n => total n f + f n end.
(** the element in row [i] and column [j] of a matrix of numbers of [M] bits with [N] columns *)
Definition elem (N M : nat) (A : vec) (i j : nat) : Z := val M (part (M * (N * i + j)) A).
(** the element of the product of two square matrices *)
Definition product (N M : nat) (X Y : vec) (i j : nat) : Z := total N (fun k => elem N M X i k * elem N M Y k j).

(** * Lemmas *)
Lemma total_ext n f g : (forall k, (k < n)%nat -> f k = g k) -> total n f = total n g.
Proof. induction n as [|n IH]; intros H; [reflexivity|]. cbn [total]. rewrite IH by (intros; apply H; lia). rewrite H by lia. reflexivity. Qed.
Lemma vadd_val n a b : val n (vadd n a b) = (val n a + val n b) mod 2 ^ Z.of_nat n.
Proof. apply val_of_val. Qed.
Lemma vmul_low m n a b : (n <= m)%nat -> val n (vmul n a b) = (val n a * val n b) mod 2 ^ Z.of_nat n.
Proof. intros _. apply val_of_val. Qed.
Lemma veq_le n m a b : (m <= n)%nat -> veq n a b -> veq m a b.
Proof. intros H E i Hi. apply E. lia. Qed.
Lemma MULT_low M A B O : (0 < M)%nat -> MULT M M A B O -> val M O = (val M A * val M B) mod 2 ^ Z.of_nat M.
Proof. intros H MU. apply MULT_ok in MU; [|exact H]. rewrite (val_mod M (M + M)) by lia. rewrite MU. reflexivity. Qed.
Lemma ADD_low M A B co O : ADD M M A B false co O -> val M O = (val M A + val M B) mod 2 ^ Z.of_nat M.
Proof. intros AD. apply ADD_sum in AD; [|apply le_n]. destruct AD as [AD _]. cbn [Z.b2z] in AD. rewrite Z.add_0_r in AD. exact AD. Qed.
(** a chain of additions *)
Lemma adds M n (f : nat -> Z) (acc : nat -> Z) a0 : 0 < M -> acc 0%nat = a0 mod M ->
  (forall k, (k < n)%nat -> acc (S k) = (f k mod M + acc k) mod M) -> acc n = (a0 + total n f) mod M.
Proof.
  intros H A0 ST. assert (I : forall k, (k <= n)%nat -> acc k = (a0 + total k f) mod M).
  { induction k as [|k IH]; intros Hk; [rewrite A0; cbn [total]; f_equal; lia|]. rewrite ST, IH by lia. cbn [total]. rewrite <- Z.add_mod by lia. f_equal. lia. }
  apply I, le_n.
Qed.

(** * In one cycle *)
Theorem matrix_0_ok N M X Y o : matrix_mult_0 N M X Y o ->
  forall i j, (i < N)%nat -> (j < N)%nat -> elem N M o i j = product N M X Y i j mod 2 ^ Z.of_nat M.
Proof.
  intros (xij & yij & oij & oijk & xy & AS & MU & AD) i j Hi Hj. destruct (AS i j Hi Hj) as (_ & _ & OE & O0 & ON). unfold elem at 1. rewrite (val_ext _ _ _ OE), (val_ext _ _ _ ON).
  pose proof (pow2_pos M) as P.
  assert (XV : forall k, (k < N)%nat -> val M (xy i j k) = (elem N M X i k * elem N M Y k j) mod 2 ^ Z.of_nat M).
  { intros k Hk. rewrite (val_ext _ _ _ (veq_le (2 * M) M _ _ ltac:(lia) (MU i j k Hi Hj Hk))), (vmul_low M) by lia. destruct (AS i k Hi Hk) as (EX & _). destruct (AS k j Hk Hj) as (_ & EY & _). rewrite (val_ext _ _ _ EX), (val_ext _ _ _ EY). reflexivity. }
  destruct N as [|n]; [lia|]. replace (S n - 1)%nat with n by lia. unfold product.
  set (f := fun k => elem (S n) M X i k * elem (S n) M Y k j) in *.
  assert (I : forall k, (k <= n)%nat -> val M (oijk i j k) = total (S k) f mod 2 ^ Z.of_nat M).
  { induction k as [|k IH]; intros Hk.
    - rewrite (val_ext _ _ _ O0), XV by lia. reflexivity.
    - rewrite (val_ext _ _ _ (AD i j (S k) Hi Hj ltac:(lia) ltac:(lia))), vadd_val, XV by lia. replace (S k - 1)%nat with k by lia. rewrite IH by lia. rewrite <- Z.add_mod by lia. cbn [total]. f_equal. unfold f. lia. }
  apply I, le_n.
Qed.
Fixpoint accum (M : nat) (f : nat -> vec) (k : nat) : vec := match k with O => f 0%nat | S k => vadd M (f (S k)) (accum M f k) end.
Theorem matrix_0_total N M X Y : (0 < M)%nat -> exists o, matrix_mult_0 N M X Y o.
Proof.
  intros HM. set (x := fun i j => part (M * (N * i + j)) X). set (y := fun i j => part (M * (N * i + j)) Y).
  set (xy := fun i j k => vmul M (x i k) (y k j)). set (a := fun i j => accum M (xy i j)).
  exists (fun p => let q := (p / M)%nat in a (q / N)%nat (q mod N)%nat (N - 1)%nat (p mod M)%nat).
  exists x, y, (fun i j => a i j (N - 1)%nat), a, xy. split; [|split].
  - intros i j Hi Hj. split; [intros b _; reflexivity|]. split; [intros b _; reflexivity|]. split; [|split; intros b _; reflexivity].
    intros b Hb. unfold part. cbn zeta. assert (M <> 0)%nat by lia. assert (N <> 0)%nat by lia.
    replace (M * (N * i + j) + b)%nat with (b + (j + i * N) * M)%nat by lia. rewrite Nat.div_add, Nat.mod_add, (Nat.div_small b), (Nat.mod_small b) by lia. cbn [Nat.add]. rewrite Nat.div_add, Nat.mod_add, Nat.div_small, Nat.mod_small by lia. reflexivity.
  - intros i j k _ _ _ b _. reflexivity.
  - intros i j k _ _ H1 _ b _. destruct k as [|k]; [lia|]. replace (S k - 1)%nat with k by lia. reflexivity.
Qed.

(** * A row per cycle *)
(** what the registers hold before cycle [t]: the sum of the rows of all earlier products *)
Theorem matrix_1_ok N M n X Y o : (0 < M)%nat -> matrix_mult_1 N M n (fun t => (X t, Y t)) o ->
  forall t i, (t < n)%nat -> (i < N)%nat ->
    val M (part (M * i) (o t)) = total t (fun u => total N (fun k => val M (part (M * k) (X u)) * elem N M (Y u) k i)) mod 2 ^ Z.of_nat M.
Proof.
  intros HM (s & S0 & ST). pose proof (pow2_pos M) as P.
  assert (I : forall t, (t <= n)%nat -> forall i, (i < N)%nat -> val M (s t i) = total t (fun u => total N (fun k => val M (part (M * k) (X u)) * elem N M (Y u) k i)) mod 2 ^ Z.of_nat M).
  { induction t as [|t IH]; intros Ht i Hi; [rewrite (val_ext _ _ _ (S0 i Hi)), val_rep_false; reflexivity|].
    destruct (ST t ltac:(lia)) as (xi & yij & xy & oij & AS & MU & Z0 & AD & RN). rewrite (val_ext _ _ _ (RN i Hi)). cbn [total].
    rewrite (adds (2 ^ Z.of_nat M) N (fun k => val M (part (M * k) (X t)) * elem N M (Y t) k i) (fun k => val M (oij i k)) (val M (s t i)) P).
    - rewrite (IH ltac:(lia) i Hi), Z.add_mod_idemp_l by lia. reflexivity.
    - rewrite (val_ext _ _ _ (Z0 i Hi)). symmetry. apply Z.mod_small, val_bound.
    - intros k Hk. destruct (AD i k Hi Hk) as (co & A). apply ADD_low in A. rewrite Nat.add_1_r in A. rewrite A, (MULT_low _ _ _ _ HM (MU i k Hi Hk)).
      destruct (AS k Hk) as (EX & _ & EY). rewrite (val_ext _ _ _ EX), (val_ext _ _ _ (EY i Hi)). reflexivity. }
  intros t i Ht Hi. destruct (ST t Ht) as (xi & yij & xy & oij & AS & _). destruct (AS i Hi) as (_ & OE & _). rewrite (val_ext _ _ _ OE). apply I; [lia|exact Hi].
Qed.
Lemma mult_family M n m (f g : nat -> nat -> vec) : exists h : nat -> nat -> vec, forall i k, (i < n)%nat -> (k < m)%nat -> MULT M M (f i k) (g i k) (h i k).
Proof.
  assert (R : forall i, exists h : nat -> vec, forall k, (k < m)%nat -> MULT M M (f i k) (g i k) (h k)).
  { intros i. induction m as [|m (h & H)]; [exists (fun _ => rep false); intros; lia|]. destruct (MULT_total M M (f i m) (g i m)) as (o & X). exists (fun k => if (k <? m)%nat then h k else o).
    intros k Hk. destruct (Nat.ltb_spec k m); [apply H; lia|]. replace k with m by lia. exact X. }
  induction n as [|n (h & H)]; [exists (fun _ _ => rep false); intros; lia|]. destruct (R n) as (hn & HN). exists (fun i => if (i <? n)%nat then h i else hn).
  intros i k Hi Hk. destruct (Nat.ltb_spec i n); [apply H; lia|]. replace i with n by lia. apply HN, Hk.
Qed.
Lemma add_family M n m (a0 : nat -> vec) (f : nat -> nat -> vec) : exists h : nat -> nat -> vec, (forall i, (i < n)%nat -> h i 0%nat = a0 i) /\
  forall i k, (i < n)%nat -> (k < m)%nat -> exists co, ADD M M (f i k) (h i k) false co (h i (k + 1)%nat).
Proof.
  induction n as [|n (h & H0 & H)]; [exists (fun _ _ => rep false); split; intros; lia|].
  destruct (iterate (a0 n) (fun k x y => exists co, ADD M M (f n k) x false co y)) with (n := m) as (w & W0 & W).
  { intros k x. destruct (ADD_total M M (f n k) x false) as (co & s & A). exists s, co. exact A. }
  exists (fun i => if (i <? n)%nat then h i else w). split.
  - intros i Hi. destruct (Nat.ltb_spec i n); [apply H0; lia|]. replace i with n by lia. exact W0.
  - intros i k Hi Hk. destruct (Nat.ltb_spec i n); [apply H; lia|]. replace i with n by lia. rewrite Nat.add_1_r. apply W, Hk.
Qed.
Theorem matrix_1_total N M n i : (0 < M)%nat -> exists o, matrix_mult_1 N M n i o.
Proof.
  intros HM. apply clocked_total; [exists (fun _ => rep false); intros j _ b _; reflexivity|]. intros (g, e) s.
  set (x := fun i => part (M * i) g). set (y := fun i j => part (M * (N * i + j)) e).
  destruct (mult_family M N N (fun _ k => x k) (fun i k => y k i)) as (xy & XY). destruct (add_family M N N s xy) as (a & A0 & A).
  exists (fun p => s (p / M)%nat (p mod M)%nat), (fun i => a i N). exists x, y, xy, a. split.
  { intros j Hj. split; [intros b _; reflexivity|]. split; [|intros k _ b _; reflexivity]. intros b Hb. unfold part. assert (M <> 0)%nat by lia.
    replace (M * j + b)%nat with (b + j * M)%nat by lia. rewrite Nat.div_add, Nat.mod_add, (Nat.div_small b), (Nat.mod_small b) by lia. reflexivity. }
  split; [exact XY|]. split; [intros j Hj; rewrite A0 by exact Hj; intros b _; reflexivity|]. split; [exact A|]. intros j _ b _. reflexivity.
Qed.
(** Rows fed one after the other do not give the rows of the product: here the second row
    of the product never appears. *)
Theorem matrix_1_rows : exists N M X Y, forall n o, matrix_mult_1 N M n (fun t => (part (M * (N * Nat.min t (N - 1))) X, Y)) o ->
  exists i, (i < N)%nat /\ forall t, (t < n)%nat -> exists j, (j < N)%nat /\ val M (part (M * j) (o t)) <> product N M X Y i j mod 2 ^ Z.of_nat M.
Proof.
  exists 2%nat, 8%nat, (of_val 0x00020001), (of_val 3). intros n o H. exists 1%nat. split; [lia|]. intros t Ht. exists 0%nat. split; [lia|].
  rewrite (matrix_1_ok 2 8 n (fun t => part (8 * (2 * Nat.min t (2 - 1))) (of_val 0x00020001)) (fun _ => of_val 3) o ltac:(lia) H t 0%nat Ht ltac:(lia)).
  replace (product 2 8 (of_val 0x00020001) (of_val 3) 1 0 mod 2 ^ Z.of_nat 8) with 6 by (vm_compute; reflexivity).
  set (f := fun u => total 2 _). assert (F0 : f 0%nat = 3) by (vm_compute; reflexivity).
  assert (F1 : forall u, f (S u) = 6). { intros u. unfold f. replace (Nat.min (S u) (2 - 1)) with 1%nat by lia. vm_compute. reflexivity. }
  assert (T : forall u, total (S u) f = 3 + 6 * Z.of_nat u). { induction u as [|u IH]; [cbn [total]; rewrite F0; reflexivity|]. change (total (S (S u)) f) with (total (S u) f + f (S u)). rewrite IH, F1. lia. }
  destruct t as [|t]; [vm_compute; discriminate|]. rewrite T. change (2 ^ Z.of_nat 8) with 256. intros E. pose proof (Z.div_mod (3 + 6 * Z.of_nat t) 256 ltac:(lia)). lia.
Qed.

(** * An element per cycle *)
Theorem matrix_2_ok N M n X Y o : (0 < M)%nat -> matrix_mult_2 N M n (fun t => (X t, Y t)) o ->
  forall t, (t < n)%nat -> val M (o t) = total t (fun u => total N (fun k => val M (part (M * k) (X u)) * val M (part (M * k) (Y u)))) mod 2 ^ Z.of_nat M.
Proof.
  intros HM (s & S0 & ST). pose proof (pow2_pos M) as P.
  assert (I : forall t, (t <= n)%nat -> val M (s t) = total t (fun u => total N (fun k => val M (part (M * k) (X u)) * val M (part (M * k) (Y u)))) mod 2 ^ Z.of_nat M).
  { induction t as [|t IH]; intros Ht; [rewrite (val_ext _ _ _ S0), val_rep_false; reflexivity|].
    destruct (ST t ltac:(lia)) as (xi & yi & xy & oi & AS & MU & Z0 & AD & _ & RN). rewrite (val_ext _ _ _ RN). cbn [total].
    rewrite (adds (2 ^ Z.of_nat M) N (fun k => val M (part (M * k) (X t)) * val M (part (M * k) (Y t))) (fun k => val M (oi k)) (val M (s t)) P).
    - rewrite (IH ltac:(lia)), Z.add_mod_idemp_l by lia. reflexivity.
    - rewrite (val_ext _ _ _ Z0). symmetry. apply Z.mod_small, val_bound.
    - intros k Hk. destruct (AD k Hk) as (co & A). apply ADD_low in A. rewrite Nat.add_1_r in A. rewrite A, (MULT_low _ _ _ _ HM (MU k Hk)).
      destruct (AS k Hk) as (EX & EY). rewrite (val_ext _ _ _ EX), (val_ext _ _ _ EY). reflexivity. }
  intros t Ht. destruct (ST t Ht) as (xi & yi & xy & oi & _ & _ & _ & _ & OE & _). rewrite (val_ext _ _ _ OE). apply I. lia.
Qed.
Theorem matrix_2_total N M n i : exists o, matrix_mult_2 N M n i o.
Proof.
  apply clocked_total; [exists (rep false); intros b _; reflexivity|]. intros (g, e) s. set (x := fun i => part (M * i) g). set (y := fun i => part (M * i) e).
  destruct (mult_family M 1 N (fun _ k => x k) (fun _ k => y k)) as (xy & XY). destruct (add_family M 1 N (fun _ => s) xy) as (a & A0 & A).
  exists s, (a 0%nat N), x, y, (xy 0%nat), (a 0%nat). split; [intros j _; split; intros b _; reflexivity|]. split; [intros j Hj; apply XY; [lia|exact Hj]|].
  split; [rewrite A0 by lia; intros b _; reflexivity|]. split; [intros j Hj; apply A; [lia|exact Hj]|]. split; intros b _; reflexivity.
Qed.
(** The elements appear one by one only if the sum of the earlier ones vanishes: the second
    element never appears here. *)
Theorem matrix_2_elements : exists N M X Y, forall n o, matrix_mult_2 N M n (fun t => (part (M * N * (t / N)) X, part (M * N * (t mod N)) Y)) o ->
  forall t, (t < n)%nat -> (t <= N * N)%nat -> val M (o t) <> total N (fun k => elem N M X 0 k * elem N M Y 1 k) mod 2 ^ Z.of_nat M.
Proof.
  exists 2%nat, 8%nat, (of_val 0x07050301), (of_val 0x0b020109). intros n o H t Ht T4. rewrite (matrix_2_ok 2 8 n (fun t => part (8 * 2 * (t / 2)) (of_val 0x07050301)) (fun t => part (8 * 2 * (t mod 2)) (of_val 0x0b020109)) o ltac:(lia) H t Ht).
  do 5 (destruct t as [|t]; [vm_compute; discriminate|]). lia.
Qed.

(** * A product per cycle *)
Theorem matrix_3_ok M n X Y o : matrix_mult_3 M n (fun t => (X t, Y t)) o ->
  forall t, (t < n)%nat -> val M (o t) = total (t + 1) (fun u => val M (X u) * val M (Y u)) mod 2 ^ Z.of_nat M.
Proof.
  intros (s & S0 & ST). pose proof (pow2_pos M) as P.
  assert (STEP : forall t, (t < n)%nat -> val M (s t) = total t (fun u => val M (X u) * val M (Y u)) mod 2 ^ Z.of_nat M ->
    val M (o t) = total (t + 1) (fun u => val M (X u) * val M (Y u)) mod 2 ^ Z.of_nat M).
  { intros t Ht SV. destruct (ST t Ht) as (xy & XE & OE & _). rewrite (val_ext _ _ _ OE), vadd_val, (val_ext _ _ _ (veq_le (2 * M) M _ _ ltac:(lia) XE)), (vmul_low M), SV by lia.
    rewrite <- Z.add_mod by lia. rewrite Nat.add_1_r. cbn [total]. f_equal. lia. }
  assert (I : forall t, (t < n)%nat -> val M (s t) = total t (fun u => val M (X u) * val M (Y u)) mod 2 ^ Z.of_nat M).
  { induction t as [|t IH]; intros Ht; [rewrite (val_ext _ _ _ S0), val_rep_false; reflexivity|]. destruct (ST t ltac:(lia)) as (xy & _ & _ & RE). rewrite (val_ext _ _ _ RE), STEP by (try apply IH; lia). rewrite Nat.add_1_r. reflexivity. }
  intros t Ht. apply STEP; [exact Ht|apply I, Ht].
Qed.
Theorem matrix_3_total M n i : exists o, matrix_mult_3 M n i o.
Proof.
  apply clocked_total; [exists (rep false); intros b _; reflexivity|]. intros (g, e) s. do 3 eexists. split; [intros b _; reflexivity|]. split; intros b _; reflexivity.
Qed.
(** Fed the elements of a row and a column, it ends with the element of the product. *)
Theorem matrix_3_element N M X Y i j o : (0 < N)%nat ->
  matrix_mult_3 M N (fun k => (part (M * (N * i + k)) X, part (M * (N * k + j)) Y)) o ->
  val M (o (N - 1)%nat) = product N M X Y i j mod 2 ^ Z.of_nat M.
Proof.
  intros HN H. rewrite (matrix_3_ok _ _ (fun k => part (M * (N * i + k)) X) (fun k => part (M * (N * k + j)) Y) _ H) by lia. replace (N - 1 + 1)%nat with N by lia. reflexivity.
Qed.
