(** The arithmetic programs for the garbled processor: a23/sum/sum.c,
    a23/compare/compare.c, a23/mul/mul.c, a23/matrix-mul/matrix-mul.c and
    a23/hamming/hamming.c.

    An [int] is an integer; where the program computes with [unsigned int] the
    value is reduced modulo 2^32.  [G_SIZE], [N] are parameters.  The programs
    sum and compare have two bodies: one with inline assembly, which is what runs on the
    processor, and one in C, which the functional test runs. *)
From Coq Require Import ZArith List Bool Lia.
From Verif Require Import Base Tcp SchedSort A23Int.
Import ListNotations.
Open Scope Z_scope.

(** * Instructions used by the inline assembly *)
(** [cmp rn, #imm]: the carry flag says that there was no borrow *)
Definition arm_cmp (rn imm : Z) : bool := imm <=? rn.
(** [adcs rd, rn, rm]: the register and the carry flag *)
Definition arm_adcs (rn rm : Z) (c : bool) : Z * bool :=
  let s := rn + rm + Z.b2z c in (s mod 2 ^ 32, 2 ^ 32 <=? s).
(** [movhs rd, #imm] *)
Definition arm_movhs (rd imm : Z) (c : bool) : Z := if c then imm else rd.

(** * sum.c *)
(** sum.c:14-21 *)
Definition sum_step_arm (g e : list Z) (i : nat) (s : list Z * Z) : option (list Z * Z) :=
  let '(o, carry) := s in
  do a <- rd g (Z.of_nat i);
  do b <- rd e (Z.of_nat i);
  let c := arm_cmp carry 1 in
  let '(r, c) := arm_adcs (to_uint a) (to_uint b) c in
  let dd := arm_movhs 0 1 c in
  do o <- wr o (Z.of_nat i) (to_int r);
  Some (o, dd).
(** sum.c:11-29; the last word is added by [adc] *)
Definition sum_array_arm (n : nat) (g e o : list Z) : option (list Z) :=
  do s <- for_ (n - 1) (sum_step_arm g e) (o, 0);
  let '(o, carry) := s in
  do a <- rd g (Z.of_nat n - 1);
  do b <- rd e (Z.of_nat n - 1);
  wr o (Z.of_nat n - 1) (to_int (fst (arm_adcs (to_uint a) (to_uint b) (arm_cmp carry 1)))).
(** sum.c:35-37: [(((uint)x)&1<<31)>>31] *)
Definition top_bit (x : Z) : Z := Z.shiftr (Z.land (to_uint x) (2 ^ 31)) 31.
(** sum.c:34-38; [g[i] + e[i]] is an addition of [int], the second one of
    [unsigned int] *)
Definition sum_step_c (m : overflow) (g e : list Z) (i : nat) (s : list Z * Z) : option (list Z * Z) :=
  let '(o, carry) := s in
  do x <- rd g (Z.of_nat i);
  do y <- rd e (Z.of_nat i);
  do t <- int_result m (x + y);
  do o <- wr o (Z.of_nat i) (to_int (to_uint t + carry));
  do z <- rd o (Z.of_nat i);
  let gm := top_bit x in let em := top_bit y in let om := top_bit z in
  Some (o, Z.lxor (Z.lor (Z.lxor gm om) (Z.lxor em om)) om).
(** sum.c:31-40 *)
Definition sum_array_c (m : overflow) (n : nat) (g e o : list Z) : option (list Z) :=
  do s <- for_ n (sum_step_c m g e) (o, 0); Some (fst s).

(** * compare.c *)
(** compare.c:13-21 *)
Definition compare_step_arm (g e : list Z) (i : nat) (carry : Z) : option Z :=
  do b <- rd e (Z.of_nat i);
  let nei := to_uint (- b - 1) in
  do a <- rd g (Z.of_nat i);
  let '(_, c) := arm_adcs (to_uint a) nei (arm_cmp carry 1) in
  Some (arm_movhs 0 1 c).
(** compare.c:10-24, 39 *)
Definition compare_arm (n : nat) (g e : list Z) : option Z :=
  do carry <- for_ n (compare_step_arm g e) 1; Some (if carry =? 0 then 1 else 0).
(** compare.c:26-32, 39 *)
Definition compare_c (n : nat) (g e : list Z) : option Z :=
  for_ n (fun i greater =>
    do a <- rd g (Z.of_nat i);
    do b <- rd e (Z.of_nat i);
    Some (if a =? b then greater else Z.b2z (a <? b))) 0.

(** * mul.c and matrix-mul.c *)
(** mul.c:9 *)
Definition mul_main (m : overflow) (g e : list Z) : option Z :=
  do x <- rd g 0; do y <- rd e 0; int_result m (x * y).
(** matrix-mul.c:17-20 *)
Definition dot (m : overflow) (n : nat) (g e : list Z) (i j : nat) : option Z :=
  for_ n (fun k temp =>
    do x <- rd g (Z.of_nat i * Z.of_nat n + Z.of_nat k);
    do y <- rd e (Z.of_nat k * Z.of_nat n + Z.of_nat j);
    do p <- int_result m (x * y);
    int_result m (temp + p)) 0.
(** matrix-mul.c:15-23 *)
Definition matrix_main (m : overflow) (n : nat) (g e o : list Z) : option (list Z) :=
  for_ n (fun i o => for_ n (fun j o =>
    do temp <- dot m n g e i j;
    wr o (Z.of_nat i * Z.of_nat n + Z.of_nat j) temp) o) o.

(** * Specification *)
(** The number that an array of words stands for, least significant word first *)
Fixpoint number (l : list Z) : Z :=
  match l with [] => 0 | x :: l => x mod 2 ^ 32 + 2 ^ 32 * number l end.
(** Entry of the product of two matrices stored by rows *)
Fixpoint product_entry (n : nat) (g e : list Z) (i j : nat) (k : nat) : Z :=
  match k with O => 0 | S k => product_entry n g e i j k + nth (i * n + k) g 0 * nth (k * n + j) e 0 end.

(** * Proofs *)
Fixpoint val (l : list Z) (k : nat) : Z :=
  match k with O => 0 | S k => val l k + 2 ^ (32 * Z.of_nat k) * to_uint (get l (Z.of_nat k)) end.
Lemma val_cons x l k : val (x :: l) (S k) = to_uint x + 2 ^ 32 * val l k.
Proof.
  induction k as [|k IH].
  - cbn [val]. change (Z.of_nat 0) with 0. change (get (x :: l) 0) with x. rewrite Z.mul_0_r, Z.pow_0_r, Z.mul_0_r. lia.
  - change (val (x :: l) (S (S k))) with (val (x :: l) (S k) + 2 ^ (32 * Z.of_nat (S k)) * to_uint (get (x :: l) (Z.of_nat (S k)))).
    rewrite IH. cbn [val]. replace (get (x :: l) (Z.of_nat (S k))) with (get l (Z.of_nat k)).
    + replace (32 * Z.of_nat (S k)) with (32 + 32 * Z.of_nat k) by lia. rewrite Z.pow_add_r by lia. ring.
    + unfold get. rewrite !Nat2Z.id. reflexivity.
Qed.
Lemma number_val l : number l = val l (length l).
Proof. induction l as [|x l IH]; [reflexivity|]. cbn [length]. rewrite val_cons. cbn [number]. rewrite IH. reflexivity. Qed.
Lemma val_ext l l' k : (forall i, (i < k)%nat -> get l (Z.of_nat i) = get l' (Z.of_nat i)) -> val l k = val l' k.
Proof. induction k as [|k IH]; intros H; [reflexivity|]. cbn [val]. rewrite IH by (intros; apply H; lia). rewrite H by lia. reflexivity. Qed.
Lemma val_range l k : 0 <= val l k < 2 ^ (32 * Z.of_nat k).
Proof.
  induction k as [|k IH]; [cbn; lia|]. cbn [val]. pose proof (to_uint_range (get l (Z.of_nat k))) as B.
  replace (32 * Z.of_nat (S k)) with (32 * Z.of_nat k + 32) by lia. rewrite Z.pow_add_r by lia. nia.
Qed.
Lemma wr_get_lt l i v l' (k : nat) : wr l (Z.of_nat i) v = Some l' -> (k < i)%nat -> get l' (Z.of_nat k) = get l (Z.of_nat k).
Proof. intros W K. rewrite (get_wr _ _ _ _ _ W) by lia. destruct (Z.eqb_spec (Z.of_nat k) (Z.of_nat i)); [lia|reflexivity]. Qed.

Lemma adcs_ok a b c : 0 <= a < 2 ^ 32 -> 0 <= b < 2 ^ 32 ->
  fst (arm_adcs a b c) + 2 ^ 32 * Z.b2z (snd (arm_adcs a b c)) = a + b + Z.b2z c /\ 0 <= fst (arm_adcs a b c) < 2 ^ 32.
Proof.
  intros A B. unfold arm_adcs. cbn [fst snd]. pose proof (Z.mod_pos_bound (a + b + Z.b2z c) (2 ^ 32) ltac:(lia)). split; [|assumption].
  assert (0 <= Z.b2z c <= 1) by (destruct c; cbn; lia).
  destruct (Z.leb_spec (2 ^ 32) (a + b + Z.b2z c)) as [L|L].
  - rewrite <- (Z.mod_add _ (-1)) by lia. rewrite Z.mod_small by lia. cbn. lia.
  - rewrite Z.mod_small by lia. cbn. lia.
Qed.
Lemma movhs_cmp c : arm_cmp (arm_movhs 0 1 c) 1 = c.
Proof. destruct c; reflexivity. Qed.

Section Sum.
Variables (n : nat) (g e o : list Z).
Hypothesis G : length g = n.
Hypothesis E : length e = n.
Hypothesis O : length o = n.

Lemma sum_loop_arm : forall k, (k <= n)%nat ->
  exists o' c, for_ k (sum_step_arm g e) (o, 0) = Some (o', arm_movhs 0 1 c) /\ length o' = n /\
    val o' k + 2 ^ (32 * Z.of_nat k) * Z.b2z c = val g k + val e k.
Proof.
  induction k as [|k IH]; intros K.
  - exists o, false. split; [reflexivity|]. split; [exact O|]. cbn. lia.
  - destruct IH as (o1 & c & F & L & V); [lia|]. rewrite for_S, F. cbn [obind]. unfold sum_step_arm.
    rewrite !rd_get by lia. cbn [obind]. rewrite movhs_cmp.
    pose proof (to_uint_range (get g (Z.of_nat k))) as RG. pose proof (to_uint_range (get e (Z.of_nat k))) as RE.
    pose proof (adcs_ok _ _ c RG RE) as [A B]. destruct (arm_adcs (to_uint (get g (Z.of_nat k))) (to_uint (get e (Z.of_nat k))) c) as [r c']. cbn [fst snd] in *.
    destruct (wr_ok o1 (Z.of_nat k) (to_int r)) as [o2 W]; [lia|]. rewrite W. cbn [obind]. exists o2, c'. split; [reflexivity|].
    split; [rewrite (wr_length _ _ _ _ W); exact L|]. cbn [val]. rewrite (val_ext o2 o1) by (intros i I; apply (wr_get_lt _ _ _ _ _ W I)).
    rewrite (get_wr _ _ _ _ _ W), Z.eqb_refl, to_uint_to_int by lia. unfold to_uint at 1. rewrite Z.mod_small by lia.
    replace (32 * Z.of_nat (S k)) with (32 * Z.of_nat k + 32) by lia. rewrite Z.pow_add_r by lia.
    set (P := 2 ^ (32 * Z.of_nat k)) in *. set (Q := 2 ^ 32) in *. nia.
Qed.
Lemma sum_arm_ok : (0 < n)%nat ->
  exists o', sum_array_arm n g e o = Some o' /\ length o' = n /\ number o' = (number g + number e) mod 2 ^ (32 * Z.of_nat n).
Proof.
  intros N. destruct (sum_loop_arm (n - 1) ltac:(lia)) as (o1 & c & F & L & V). unfold sum_array_arm. rewrite F. cbn [obind].
  rewrite !rd_get by lia. cbn [obind]. rewrite movhs_cmp.
  replace (Z.of_nat n - 1) with (Z.of_nat (n - 1)) by lia. set (k := (n - 1)%nat) in *.
  pose proof (to_uint_range (get g (Z.of_nat k))) as RG. pose proof (to_uint_range (get e (Z.of_nat k))) as RE.
  pose proof (adcs_ok _ _ c RG RE) as [A B]. destruct (arm_adcs (to_uint (get g (Z.of_nat k))) (to_uint (get e (Z.of_nat k))) c) as [r c']. cbn [fst snd] in *.
  destruct (wr_ok o1 (Z.of_nat k) (to_int r)) as [o2 W]; [lia|]. exists o2. split; [exact W|]. pose proof (wr_length _ _ _ _ W) as L2. split; [lia|].
  rewrite !number_val, L2, L, G, E. replace n with (S k) by lia.
  assert (EQ : val o2 (S k) + 2 ^ (32 * Z.of_nat (S k)) * Z.b2z c' = val g (S k) + val e (S k)).
  { cbn [val]. rewrite (val_ext o2 o1) by (intros i I; apply (wr_get_lt _ _ _ _ _ W I)).
    rewrite (get_wr _ _ _ _ _ W), Z.eqb_refl, to_uint_to_int by lia. unfold to_uint at 1. rewrite Z.mod_small by lia.
    replace (32 * Z.of_nat (S k)) with (32 * Z.of_nat k + 32) by lia. rewrite Z.pow_add_r by lia.
    set (P := 2 ^ (32 * Z.of_nat k)) in *. set (Q := 2 ^ 32) in *. nia. }
  rewrite <- EQ, Z.mul_comm, Z.mod_add by (apply Z.pow_nonzero; lia). symmetry. apply Z.mod_small, val_range.
Qed.

Lemma top_bit_val x : top_bit x = if to_uint x <? 2 ^ 31 then 0 else 1.
Proof.
  unfold top_bit. pose proof (to_uint_range x) as B. set (u := to_uint x) in *.
  assert (T : Z.testbit u 31 = negb (u <? 2 ^ 31)).
  { rewrite Z.testbit_odd, Z.shiftr_div_pow2 by lia. destruct (Z.ltb_spec u (2 ^ 31)).
    - rewrite Z.div_small by lia. reflexivity.
    - assert (u / 2 ^ 31 = 1) as ->; [|reflexivity]. symmetry. apply (Z.div_unique u (2 ^ 31) 1 (u - 2 ^ 31)); lia. }
  assert (Z.shiftr (Z.land u (2 ^ 31)) 31 = if Z.testbit u 31 then 1 else 0) as ->; [|rewrite T; destruct (u <? 2 ^ 31); reflexivity].
  apply Z.bits_inj'. intros i I. rewrite Z.shiftr_spec, Z.land_spec, Z.pow2_bits_eqb by lia.
  destruct (Z.eqb_spec 31 (i + 31)) as [Q|Q].
  - replace i with 0 by lia. destruct (Z.testbit u 31) eqn:TT; cbn [Z.add]; rewrite TT; reflexivity.
  - rewrite andb_false_r. destruct (Z.testbit u 31); [|symmetry; apply Z.bits_0]. symmetry. change 1 with (2 ^ 0). rewrite Z.pow2_bits_false; [reflexivity|lia].
Qed.
(** The carry of one word, from the top bits *)
Lemma carry_ok x y c : 0 <= c <= 1 ->
  let z := to_int (to_uint (x + y) + c) in
  let gm := top_bit x in let em := top_bit y in let om := top_bit z in
  let c' := Z.lxor (Z.lor (Z.lxor gm om) (Z.lxor em om)) om in
  0 <= c' <= 1 /\ to_uint z + 2 ^ 32 * c' = to_uint x + to_uint y + c.
Proof.
  intros C. cbv zeta. rewrite !top_bit_val. rewrite to_uint_to_int.
  pose proof (to_uint_range x) as BX. pose proof (to_uint_range y) as BY.
  assert (Z1 : to_uint (to_uint (x + y) + c) = (to_uint x + to_uint y + c) mod 2 ^ 32).
  { unfold to_uint. rewrite Zplus_mod_idemp_l. rewrite <- (Zplus_mod_idemp_l (x mod 2 ^ 32 + y mod 2 ^ 32)), <- Zplus_mod, Zplus_mod_idemp_l. reflexivity. }
  rewrite Z1. set (a := to_uint x) in *. set (b := to_uint y) in *. set (s := a + b + c) in *.
  assert (S : s mod 2 ^ 32 = if s <? 2 ^ 32 then s else s - 2 ^ 32).
  { destruct (Z.ltb_spec s (2 ^ 32)); [apply Z.mod_small; unfold s; lia|]. rewrite <- (Z.mod_add _ (-1)) by lia. rewrite Z.mod_small; unfold s in *; lia. }
  rewrite S. unfold s in *.
  destruct (Z.ltb_spec (a + b + c) (2 ^ 32)), (Z.ltb_spec a (2 ^ 31)), (Z.ltb_spec b (2 ^ 31));
    match goal with |- context [?t <? 2 ^ 31] => destruct (Z.ltb_spec t (2 ^ 31)) end; cbn; lia.
Qed.

Lemma sum_loop_c m : (forall i, (i < n)%nat -> int_result m (get g (Z.of_nat i) + get e (Z.of_nat i)) <> None) ->
  forall k, (k <= n)%nat ->
  exists o' c, for_ k (sum_step_c m g e) (o, 0) = Some (o', c) /\ length o' = n /\ 0 <= c <= 1 /\
    val o' k + 2 ^ (32 * Z.of_nat k) * c = val g k + val e k.
Proof.
  intros NO. induction k as [|k IH]; intros K.
  - exists o, 0. split; [reflexivity|]. split; [exact O|]. split; [lia|]. cbn. lia.
  - destruct IH as (o1 & c & F & L & C & V); [lia|]. rewrite for_S, F. cbn [obind]. unfold sum_step_c.
    rewrite !rd_get by lia. cbn [obind]. set (x := get g (Z.of_nat k)) in *. set (y := get e (Z.of_nat k)) in *.
    assert (T : exists t, int_result m (x + y) = Some t /\ to_uint t = to_uint (x + y)).
    { specialize (NO k ltac:(lia)). fold x y in NO. destruct m; cbn [int_result] in *.
      - exists (to_int (x + y)). split; [reflexivity|apply to_uint_to_int].
      - destruct (_ && _); [|contradiction]. eexists; split; reflexivity. }
    destruct T as (t & -> & TU). cbn [obind]. rewrite TU.
    destruct (wr_ok o1 (Z.of_nat k) (to_int (to_uint (x + y) + c))) as [o2 W]; [lia|]. rewrite W. cbn [obind].
    pose proof (wr_length _ _ _ _ W) as L2. rewrite rd_get by lia. cbn [obind].
    rewrite (get_wr _ _ _ _ _ W), Z.eqb_refl by lia.
    pose proof (carry_ok x y c C) as CO. cbv zeta in CO. destruct CO as [C1 C2].
    eexists _, _. split; [reflexivity|]. split; [lia|]. split; [exact C1|].
    cbn [val]. rewrite (val_ext o2 o1) by (intros i I; apply (wr_get_lt _ _ _ _ _ W I)).
    rewrite (get_wr _ _ _ _ _ W), Z.eqb_refl by lia. fold x y.
    replace (32 * Z.of_nat (S k)) with (32 * Z.of_nat k + 32) by lia. rewrite Z.pow_add_r by lia.
    set (P := 2 ^ (32 * Z.of_nat k)) in *. set (Q := 2 ^ 32) in *.
    set (c' := Z.lxor _ _) in *. set (z := to_uint (to_int _)) in *. nia.
Qed.
Lemma sum_c_ok m : (forall i, (i < n)%nat -> int_result m (nth i g 0 + nth i e 0) <> None) ->
  exists o', sum_array_c m n g e o = Some o' /\ length o' = n /\ number o' = (number g + number e) mod 2 ^ (32 * Z.of_nat n).
Proof.
  intros NO. destruct (sum_loop_c m) with (k := n) as (o1 & c & F & L & C & V); [|lia|].
  { intros i I. unfold get. rewrite Nat2Z.id. apply NO. exact I. }
  unfold sum_array_c. rewrite F. cbn [obind fst]. exists o1. split; [reflexivity|]. split; [exact L|].
  rewrite !number_val, L, G, E, <- V, Z.mul_comm, Z.mod_add by (apply Z.pow_nonzero; lia). symmetry. apply Z.mod_small, val_range.
Qed.
Lemma sum_c_undefined : (exists i, (i < n)%nat /\ ~ is_int (nth i g 0 + nth i e 0)) -> sum_array_c Undefined n g e o = None.
Proof.
  intros (i & I & NI). unfold sum_array_c.
  assert (H : for_ (S i) (sum_step_c Undefined g e) (o, 0) = None).
  { rewrite for_S. destruct (for_ i (sum_step_c Undefined g e) (o, 0)) as [[o1 c]|]; [|reflexivity]. cbn [obind]. unfold sum_step_c.
    rewrite !rd_get by lia. cbn [obind]. unfold get. rewrite Nat2Z.id. cbn [int_result].
    destruct ((- 2 ^ 31 <=? nth i g 0 + nth i e 0) && (nth i g 0 + nth i e 0 <? 2 ^ 31)) eqn:Q; [|reflexivity].
    exfalso. apply NI. apply andb_true_iff in Q as [Q1 Q2]. apply Z.leb_le in Q1. apply Z.ltb_lt in Q2. split; assumption. }
  assert (F : for_ n (sum_step_c Undefined g e) (o, 0) = None); [|rewrite F; reflexivity].
  clear - H I. induction n as [|k IH]; [lia|]. destruct (Nat.eq_dec k i) as [->|NE]; [exact H|]. rewrite for_S, IH by lia. reflexivity.
Qed.

Lemma compare_arm_loop : forall k, (k <= n)%nat ->
  exists c, for_ k (compare_step_arm g e) 1 = Some (arm_movhs 0 1 c) /\ (c = false <-> val g k < val e k).
Proof.
  induction k as [|k IH]; intros K.
  - exists true. split; [reflexivity|]. cbn. split; [discriminate|lia].
  - destruct IH as (c & F & V); [lia|]. rewrite for_S, F. cbn [obind]. unfold compare_step_arm. rewrite !rd_get by lia. cbn [obind]. rewrite movhs_cmp.
    pose proof (to_uint_range (get g (Z.of_nat k))) as RG. pose proof (to_uint_range (get e (Z.of_nat k))) as RE.
    assert (NE : to_uint (- get e (Z.of_nat k) - 1) = 2 ^ 32 - 1 - to_uint (get e (Z.of_nat k))).
    { unfold to_uint in *. pose proof (Z.div_mod (get e (Z.of_nat k)) (2 ^ 32) ltac:(lia)) as D.
      symmetry. apply (Z.mod_unique _ _ (- (get e (Z.of_nat k) / 2 ^ 32) - 1)); lia. }
    rewrite NE. unfold arm_adcs.
    eexists. split; [reflexivity|]. cbn [val]. pose proof (val_range g k) as B1. pose proof (val_range e k) as B2. rewrite Z.leb_gt.
    set (x := to_uint (get g (Z.of_nat k))) in *. set (y := to_uint (get e (Z.of_nat k))) in *. set (P := 2 ^ (32 * Z.of_nat k)) in *.
    destruct c; cbn [Z.b2z].
    + assert (val e k <= val g k) by (destruct (Z.le_gt_cases (val e k) (val g k)) as [|H]; [assumption|apply V in H; discriminate]).
      split; intros H1; [|]; nia.
    + assert (val g k < val e k) by (apply V; reflexivity). split; intros H1; nia.
Qed.
Lemma compare_arm_ok : compare_arm n g e = Some (if number g <? number e then 1 else 0).
Proof.
  destruct (compare_arm_loop n ltac:(lia)) as (c & F & V). unfold compare_arm. rewrite F. cbn [obind]. f_equal.
  rewrite !number_val, G, E. destruct (Z.ltb_spec (val g n) (val e n)) as [H|H].
  - rewrite (proj2 V H). reflexivity.
  - destruct c; [reflexivity|]. assert (val g n < val e n) by (apply V; reflexivity). lia.
Qed.
(** The version in C compares the words as signed numbers *)
Lemma compare_c_ok : (forall i, (i < n)%nat -> is_int (nth i g 0) /\ is_int (nth i e 0) /\ (nth i g 0 < 0 <-> nth i e 0 < 0)) ->
  compare_c n g e = Some (if number g <? number e then 1 else 0).
Proof.
  intros SG. unfold compare_c.
  destruct (for_inv (fun k r => r = if val g k <? val e k then 1 else 0) n (fun i greater =>
    do a <- rd g (Z.of_nat i); do b <- rd e (Z.of_nat i); Some (if a =? b then greater else Z.b2z (a <? b))) 0) as (r & F & R).
  - reflexivity.
  - intros k r K ->. rewrite !rd_get by lia. cbn [obind]. eexists. split; [reflexivity|].
    specialize (SG k K). replace (nth k g 0) with (get g (Z.of_nat k)) in SG by (unfold get; rewrite Nat2Z.id; reflexivity).
    replace (nth k e 0) with (get e (Z.of_nat k)) in SG by (unfold get; rewrite Nat2Z.id; reflexivity). cbn [val].
    set (a := get g (Z.of_nat k)) in *. set (b := get e (Z.of_nat k)) in *. destruct SG as (IA & IB & S).
    assert (U : forall z, is_int z -> to_uint z = if z <? 0 then z + 2 ^ 32 else z).
    { intros z Z1. unfold is_int in Z1. unfold to_uint. destruct (Z.ltb_spec z 0); [|apply Z.mod_small; lia].
      rewrite <- (Z.mod_add z 1) by lia. apply Z.mod_small. lia. }
    pose proof (to_uint_range a) as RA. pose proof (to_uint_range b) as RB.
    pose proof (val_range g k) as B1. pose proof (val_range e k) as B2. set (P := 2 ^ (32 * Z.of_nat k)) in *.
    assert (ORD : (a < b -> to_uint a < to_uint b) /\ (b < a -> to_uint b < to_uint a)).
    { rewrite !U by assumption. destruct (Z.ltb_spec a 0), (Z.ltb_spec b 0); lia. }
    destruct (Z.eqb_spec a b) as [EQ|NE].
    + rewrite EQ. destruct (Z.ltb_spec (val g k) (val e k)), (Z.ltb_spec (val g k + P * to_uint b) (val e k + P * to_uint b)); lia.
    + destruct (Z.ltb_spec a b) as [L|L]; cbn [Z.b2z].
      * destruct (Z.ltb_spec (val g k + P * to_uint a) (val e k + P * to_uint b)); [reflexivity|]. destruct ORD as [ORD _]. specialize (ORD L). nia.
      * destruct (Z.ltb_spec (val g k + P * to_uint a) (val e k + P * to_uint b)); [|reflexivity]. destruct ORD as [_ ORD]. specialize (ORD ltac:(lia)). nia.
  - rewrite F, R, !number_val, G, E. reflexivity.
Qed.
End Sum.

Lemma mul_ok m x y g e r : mul_main m (x :: g) (y :: e) = Some r -> r mod 2 ^ 32 = x * y mod 2 ^ 32 /\ (m = Undefined -> r = x * y).
Proof.
  unfold mul_main. cbn [rd Z.ltb Z.compare Z.to_nat nth_error obind]. destruct m; cbn [int_result].
  - intros [= <-]. split; [apply to_uint_to_int|discriminate].
  - destruct (_ && _); [|discriminate]. intros [= <-]. split; reflexivity.
Qed.

(** The exact value, in the sense of the arithmetic *)
Definition same_as (m : overflow) (r z : Z) : Prop := r mod 2 ^ 32 = z mod 2 ^ 32 /\ (m = Undefined -> r = z).
Lemma result_same m z r : int_result m z = Some r -> same_as m r z.
Proof.
  destruct m; cbn [int_result].
  - intros [= <-]. split; [apply to_uint_to_int|discriminate].
  - destruct (_ && _); [|discriminate]. intros [= <-]. split; reflexivity.
Qed.
Lemma dot_ok m n g e i j r : length g = (n * n)%nat -> length e = (n * n)%nat -> (i < n)%nat -> (j < n)%nat ->
  dot m n g e i j = Some r -> same_as m r (product_entry n g e i j n).
Proof.
  intros G E I J. unfold dot.
  intros H. eapply (for_inv_partial (fun k t => same_as m t (product_entry n g e i j k)) n); [|..|exact H].
  - split; reflexivity.
  - intros k t t' K T ST. cbv beta in ST.
    rewrite (rd_get g) in ST by (rewrite G; nia). rewrite (rd_get e) in ST by (rewrite E; nia). cbn [obind] in ST.
    apply obind_some in ST as (p & P & ST). apply result_same in P. apply result_same in ST. cbn [product_entry].
    replace (get g (Z.of_nat i * Z.of_nat n + Z.of_nat k)) with (nth (i * n + k) g 0) in P by (unfold get; f_equal; nia).
    replace (get e (Z.of_nat k * Z.of_nat n + Z.of_nat j)) with (nth (k * n + j) e 0) in P by (unfold get; f_equal; nia).
    destruct T as [T1 T2], P as [P1 P2], ST as [S1 S2]. split.
    + rewrite S1, Zplus_mod, T1, P1, <- Zplus_mod. reflexivity.
    + intros U. rewrite (S2 U), (T2 U), (P2 U). reflexivity.
Qed.
Lemma dot_some m n g e i j : length g = (n * n)%nat -> length e = (n * n)%nat -> (i < n)%nat -> (j < n)%nat ->
  m = Wraps \/ (forall k, (k < n)%nat -> is_int (nth (i * n + k) g 0 * nth (k * n + j) e 0) /\ is_int (product_entry n g e i j (S k))) ->
  exists r, dot m n g e i j = Some r.
Proof.
  intros G E I J D. unfold dot.
  destruct (for_inv (fun k t => m = Wraps \/ t = product_entry n g e i j k) n (fun k temp =>
    do x <- rd g (Z.of_nat i * Z.of_nat n + Z.of_nat k); do y <- rd e (Z.of_nat k * Z.of_nat n + Z.of_nat j);
    do p <- int_result m (x * y); int_result m (temp + p)) 0) as (r & F & _).
  - right. reflexivity.
  - intros k t K T. rewrite (rd_get g) by (rewrite G; nia). rewrite (rd_get e) by (rewrite E; nia). cbn [obind].
    replace (get g (Z.of_nat i * Z.of_nat n + Z.of_nat k)) with (nth (i * n + k) g 0) by (unfold get; f_equal; nia).
    replace (get e (Z.of_nat k * Z.of_nat n + Z.of_nat j)) with (nth (k * n + j) e 0) by (unfold get; f_equal; nia).
    destruct m.
    + cbn [int_result obind]. eexists. split; [reflexivity|]. left. reflexivity.
    + destruct D as [D|D]; [discriminate|]. destruct T as [T| ->]; [discriminate|]. destruct (D k K) as [D1 D2]. cbn [product_entry] in D2.
      rewrite int_result_id by exact D1. cbn [obind]. rewrite int_result_id by exact D2. eexists. split; [reflexivity|]. right. reflexivity.
  - exists r. exact F.
Qed.
(** What the result means: every entry is right modulo 2^32, and exact where
    overflow is undefined. *)
Theorem matrix_ok : forall m n g e o o', length g = (n * n)%nat -> length e = (n * n)%nat -> length o = (n * n)%nat ->
  matrix_main m n g e o = Some o' -> length o' = (n * n)%nat /\
  forall i j, (i < n)%nat -> (j < n)%nat ->
    nth (i * n + j) o' 0 mod 2 ^ 32 = product_entry n g e i j n mod 2 ^ 32 /\ (m = Undefined -> nth (i * n + j) o' 0 = product_entry n g e i j n).
Proof.
  intros m n g e o o' G E O H. unfold matrix_main in H.
  apply (for_inv_partial (fun k (t : list Z) => length t = (n * n)%nat /\
     forall i j, (i < k)%nat -> (i < n)%nat -> (j < n)%nat -> same_as m (nth (i * n + j) t 0) (product_entry n g e i j n)) n) in H.
  - destruct H as [L H]. split; [exact L|]. intros i j I J. apply H; assumption.
  - split; [exact O|]. lia.
  - clear H. intros k t t' K [L T] H.
    eapply (for_inv_partial (fun q (t : list Z) => length t = (n * n)%nat /\
       forall i j, (i < k \/ i = k /\ j < q)%nat -> (i < n)%nat -> (j < n)%nat -> same_as m (nth (i * n + j) t 0) (product_entry n g e i j n)) n) in H.
    + destruct H as [L' H]. split; [exact L'|]. intros i j I IN J. apply H; lia.
    + split; [exact L|]. intros i j I IN J. apply T; lia.
    + clear H. intros q u u' Q [LU U] H. cbv beta in H. apply obind_some in H as (r & R & W). apply dot_ok in R; try assumption.
      split; [rewrite (wr_length _ _ _ _ W); exact LU|]. intros i j I IN J.
      replace (nth (i * n + j) u' 0) with (get u' (Z.of_nat i * Z.of_nat n + Z.of_nat j)) by (unfold get; f_equal; nia).
      rewrite (get_wr _ _ _ _ _ W) by nia. destruct (Z.eqb_spec (Z.of_nat i * Z.of_nat n + Z.of_nat j) (Z.of_nat k * Z.of_nat n + Z.of_nat q)) as [EQ|NE].
      * assert (i = k /\ j = q) as [-> ->]; [|exact R]. assert (i = k) by nia. subst i. split; [reflexivity|lia].
      * replace (get u (Z.of_nat i * Z.of_nat n + Z.of_nat j)) with (nth (i * n + j) u 0) by (unfold get; f_equal; nia).
        apply U; try assumption. destruct I as [I|[Q1 I]]; [left; exact I|right]. subst i. split; [reflexivity|]. assert (j <> q) by (intros ->; apply NE; reflexivity). lia.
Qed.
Theorem matrix_some : forall m n g e o, length g = (n * n)%nat -> length e = (n * n)%nat -> length o = (n * n)%nat ->
  m = Wraps \/ (forall i j k, (i < n)%nat -> (j < n)%nat -> (k < n)%nat ->
    is_int (nth (i * n + k) g 0 * nth (k * n + j) e 0) /\ is_int (product_entry n g e i j (S k))) ->
  exists o', matrix_main m n g e o = Some o'.
Proof.
  intros m n g e o G E O D. unfold matrix_main.
  destruct (for_inv (fun _ (t : list Z) => length t = (n * n)%nat) n (fun i o => for_ n (fun j o =>
    do temp <- dot m n g e i j; wr o (Z.of_nat i * Z.of_nat n + Z.of_nat j) temp) o) o) as (r & F & _); [exact O| |exists r; exact F].
  intros i s I L.
  destruct (for_inv (fun _ (t : list Z) => length t = (n * n)%nat) n (fun j o =>
    do temp <- dot m n g e i j; wr o (Z.of_nat i * Z.of_nat n + Z.of_nat j) temp) s) as (r & F & LR); [exact L| |exists r; split; [exact F|exact LR]].
  intros j t J LT. destruct (dot_some m n g e i j G E I J) as [r R].
  { destruct D as [D|D]; [left; exact D|right]. intros k K. apply D; assumption. }
  rewrite R. cbn [obind]. destruct (wr_ok t (Z.of_nat i * Z.of_nat n + Z.of_nat j) r) as [t' W]; [rewrite LT; nia|].
  exists t'. split; [exact W|]. rewrite (wr_length _ _ _ _ W). exact LT.
Qed.
