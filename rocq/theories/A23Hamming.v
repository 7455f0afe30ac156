(** The Hamming distance for the garbled processor: a23/hamming/hamming.c.
    [G_SIZE] is the parameter [n]; the file has 1. *)
From Coq Require Import ZArith List Bool Lia.
From Verif Require Import Base Tcp SchedSort A23Int A23Arith.
Import ListNotations.
Open Scope Z_scope.

(** hamming.c:8-14; [fuel] bounds the loop, 32 turns are enough for [uint32_t] *)
Fixpoint log2_loop (fuel : nat) (a l : Z) : Z :=
  match fuel with
  | O => l
  | S fuel => let a := Z.shiftr a 1 in if a =? 0 then l else log2_loop fuel a (l + 1)
  end.
Definition log2 (a : Z) : Z := log2_loop 32 a 0.
(** hamming.c:23-24: the [i]th byte of an array of [int], which the processor
    stores least significant byte first *)
Definition byte_at (g : list Z) (i : Z) : option Z :=
  do w <- rd g (i / 4); Some (Z.shiftr (to_uint w) (8 * (i mod 4)) mod 256).
(** hamming.c:26-30 *)
Definition spread (n : nat) (g e dist : list Z) : option (list Z) :=
  for_ (4 * n) (fun i dist => for_ 8 (fun j dist =>
    do x <- byte_at g (Z.of_nat i);
    do y <- byte_at e (Z.of_nat i);
    wr dist (Z.of_nat i * 8 + Z.of_nat j)
       (Z.shiftr (Z.land (Z.lxor x y) (Z.shiftl 1 (Z.of_nat j))) (Z.of_nat j) mod 256)) dist) dist.
(** hamming.c:35-37 *)
Definition fold_level (j : nat) (dist : list Z) : option (list Z) :=
  for_ (2 ^ j) (fun i dist =>
    do x <- rd dist (2 * Z.of_nat i);
    do y <- rd dist (2 * Z.of_nat i + 1);
    wr dist (Z.of_nat i) ((x + y) mod 256)) dist.
(** hamming.c:34-38: the levels [l - 1] down to 0 *)
Definition fold_tree (l : nat) (dist : list Z) : option (list Z) :=
  for_ l (fun k dist => fold_level (l - 1 - k) dist) dist.
(** hamming.c:18-40 *)
Definition hamming_main (n : nat) (g e dist : list Z) : option Z :=
  do dist <- spread n g e dist;
  let l := log2 (8 * Z.of_nat n * 4) in
  do dist <- fold_tree (Z.to_nat l) dist;
  rd dist 0.

(** * Specification *)
(** How many of the bits [0 .. k-1] of two numbers differ *)
Fixpoint differing (a b : Z) (k : nat) : Z :=
  match k with O => 0 | S k => differing a b k + (if Bool.eqb (Z.testbit a (Z.of_nat k)) (Z.testbit b (Z.of_nat k)) then 0 else 1) end.

(** * Proofs *)
Lemma log2_loop_ok : forall fuel a l, 0 < a < 2 ^ Z.of_nat fuel -> log2_loop fuel a l = l + Z.log2 a.
Proof.
  induction fuel as [|fuel IH]; intros a l A; [cbn in A; lia|]. cbn [log2_loop]. cbv zeta.
  rewrite Nat2Z.inj_succ, Z.pow_succ_r in A by lia.
  rewrite Z.shiftr_div_pow2 by lia. change (2 ^ 1) with 2.
  pose proof (Z.div_mod a 2 ltac:(lia)) as D. pose proof (Z.mod_pos_bound a 2 ltac:(lia)) as M.
  destruct (Z.eqb_spec (a / 2) 0) as [E|E].
  - assert (a = 1) as -> by lia. cbn. lia.
  - rewrite IH by lia. rewrite <- Z.div2_div in *. assert (Q : Z.log2 a = Z.succ (Z.log2 (Z.div2 a))); [|lia].
    rewrite Z.div2_spec, Z.log2_shiftr by lia. pose proof (Z.log2_le_mono 2 a ltac:(lia)) as L. change (Z.log2 2) with 1 in L. lia.
Qed.
Lemma number_testbit : forall l t, 0 <= t -> Z.testbit (number l) t = Z.testbit (to_uint (get l (t / 32))) (t mod 32).
Proof.
  induction l as [|x l IH]; intros t T.
  - cbn [number]. unfold get. replace (nth (Z.to_nat (t / 32)) [] 0) with 0 by (destruct (Z.to_nat (t / 32)); reflexivity).
    change (to_uint 0) with 0. rewrite !Z.bits_0. reflexivity.
  - cbn [number]. fold (to_uint x). pose proof (to_uint_range x) as B.
    assert (SUM : to_uint x + 2 ^ 32 * number l = Z.lor (to_uint x) (Z.shiftl (number l) 32)).
    { rewrite <- Z.lxor_lor, <- Z.add_nocarry_lxor, Z.shiftl_mul_pow2; try lia.
      all: apply Z.bits_inj'; intros i I; rewrite Z.land_spec, Z.shiftl_spec, Z.bits_0 by lia;
        destruct (Z.lt_ge_cases i 32) as [L|L];
        [rewrite (Z.testbit_neg_r _ (i - 32)) by lia; apply andb_false_r
        |replace (to_uint x) with (to_uint x mod 2 ^ 32) by (apply Z.mod_small; lia); rewrite Z.mod_pow2_bits_high by lia; reflexivity]. }
    rewrite SUM, Z.lor_spec, Z.shiftl_spec by lia.
    destruct (Z.lt_ge_cases t 32) as [L|L].
    + rewrite (Z.testbit_neg_r _ (t - 32)) by lia. rewrite orb_false_r, Z.div_small, Z.mod_small by lia. reflexivity.
    + replace (to_uint x) with (to_uint x mod 2 ^ 32) at 1 by (apply Z.mod_small; lia). rewrite Z.mod_pow2_bits_high by lia. cbn [orb].
      rewrite IH by lia. replace t with ((t - 32) + 1 * 32) at 3 4 by lia. rewrite Z.div_add, Z.mod_add by lia.
      pose proof (Z.div_pos (t - 32) 32 ltac:(lia) ltac:(lia)).
      unfold get. replace (Z.to_nat ((t - 32) / 32 + 1)) with (S (Z.to_nat ((t - 32) / 32))) by lia. reflexivity.
Qed.

Definition differs (g e : list Z) (t : Z) : Z := Z.b2z (xorb (Z.testbit (number g) t) (Z.testbit (number e) t)).
Lemma differing_S g e k : differing (number g) (number e) (S k) = differing (number g) (number e) k + differs g e (Z.of_nat k).
Proof. cbn [differing]. unfold differs. destruct (Z.testbit (number g) (Z.of_nat k)), (Z.testbit (number e) (Z.of_nat k)); reflexivity. Qed.
Lemma byte_at_ok n g i : length g = n -> 0 <= i < 4 * Z.of_nat n ->
  exists x, byte_at g i = Some x /\ forall j, 0 <= j < 8 -> Z.testbit x j = Z.testbit (number g) (i * 8 + j).
Proof.
  intros G I. unfold byte_at. pose proof (Z.div_mod i 4 ltac:(lia)). pose proof (Z.mod_pos_bound i 4 ltac:(lia)).
  rewrite rd_get by lia. cbn [obind]. eexists. split; [reflexivity|]. intros j J.
  change 256 with (2 ^ 8). rewrite Z.mod_pow2_bits_low by lia. rewrite Z.shiftr_spec by lia. rewrite number_testbit by lia.
  replace (i * 8 + j) with ((j + 8 * (i mod 4)) + (i / 4) * 32) by lia. rewrite Z.div_add, Z.mod_add by lia.
  rewrite (Z.div_small (j + 8 * (i mod 4))), (Z.mod_small (j + 8 * (i mod 4))) by lia. reflexivity.
Qed.
Lemma bit_of_ok x y j : 0 <= j < 8 ->
  Z.shiftr (Z.land (Z.lxor x y) (Z.shiftl 1 j)) j mod 256 = Z.b2z (xorb (Z.testbit x j) (Z.testbit y j)).
Proof.
  intros J. rewrite Z.shiftl_1_l.
  assert (E : Z.shiftr (Z.land (Z.lxor x y) (2 ^ j)) j = Z.b2z (xorb (Z.testbit x j) (Z.testbit y j))).
  - apply Z.bits_inj'. intros i I. rewrite Z.shiftr_spec, Z.land_spec, Z.lxor_spec, Z.pow2_bits_eqb by lia.
    destruct (Z.eqb_spec j (i + j)) as [Q|Q].
    + replace i with 0 by lia. cbn [Z.add]. rewrite andb_true_r, Z.b2z_bit0. reflexivity.
    + rewrite andb_false_r. destruct (xorb _ _); cbn [Z.b2z]; [|symmetry; apply Z.bits_0]. symmetry. change 1 with (2 ^ 0). rewrite Z.pow2_bits_false; [reflexivity|lia].
  - rewrite E. destruct (xorb _ _); reflexivity.
Qed.

Section Hamming.
Variables (n : nat) (g e dist : list Z).
Hypothesis G : length g = n.
Hypothesis E : length e = n.
Hypothesis D : length dist = (32 * n)%nat.

Lemma spread_ok : exists d, spread n g e dist = Some d /\ length d = (32 * n)%nat /\
  forall t, 0 <= t < 32 * Z.of_nat n -> get d t = differs g e t.
Proof.
  unfold spread.
  destruct (for_inv (fun i (d : list Z) => length d = (32 * n)%nat /\ forall t, 0 <= t < 8 * Z.of_nat i -> get d t = differs g e t) (4 * n)
    (fun i dist => for_ 8 (fun j dist =>
    do x <- byte_at g (Z.of_nat i); do y <- byte_at e (Z.of_nat i);
    wr dist (Z.of_nat i * 8 + Z.of_nat j)
       (Z.shiftr (Z.land (Z.lxor x y) (Z.shiftl 1 (Z.of_nat j))) (Z.of_nat j) mod 256)) dist) dist) as (d & F & L & V).
  - split; [exact D|]. lia.
  - intros i s I [L V].
    destruct (byte_at_ok n g (Z.of_nat i) G ltac:(lia)) as (x & X & XB). destruct (byte_at_ok n e (Z.of_nat i) E ltac:(lia)) as (y & Y & YB).
    rewrite X, Y. cbn [obind].
    destruct (for_inv (fun j (d : list Z) => length d = (32 * n)%nat /\ forall t, 0 <= t < 8 * Z.of_nat i + Z.of_nat j -> get d t = differs g e t) 8
      (fun j dist => wr dist (Z.of_nat i * 8 + Z.of_nat j)
       (Z.shiftr (Z.land (Z.lxor x y) (Z.shiftl 1 (Z.of_nat j))) (Z.of_nat j) mod 256)) s) as (d & F & L' & V').
    + split; [exact L|]. intros t T. apply V. lia.
    + intros j u J [LU VU]. rewrite bit_of_ok by lia. rewrite XB, YB by lia. fold (differs g e (Z.of_nat i * 8 + Z.of_nat j)).
      destruct (wr_ok u (Z.of_nat i * 8 + Z.of_nat j) (differs g e (Z.of_nat i * 8 + Z.of_nat j))) as [u' W]; [lia|].
      exists u'. split; [exact W|]. split; [rewrite (wr_length _ _ _ _ W); exact LU|]. intros t T. rewrite (get_wr _ _ _ _ _ W) by lia.
      destruct (Z.eqb_spec t (Z.of_nat i * 8 + Z.of_nat j)) as [->|NE]; [reflexivity|]. apply VU. lia.
    + exists d. split; [exact F|]. split; [exact L'|]. intros t T. apply V'. lia.
  - exists d. split; [exact F|]. split; [exact L|]. intros t T. apply V. lia.
Qed.

(** The sum over a stretch of positions *)
Definition stretch (a k : nat) : Z := differing (number g) (number e) (a + k) - differing (number g) (number e) a.
Lemma stretch_split a k k' : stretch a k + stretch (a + k) k' = stretch a (k + k').
Proof. unfold stretch. rewrite Nat.add_assoc. lia. Qed.

Lemma fold_level_ok l j d : (j < l)%nat -> Z.of_nat (2 ^ l) <= 32 * Z.of_nat n -> length d = (32 * n)%nat ->
  (forall i, (i < 2 ^ S j)%nat -> get d (Z.of_nat i) = stretch (i * 2 ^ (l - S j)) (2 ^ (l - S j)) mod 256) ->
  exists d', fold_level j d = Some d' /\ length d' = (32 * n)%nat /\
  forall i, (i < 2 ^ j)%nat -> get d' (Z.of_nat i) = stretch (i * 2 ^ (l - j)) (2 ^ (l - j)) mod 256.
Proof.
  intros J N L V. unfold fold_level.
  assert (PW : (2 ^ S j <= 2 ^ l)%nat) by (apply Nat.pow_le_mono_r; lia). rewrite Nat.pow_succ_r' in PW.
  destruct (for_inv (fun k (d' : list Z) => length d' = (32 * n)%nat /\
      (forall i, (i < k)%nat -> get d' (Z.of_nat i) = stretch (i * 2 ^ (l - j)) (2 ^ (l - j)) mod 256) /\
      (forall i, (k <= i)%nat -> get d' (Z.of_nat i) = get d (Z.of_nat i))) (2 ^ j)
    (fun i dist => do x <- rd dist (2 * Z.of_nat i); do y <- rd dist (2 * Z.of_nat i + 1); wr dist (Z.of_nat i) ((x + y) mod 256)) d) as (d' & F & L' & V' & _).
  - split; [exact L|]. split; [lia|]. reflexivity.
  - intros k s K (LS & V1 & V2). rewrite rd_get by lia. cbn [obind]. rewrite rd_get by lia. cbn [obind].
    replace (2 * Z.of_nat k) with (Z.of_nat (2 * k)) by lia. replace (Z.of_nat (2 * k) + 1) with (Z.of_nat (2 * k + 1)) by lia.
    rewrite !V2 by lia. rewrite !V by (rewrite Nat.pow_succ_r'; lia).
    destruct (wr_ok s (Z.of_nat k) ((stretch (2 * k * 2 ^ (l - S j)) (2 ^ (l - S j)) mod 256 + stretch ((2 * k + 1) * 2 ^ (l - S j)) (2 ^ (l - S j)) mod 256) mod 256)) as [s' W]; [lia|].
    exists s'. split; [exact W|]. split; [rewrite (wr_length _ _ _ _ W); exact LS|]. split; intros i I.
    + rewrite (get_wr _ _ _ _ _ W) by lia. destruct (Z.eqb_spec (Z.of_nat i) (Z.of_nat k)) as [Q|Q]; [|apply V1; lia].
      apply Nat2Z.inj in Q. subst i. rewrite <- Zplus_mod. replace (l - j)%nat with (S (l - S j)) by lia. rewrite Nat.pow_succ_r'.
      set (p := (2 ^ (l - S j))%nat). replace (k * (2 * p))%nat with (2 * k * p)%nat by lia. replace ((2 * k + 1) * p)%nat with (2 * k * p + p)%nat by lia.
      rewrite stretch_split. do 2 f_equal. lia.
    + rewrite (get_wr _ _ _ _ _ W) by lia. destruct (Z.eqb_spec (Z.of_nat i) (Z.of_nat k)) as [Q|Q]; [lia|]. apply V2. lia.
  - exists d'. split; [exact F|]. split; [exact L'|]. exact V'.
Qed.
Lemma fold_tree_ok l d : Z.of_nat (2 ^ l) <= 32 * Z.of_nat n -> length d = (32 * n)%nat ->
  (forall t, 0 <= t < 32 * Z.of_nat n -> get d t = differs g e t) ->
  exists d', fold_tree l d = Some d' /\ length d' = (32 * n)%nat /\ get d' 0 = differing (number g) (number e) (2 ^ l) mod 256.
Proof.
  intros N L V. unfold fold_tree.
  destruct (for_inv (fun k (d' : list Z) => length d' = (32 * n)%nat /\
      forall i, (i < 2 ^ (l - k))%nat -> get d' (Z.of_nat i) = stretch (i * 2 ^ k) (2 ^ k) mod 256) l
    (fun k dist => fold_level (l - 1 - k) dist) d) as (d' & F & L' & V').
  - split; [exact L|]. rewrite Nat.sub_0_r. intros i I. rewrite V by lia. rewrite Nat.pow_0_r, Nat.mul_1_r. unfold stretch. rewrite Nat.add_1_r, differing_S.
    unfold differs. destruct (xorb _ _); cbn [Z.b2z]; rewrite Z.mod_small; lia.
  - intros k s K [LS VS]. destruct (fold_level_ok l (l - 1 - k) s) as (s' & F & L' & V'); try assumption; [lia| |].
    + replace (S (l - 1 - k)) with (l - k)%nat by lia. replace (l - (l - k))%nat with k by lia. exact VS.
    + exists s'. split; [exact F|]. split; [exact L'|]. replace (l - S k)%nat with (l - 1 - k)%nat by lia. replace (l - (l - 1 - k))%nat with (S k) in V' by lia. exact V'.
  - exists d'. split; [exact F|]. split; [exact L'|]. rewrite Nat.sub_diag in V'. specialize (V' O ltac:(cbn; lia)). cbn [Z.of_nat Nat.mul] in V'. rewrite V'.
    unfold stretch. cbn [differing Nat.add]. rewrite Z.sub_0_r. reflexivity.
Qed.
Theorem hamming_ok : 0 < Z.of_nat n < 2 ^ 27 ->
  hamming_main n g e dist = Some (differing (number g) (number e) (2 ^ Z.to_nat (Z.log2 (32 * Z.of_nat n))) mod 256).
Proof.
  intros N. destruct spread_ok as (d & SP & L & V). unfold hamming_main. rewrite SP. cbn [obind].
  assert (LG : log2 (8 * Z.of_nat n * 4) = Z.log2 (32 * Z.of_nat n)).
  { unfold log2. replace (8 * Z.of_nat n * 4) with (32 * Z.of_nat n) by lia. rewrite log2_loop_ok; [reflexivity|]. change (2 ^ Z.of_nat 32) with (2 ^ 32). lia. }
  rewrite LG. pose proof (Z.log2_spec (32 * Z.of_nat n) ltac:(lia)) as [B _]. pose proof (Z.log2_nonneg (32 * Z.of_nat n)) as P.
  assert (PW : Z.of_nat (2 ^ Z.to_nat (Z.log2 (32 * Z.of_nat n))) <= 32 * Z.of_nat n).
  { rewrite Nat2Z.inj_pow, Z2Nat.id by exact P. exact B. }
  destruct (fold_tree_ok _ d PW L V) as (d' & F & L' & V'). rewrite F. cbn [obind]. rewrite rd_get by lia. rewrite V'. reflexivity.
Qed.
End Hamming.

Lemma differing_bound a b k : 0 <= differing a b k <= Z.of_nat k.
Proof. induction k as [|k IH]; [cbn; lia|]. cbn [differing]. destruct (Bool.eqb _ _); lia. Qed.
(** One, two and four words, of which the file takes one: the distance itself *)
Theorem hamming_small : forall n g e dist, length g = n -> length e = n -> length dist = (32 * n)%nat -> n = 1%nat \/ n = 2%nat \/ n = 4%nat ->
  hamming_main n g e dist = Some (differing (number g) (number e) (32 * n)).
Proof.
  intros n g e dist G E D N. rewrite (hamming_ok n g e dist G E D) by (destruct N as [ -> |[ -> | -> ]]; lia). f_equal.
  assert (Q : (2 ^ Z.to_nat (Z.log2 (32 * Z.of_nat n)))%nat = (32 * n)%nat) by (destruct N as [ -> |[ -> | -> ]]; reflexivity).
  rewrite Q. pose proof (differing_bound (number g) (number e) (32 * n)). apply Z.mod_small. lia.
Qed.
