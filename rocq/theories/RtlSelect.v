(** Circuits of circuit_synthesis/ that select: argmax, encoder, taxicab distance, nearest
    neighbours. *)
From Coq Require Import ZArith List Bool Lia Permutation Sorted.
From Verif Require Import RtlBase RtlLib RtlArith RtlSeq.
Import ListNotations.
Open Scope Z_scope.

(** * Model *)
(** argmax, argmax/argmax.v:1-48 *)
Definition argmax (N M : nat) (inp max ind : vec) : Prop :=
  let S := log2 N in
  exists (max_i ind_i : nat -> vec) (greater : nat -> bool),
    greater 0%nat = false /\ veq M (max_i 0%nat) inp /\ veq S (ind_i 0%nat) (rep false) /\
    (forall g, (1 <= g)%nat -> (g < N)%nat ->
      greater g = (val M (part (g * M) inp) <? val M (max_i (g - 1)%nat)) /\
      veq M (max_i g) (if greater g then max_i (g - 1)%nat else part (g * M) inp) /\
      veq S (ind_i g) (if greater g then ind_i (g - 1)%nat else of_val (Z.of_nat g))) /\
    veq M max (max_i (N - 1)%nat) /\ veq S ind (ind_i (N - 1)%nat).

(** |v, for a vector of width [n] *)
Fixpoint some (n : nat) (v : vec) : bool := match n with O => false | S n => some n v || v n end.
(** encoder_, encoder/encoder.v:34-83; encoder, stable_match/encoder.v:1-48, is the same *)
Fixpoint encoder_ (logS : nat) (inp o : vec) : Prop :=
  match logS with
  | O => False
  | S O => veq 1 o (bit (inp 1%nat))
  | S l => exists o0 o1, encoder_ l inp o0 /\ encoder_ l (part (2 ^ l) inp) o1 /\
      veq (S l) o (cat (bit (some (2 ^ l) (part (2 ^ l) inp))) l (fun i => o0 i || o1 i))
  end.
(** encoder, encoder/encoder.v:1-31 *)
Definition encoder (logS : nat) (g_input e_input o : vec) : Prop :=
  exists inp, veq (2 ^ logS) inp (cat e_input (2 ^ logS / 2) g_input) /\ encoder_ logS inp o.

(** SUB_1, knns_td/taxicab_distance.v:28-49 *)
Definition SUB_1 (N : nat) (A B D : vec) : Prop := exists CO, D N = negb CO /\ ADD N N A (vnot B) true CO D.
(** taxicab_distance, knns_td/taxicab_distance.v:1-26 *)
Definition taxicab_distance (N : nat) (x1 y1 x2 y2 dist : vec) : Prop :=
  exists dist_x12 dist_x21 dist_xabs dist_y12 dist_y21 dist_yabs : vec,
    SUB_1 N x1 x2 dist_x12 /\ SUB_1 N x2 x1 dist_x21 /\ MUX (N + 1) dist_x12 dist_x21 (dist_x12 N) dist_xabs /\
    SUB_1 N y1 y2 dist_y12 /\ SUB_1 N y2 y1 dist_y21 /\ MUX (N + 1) dist_y12 dist_y21 (dist_y12 N) dist_yabs /\
    ADD (N + 1) (N + 1) dist_xabs dist_yabs false (dist (N + 1)%nat) dist.

(** The chain of comparators and multiplexers of first_nns_comb, knns/first_nns_comb.v:61-111,
    and first_nns_comb_td, knns_td/first_nns_comb_td.v:73-125: [L] the width of distances, [W] of
    values *)
Definition chain (L W N : nat) (dist value : nat -> vec) (o : vec) : Prop :=
  exists (min_val min_dist : nat -> vec) (gt_dist : nat -> bool),
    veq W (min_val 0%nat) (value 0%nat) /\ veq L (min_dist 0%nat) (dist 0%nat) /\
    (forall i, (1 <= i)%nat -> (i < N)%nat -> COMP L L (min_dist (i - 1)%nat) (dist i) (gt_dist i)) /\
    (forall i, (1 <= i)%nat -> (i < N)%nat -> MUX W (value i) (min_val (i - 1)%nat) (gt_dist i) (min_val i) /\
      MUX L (dist i) (min_dist (i - 1)%nat) (gt_dist i) (min_dist i)) /\
    veq W o (min_val (N - 1)%nat).
(** first_nns_comb, knns/first_nns_comb.v:1-114 *)
Definition first_nns_comb (W N : nat) (g_input e_input o : vec) : Prop :=
  exists dist DBi : nat -> vec, (forall i, (i < N)%nat -> veq W (DBi i) (part (W * i) e_input)) /\
    (forall i, (i < N)%nat -> COUNT W (vxor g_input (DBi i)) (dist i)) /\ chain (log2 W) W N dist DBi o.
(** first_nns_comb_td, knns_td/first_nns_comb_td.v:1-128 *)
Definition first_nns_comb_td (W N : nat) (g_input e_input o : vec) : Prop :=
  exists dist x1 y1 : nat -> vec,
    (forall i, (i < N)%nat -> veq W (x1 i) (part (2 * W * (i + 1) - W) e_input) /\ veq W (y1 i) (part (2 * W * i) e_input)) /\
    (forall i, (i < N)%nat -> taxicab_distance W (x1 i) (y1 i) (part W g_input) g_input (dist i)) /\
    chain (W + 2) (2 * W) N dist (fun i => cat (x1 i) W (y1 i)) o.

(** What first_nns_seq, knns/first_nns_seq.v:1-109, and first_nns_seq_td,
    knns_td/first_nns_seq_td.v:1-117, have in common *)
Definition first_step (L W : nat) (dist e_input : vec) (r : vec * vec) (o : vec) (r' : vec * vec) : Prop :=
  let '(min_val_reg, min_dist_reg) := r in
  exists (gt_dist : bool) (min_val min_dist : vec),
    COMP L L min_dist_reg dist gt_dist /\ MUX W e_input min_val_reg gt_dist min_val /\ MUX L dist min_dist_reg gt_dist min_dist /\
    veq W o min_val /\ veq W (fst r') min_val /\ veq L (snd r') min_dist.
Definition first_init (L W : nat) (r : vec * vec) : Prop := veq W (fst r) (rep false) /\ veq L (snd r) (rep true).
(** first_nns_seq; the name DBi (line 48) is not declared, so it is a wire that nothing drives *)
Definition first_nns_seq (W : nat) :=
  clocked (first_init (log2 W) W) (fun (i : vec * vec) r o r' => exists DBi dist, COUNT W (vxor (fst i) DBi) dist /\ first_step (log2 W) W dist (snd i) r o r').
(** first_nns_seq_td *)
Definition first_nns_seq_td (W : nat) :=
  clocked (first_init (W + 2) (2 * W)) (fun (i : vec * vec) r o r' =>
    exists dist, taxicab_distance W (part W (snd i)) (snd i) (part W (fst i)) (fst i) dist /\ first_step (W + 2) (2 * W) dist (snd i) r o r').

(** What k_nns_seq, knns/k_nns_seq.v:1-206, and k_nns_seq_td, knns_td/k_nns_seq_td.v:1-214 (and
    the copy knns_seq_td.v), have in common; [i] is the new element with its distance *)
Definition k_step (L W K : nat) (dist value : vec) (r : (nat -> vec) * (nat -> vec)) (o : vec) (r' : (nat -> vec) * (nat -> vec)) : Prop :=
  let '(min_val_reg, min_dist_reg) := r in
  exists (min_val min_dist local_min_val local_min_dist : nat -> vec) (gt_dist_1 gt_dist_2 : nat -> bool),
    (forall i, (i < K)%nat -> veq W (part (W * i) o) (min_val i)) /\
    (forall i, (i < K)%nat -> COMP L L (min_dist_reg i) (local_min_dist (i + 1)%nat) (gt_dist_1 i) /\
      if (0 <? i)%nat then COMP L L (min_dist_reg (i - 1)%nat) (local_min_dist i) (gt_dist_2 i) else gt_dist_2 i = false) /\
    (forall i, (i < K)%nat ->
      MUX L (min_dist_reg i) (local_min_dist (i + 1)%nat) (gt_dist_1 i) (local_min_dist i) /\
      (if (0 <? i)%nat then MUX L (local_min_dist i) (min_dist_reg (i - 1)%nat) (gt_dist_2 i) (min_dist i) else veq L (min_dist i) (local_min_dist i)) /\
      MUX W (min_val_reg i) (local_min_val (i + 1)%nat) (gt_dist_1 i) (local_min_val i) /\
      (if (0 <? i)%nat then MUX W (local_min_val i) (min_val_reg (i - 1)%nat) (gt_dist_2 i) (min_val i) else veq W (min_val i) (local_min_val i))) /\
    veq L (local_min_dist K) dist /\ veq W (local_min_val K) value /\
    (forall j, (j < K)%nat -> veq W (fst r' j) (min_val j) /\ veq L (snd r' j) (min_dist j)).
Definition k_init (L W K : nat) (r : (nat -> vec) * (nat -> vec)) : Prop :=
  forall j, (j < K)%nat -> veq W (fst r j) (rep false) /\ veq L (snd r j) (rep true).
(** k_nns_seq *)
Definition k_nns_seq (W K : nat) :=
  clocked (k_init (log2 W) W K) (fun (i : vec * vec) r o r' => exists dist, COUNT W (vxor (fst i) (snd i)) dist /\ k_step (log2 W) W K dist (snd i) r o r').
(** k_nns_seq_td; "assign min_val_out = o" (line 39) is taken as an equation, which is how the
    synthesis tool merges nets: read as a driver of min_val_out it would leave o without one.  The
    element that is kept is the garbler's. *)
Definition k_nns_seq_td (W K : nat) :=
  clocked (k_init (W + 2) (2 * W) K) (fun (i : vec * vec) r o r' =>
    exists dist, taxicab_distance W (part W (snd i)) (snd i) (part W (fst i)) (fst i) dist /\ k_step (W + 2) (2 * W) K dist (fst i) r o r').

(** * Specification *)
(** Hamming distance of two vectors, and the distance of two points in the city block metric *)
Definition hdist (W : nat) (a b : vec) : Z := ones W (vxor a b).
Definition tdist (W : nat) (a b : vec) : Z := Z.abs (val W (part W a) - val W (part W b)) + Z.abs (val W a - val W b).
(** The [k] elements of smallest distance among [l] (pairs of distance and value) are [a], in
    order *)
Definition nearest (k : nat) (l a : list (Z * Z)) : Prop :=
  length a = Nat.min k (length l) /\ StronglySorted (fun x y => fst x <= fst y) a /\
  exists rest, Permutation (a ++ rest) l /\ forall x y, In x a -> In y rest -> fst x <= fst y.

(** * argmax *)
Theorem argmax_ok N M inp max ind : (0 < N)%nat -> Z.of_nat N < 2 ^ 32 -> argmax N M inp max ind ->
  exists i, (i < N)%nat /\ val (log2 N) ind = Z.of_nat i /\ val M max = val M (part (i * M) inp) /\
    (forall j, (j < N)%nat -> val M (part (j * M) inp) <= val M max) /\
    (forall j, (i < j)%nat -> (j < N)%nat -> val M (part (j * M) inp) < val M max).
Proof.
  intros HN BN (mx & ix & gr & _ & M0 & I0 & ST & ME & IE).
  destruct (log2_ok N BN HN) as [_ LB].
  assert (I : forall g, (g < N)%nat -> exists i, (i <= g)%nat /\ val (log2 N) (ix g) = Z.of_nat i /\ val M (mx g) = val M (part (i * M) inp) /\
    (forall j, (j <= g)%nat -> val M (part (j * M) inp) <= val M (mx g)) /\ (forall j, (i < j)%nat -> (j <= g)%nat -> val M (part (j * M) inp) < val M (mx g))).
  { induction g as [|g IH]; intros Hg.
    - exists 0%nat. split; [lia|]. split; [rewrite (val_ext _ _ _ I0), val_rep_false; reflexivity|]. split; [apply val_ext; exact M0|]. split; [|intros; lia].
      intros j Hj. replace j with 0%nat by lia. rewrite (val_ext _ _ _ M0). apply Z.eq_le_incl. reflexivity.
    - destruct (IH ltac:(lia)) as (i & Hi & IV & MV & LE & LT). destruct (ST (S g) ltac:(lia) Hg) as (GE & XE & NE). replace (S g - 1)%nat with g in * by lia. rewrite GE in XE, NE.
      destruct (Z.ltb_spec (val M (part (S g * M) inp)) (val M (mx g))) as [C|C].
      + exists i. split; [lia|]. rewrite (val_ext _ _ _ NE), (val_ext _ _ _ XE). split; [exact IV|]. split; [exact MV|]. split.
        * intros j Hj. destruct (Nat.eq_dec j (S g)) as [->|]; [lia|apply LE; lia].
        * intros j Hij Hj. destruct (Nat.eq_dec j (S g)) as [->|]; [lia|apply LT; lia].
      + exists (S g). split; [lia|]. rewrite (val_ext _ _ _ NE), (val_ext _ _ _ XE). split; [|split; [reflexivity|split]].
        * rewrite val_of_val. apply Z.mod_small. rewrite <- pow2_nat. lia.
        * intros j Hj. destruct (Nat.eq_dec j (S g)) as [->|]; [lia|]. specialize (LE j ltac:(lia)). lia.
        * intros j Hij Hj. lia. }
  destruct (I (N - 1)%nat ltac:(lia)) as (i & Hi & IV & MV & LE & LT). exists i. rewrite (val_ext _ _ _ ME), (val_ext _ _ _ IE).
  split; [lia|]. split; [exact IV|]. split; [exact MV|]. split; [intros; apply LE; lia|intros; apply LT; lia].
Qed.
Theorem argmax_total N M inp : exists max ind, argmax N M inp max ind.
Proof.
  set (S_ := log2 N).
  destruct (iterate (inp, rep false) (fun g (x y : vec * vec) => let c := val M (part (S g * M) inp) <? val M (fst x) in y = (if c then fst x else part (S g * M) inp, if c then snd x else of_val (Z.of_nat (S g))))) with (n := N) as (w & W0 & W).
  { intros k x. eexists. reflexivity. }
  exists (fst (w (N - 1)%nat)), (snd (w (N - 1)%nat)), (fun g => fst (w g)), (fun g => snd (w g)), (fun g => match g with O => false | S k => val M (part (g * M) inp) <? val M (fst (w k)) end).
  split; [reflexivity|]. split; [rewrite W0; intros i _; reflexivity|]. split; [rewrite W0; intros i _; reflexivity|]. split; [|split; intros i _; reflexivity].
  intros g H1 Hg. destruct g as [|g]; [lia|]. replace (S g - 1)%nat with g by lia. specialize (W g ltac:(lia)). cbn beta zeta in W. rewrite W. split; [reflexivity|]. split; intros i _; reflexivity.
Qed.

(** * encoder *)
Lemma some_ok n v : some n v = true <-> exists i, (i < n)%nat /\ v i = true.
Proof.
  induction n as [|n IH]; cbn [some]; [split; [discriminate|intros (i & ? & _); lia]|]. rewrite orb_true_iff, IH. split.
  - intros [(i & Hi & V)|V]; [exists i; split; [lia|exact V]|exists n; split; [lia|exact V]].
  - intros (i & Hi & V). destruct (Nat.eq_dec i n) as [->|]; [right; exact V|left; exists i; split; [lia|exact V]].
Qed.
Lemma testbit_split l i b : (i < 2 ^ l)%nat -> (b < l)%nat -> Nat.testbit (2 ^ l + i) b = Nat.testbit i b.
Proof.
  intros Hi Hb. rewrite !Nat.testbit_eqb. f_equal. replace l with (b + S (l - b - 1))%nat by lia. rewrite Nat.pow_add_r, Nat.pow_succ_r'.
  replace (2 ^ b * (2 * 2 ^ (l - b - 1)) + i)%nat with (i + (2 ^ (l - b - 1) * 2) * 2 ^ b)%nat by nia. rewrite Nat.div_add by (apply Nat.pow_nonzero; lia). rewrite Nat.mod_add by lia. reflexivity.
Qed.
Theorem encoder__ok logS inp o : encoder_ logS inp o ->
  forall b, (b < logS)%nat -> o b = true <-> exists i, (i < 2 ^ logS)%nat /\ inp i = true /\ Nat.testbit i b = true.
Proof.
  revert inp o. induction logS as [|l IH]; intros inp o H b Hb; [lia|]. destruct l as [|l].
  - cbn [encoder_] in H. replace b with 0%nat by lia. rewrite (H 0%nat ltac:(lia)). unfold bit. split.
    + intros V. exists 1%nat. cbn. split; [lia|]. auto.
    + intros (i & Hi & V & T). change (2 ^ 1)%nat with 2%nat in Hi. destruct i as [|[|i]]; [discriminate T|exact V|lia].
  - destruct H as (o0 & o1 & H0 & H1 & OE). set (k := S l) in *. change (2 ^ S k)%nat with (2 * 2 ^ k)%nat. rewrite (OE b) by exact Hb. unfold cat. destruct (Nat.ltb_spec b k) as [C|C].
    + rewrite orb_true_iff, (IH inp o0 H0 b C), (IH (part (2 ^ k) inp) o1 H1 b C). split.
      * intros [(i & Hi & V & T)|(i & Hi & V & T)]; [exists i; split; [lia|]; auto|]. exists (2 ^ k + i)%nat. split; [lia|]. split; [exact V|]. rewrite testbit_split by lia. exact T.
      * intros (i & Hi & V & T). destruct (Nat.lt_ge_cases i (2 ^ k)) as [D|D]; [left; exists i; auto|]. right. exists (i - 2 ^ k)%nat. split; [lia|]. unfold part. replace (2 ^ k + (i - 2 ^ k))%nat with i by lia. split; [exact V|].
        replace i with (2 ^ k + (i - 2 ^ k))%nat in T by lia. rewrite testbit_split in T by lia. exact T.
    + assert (b = k) by lia. subst b. unfold bit. rewrite some_ok. unfold part.
      assert (TB : forall i, (i < 2 * 2 ^ k)%nat -> Nat.testbit i k = (2 ^ k <=? i)%nat).
      { intros i Hi. rewrite Nat.testbit_eqb. pose proof (Nat.pow_nonzero 2 k ltac:(lia)). destruct (Nat.leb_spec (2 ^ k) i).
        - replace (i / 2 ^ k)%nat with 1%nat; [reflexivity|]. apply (Nat.div_unique i (2 ^ k) 1 (i - 2 ^ k)); lia.
        - rewrite Nat.div_small by lia. reflexivity. }
      split.
      * intros (i & Hi & V). exists (2 ^ k + i)%nat. split; [lia|]. split; [exact V|]. rewrite TB by lia. apply Nat.leb_le. lia.
      * intros (i & Hi & V & T). rewrite TB in T by lia. apply Nat.leb_le in T. exists (i - 2 ^ k)%nat. split; [lia|]. replace (2 ^ k + (i - 2 ^ k))%nat with i by lia. exact V.
Qed.
Lemma testbit_nat k b : Nat.testbit k b = Z.testbit (Z.of_nat k) (Z.of_nat b).
Proof.
  rewrite Nat.testbit_eqb, Z.testbit_eqb by lia. rewrite <- pow2_nat, <- Nat2Z.inj_div. change 2 with (Z.of_nat 2). rewrite <- Nat2Z.inj_mod. change 1 with (Z.of_nat 1).
  destruct (Nat.eqb_spec ((k / 2 ^ b) mod 2) 1) as [E|E]; symmetry; [apply Z.eqb_eq|apply Z.eqb_neq]; lia.
Qed.
(** The place of the single 1 *)
Theorem encoder_ok logS g e o k : encoder logS g e o -> (k < 2 ^ logS)%nat ->
  (forall i, (i < 2 ^ logS)%nat -> cat e (2 ^ logS / 2) g i = (i =? k)%nat) -> val logS o = Z.of_nat k.
Proof.
  intros (inp & IE & H) Hk ONE. rewrite <- (Z.mod_small (Z.of_nat k) (2 ^ Z.of_nat logS)) by (rewrite <- pow2_nat; lia). rewrite <- val_of_val. apply val_ext. intros b Hb.
  unfold of_val. rewrite <- testbit_nat.
  apply eq_true_iff_eq. rewrite (encoder__ok _ _ _ H b Hb). split.
  - intros (i & Hi & V & T). rewrite IE, ONE in V by exact Hi. apply Nat.eqb_eq in V. subst i. exact T.
  - intros T. exists k. split; [exact Hk|]. split; [rewrite IE, ONE by exact Hk; apply Nat.eqb_refl|exact T].
Qed.
Theorem encoder_total logS g e : (0 < logS)%nat -> exists o, encoder logS g e o.
Proof.
  intros H. assert (T : forall inp, exists o, encoder_ logS inp o).
  { induction logS as [|l IH]; [lia|]. intros inp. destruct l as [|l]; [exists (bit (inp 1%nat)); intros i _; reflexivity|].
    destruct (IH ltac:(lia) inp) as (o0 & E0). destruct (IH ltac:(lia) (part (2 ^ S l) inp)) as (o1 & E1). eexists. exists o0, o1. split; [exact E0|]. split; [exact E1|]. intros i _. reflexivity. }
  destruct (T (cat e (2 ^ logS / 2) g)) as (o & E). exists o, (cat e (2 ^ logS / 2) g). split; [intros i _; reflexivity|exact E].
Qed.

(** * Distances *)
Lemma SUB_1_ok N A B D : SUB_1 N A B D -> D N = (val N A <? val N B) /\ val N D = (val N A - val N B) mod 2 ^ Z.of_nat N.
Proof.
  intros (CO & DN & AD). pose proof (ADD_ok _ _ _ _ _ _ _ (le_n _) AD) as E. rewrite val_not in E. cbn [Z.b2z] in E. pose proof (val_bound N D). pose proof (val_bound N A). pose proof (val_bound N B).
  destruct CO; cbn [Z.b2z negb] in *; rewrite DN.
  - split; [symmetry; apply Z.ltb_ge; lia|]. apply Z.mod_unique_pos with 0; lia.
  - split; [symmetry; apply Z.ltb_lt; lia|]. apply Z.mod_unique_pos with (-1); lia.
Qed.
Lemma SUB_1_total N A B : exists D, SUB_1 N A B D.
Proof.
  destruct (ADD_total N N A (vnot B) true) as (CO & s & AD). destruct (top_total N s (negb CO)) as (D & E & T). exists D, CO. split; [exact T|]. eapply ADD_ext; [|exact AD]. intros i Hi. symmetry. apply E, Hi.
Qed.
Lemma abs_ok N a b d12 d21 d : SUB_1 N a b d12 -> SUB_1 N b a d21 -> MUX (N + 1) d12 d21 (d12 N) d -> val (N + 1) d = Z.abs (val N a - val N b).
Proof.
  intros S1 S2 MX. apply SUB_1_ok in S1. apply SUB_1_ok in S2. destruct S1 as [T1 V1], S2 as [T2 V2]. apply MUX_val in MX. rewrite MX, T1. pose proof (val_bound N a). pose proof (val_bound N b).
  rewrite Nat.add_1_r. destruct (Z.ltb_spec (val N a) (val N b)) as [C|C]; cbn [val].
  - rewrite V2, T2. destruct (Z.ltb_spec (val N b) (val N a)); [lia|]. rewrite Z.mod_small by lia. cbn [Z.b2z]. lia.
  - rewrite V1, T1. destruct (Z.ltb_spec (val N a) (val N b)); [lia|]. rewrite Z.mod_small by lia. cbn [Z.b2z]. lia.
Qed.
Theorem taxicab_ok N x1 y1 x2 y2 dist : taxicab_distance N x1 y1 x2 y2 dist ->
  val (N + 2) dist = Z.abs (val N x1 - val N x2) + Z.abs (val N y1 - val N y2).
Proof.
  intros (a & b & c & d & e & f & S1 & S2 & M1 & S3 & S4 & M2 & AD). pose proof (abs_ok _ _ _ _ _ _ S1 S2 M1) as E1. pose proof (abs_ok _ _ _ _ _ _ S3 S4 M2) as E2.
  apply ADD_ok in AD; [|apply le_n]. rewrite E1, E2 in AD. cbn [Z.b2z] in AD. replace (N + 2)%nat with (S (N + 1)) by lia. cbn [val]. lia.
Qed.
Theorem taxicab_total N x1 y1 x2 y2 : exists dist, taxicab_distance N x1 y1 x2 y2 dist.
Proof.
  destruct (SUB_1_total N x1 x2) as (a & S1). destruct (SUB_1_total N x2 x1) as (b & S2). destruct (MUX_total (N + 1) a b (a N)) as (c & M1).
  destruct (SUB_1_total N y1 y2) as (d & S3). destruct (SUB_1_total N y2 y1) as (e & S4). destruct (MUX_total (N + 1) d e (d N)) as (f & M2).
  destruct (ADD_total (N + 1) (N + 1) c f false) as (co & s & AD). destruct (top_total (N + 1) s co) as (D & E & T). exists D, a, b, c, d, e, f. do 6 (split; [assumption|]). rewrite T. eapply ADD_ext; [|exact AD]. intros i Hi. symmetry. apply E, Hi.
Qed.

(** * The first neighbour *)
(** The chain finds the element of the greatest distance. *)
Lemma chain_max L W N dist value o : (0 < N)%nat -> chain L W N dist value o ->
  exists i, (i < N)%nat /\ veq W o (value i) /\ forall j, (j < N)%nat -> val L (dist j) <= val L (dist i).
Proof.
  intros HN (mv & md & gt & V0 & D0 & CP & MX & OE).
  assert (I : forall g, (g < N)%nat -> exists i, (i <= g)%nat /\ veq W (mv g) (value i) /\ val L (md g) = val L (dist i) /\ forall j, (j <= g)%nat -> val L (dist j) <= val L (dist i)).
  { induction g as [|g IH]; intros Hg.
    - exists 0%nat. split; [lia|]. split; [exact V0|]. split; [apply val_ext; exact D0|]. intros j Hj. replace j with 0%nat by lia. lia.
    - destruct (IH ltac:(lia)) as (i & Hi & VI & DI & LE). specialize (CP (S g) ltac:(lia) Hg). destruct (MX (S g) ltac:(lia) Hg) as [MV MD]. replace (S g - 1)%nat with g in * by lia.
      apply COMP_ok in CP; [|apply le_n]. apply MUX_ok in MV. apply MUX_val in MD. rewrite CP in *. destruct (Z.leb_spec (val L (dist (S g))) (val L (md g))) as [C|C].
      + exists i. split; [lia|]. split; [intros b Hb; rewrite MV, VI by exact Hb; reflexivity|]. split; [rewrite MD; exact DI|]. intros j Hj. destruct (Nat.eq_dec j (S g)) as [->|]; [lia|apply LE; lia].
      + exists (S g). split; [lia|]. split; [exact MV|]. split; [exact MD|]. intros j Hj. destruct (Nat.eq_dec j (S g)) as [->|]; [lia|]. specialize (LE j ltac:(lia)). lia. }
  destruct (I (N - 1)%nat ltac:(lia)) as (i & Hi & VI & _ & LE). exists i. split; [lia|]. split; [intros b Hb; rewrite OE, VI by exact Hb; reflexivity|]. intros j Hj. apply LE. lia.
Qed.
Lemma chain_total L W N dist value : exists o, chain L W N dist value o.
Proof.
  destruct (iterate (value 0%nat, dist 0%nat, false) (fun g x y => let '(v, d, _) := x in let '(v', d', c) := y in COMP L L d (dist (S g)) c /\ MUX W (value (S g)) v c v' /\ MUX L (dist (S g)) d c d')) with (n := N) as (w & W0 & WS).
  { intros k [[v d] c0]. destruct (COMP_total L L d (dist (S k))) as (c & CP). destruct (MUX_total W (value (S k)) v c) as (v' & M1). destruct (MUX_total L (dist (S k)) d c) as (d' & M2). exists (v', d', c). auto. }
  exists (fst (fst (w (N - 1)%nat))), (fun g => fst (fst (w g))), (fun g => snd (fst (w g))), (fun g => snd (w g)). rewrite W0. cbn [fst snd]. split; [intros i _; reflexivity|]. split; [intros i _; reflexivity|].
  split; [|split; [|intros i _; reflexivity]].
  - intros i H1 Hi. destruct i as [|i]; [lia|]. replace (S i - 1)%nat with i by lia. specialize (WS i ltac:(lia)). destruct (w i) as [[v d] c0], (w (S i)) as [[v' d'] c]. cbn [fst snd]. apply WS.
  - intros i H1 Hi. destruct i as [|i]; [lia|]. replace (S i - 1)%nat with i by lia. specialize (WS i ltac:(lia)). destruct (w i) as [[v d] c0], (w (S i)) as [[v' d'] c]. cbn [fst snd]. split; apply WS.
Qed.
Theorem first_comb_ok W N g e o : (0 < N)%nat -> Z.of_nat W < 2 ^ 32 -> first_nns_comb W N g e o ->
  exists i, (i < N)%nat /\ veq W o (part (W * i) e) /\ forall j, (j < N)%nat -> hdist W g (part (W * j) e) <= hdist W g (part (W * i) e).
Proof.
  intros HN BW (dist & db & DE & CT & CH). destruct (chain_max _ _ _ _ _ _ HN CH) as (i & Hi & OE & LE). exists i. split; [exact Hi|].
  split; [intros b Hb; rewrite OE, (DE i Hi) by exact Hb; reflexivity|].
  assert (DV : forall j, (j < N)%nat -> val (log2 W) (dist j) = hdist W g (part (W * j) e)).
  { intros j Hj. rewrite (COUNT_ok _ _ _ (CT j Hj) BW). apply ones_ext. intros b Hb. unfold vxor. rewrite (DE j Hj) by exact Hb. reflexivity. }
  intros j Hj. rewrite <- !DV by assumption. apply LE, Hj.
Qed.
Lemma family {A B} (R : A -> B -> Prop) n (f : nat -> A) (b0 : B) : (forall a, exists b, R a b) -> exists g : nat -> B, forall i, (i < n)%nat -> R (f i) (g i).
Proof.
  intros T. induction n as [|n (g & G)]; [exists (fun _ => b0); intros; lia|]. destruct (T (f n)) as (b & RB). exists (fun i => if (i <? n)%nat then g i else b). intros i Hi. destruct (Nat.ltb_spec i n); [apply G; lia|]. replace i with n by lia. exact RB.
Qed.
Theorem first_comb_total W N g e : (0 < W)%nat -> Z.of_nat W < 2 ^ 32 -> exists o, first_nns_comb W N g e o.
Proof.
  intros HW BW. destruct (family (fun a b => COUNT W (vxor g a) b) N (fun i => part (W * i) e) (rep false)) as (dist & D). { intros a. apply COUNT_total; assumption. }
  destruct (chain_total (log2 W) W N dist (fun i => part (W * i) e)) as (o & C). exists o, dist, (fun i => part (W * i) e). split; [intros i _ b _; reflexivity|]. split; assumption.
Qed.
(** So it is not the nearest. *)
Theorem first_comb_nearest : exists W N g e o, first_nns_comb W N g e o /\
  ~ exists i, (i < N)%nat /\ veq W o (part (W * i) e) /\ forall j, (j < N)%nat -> hdist W g (part (W * i) e) <= hdist W g (part (W * j) e).
Proof.
  exists 15%nat, 2%nat, (of_val 0x1234), (of_val (0x1235 + 2 ^ 15 * 0x7fff)). destruct (first_comb_total 15 2 (of_val 0x1234) (of_val (0x1235 + 2 ^ 15 * 0x7fff)) ltac:(lia) ltac:(lia)) as (o & H). exists o. split; [exact H|].
  destruct (first_comb_ok 15 2 _ _ _ ltac:(lia) ltac:(lia) H) as (i & Hi & OE & LE). intros (k & Hk & OK & LK).
  assert (i = 1)%nat. { destruct i as [|[|i]]; [|reflexivity|lia]. exfalso. specialize (LE 1%nat ltac:(lia)). vm_compute in LE. apply LE. reflexivity. }
  assert (k = 0)%nat. { destruct k as [|[|k]]; [reflexivity| |lia]. exfalso. specialize (LK 0%nat ltac:(lia)). vm_compute in LK. apply LK. reflexivity. }
  subst i k. pose proof (OE 1%nat ltac:(lia)) as A. pose proof (OK 1%nat ltac:(lia)) as B. rewrite A in B. vm_compute in B. discriminate B.
Qed.
(** Likewise with points in the plane. *)
Theorem first_comb_td_ok W N g e o : (0 < N)%nat -> first_nns_comb_td W N g e o ->
  exists i, (i < N)%nat /\ veq (2 * W) o (part (2 * W * i) e) /\ forall j, (j < N)%nat -> tdist W (part (2 * W * j) e) g <= tdist W (part (2 * W * i) e) g.
Proof.
  intros HN (dist & x & y & DE & TX & CH). destruct (chain_max _ _ _ _ _ _ HN CH) as (i & Hi & OE & LE). exists i. split; [exact Hi|].
  assert (XE : forall j, (j < N)%nat -> veq W (x j) (part W (part (2 * W * j) e))).
  { intros j Hj b Hb. destruct (DE j Hj) as [XJ _]. rewrite XJ by exact Hb. unfold part. f_equal. lia. }
  split.
  - intros b Hb. rewrite OE by exact Hb. unfold cat. destruct (DE i Hi) as [_ YI]. destruct (Nat.ltb_spec b W); [apply YI; lia|]. rewrite (XE i Hi) by lia. unfold part. f_equal. lia.
  - assert (DV : forall j, (j < N)%nat -> val (W + 2) (dist j) = tdist W (part (2 * W * j) e) g).
    { intros j Hj. rewrite (taxicab_ok _ _ _ _ _ _ (TX j Hj)). destruct (DE j Hj) as [_ YJ]. rewrite (val_ext _ _ _ (XE j Hj)), (val_ext _ _ _ YJ). reflexivity. }
    intros j Hj. rewrite <- !DV by assumption. apply LE, Hj.
Qed.
Theorem first_comb_td_total W N g e : exists o, first_nns_comb_td W N g e o.
Proof.
  destruct (family (fun a b => taxicab_distance W (fst a) (snd a) (part W g) g b) N (fun i => (part (2 * W * (i + 1) - W) e, part (2 * W * i) e)) (rep false)) as (dist & D). { intros a. apply taxicab_total. }
  destruct (chain_total (W + 2) (2 * W) N dist (fun i => cat (part (2 * W * (i + 1) - W) e) W (part (2 * W * i) e))) as (o & C).
  exists o, dist, (fun i => part (2 * W * (i + 1) - W) e), (fun i => part (2 * W * i) e). split; [intros i _; split; intros b _; reflexivity|]. split; [exact D|exact C].
Qed.
(** The sequential ones always put out 0. *)
Lemma first_zero {I} L W (step : I -> vec * vec -> vec -> vec * vec -> Prop) n i o :
  (forall a r o r', step a r o r' -> exists dist e, first_step L W dist e r o r') ->
  clocked (first_init L W) step n i o -> forall t, (t < n)%nat -> val W (o t) = 0.
Proof.
  intros FS (s & [V0 D0] & ST).
  assert (STEP : forall t, (t < n)%nat -> veq W (fst (s t)) (rep false) -> veq L (snd (s t)) (rep true) ->
    veq W (o t) (rep false) /\ veq W (fst (s (S t))) (rep false) /\ veq L (snd (s (S t))) (rep true)).
  { intros t Ht V D. destruct (FS _ _ _ _ (ST t Ht)) as (dist & e & F). destruct (s t) as [v d]. cbn [fst snd] in V, D. destruct F as (gt & mv & md & CP & M1 & M2 & OE & E1 & E2). apply COMP_ok in CP; [|apply le_n].
    rewrite (val_ext _ _ _ D), val_rep_true in CP. pose proof (val_bound L dist). destruct (Z.leb_spec (val L dist) (2 ^ Z.of_nat L - 1)); [|lia]. subst gt. apply MUX_ok in M1. apply MUX_ok in M2.
    split; [|split]; intros b Hb; [rewrite OE, M1, V by exact Hb|rewrite E1, M1, V by exact Hb|rewrite E2, M2, D by exact Hb]; reflexivity. }
  assert (I2 : forall t, (t <= n)%nat -> veq W (fst (s t)) (rep false) /\ veq L (snd (s t)) (rep true)).
  { induction t as [|t IH]; intros Ht; [auto|]. destruct (IH ltac:(lia)) as [V D]. destruct (STEP t ltac:(lia) V D) as (_ & A & B). auto. }
  intros t Ht. destruct (I2 t ltac:(lia)) as [V D]. destruct (STEP t Ht V D) as [OE _]. rewrite (val_ext _ _ _ OE). apply val_rep_false.
Qed.
Theorem first_seq_zero W n i o : first_nns_seq W n i o -> forall t, (t < n)%nat -> val W (o t) = 0.
Proof. apply first_zero. intros a r o' r' (DBi & dist & _ & F). eauto. Qed.
Theorem first_seq_td_zero W n i o : first_nns_seq_td W n i o -> forall t, (t < n)%nat -> val (2 * W) (o t) = 0.
Proof. apply first_zero. intros a r o' r' (dist & _ & F). eauto. Qed.
Lemma first_step_total L W dist e r : exists o r', first_step L W dist e r o r'.
Proof.
  destruct r as [v d]. destruct (COMP_total L L d dist) as (gt & CP). destruct (MUX_total W e v gt) as (mv & M1). destruct (MUX_total L dist d gt) as (md & M2). exists mv, (mv, md), gt, mv, md. do 3 (split; [assumption|]). repeat split; intros b _; reflexivity.
Qed.
Theorem first_seq_total W n i : (0 < W)%nat -> Z.of_nat W < 2 ^ 32 -> exists o, first_nns_seq W n i o.
Proof.
  intros HW BW. apply clocked_total; [exists (rep false, rep true); split; intros b _; reflexivity|]. intros a r. destruct (COUNT_total W (vxor (fst a) (rep false)) HW BW) as (dist & C). destruct (first_step_total (log2 W) W dist (snd a) r) as (o & r' & F). exists o, r', (rep false), dist. auto.
Qed.
Theorem first_seq_td_total W n i : exists o, first_nns_seq_td W n i o.
Proof.
  apply clocked_total; [exists (rep false, rep true); split; intros b _; reflexivity|]. intros a r. destruct (taxicab_total W (part W (snd a)) (snd a) (part W (fst a)) (fst a)) as (dist & C). destruct (first_step_total (W + 2) (2 * W) dist (snd a) r) as (o & r' & F). exists o, r', dist. auto.
Qed.
