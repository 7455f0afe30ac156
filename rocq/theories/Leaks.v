(** What the labels handed to the evaluator say about the garbler's inputs. *)
From Coq Require Import ZArith NArith List Bool Lia.
From Verif Require Import Base Gate Circuit CycleModel Spec Run Results
  Proc Codec BN Rand Bounded Tables Protocol Transfer OutTransfer ProtocolOk ProtocolRun.
Import ListNotations.
Open Scope Z_scope.

(** Position in the generator's output of the 0-label of secret initial value [k]
    and of secret input [i] of cycle [cy]. *)
Definition init_index (low : bool) (c : GarbledCircuit) (k : nat) : nat :=
  ((if low then low_init_from c 2 else 2) + k)%nat.
Definition input_index (low : bool) (c : GarbledCircuit) (cy i : nat) : nat :=
  ((if low then low_init_from c 2 + get_secret_init_size c else 2 + get_init_size c) + cy * get_secret_input_size c + i)%nat.

(** Labels the evaluator ends up with, in the mode given. *)
Definition got_init (low : bool) (u : setup) (k : nat) : block := nth k (init_labels low u) 0%N.
Definition got_input (low : bool) (u : setup) (cy i : nat) : block :=
  nth i (if low then low_labels u cy else nth cy (high_labels u) []) 0%N.

Definition lab (R a : block) (b : bool) : block := if b then N.lxor a R else a.

Lemma nth_of {A} (l : list A) i d x : nth_error l i = Some x -> nth i l d = x.
Proof. intros H. exact (nth_error_nth l i d H). Qed.

Lemma got_init_is low u k : (k < get_secret_init_size (u_c u))%nat ->
  got_init low u k = lab (u_R u) (u_ra u (init_index low (u_c u) k)) (init_bits u k).
Proof.
  intros Hk. unfold got_init, init_labels. apply nth_of.
  assert (E : nth_error (firstn (get_secret_init_size (u_c u)) (init_pairs low u)) k =
    Some (u_ra u (init_index low (u_c u) k), N.lxor (u_ra u (init_index low (u_c u) k)) (u_R u))).
  { change (firstn ?n ?l) with (slice_of l 0 n). rewrite slice_nth by exact Hk. cbn [Nat.add]. unfold init_pairs, init_index.
    destruct low; apply fresh_nth; [exact Hk|]. unfold get_secret_init_size, get_init_size in *. lia. }
  rewrite (picked_nth _ _ _ _ E). unfold lab. destruct (init_bits u k); reflexivity.
Qed.
Lemma got_input_is low u cy i : (cy < u_n u)%nat -> (i < get_secret_input_size (u_c u))%nat ->
  got_input low u cy i = lab (u_R u) (u_ra u (input_index low (u_c u) cy i)) (in_bits u cy i).
Proof.
  intros HC Hi. unfold got_input. destruct low.
  - apply nth_of. unfold low_labels.
    assert (E : nth_error (low_pairs u cy) i = Some (u_ra u (input_index true (u_c u) cy i), N.lxor (u_ra u (input_index true (u_c u) cy i)) (u_R u))).
    { unfold low_pairs. rewrite fresh_nth by exact Hi. reflexivity. }
    rewrite (picked_nth _ _ _ _ E). unfold lab. destruct (in_bits u cy i); reflexivity.
  - set (ssz := get_secret_input_size (u_c u)) in *.
    assert (EL : nth cy (high_labels u) [] = picked (in_bits u cy) (slice_of (high_pairs u) (cy * ssz) ssz)).
    { apply nth_of. unfold high_labels. rewrite (map_nth_error _ _ _ (seq_nth_error _ _ HC)). reflexivity. }
    rewrite EL. apply nth_of.
    assert (E : nth_error (slice_of (high_pairs u) (cy * ssz) ssz) i =
      Some (u_ra u (input_index false (u_c u) cy i), N.lxor (u_ra u (input_index false (u_c u) cy i)) (u_R u))).
    { rewrite slice_nth by exact Hi. unfold high_pairs. rewrite fresh_nth.
      - unfold input_index. fold ssz. rewrite !Nat.add_assoc. reflexivity.
      - unfold ssz, get_secret_input_size, get_input_size in *. nia. }
    rewrite (picked_nth _ _ _ _ E). unfold lab. destruct (in_bits u cy i); reflexivity.
Qed.

Lemma init_bits_g u k : (k < g_init_size (u_c u))%nat -> init_bits u k = bit (g_init (u_x u)) k.
Proof. intros H. unfold init_bits, both_bits. rewrite (proj2 (Nat.ltb_lt _ _) H). f_equal. Qed.
Lemma in_bits_g u cy i : (i < g_input_size (u_c u))%nat ->
  in_bits u cy i = bit (g_input (u_x u)) (cy * g_input_size (u_c u) + i).
Proof. intros H. unfold in_bits, both_bits. rewrite (proj2 (Nat.ltb_lt _ _) H). reflexivity. Qed.

(** * The generator *)

(** An evaluator's computation from the global key: the offset, and a garbler's
    bit from the label sent for it. *)
Definition recover_R (key : block) : block := make_R (previous_draw key).
Definition recover_bit (key : block) (index : nat) (label : block) : bool :=
  negb (label =? following_draw key (index - 1))%N.

Lemma R_nonzero u : u_R u <> 0%N.
Proof. pose proof (R_odd u) as H. intros E. rewrite E in H. discriminate. Qed.
Lemma recover_lab u st j b : is_m128 st -> (forall k, u_ra u k = draw st k) -> (1 <= j)%nat ->
  recover_bit (u_key u) j (lab (u_R u) (u_ra u j) b) = b.
Proof.
  intros HS HR HJ. unfold recover_bit, u_key. rewrite (HR 1%nat). destruct (offset_recoverable st HS) as [_ ->].
  replace (1 + (j - 1))%nat with j by lia. rewrite <- HR. unfold lab. destruct b; [|rewrite N.eqb_refl; reflexivity].
  apply negb_true_iff, N.eqb_neq. intros E. apply (R_nonzero u).
  rewrite <- (N.lxor_0_r (u_ra u j)) in E at 2. apply (f_equal (N.lxor (u_ra u j))) in E. rewrite <- !N.lxor_assoc, N.lxor_nilpotent, !N.lxor_0_l in E. exact E.
Qed.

Theorem generator_leaks u st low : is_m128 st -> (forall k, u_ra u k = draw st k) ->
  recover_R (u_key u) = u_R u /\
  (forall k, (k < g_init_size (u_c u))%nat ->
     recover_bit (u_key u) (init_index low (u_c u) k) (got_init low u k) = bit (g_init (u_x u)) k) /\
  (forall cy i, (cy < u_n u)%nat -> (i < g_input_size (u_c u))%nat ->
     recover_bit (u_key u) (input_index low (u_c u) cy i) (got_input low u cy i) =
     bit (g_input (u_x u)) (cy * g_input_size (u_c u) + i)).
Proof.
  intros HS HR. split; [|split].
  - unfold recover_R, u_R, u_key. rewrite (HR 1%nat), (HR 0%nat). apply (offset_recoverable st HS).
  - intros k Hk. rewrite got_init_is by (unfold get_secret_init_size; lia). rewrite (recover_lab u st); auto.
    + apply init_bits_g. exact Hk.
    + unfold init_index, low_init_from. destruct low; [|lia]. destruct (0 <? get_init_size (u_c u))%nat; lia.
  - intros cy i HC Hi. rewrite got_input_is by (auto; unfold get_secret_input_size; lia). rewrite (recover_lab u st); auto.
    + apply in_bits_g. exact Hi.
    + unfold input_index, low_init_from. destruct low; [|lia]. destruct (0 <? get_init_size (u_c u))%nat; lia.
Qed.

(** ** Colour bits: no key needed *)
Lemma lab_lsb R a b : get_LSB R = true -> get_LSB (lab R a b) = xorb (get_LSB a) b.
Proof.
  intros H. unfold lab. destruct b; [|rewrite xorb_false_r; reflexivity]. unfold get_LSB in *. rewrite N.lxor_spec, H. reflexivity.
Qed.
Lemma index_lsb u st j b : (forall k, u_ra u k = draw st k) ->
  get_LSB (lab (u_R u) (u_ra u j) b) = xorb (xorb (get_LSB (draw st 0)) (Nat.odd j)) b.
Proof. intros HR. rewrite lab_lsb by apply R_odd. rewrite HR, draw_lsb. reflexivity. Qed.

(** A garbler's bit, up to one bit common to all of them, from the colour bit of
    its label. *)
Definition colour_guess (index : nat) (label : block) : bool := xorb (get_LSB label) (Nat.odd index).

Theorem colours_leak u st low : (forall k, u_ra u k = draw st k) ->
  exists flip : bool,
  (forall k, (k < g_init_size (u_c u))%nat ->
     colour_guess (init_index low (u_c u) k) (got_init low u k) = xorb flip (bit (g_init (u_x u)) k)) /\
  (forall cy i, (cy < u_n u)%nat -> (i < g_input_size (u_c u))%nat ->
     colour_guess (input_index low (u_c u) cy i) (got_input low u cy i) =
     xorb flip (bit (g_input (u_x u)) (cy * g_input_size (u_c u) + i))).
Proof.
  intros HR. exists (get_LSB (draw st 0)). split.
  - intros k Hk. rewrite got_init_is by (unfold get_secret_init_size; lia). unfold colour_guess.
    rewrite (index_lsb u st) by auto. rewrite <- (init_bits_g u k Hk).
    destruct (get_LSB (draw st 0)), (Nat.odd _), (init_bits u k); reflexivity.
  - intros cy i HC Hi. rewrite got_input_is by (auto; unfold get_secret_input_size; lia). unfold colour_guess.
    rewrite (index_lsb u st) by auto. rewrite <- (in_bits_g u cy i Hi).
    destruct (get_LSB (draw st 0)), (Nat.odd _), (in_bits u cy i); reflexivity.
Qed.

(** * Uniform labels hide the garbler's inputs *)
Definition with_ra (u : setup) (ra : nat -> block) : setup :=
  mkSetup (u_c u) (u_opt u) (u_x u) (u_AES u) (u_sha u) (u_coins u) ra (u_rnd u) (u_junkA u) (u_junkB u) (u_m u).
Definition with_garbler (u : setup) (g0 g1 : N) : setup :=
  mkSetup (u_c u) (u_opt u) (mkInputs (p_init (u_x u)) g0 (e_init (u_x u)) (p_input (u_x u)) g1 (e_input (u_x u)))
    (u_AES u) (u_sha u) (u_coins u) (u_ra u) (u_rnd u) (u_junkA u) (u_junkB u) (u_m u).

(** The secret bit whose 0-label is draw [j]. *)
Definition bit_at (low : bool) (u : setup) (j : nat) : bool :=
  let c := u_c u in
  let i0 := if low then low_init_from c 2 else 2%nat in
  let i1 := if low then (i0 + get_secret_init_size c)%nat else (i0 + get_init_size c)%nat in
  if (j <? i0)%nat then false
  else if (j <? i0 + get_secret_init_size c)%nat then init_bits u (j - i0)
  else if (j <? i1)%nat then false
  else in_bits u ((j - i1) / get_secret_input_size c) ((j - i1) mod get_secret_input_size c).
(** Exchange the two labels of every bit on which the inputs differ. *)
Definition exchange (low : bool) (u : setup) (g0 g1 : N) (ra : nat -> block) (j : nat) : block :=
  if xorb (bit_at low u j) (bit_at low (with_garbler u g0 g1) j) then N.lxor (ra j) (make_R (ra 0%nat)) else ra j.

Lemma bit_at_init low u k : (k < get_secret_init_size (u_c u))%nat -> bit_at low u (init_index low (u_c u) k) = init_bits u k.
Proof.
  intros H. unfold bit_at, init_index. destruct low.
  - destruct (Nat.ltb_spec (low_init_from (u_c u) 2 + k) (low_init_from (u_c u) 2)); [lia|].
    destruct (Nat.ltb_spec (low_init_from (u_c u) 2 + k) (low_init_from (u_c u) 2 + get_secret_init_size (u_c u))); [|lia].
    f_equal. lia.
  - destruct (Nat.ltb_spec (2 + k) 2); [lia|]. destruct (Nat.ltb_spec (2 + k) (2 + get_secret_init_size (u_c u))); [|lia].
    f_equal. lia.
Qed.
Lemma bit_at_input low u cy i : (i < get_secret_input_size (u_c u))%nat ->
  bit_at low u (input_index low (u_c u) cy i) = in_bits u cy i.
Proof.
  intros H. unfold bit_at, input_index. set (ssz := get_secret_input_size (u_c u)) in *.
  assert (LS : (get_secret_init_size (u_c u) <= get_init_size (u_c u))%nat) by (unfold get_secret_init_size, get_init_size; lia).
  assert (DM : ((cy * ssz + i) / ssz = cy /\ (cy * ssz + i) mod ssz = i)%nat).
  { split; [rewrite Nat.div_add_l by lia; rewrite Nat.div_small by lia; lia|].
    rewrite Nat.add_comm, Nat.mod_add by lia. apply Nat.mod_small. lia. }
  destruct low.
  - set (f := low_init_from (u_c u) 2). set (si := get_secret_init_size (u_c u)) in *.
    destruct (Nat.ltb_spec (f + si + cy * ssz + i) f); [lia|].
    destruct (Nat.ltb_spec (f + si + cy * ssz + i) (f + si)); [lia|].
    replace (f + si + cy * ssz + i - (f + si))%nat with (cy * ssz + i)%nat by lia.
    destruct DM as [-> ->]. reflexivity.
  - set (si := get_secret_init_size (u_c u)) in *. set (gi := get_init_size (u_c u)) in *.
    destruct (Nat.ltb_spec (2 + gi + cy * ssz + i) 2); [lia|].
    destruct (Nat.ltb_spec (2 + gi + cy * ssz + i) (2 + si)); [lia|].
    destruct (Nat.ltb_spec (2 + gi + cy * ssz + i) (2 + gi)); [lia|].
    replace (2 + gi + cy * ssz + i - (2 + gi))%nat with (cy * ssz + i)%nat by lia.
    destruct DM as [-> ->]. reflexivity.
Qed.
Lemma exchange_head low u g0 g1 ra j : (j < 2)%nat -> exchange low u g0 g1 ra j = ra j.
Proof.
  intros H. unfold exchange, bit_at. cbn [with_garbler u_c].
  assert (L : (j <? (if low then low_init_from (u_c u) 2 else 2))%nat = true).
  { apply Nat.ltb_lt. destruct low; [|lia]. unfold low_init_from. destruct (0 <? get_init_size (u_c u))%nat; lia. }
  rewrite L. reflexivity.
Qed.

Lemma lab_exchange R a b b' : lab R (if xorb b b' then N.lxor a R else a) b' = lab R a b.
Proof.
  unfold lab. destruct b, b'; cbn [xorb]; auto. rewrite N.lxor_assoc, N.lxor_nilpotent, N.lxor_0_r. reflexivity.
Qed.

Theorem labels_hide u low g0 g1 : exists f : (nat -> block) -> nat -> block,
  (forall ra j, f (f ra) j = ra j) /\
  (forall ra, (forall j, w128 (ra j)) -> forall j, w128 (f ra j)) /\
  (forall ra, let u1 := with_ra u ra in let u2 := with_ra (with_garbler u g0 g1) (f ra) in
     u_R u2 = u_R u1 /\ u_key u2 = u_key u1 /\
     (forall k, (k < get_secret_init_size (u_c u))%nat -> got_init low u2 k = got_init low u1 k) /\
     (forall cy i, (cy < u_n u)%nat -> (i < get_secret_input_size (u_c u))%nat -> got_input low u2 cy i = got_input low u1 cy i)).
Proof.
  exists (exchange low u g0 g1). split; [|split].
  - intros ra j. unfold exchange at 1. rewrite (exchange_head low u g0 g1 ra 0) by lia. unfold exchange.
    destruct (xorb _ _); [|reflexivity]. rewrite N.lxor_assoc, N.lxor_nilpotent, N.lxor_0_r. reflexivity.
  - intros ra H j. unfold exchange. destruct (xorb _ _); [|auto]. apply xor128; [auto|].
    specialize (H 0%nat). unfold make_R, w128 in *. destruct (N.eq_dec (N.lor (ra 0%nat) 1) 0) as [->|NZ]; [reflexivity|].
    apply N.log2_lt_pow2; [lia|]. rewrite N.log2_lor. change (N.log2 1) with 0%N. rewrite N.max_0_r.
    destruct (N.eq_dec (ra 0%nat) 0) as [->|]; [reflexivity|]. apply N.log2_lt_pow2; lia.
  - intros ra u1 u2. assert (ER : u_R u2 = u_R u1) by (unfold u_R; cbn; rewrite exchange_head by lia; reflexivity).
    split; [exact ER|]. split; [unfold u_key; cbn; rewrite exchange_head by lia; reflexivity|]. split.
    + intros k Hk. rewrite (got_init_is low u2) by exact Hk. rewrite (got_init_is low u1) by exact Hk. rewrite ER.
      change (u_ra u2) with (exchange low u g0 g1 ra). change (u_ra u1) with ra. change (u_c u2) with (u_c u). change (u_c u1) with (u_c u).
      unfold exchange. rewrite bit_at_init by exact Hk.
      pose proof (bit_at_init low (with_garbler u g0 g1) k Hk) as Q. change (u_c (with_garbler u g0 g1)) with (u_c u) in Q. rewrite Q.
      change (init_bits (with_garbler u g0 g1) k) with (init_bits u2 k). change (init_bits u k) with (init_bits u1 k).
      change (make_R (ra 0%nat)) with (u_R u1). apply lab_exchange.
    + intros cy i HC Hi. rewrite (got_input_is low u2) by (exact HC || exact Hi). rewrite (got_input_is low u1) by (exact HC || exact Hi). rewrite ER.
      change (u_ra u2) with (exchange low u g0 g1 ra). change (u_ra u1) with ra. change (u_c u2) with (u_c u). change (u_c u1) with (u_c u).
      unfold exchange. rewrite bit_at_input by exact Hi.
      pose proof (bit_at_input low (with_garbler u g0 g1) cy i Hi) as Q. change (u_c (with_garbler u g0 g1)) with (u_c u) in Q. rewrite Q.
      change (in_bits (with_garbler u g0 g1) cy i) with (in_bits u2 cy i). change (in_bits u cy i) with (in_bits u1 cy i).
      change (make_R (ra 0%nat)) with (u_R u1). apply lab_exchange.
Qed.

(** * The labels above are what the evaluator's program computes *)
Theorem labels_sent u : ready u ->
  (runs (GarbleTransfer (u_sha u) (disable_OT (u_opt u)) (u_coins u 0%nat) (g_init (u_x u)) (init_pairs true u) (g_init_size (u_c u)) 0 0)
     (EvaluateTransfer (u_sha u) (disable_OT (u_opt u)) (u_coins u 0%nat) (e_init (u_x u)) (g_init_size (u_c u)) (e_init_size (u_c u)) 0)
     (Some tt) (Some (map (got_init true u) (seq 0 (get_secret_init_size (u_c u)))))) /\
  (forall cy, (cy < u_n u)%nat ->
     runs (GarbleTransfer (u_sha u) (disable_OT (u_opt u)) (u_coins u (S cy)) (g_input (u_x u)) (low_pairs u cy) (g_input_size (u_c u))
             (cy * g_input_size (u_c u)) (cy * e_input_size (u_c u)))
       (EvaluateTransfer (u_sha u) (disable_OT (u_opt u)) (u_coins u (S cy)) (e_input (u_x u)) (g_input_size (u_c u)) (e_input_size (u_c u)) (cy * e_input_size (u_c u)))
       (Some tt) (Some (map (got_input true u cy) (seq 0 (get_secret_input_size (u_c u)))))) /\
  runs (GarbleTransferLabels (u_sha u) (u_c u) (u_opt u) (u_coins u 0%nat) (g_init (u_x u)) (g_input (u_x u)) (init_pairs false u) (high_pairs u))
    (EvaluateTransferLabels (u_sha u) (u_c u) (u_opt u) (u_coins u 0%nat) (e_init (u_x u)) (e_input (u_x u)))
    (Some tt) (Some (map (got_init false u) (seq 0 (get_secret_init_size (u_c u))),
                     map (fun cy => map (got_input false u cy) (seq 0 (get_secret_input_size (u_c u)))) (seq 0 (u_n u)))).
Proof.
  intros RU.
  assert (NL : forall (l : list block) n, length l = n -> map (fun k => nth k l 0%N) (seq 0 n) = l).
  { intros l n <-. apply (nth_ext _ _ 0%N 0%N); [rewrite map_length, seq_length; auto|]. intros k Hk. rewrite map_length, seq_length in Hk.
    apply nth_of. rewrite (map_nth_error _ _ _ (seq_nth_error _ _ Hk)). reflexivity. }
  assert (LI : forall low, length (init_labels low u) = get_secret_init_size (u_c u)).
  { intros low. unfold init_labels. rewrite picked_length. apply firstn_length_le. apply init_pairs_length. }
  split; [|split].
  - unfold got_init. rewrite NL by apply LI. apply (low_init u RU 0 ltac:(lia)).
  - intros cy HC. unfold got_input. rewrite NL by (unfold low_labels; rewrite picked_length; apply fresh_length). apply (low_transfer u RU 0 ltac:(lia)). exact HC.
  - unfold got_init. rewrite NL by apply LI.
    assert (E : map (fun cy => map (got_input false u cy) (seq 0 (get_secret_input_size (u_c u)))) (seq 0 (u_n u)) = high_labels u).
    { unfold high_labels at 1. apply map_ext_in. intros cy HC. apply in_seq in HC. unfold got_input. 
      set (ssz := get_secret_input_size (u_c u)) in *.
      assert (EL : nth cy (high_labels u) [] = picked (in_bits u cy) (slice_of (high_pairs u) (cy * ssz) ssz)).
      { apply nth_of. unfold high_labels. rewrite (map_nth_error _ _ _ (seq_nth_error (u_n u) cy (proj2 HC : (cy < u_n u)%nat))). reflexivity. }
      rewrite EL. apply NL. rewrite picked_length. apply slice_length. pose proof (high_length u). fold ssz in H. nia. }
    rewrite E. apply (high_transfer u RU).
Qed.
