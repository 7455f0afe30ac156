(** circuit_synthesis/lib/stdcells_S.v: the multiplexers with one select bit per input. *)
From Coq Require Import Arith List Bool Lia.
Import ListNotations.

(** * Model *)
(** $pmux, stdcells_S.v:1008-1037; bit 0 first, W is WIDTH.  B_AND_S and B_AND_BITS are put into one expression. *)
Definition pmux (W : nat) (A B Sel : list bool) : list bool :=
  let Y_B := map (fun i => existsb (fun j => nth (W * j + i) B false && nth j Sel false) (seq 0 (length Sel))) (seq 0 W) in
  if existsb (fun s => s) Sel then Y_B else A.
(** status_found_second, stdcells_S.v:1051-1066, from the bit with pre_first on *)
Fixpoint found_second (pre_first : bool) (Sel : list bool) : list bool :=
  match Sel with [] => [] | s :: Sel => (pre_first && s) :: found_second (pre_first || s) Sel end.
(** $safe_pmux, stdcells_S.v:1041-1078 *)
Definition safe_pmux (W : nat) (A B Sel : list bool) : list bool :=
  pmux W A B (map (fun s => s && negb (existsb (fun b => b) (found_second false Sel))) Sel).

(** * Specification *)
(** Input j of those in B, and the select bits that are set *)
Definition input (W : nat) (B : list bool) (j : nat) : list bool := firstn W (skipn (W * j) B).
Definition selected (Sel : list bool) (j : nat) : Prop := nth_error Sel j = Some true.

(** * Proofs *)
Lemma some_selected Sel : existsb (fun s => s) Sel = true <-> exists j, selected Sel j.
Proof.
  rewrite existsb_exists. split.
  - intros (s & I & ->). apply In_nth_error in I. exact I.
  - intros (j & H). exists true. split; [exact (nth_error_In _ _ H)|reflexivity].
Qed.
Lemma selected_nth Sel j : selected Sel j <-> nth j Sel false = true.
Proof.
  unfold selected. split; intros H; [now apply nth_error_nth|]. destruct (nth_error Sel j) as [b|] eqn:E.
  - apply nth_error_nth with (d := false) in E. congruence.
  - apply nth_error_None in E. rewrite nth_overflow in H by exact E. discriminate.
Qed.
Lemma selected_lt Sel j : selected Sel j -> j < length Sel.
Proof. intros H. apply nth_error_Some. unfold selected in H. congruence. Qed.
Lemma nth_skip (B : list bool) : forall n i, nth i (skipn n B) false = nth (n + i) B false.
Proof. induction B as [|b B IH]; intros [|n] i; try reflexivity; [destruct i; reflexivity|]. exact (IH n i). Qed.
Lemma nth_first (B : list bool) : forall n i, i < n -> nth i (firstn n B) false = nth i B false.
Proof. induction B as [|b B IH]; intros [|n] [|i] H; try reflexivity; try lia. apply (IH n i). lia. Qed.
Lemma input_length W B j n : length B = W * n -> j < n -> length (input W B j) = W.
Proof. intros L H. unfold input. rewrite firstn_length, skipn_length, L. nia. Qed.
Lemma input_nth W B j i : i < W -> nth i (input W B j) false = nth (W * j + i) B false.
Proof. intros H. unfold input. rewrite nth_first by exact H. apply nth_skip. Qed.
Lemma nth_map_bits (f : nat -> bool) n k : k < n -> nth k (map f (seq 0 n)) false = f k.
Proof. intros H. rewrite (nth_indep _ false (f 0)) by (now rewrite map_length, seq_length). rewrite map_nth, seq_nth by exact H. reflexivity. Qed.
Theorem pmux_none W A B Sel : (forall j, ~ selected Sel j) -> pmux W A B Sel = A.
Proof. intros H. unfold pmux. destruct (existsb (fun s => s) Sel) eqn:E; [|reflexivity]. apply some_selected in E as (j & E). destruct (H j E). Qed.
(** Bit i is set if it is in one of the selected inputs *)
Theorem pmux_some W A B Sel j i : selected Sel j -> i < W ->
  length (pmux W A B Sel) = W /\ (nth i (pmux W A B Sel) false = true <-> exists k, selected Sel k /\ nth i (input W B k) false = true).
Proof.
  intros H Hi. unfold pmux. assert (E : existsb (fun s => s) Sel = true) by (apply some_selected; now exists j). rewrite E. split; [now rewrite map_length, seq_length|].
  rewrite nth_map_bits by exact Hi. rewrite existsb_exists. split.
  - intros (k & _ & K). apply andb_prop in K as (K1 & K2). exists k. split; [now apply selected_nth|]. now rewrite input_nth.
  - intros (k & K & N). exists k. split; [apply in_seq; pose proof (selected_lt Sel k K); lia|]. apply selected_nth in K. rewrite input_nth in N by exact Hi. now rewrite N, K.
Qed.
Theorem pmux_one W A B Sel j : length B = W * length Sel -> selected Sel j -> (forall k, selected Sel k -> k = j) -> pmux W A B Sel = input W B j.
Proof.
  intros L H U. pose proof (selected_lt Sel j H) as J. assert (LI : length (input W B j) = W) by (apply (input_length W B j (length Sel)); assumption).
  assert (LP : length (pmux W A B Sel) = W) by (unfold pmux; assert (E : existsb (fun s => s) Sel = true) by (apply some_selected; now exists j); rewrite E; now rewrite map_length, seq_length).
  apply (nth_ext _ _ false false); [congruence|]. intros i Hi. rewrite LP in Hi. destruct (pmux_some W A B Sel j i H Hi) as (_ & P).
  apply eq_true_iff_eq. rewrite P. split; [intros (k & K & N); now rewrite <- (U k K)|]. intros N. now exists j.
Qed.
Lemma found_true Sel : existsb (fun b => b) (found_second true Sel) = existsb (fun s => s) Sel.
Proof. induction Sel as [|s Sel IH]; [reflexivity|]. cbn [found_second existsb andb orb]. now rewrite IH. Qed.
Lemma found_two Sel : existsb (fun b => b) (found_second false Sel) = true <-> exists j k, j <> k /\ selected Sel j /\ selected Sel k.
Proof.
  induction Sel as [|s Sel IH]; cbn [found_second existsb andb orb].
  - split; [discriminate|]. intros ([|j] & k & _ & H & _); discriminate H.
  - destruct s.
    + rewrite found_true, some_selected. split.
      * intros (j & H). exists 0, (S j). repeat split; [discriminate|exact H].
      * intros ([|j] & [|k] & D & H & K); [congruence|now exists k|now exists j|now exists j].
    + rewrite IH. split.
      * intros (j & k & D & H & K). exists (S j), (S k). repeat split; [congruence|exact H|exact K].
      * intros ([|j] & [|k] & D & H & K); try discriminate. exists j, k. repeat split; [congruence|exact H|exact K].
Qed.
Lemma mask_true Sel : map (fun s => s && true) Sel = Sel.
Proof. rewrite <- (map_id Sel) at 2. apply map_ext. intros s. apply andb_true_r. Qed.
Theorem safe_none W A B Sel : (forall j, ~ selected Sel j) -> safe_pmux W A B Sel = A.
Proof.
  intros H. unfold safe_pmux. destruct (existsb (fun b => b) (found_second false Sel)) eqn:E; [apply found_two in E as (j & _ & _ & K & _); destruct (H j K)|]. cbn [negb]. rewrite mask_true. now apply pmux_none.
Qed.
Theorem safe_one W A B Sel j : length B = W * length Sel -> selected Sel j -> (forall k, selected Sel k -> k = j) -> safe_pmux W A B Sel = input W B j.
Proof.
  intros L H U. unfold safe_pmux. destruct (existsb (fun b => b) (found_second false Sel)) eqn:E; [apply found_two in E as (k & m & D & K & M); rewrite (U k K), (U m M) in D; congruence|]. cbn [negb]. rewrite mask_true. now apply pmux_one.
Qed.
Theorem safe_many W A B Sel j k : j <> k -> selected Sel j -> selected Sel k -> safe_pmux W A B Sel = A.
Proof.
  intros D J K. unfold safe_pmux. assert (E : existsb (fun b => b) (found_second false Sel) = true) by (apply found_two; exists j, k; auto). rewrite E. apply pmux_none.
  intros m M. apply selected_nth in M. cbn [negb] in M. rewrite (map_ext _ (fun _ => false)) in M by (intros s; apply andb_false_r).
  apply selected_nth in M. unfold selected in M. apply nth_error_In in M. apply in_map_iff in M as (_ & M & _). discriminate.
Qed.
(** With two select bits set the output of $pmux need not be any of the inputs *)
Theorem pmux_two_refuted : ~ forall W A B Sel, length A = W -> length B = W * length Sel -> pmux W A B Sel = A \/ exists j, j < length Sel /\ pmux W A B Sel = input W B j.
Proof.
  intros H. destruct (H 2 [false; false] [true; false; false; true] [true; true] eq_refl eq_refl) as [E|([|[|j]] & J & E)]; [discriminate E|discriminate E|discriminate E|]. cbn in J. lia.
Qed.
Lemma mux_case : pmux 2 [true; true] [true; false; false; true; false; false] [false; true; false] = [false; true] /\ safe_pmux 2 [true; true] [true; false; false; true; false; false] [false; true; false] = [false; true] /\
  pmux 2 [false; false] [true; false; false; true] [true; true] = [true; true] /\ safe_pmux 2 [false; false] [true; false; false; true] [true; true] = [false; false].
Proof. vm_compute. repeat split. Qed.
