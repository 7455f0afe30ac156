(** The AES S-box computed bit by bit: [getSBoxValue] of a23/sbox/sbox.c and, with the
    same statements, of a23/aes/aes.c.

    The function is straight-line code on bit-fields, so the model is the list of its
    statements and an interpreter.  The interpreter says [None] when a
    statement touches an element that the local arrays do not have or reads a bit that has not been
    written; the sizes of the arrays [t] and [z] are parameters, the file declares
    8 and 2. *)
From Coq Require Import ZArith NArith List Bool Lia.
From Verif Require Import Base Codec Tcp SchedSort A23Int AesSpec Aes AesOk.
Import ListNotations.

(** sbox.c:26-29: bits of the input [x], the output [s] and the arrays *)
Inductive loc := X (b : nat) | S_ (b : nat) | Y (i b : nat) | T (i b : nat) | Z_ (i b : nat).
Inductive op := Xor | And | NotXor.
(** destination, operation, operands; [NotXor] is [~a ^ b] *)
Inductive statement := I_ (d : loc) (o : op) (a b : loc).
(** sbox.c:31-149, aes.c:104-222 *)
Definition sbox_code : list statement := [
  I_ (Y 1 6) Xor (X 4) (X 2);
  I_ (Y 1 5) Xor (X 7) (X 1);
  I_ (Y 1 1) Xor (X 7) (X 4);
  I_ (Y 1 0) Xor (X 7) (X 2);
  I_ (T 0 0) Xor (X 6) (X 5);
  I_ (Y 0 1) Xor (T 0 0) (X 0);
  I_ (Y 0 4) Xor (Y 0 1) (X 4);
  I_ (Y 1 4) Xor (Y 1 5) (Y 1 6);
  I_ (Y 0 2) Xor (Y 0 1) (X 7);
  I_ (Y 0 5) Xor (Y 0 1) (X 1);
  I_ (Y 0 3) Xor (Y 0 5) (Y 1 0);
  I_ (T 0 1) Xor (X 3) (Y 1 4);
  I_ (Y 1 7) Xor (T 0 1) (X 2);
  I_ (Y 2 4) Xor (T 0 1) (X 6);
  I_ (Y 0 6) Xor (Y 1 7) (X 0);
  I_ (Y 1 2) Xor (Y 1 7) (T 0 0);
  I_ (Y 1 3) Xor (Y 2 4) (Y 1 1);
  I_ (Y 0 7) Xor (X 0) (Y 1 3);
  I_ (Y 2 1) Xor (Y 1 2) (Y 1 3);
  I_ (Y 2 3) Xor (Y 1 2) (Y 1 0);
  I_ (Y 2 0) Xor (T 0 0) (Y 1 3);
  I_ (Y 2 5) Xor (Y 1 5) (Y 2 0);
  I_ (Y 2 2) Xor (X 7) (Y 2 0);
  I_ (T 0 2) And (Y 1 4) (Y 1 7);
  I_ (T 0 3) And (Y 0 3) (Y 0 6);
  I_ (T 0 4) Xor (T 0 3) (T 0 2);
  I_ (T 0 5) And (Y 0 4) (X 0);
  I_ (T 0 6) Xor (T 0 5) (T 0 2);
  I_ (T 0 7) And (Y 1 5) (Y 2 0);
  I_ (T 1 0) And (Y 0 5) (Y 0 1);
  I_ (T 1 1) Xor (T 1 0) (T 0 7);
  I_ (T 1 2) And (Y 0 2) (Y 0 7);
  I_ (T 1 3) Xor (T 1 2) (T 0 7);
  I_ (T 1 4) And (Y 1 1) (Y 1 3);
  I_ (T 1 5) And (Y 1 6) (Y 2 1);
  I_ (T 1 6) Xor (T 1 5) (T 1 4);
  I_ (T 1 7) And (Y 1 0) (Y 1 2);
  I_ (T 2 0) Xor (T 1 7) (T 1 4);
  I_ (T 2 1) Xor (T 0 4) (T 1 6);
  I_ (T 2 2) Xor (T 0 6) (T 2 0);
  I_ (T 2 3) Xor (T 1 1) (T 1 6);
  I_ (T 2 4) Xor (T 1 3) (T 2 0);
  I_ (T 2 5) Xor (T 2 1) (Y 2 4);
  I_ (T 2 6) Xor (T 2 2) (Y 2 3);
  I_ (T 2 7) Xor (T 2 3) (Y 2 5);
  I_ (T 3 0) Xor (T 2 4) (Y 2 2);
  I_ (T 3 1) Xor (T 2 5) (T 2 6);
  I_ (T 3 2) And (T 2 5) (T 2 7);
  I_ (T 3 3) Xor (T 3 0) (T 3 2);
  I_ (T 3 4) And (T 3 1) (T 3 3);
  I_ (T 3 5) Xor (T 3 4) (T 2 6);
  I_ (T 3 6) Xor (T 2 7) (T 3 0);
  I_ (T 3 7) Xor (T 2 6) (T 3 2);
  I_ (T 4 0) And (T 3 7) (T 3 6);
  I_ (T 4 1) Xor (T 4 0) (T 3 0);
  I_ (T 4 2) Xor (T 2 7) (T 4 1);
  I_ (T 4 3) Xor (T 3 3) (T 4 1);
  I_ (T 4 4) And (T 3 0) (T 4 3);
  I_ (T 4 5) Xor (T 4 4) (T 4 2);
  I_ (T 4 6) Xor (T 3 3) (T 4 4);
  I_ (T 4 7) And (T 3 5) (T 4 6);
  I_ (T 5 0) Xor (T 3 1) (T 4 7);
  I_ (T 5 1) Xor (T 5 0) (T 4 5);
  I_ (T 5 2) Xor (T 3 5) (T 4 1);
  I_ (T 5 3) Xor (T 3 5) (T 5 0);
  I_ (T 5 4) Xor (T 4 1) (T 4 5);
  I_ (T 5 5) Xor (T 5 2) (T 5 1);
  I_ (Z_ 0 0) And (T 5 4) (Y 1 7);
  I_ (Z_ 0 1) And (T 4 5) (Y 0 6);
  I_ (Z_ 0 2) And (T 4 1) (X 0);
  I_ (Z_ 0 3) And (T 5 3) (Y 2 0);
  I_ (Z_ 0 4) And (T 5 0) (Y 0 1);
  I_ (Z_ 0 5) And (T 3 5) (Y 0 7);
  I_ (Z_ 0 6) And (T 5 2) (Y 1 3);
  I_ (Z_ 0 7) And (T 5 5) (Y 2 1);
  I_ (Z_ 1 0) And (T 5 1) (Y 1 2);
  I_ (Z_ 1 1) And (T 5 4) (Y 1 4);
  I_ (Z_ 1 2) And (T 4 5) (Y 0 3);
  I_ (Z_ 1 3) And (T 4 1) (Y 0 4);
  I_ (Z_ 1 4) And (T 5 3) (Y 1 5);
  I_ (Z_ 1 5) And (T 5 0) (Y 0 5);
  I_ (Z_ 1 6) And (T 3 5) (Y 0 2);
  I_ (Z_ 1 7) And (T 5 2) (Y 1 1);
  I_ (Z_ 2 0) And (T 5 5) (Y 1 6);
  I_ (Z_ 2 1) And (T 5 1) (Y 1 0);
  I_ (T 5 6) Xor (Z_ 1 7) (Z_ 2 0);
  I_ (T 5 7) Xor (Z_ 1 2) (Z_ 1 3);
  I_ (T 6 0) Xor (Z_ 0 5) (Z_ 1 5);
  I_ (T 6 1) Xor (Z_ 1 1) (Z_ 1 2);
  I_ (T 6 2) Xor (Z_ 0 2) (Z_ 1 4);
  I_ (T 6 3) Xor (Z_ 0 2) (Z_ 0 5);
  I_ (T 6 4) Xor (Z_ 0 7) (Z_ 1 0);
  I_ (T 6 5) Xor (Z_ 0 0) (Z_ 0 3);
  I_ (T 6 6) Xor (Z_ 0 6) (Z_ 0 7);
  I_ (T 6 7) Xor (Z_ 2 0) (Z_ 2 1);
  I_ (T 7 0) Xor (Z_ 1 4) (T 6 0);
  I_ (T 7 1) Xor (T 6 2) (T 6 5);
  I_ (T 7 2) Xor (Z_ 0 4) (T 5 6);
  I_ (T 7 3) Xor (Z_ 0 3) (T 6 6);
  I_ (T 7 4) Xor (T 5 6) (T 7 1);
  I_ (T 7 5) Xor (Z_ 1 6) (T 7 1);
  I_ (T 7 6) Xor (T 6 4) (T 7 2);
  I_ (T 7 7) Xor (T 6 1) (T 7 2);
  I_ (T 8 0) Xor (Z_ 0 4) (T 7 3);
  I_ (T 8 1) Xor (T 7 5) (T 7 6);
  I_ (T 8 2) Xor (Z_ 0 1) (T 7 7);
  I_ (S_ 7) Xor (T 7 3) (T 7 7);
  I_ (S_ 1) NotXor (T 7 0) (T 7 6);
  I_ (S_ 0) NotXor (T 6 0) (T 7 4);
  I_ (T 8 3) Xor (T 8 0) (T 8 1);
  I_ (S_ 4) Xor (T 6 5) (T 8 2);
  I_ (S_ 3) Xor (T 6 3) (T 8 2);
  I_ (S_ 2) Xor (T 5 7) (T 8 1);
  I_ (S_ 6) NotXor (T 8 0) (S_ 4);
  I_ (S_ 5) NotXor (T 6 7) (T 8 3)
].

Definition loc_eqb (a b : loc) : bool :=
  match a, b with
  | X i, X j | S_ i, S_ j => Nat.eqb i j
  | Y i b, Y j c | T i b, T j c | Z_ i b, Z_ j c => Nat.eqb i j && Nat.eqb b c
  | _, _ => false
  end.
(** Whether the arrays have the element: y[3], t[nt], z[nz] (sbox.c:29, aes.c:102) *)
Definition in_bounds (nt nz : nat) (l : loc) : bool :=
  match l with
  | X _ | S_ _ => true
  | Y i _ => Nat.ltb i 3
  | T i _ => Nat.ltb i nt
  | Z_ i _ => Nat.ltb i nz
  end.
Definition memory := list (loc * bool).
Fixpoint lookup (m : memory) (l : loc) : option bool :=
  match m with
  | [] => None
  | (l', v) :: m => if loc_eqb l l' then Some v else lookup m l
  end.
Definition load (nt nz : nat) (m : memory) (l : loc) : option bool := if in_bounds nt nz l then lookup m l else None.
Definition op_value (o : op) (a b : bool) : bool :=
  match o with Xor => xorb a b | And => andb a b | NotXor => xorb (negb a) b end.
Definition execute (nt nz : nat) (m : memory) (s : statement) : option memory :=
  let 'I_ d o a b := s in
  do va <- load nt nz m a;
  do vb <- load nt nz m b;
  if in_bounds nt nz d then Some ((d, op_value o va vb) :: m) else None.
Fixpoint execute_all (nt nz : nat) (m : memory) (code : list statement) : option memory :=
  match code with
  | [] => Some m
  | s :: code => do m <- execute nt nz m s; execute_all nt nz m code
  end.
(** sbox.c:27: the bits of the argument *)
Definition input_bits (num : N) : memory := map (fun b => (X b, N.testbit num (N.of_nat b))) (seq 0 8).
(** sbox.c:151-153: the byte of the bits [s] *)
Fixpoint output_byte (m : memory) (k : nat) : option N :=
  match k with
  | O => Some 0%N
  | S k => do v <- lookup m (S_ k); do r <- output_byte m k; Some (r + (if v then 2 ^ N.of_nat k else 0))%N
  end.
(** sbox.c:24-154, aes.c:97-227 *)
Definition getSBoxValue (nt nz : nat) (num : N) : option N :=
  do m <- execute_all nt nz (input_bits num) sbox_code; output_byte m 8.
(** sbox.c:164-168; the conversion to [uint8_t] keeps the low byte *)
Definition sbox_main (nt nz : nat) (g e : Z) : option Z :=
  do r <- getSBoxValue nt nz (N.lxor (Z.to_N (g mod 256)) (Z.to_N (e mod 256))); Some (Z.of_N r).

(** * With room for [t[8]] and [z[2]] the value is that of FIPS-197 *)
Theorem sbox_value : forall num, (num < 256)%N -> getSBoxValue 9 3 num = Some (SBox num).
Proof.
  intros num H.
  pose (P := fun b => match getSBoxValue 9 3 b with Some r => N.eqb r (sub b) | None => false end).
  assert (Q : P num = true) by (revert num H; apply check_bytes; vm_compute; reflexivity).
  unfold P in Q. destruct (getSBoxValue 9 3 num) as [r|]; [|discriminate]. apply N.eqb_eq in Q. rewrite Q, sub_ok by exact H. reflexivity.
Qed.
(** More room does not matter. *)
Lemma in_bounds_more nt nz nt' nz' l : (nt <= nt')%nat -> (nz <= nz')%nat -> in_bounds nt nz l = true -> in_bounds nt' nz' l = true.
Proof. intros A B. destruct l; cbn; trivial; intros H; apply Nat.ltb_lt in H; apply Nat.ltb_lt; lia. Qed.
Lemma execute_more nt nz nt' nz' m s m' : (nt <= nt')%nat -> (nz <= nz')%nat -> execute nt nz m s = Some m' -> execute nt' nz' m s = Some m'.
Proof.
  intros A B. destruct s as [d o a b]. cbn [execute]. unfold load.
  destruct (in_bounds nt nz a) eqn:BA; [|discriminate]. rewrite (in_bounds_more _ _ nt' nz' a A B BA).
  destruct (lookup m a); [|discriminate]. cbn [obind].
  destruct (in_bounds nt nz b) eqn:BB; [|discriminate]. rewrite (in_bounds_more _ _ nt' nz' b A B BB).
  destruct (lookup m b); [|discriminate]. cbn [obind].
  destruct (in_bounds nt nz d) eqn:BD; [|discriminate]. rewrite (in_bounds_more _ _ nt' nz' d A B BD). trivial.
Qed.
Lemma execute_all_more nt nz nt' nz' : (nt <= nt')%nat -> (nz <= nz')%nat ->
  forall code m m', execute_all nt nz m code = Some m' -> execute_all nt' nz' m code = Some m'.
Proof.
  intros A B. induction code as [|s code IH]; intros m m' H; [exact H|]. cbn [execute_all] in *. apply obind_some in H as (m1 & H1 & H2).
  rewrite (execute_more _ _ _ _ _ _ _ A B H1). cbn [obind]. apply IH, H2.
Qed.
Theorem sbox_value_more : forall nt nz num, (9 <= nt)%nat -> (3 <= nz)%nat -> (num < 256)%N -> getSBoxValue nt nz num = Some (SBox num).
Proof.
  intros nt nz num A B H. pose proof (sbox_value num H) as V. unfold getSBoxValue in *. apply obind_some in V as (m & E & O).
  rewrite (execute_all_more 9 3 nt nz A B _ _ _ E). exact O.
Qed.

(** * As declared the code leaves its arrays *)
(** The bounds do not depend on the values. *)
Definition touches (s : statement) : list loc := let 'I_ d _ a b := s in [d; a; b].
Lemma execute_outside nt nz m s : existsb (fun l => negb (in_bounds nt nz l)) (touches s) = true -> execute nt nz m s = None.
Proof.
  destruct s as [d o a b]. cbn [touches existsb execute]. unfold load. intros H.
  destruct (in_bounds nt nz a); [|reflexivity]. destruct (lookup m a); [|reflexivity]. cbn [obind].
  destruct (in_bounds nt nz b); [|reflexivity]. destruct (lookup m b); [|reflexivity]. cbn [obind].
  destruct (in_bounds nt nz d); [discriminate|reflexivity].
Qed.
Lemma execute_all_outside nt nz : forall code m, existsb (fun s => existsb (fun l => negb (in_bounds nt nz l)) (touches s)) code = true ->
  execute_all nt nz m code = None.
Proof.
  induction code as [|s code IH]; intros m H; [discriminate|]. cbn [existsb execute_all] in *. apply orb_true_iff in H as [H|H].
  - rewrite (execute_outside _ _ _ _ H). reflexivity.
  - destruct (execute nt nz m s); [|reflexivity]. apply IH, H.
Qed.
Theorem sbox_outside : forall nt nz num, (nt < 9)%nat \/ (nz < 3)%nat -> getSBoxValue nt nz num = None.
Proof.
  intros nt nz num H. unfold getSBoxValue. rewrite execute_all_outside; [reflexivity|]. apply existsb_exists.
  destruct H as [H|H].
  - exists (I_ (T 8 0) Xor (Z_ 0 4) (T 7 3)). split; [unfold sbox_code; cbn; tauto|]. cbn [touches existsb in_bounds].
    destruct (Nat.ltb_spec 8 nt); [lia|reflexivity].
  - exists (I_ (Z_ 2 0) And (T 5 5) (Y 1 6)). split; [unfold sbox_code; cbn; tauto|]. cbn [touches existsb in_bounds].
    destruct (Nat.ltb_spec 2 nz); [lia|reflexivity].
Qed.
Theorem sbox_main_ok : forall nt nz g e, (9 <= nt)%nat -> (3 <= nz)%nat ->
  sbox_main nt nz g e = Some (Z.of_N (SBox (Z.to_N (Z.lxor g e mod 256)))).
Proof.
  intros nt nz g e A B. unfold sbox_main.
  assert (E : N.lxor (Z.to_N (g mod 256)) (Z.to_N (e mod 256)) = Z.to_N (Z.lxor g e mod 256)).
  { pose proof (Z.mod_pos_bound g 256 ltac:(lia)). pose proof (Z.mod_pos_bound e 256 ltac:(lia)). pose proof (Z.mod_pos_bound (Z.lxor g e) 256 ltac:(lia)).
    apply N.bits_inj. intros n. rewrite N.lxor_spec, <- !N2Z.inj_testbit, !Z2N.id by lia. change 256%Z with (2 ^ 8)%Z.
    pose proof (N2Z.is_nonneg n) as I. set (i := Z.of_N n) in *. destruct (Z.lt_ge_cases i 8).
    - rewrite !Z.mod_pow2_bits_low, Z.lxor_spec by lia. reflexivity.
    - rewrite !Z.mod_pow2_bits_high by lia. reflexivity. }
  rewrite E, sbox_value_more; [reflexivity|assumption..|]. pose proof (Z.mod_pos_bound (Z.lxor g e) 256 ltac:(lia)). lia.
Qed.
