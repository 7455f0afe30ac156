(** AES-128 for the garbled processor: a23/aes/aes.c.

    Memory is bytes; an [int] is four of them, least significant first, and the three
    arguments of [gc_main] are read and written through [uint8_t*].  The two-dimensional
    [state[i][j]] is byte 4i+j of the output.  All indices of the file are small, so the
    model computes them as natural numbers. *)
From Coq Require Import Arith ZArith NArith List Bool Lia.
From Verif Require Import Base Codec Tcp SchedSort A23Int AesSpec Aes AesOk AesKey AesCipher A23Sbox.
Import ListNotations.
Open Scope N_scope.

Definition at_n {A} (l : list A) (i : nat) : option A := rd l (Z.of_nat i).
Definition put_n {A} (l : list A) (i : nat) (v : A) : option (list A) := wr l (Z.of_nat i) v.

Section Code.
(** aes.c:97-233: the S-box, computed or looked up *)
Variable sbox_of : N -> option N.

(** aes.c:70-71 *)
Definition Rcon_table : list N := [0x8d; 0x01; 0x02; 0x04; 0x08; 0x10; 0x20; 0x40; 0x80; 0x1b; 0x36].
(** aes.c:242-248 *)
Definition copy_key (Key RoundKey : list N) : option (list N) :=
  for_ 4 (fun i RoundKey =>
    do k0 <- at_n Key (i * 4 + 0); do RoundKey <- put_n RoundKey (i * 4 + 0) k0;
    do k1 <- at_n Key (i * 4 + 1); do RoundKey <- put_n RoundKey (i * 4 + 1) k1;
    do k2 <- at_n Key (i * 4 + 2); do RoundKey <- put_n RoundKey (i * 4 + 2) k2;
    do k3 <- at_n Key (i * 4 + 3); put_n RoundKey (i * 4 + 3) k3) RoundKey.
(** aes.c:253-297 for one [i]; the branch for Nk > 6 is dead as Nk is 4 *)
Definition expand_step (i : nat) (RoundKey : list N) : option (list N) :=
  do t0 <- at_n RoundKey ((i - 1) * 4 + 0);
  do t1 <- at_n RoundKey ((i - 1) * 4 + 1);
  do t2 <- at_n RoundKey ((i - 1) * 4 + 2);
  do t3 <- at_n RoundKey ((i - 1) * 4 + 3);
  do tempa <-
    (if (i mod 4 =? 0)%nat then
       do s0 <- sbox_of t1; do s1 <- sbox_of t2; do s2 <- sbox_of t3; do s3 <- sbox_of t0;
       do rc <- at_n Rcon_table (i / 4);
       Some (N.lxor s0 rc, s1, s2, s3)
     else Some (t0, t1, t2, t3));
  let '(t0, t1, t2, t3) := tempa in
  do r0 <- at_n RoundKey ((i - 4) * 4 + 0); do RoundKey <- put_n RoundKey (i * 4 + 0) (N.lxor r0 t0);
  do r1 <- at_n RoundKey ((i - 4) * 4 + 1); do RoundKey <- put_n RoundKey (i * 4 + 1) (N.lxor r1 t1);
  do r2 <- at_n RoundKey ((i - 4) * 4 + 2); do RoundKey <- put_n RoundKey (i * 4 + 2) (N.lxor r2 t2);
  do r3 <- at_n RoundKey ((i - 4) * 4 + 3); put_n RoundKey (i * 4 + 3) (N.lxor r3 t3).
(** aes.c:236-299 *)
Definition a23_KeyExpansion (Key RoundKey : list N) : option (list N) :=
  do RoundKey <- copy_key Key RoundKey;
  for_from expand_step 4 40 RoundKey.

(** The two loops of aes.c:306-312 and aes.c:320-326: every byte of the state is replaced *)
Definition each_byte (index : nat -> nat -> nat) (f : nat -> N -> option N) (state : list N) : option (list N) :=
  for_ 4 (fun i state => for_ 4 (fun j state =>
    do x <- at_n state (index i j); do y <- f (index i j) x; put_n state (index i j) y) state) state.
(** aes.c:303-313 *)
Definition a23_AddRoundKey (RoundKey : list N) (round : nat) (state : list N) : option (list N) :=
  each_byte (fun i j => i * 4 + j)%nat (fun k x => do r <- at_n RoundKey (round * 16 + k); Some (N.lxor x r)) state.
(** aes.c:317-327 *)
Definition a23_SubBytes (state : list N) : option (list N) :=
  each_byte (fun i j => j * 4 + i)%nat (fun _ x => sbox_of x) state.
(** [state[i][j] = state[k][l]] *)
Definition move (state : list N) (i j k l : nat) : option (list N) :=
  do x <- at_n state (k * 4 + l); put_n state (i * 4 + j) x.
(** aes.c:332-358 *)
Definition a23_ShiftRows (state : list N) : option (list N) :=
  do temp <- at_n state (0 * 4 + 1);
  do state <- move state 0 1 1 1; do state <- move state 1 1 2 1; do state <- move state 2 1 3 1;
  do state <- put_n state (3 * 4 + 1) temp;
  do temp <- at_n state (0 * 4 + 2);
  do state <- move state 0 2 2 2; do state <- put_n state (2 * 4 + 2) temp;
  do temp <- at_n state (1 * 4 + 2);
  do state <- move state 1 2 3 2; do state <- put_n state (3 * 4 + 2) temp;
  do temp <- at_n state (0 * 4 + 3);
  do state <- move state 0 3 3 3; do state <- move state 3 3 2 3; do state <- move state 2 3 1 3;
  put_n state (1 * 4 + 3) temp.
(** aes.c:360-363 *)
Definition a23_xtime (x : N) : N :=
  N.land (N.lxor (N.shiftl x 1) (N.land (N.shiftr x 7) 1 * 0x1b)) 255.
(** aes.c:374-377: [Tm = xtime(a ^ b); state[i][j] ^= Tm ^ Tmp] *)
Definition mix_one (state : list N) (k : nat) (a b Tmp : N) : option (list N) :=
  let Tm := N.lxor a b in let Tm := a23_xtime Tm in
  do x <- at_n state k; put_n state k (N.lxor x (N.lxor Tm Tmp)).
(** aes.c:366-379 *)
Definition a23_MixColumns (state : list N) : option (list N) :=
  for_ 4 (fun i state =>
    do t <- at_n state (i * 4 + 0);
    do a0 <- at_n state (i * 4 + 0); do a1 <- at_n state (i * 4 + 1);
    do a2 <- at_n state (i * 4 + 2); do a3 <- at_n state (i * 4 + 3);
    let Tmp := N.lxor (N.lxor (N.lxor a0 a1) a2) a3 in
    do a0 <- at_n state (i * 4 + 0); do a1 <- at_n state (i * 4 + 1);
    do state <- mix_one state (i * 4 + 0) a0 a1 Tmp;
    do a1 <- at_n state (i * 4 + 1); do a2 <- at_n state (i * 4 + 2);
    do state <- mix_one state (i * 4 + 1) a1 a2 Tmp;
    do a2 <- at_n state (i * 4 + 2); do a3 <- at_n state (i * 4 + 3);
    do state <- mix_one state (i * 4 + 2) a2 a3 Tmp;
    do a3 <- at_n state (i * 4 + 3);
    mix_one state (i * 4 + 3) a3 t Tmp) state.
(** aes.c:382-405 *)
Definition a23_Cipher (RoundKey state : list N) : option (list N) :=
  do state <- a23_AddRoundKey RoundKey 0 state;
  do state <- for_from (fun round state =>
    do state <- a23_SubBytes state;
    do state <- a23_ShiftRows state;
    do state <- a23_MixColumns state;
    a23_AddRoundKey RoundKey round state) 1 9 state;
  do state <- a23_SubBytes state;
  do state <- a23_ShiftRows state;
  a23_AddRoundKey RoundKey 10 state.
(** aes.c:407-414 *)
Definition BlockCopy (output input : list N) : option (list N) :=
  for_ 16 (fun i output => do x <- at_n input i; put_n output i x) output.
(** aes.c:416-428 *)
Definition AES128_ECB_encrypt (input key output RoundKey : list N) : option (list N) :=
  do output <- BlockCopy output input;
  do RoundKey <- a23_KeyExpansion key RoundKey;
  a23_Cipher RoundKey output.
End Code.

(** * The arguments as bytes *)
Definition int_to_bytes (w : Z) : list N := map (fun k => Z.to_N (Z.shiftr (to_uint w) (8 * k) mod 256)) [0; 1; 2; 3]%Z.
Definition ints_to_bytes (l : list Z) : list N := flat_map int_to_bytes l.
Fixpoint bytes_to_ints (l : list N) : list Z :=
  match l with
  | a :: b :: c :: d :: l => to_int (Z.of_N a + 2 ^ 8 * Z.of_N b + 2 ^ 16 * Z.of_N c + 2 ^ 24 * Z.of_N d) :: bytes_to_ints l
  | _ => []
  end.
(** aes.c:430-435 with the computed S-box (aes.c:5), whose arrays have [nt] and [nz]
    elements; [rk] is what the static array held *)
Definition aes_main (nt nz : nat) (g e o : list Z) (rk : list N) : option (list Z) :=
  do out <- AES128_ECB_encrypt (getSBoxValue nt nz) (ints_to_bytes e) (ints_to_bytes g) (ints_to_bytes o) rk;
  Some (bytes_to_ints out).

(** * Proofs *)
Local Opaque sub inv_sub SBox InvSBox gf_mul xtime a23_xtime N.lxor.
Lemma a23_xtime_ok b : b < 256 -> a23_xtime b = xtime b.
Proof. intros H. apply N.eqb_eq. revert b H. apply (check_bytes (fun b => a23_xtime b =? xtime b)). vm_compute. reflexivity. Qed.
Lemma SBox_byte b : b < 256 -> SBox b < 256.
Proof. intros H. rewrite <- sub_ok by exact H. apply sub_byte, H. Qed.

Lemma at_n_ok (l : list N) i : (i < length l)%nat -> at_n l i = Some (nth i l 0).
Proof.
  intros H. unfold at_n, rd. destruct (Z.ltb_spec (Z.of_nat i) 0); [lia|]. rewrite Nat2Z.id. apply nth_error_nth'. exact H.
Qed.
Lemma put_n_ok (l : list N) i v : (i < length l)%nat ->
  put_n l i v = Some (upd_nat l i v).
Proof.
  intros H. unfold put_n, wr. destruct (Z.leb_spec 0 (Z.of_nat i)); [|lia]. destruct (Z.ltb_spec (Z.of_nat i) (Z.of_nat (length l))); [|lia].
  rewrite Nat2Z.id. reflexivity.
Qed.
Lemma nth_upd (l : list N) i v k : (i < length l)%nat -> nth k (upd_nat l i v) 0 = if Nat.eqb k i then v else nth k l 0.
Proof.
  intros H. destruct (Nat.eqb_spec k i) as [->|NE].
  - apply nth_error_nth. rewrite nth_upd_nat, Nat.eqb_refl by exact H. reflexivity.
  - destruct (Nat.lt_ge_cases k (length l)) as [L|L].
    + apply nth_error_nth. rewrite nth_upd_nat by exact H. destruct (Nat.eqb_spec k i); [contradiction|]. apply nth_error_nth'. exact L.
    + rewrite !nth_overflow by (rewrite ?upd_nat_length; exact L). reflexivity.
Qed.
(** Writing four bytes writes a word. *)
Definition put_word (l : list N) (i : nat) (w : word) : list N :=
  upd_nat (upd_nat (upd_nat (upd_nat l (i * 4 + 0) (y0 w)) (i * 4 + 1) (y1 w)) (i * 4 + 2) (y2 w)) (i * 4 + 3) (y3 w).
Lemma put_word_length l i w : length (put_word l i w) = length l.
Proof. unfold put_word. rewrite !upd_nat_length. reflexivity. Qed.
Lemma put_word_nth l i w k : (i * 4 + 4 <= length l)%nat -> nth k (put_word l i w) 0 =
  if Nat.eqb k (i * 4 + 3) then y3 w else if Nat.eqb k (i * 4 + 2) then y2 w else
  if Nat.eqb k (i * 4 + 1) then y1 w else if Nat.eqb k (i * 4 + 0) then y0 w else nth k l 0.
Proof. intros H. unfold put_word. rewrite !nth_upd by (rewrite ?upd_nat_length; lia). reflexivity. Qed.
Ltac decide_nat := repeat match goal with |- context [Nat.eqb ?a ?b] => destruct (Nat.eqb_spec a b); try lia end.
Lemma put_word_at l i w q : (i * 4 + 4 <= length l)%nat -> word_at (put_word l i w) (4 * q) = if Nat.eqb q i then w else word_at l (4 * q).
Proof.
  intros H. unfold word_at. rewrite !put_word_nth by exact H. destruct (Nat.eqb_spec q i) as [->|NE].
  - decide_nat. destruct w; reflexivity.
  - decide_nat. reflexivity.
Qed.

Section Proofs.
Variable sbox_of : N -> option N.
Hypothesis SB : forall b, b < 256 -> sbox_of b = Some (SBox b).

(** ** Key expansion *)
Section Key.
Variables (Key rk0 : list N).
Hypothesis KL : length Key = 16%nat.
Hypothesis KB : bytes_ok Key.
Hypothesis RL : length rk0 = 176%nat.
Definition rcs : list N := [1; 2; 4; 8; 16; 32; 64; 128; 27; 54].

Lemma copy_key_ok : exists rk, copy_key Key rk0 = Some rk /\ length rk = 176%nat /\ forall q, (q < 4)%nat -> word_at rk (4 * q) = word_at Key (4 * q).
Proof.
  unfold copy_key.
  edestruct (for_inv (fun k (rk : list N) => length rk = 176%nat /\ forall q, (q < k)%nat -> word_at rk (4 * q) = word_at Key (4 * q)) 4) as (rk & F & L & V).
  3:{ exists rk. split; [exact F|]. split; [exact L|]. exact V. }
  - split; [exact RL|]. lia.
  - intros i rk I [L V]. cbv beta.
    rewrite (at_n_ok Key (i * 4 + 0)) by lia. cbn [obind]. rewrite put_n_ok by lia. cbn [obind].
    rewrite (at_n_ok Key (i * 4 + 1)) by lia. cbn [obind]. rewrite put_n_ok by (rewrite ?upd_nat_length; lia). cbn [obind].
    rewrite (at_n_ok Key (i * 4 + 2)) by lia. cbn [obind]. rewrite put_n_ok by (rewrite ?upd_nat_length; lia). cbn [obind].
    rewrite (at_n_ok Key (i * 4 + 3)) by lia. cbn [obind]. rewrite put_n_ok by (rewrite ?upd_nat_length; lia).
    eexists. split; [reflexivity|].
    change (upd_nat _ _ _) with (put_word rk i (W (nth (i * 4 + 0) Key 0) (nth (i * 4 + 1) Key 0) (nth (i * 4 + 2) Key 0) (nth (i * 4 + 3) Key 0))).
    rewrite put_word_length. split; [exact L|]. intros q Q. rewrite put_word_at by lia. destruct (Nat.eqb_spec q i) as [->|NE]; [|apply V; lia].
    unfold word_at. f_equal; f_equal; lia.
Qed.

Definition expanded (i : nat) (rk : list N) : Prop :=
  length rk = 176%nat /\
  (forall q, (q < 4)%nat -> word_at rk (4 * q) = word_at Key (4 * q)) /\
  (forall q, (4 <= q < i)%nat -> word_at rk (4 * q) = wxor (word_at rk (4 * (q - 4))) (temp_word 4 rcs q (word_at rk (4 * (q - 1))))) /\
  (forall q, (q < i)%nat -> wbyte (word_at rk (4 * q))).

Lemma expand_step_ok i rk : (4 <= i < 44)%nat -> expanded i rk -> exists rk', expand_step sbox_of i rk = Some rk' /\ expanded (S i) rk'.
Proof.
  intros I (L & E1 & E2 & E3). unfold expand_step.
  rewrite !(at_n_ok rk) by lia. cbn [obind].
  pose proof (E3 (i - 1)%nat ltac:(lia)) as B1. pose proof (E3 (i - 4)%nat ltac:(lia)) as B4.
  set (p := word_at rk (4 * (i - 1))) in *. set (u := word_at rk (4 * (i - 4))) in *.
  assert (P0 : nth ((i - 1) * 4 + 0) rk 0 = y0 p) by (unfold p, word_at; cbn [y0]; f_equal; lia).
  assert (P1 : nth ((i - 1) * 4 + 1) rk 0 = y1 p) by (unfold p, word_at; cbn [y1]; f_equal; lia).
  assert (P2 : nth ((i - 1) * 4 + 2) rk 0 = y2 p) by (unfold p, word_at; cbn [y2]; f_equal; lia).
  assert (P3 : nth ((i - 1) * 4 + 3) rk 0 = y3 p) by (unfold p, word_at; cbn [y3]; f_equal; lia).
  assert (U0 : nth ((i - 4) * 4 + 0) rk 0 = y0 u) by (unfold u, word_at; cbn [y0]; f_equal; lia).
  assert (U1 : nth ((i - 4) * 4 + 1) rk 0 = y1 u) by (unfold u, word_at; cbn [y1]; f_equal; lia).
  assert (U2 : nth ((i - 4) * 4 + 2) rk 0 = y2 u) by (unfold u, word_at; cbn [y2]; f_equal; lia).
  assert (U3 : nth ((i - 4) * 4 + 3) rk 0 = y3 u) by (unfold u, word_at; cbn [y3]; f_equal; lia).
  rewrite P0, P1, P2, P3.
  assert (T : exists t, (if (i mod 4 =? 0)%nat then
       do s0 <- sbox_of (y1 p); do s1 <- sbox_of (y2 p); do s2 <- sbox_of (y3 p); do s3 <- sbox_of (y0 p);
       do rc <- at_n Rcon_table (i / 4); Some (N.lxor s0 rc, s1, s2, s3)
     else Some (y0 p, y1 p, y2 p, y3 p)) = Some (y0 t, y1 t, y2 t, y3 t) /\ t = temp_word 4 rcs i p /\ wbyte t).
  { destruct B1 as (?&?&?&?). unfold temp_word. destruct (i mod 4 =? 0)%nat eqn:M.
    - rewrite !SB by assumption. cbn [obind]. apply Nat.eqb_eq in M. pose proof (Nat.div_mod i 4 ltac:(lia)) as D. rewrite M in D.
      assert (R : exists r, at_n Rcon_table (i / 4) = Some r /\ r = nth (i / 4 - 1) rcs 0 /\ r < 256).
      { assert (J : (1 <= i / 4 <= 10)%nat) by lia. clear - J. set (j := (i / 4)%nat) in *. clearbody j.
        do 11 (destruct j as [|j]; [first [lia|eexists; split; [reflexivity|split; reflexivity]]|]). lia. }
      destruct R as (r & -> & R & RB). cbn [obind].
      exists (W (N.lxor (SBox (y1 p)) r) (SBox (y2 p)) (SBox (y3 p)) (SBox (y0 p))). split; [reflexivity|]. split.
      + unfold wxor, rot_word, wmap. cbn [y0 y1 y2 y3]. rewrite !sub_ok, !N.lxor_0_r, R by assumption. reflexivity.
      + repeat split; cbn [y0 y1 y2 y3]; try (apply xor_byte; [|exact RB]); apply SBox_byte; assumption.
    - exists p. split; [reflexivity|]. split; [reflexivity|]. repeat split; assumption. }
  destruct T as (t & -> & TT & TB). cbn [obind].
  rewrite U0, put_n_ok by lia. cbn [obind].
  rewrite at_n_ok by (rewrite ?upd_nat_length; lia). cbn [obind]. rewrite !nth_upd by (rewrite ?upd_nat_length; lia).
  decide_nat. rewrite U1, put_n_ok by (rewrite ?upd_nat_length; lia). cbn [obind].
  rewrite at_n_ok by (rewrite ?upd_nat_length; lia). cbn [obind]. rewrite !nth_upd by (rewrite ?upd_nat_length; lia).
  decide_nat. rewrite U2, put_n_ok by (rewrite ?upd_nat_length; lia). cbn [obind].
  rewrite at_n_ok by (rewrite ?upd_nat_length; lia). cbn [obind]. rewrite !nth_upd by (rewrite ?upd_nat_length; lia).
  decide_nat. rewrite U3, put_n_ok by (rewrite ?upd_nat_length; lia).
  eexists. split; [reflexivity|].
  change (upd_nat _ _ _) with (put_word rk i (wxor u t)).
  unfold expanded. rewrite put_word_length. split; [exact L|]. split; [|split].
  - intros q Q. rewrite put_word_at by lia. decide_nat. apply E1, Q.
  - intros q Q. rewrite !put_word_at by lia. destruct (Nat.eqb_spec (q - 4) i); [lia|]. destruct (Nat.eqb_spec (q - 1) i); [lia|].
    destruct (Nat.eqb_spec q i) as [E|NE]; [|apply E2; lia]. subst q. rewrite TT. reflexivity.
  - intros q Q. rewrite put_word_at by lia. destruct (Nat.eqb_spec q i) as [E|NE]; [|apply E3; lia]. apply wxor_byte; assumption.
Qed.
Lemma key_expansion_ok : exists rk, a23_KeyExpansion sbox_of Key rk0 = Some rk /\ length rk = 176%nat /\
  forall q, (q < 44)%nat -> word_bytes (word_at rk (4 * q)) = aes_words 4 Key q /\ wbyte (word_at rk (4 * q)).
Proof.
  destruct copy_key_ok as (rk1 & C & L1 & V1). unfold a23_KeyExpansion. rewrite C. cbn [obind].
  destruct (for_from_inv (fun i rk => expanded i rk) (expand_step sbox_of) 4 40 rk1) as (rk & F & (L & E1 & E2 & E3)).
  - split; [exact L1|]. split; [exact V1|]. split; [lia|]. intros q Q. rewrite V1 by exact Q. apply word_at_byte, KB.
  - intros i s I H. apply expand_step_ok; [lia|exact H].
  - exists rk. split; [exact F|]. split; [exact L|].
    pose (ws := map (fun q => word_at rk (4 * q)) (seq 0 44)).
    assert (N_ : forall q, (q < 44)%nat -> nth q ws zero_word = word_at rk (4 * q)).
    { intros q Q. unfold ws. rewrite (nth_indep _ _ (word_at rk (4 * 0))) by (rewrite map_length, seq_length; exact Q).
      rewrite (map_nth (fun q => word_at rk (4 * q)) (seq 0 44) 0%nat), seq_nth by exact Q. reflexivity. }
    assert (LW : length ws = 44%nat) by (unfold ws; rewrite map_length, seq_length; reflexivity).
    destruct (recurrent_words 4 rcs ws Key) as [M B].
    + left. reflexivity.
    + rewrite LW. lia.
    + intros i I. rewrite LW in I. rewrite !N_ by lia. apply E2. lia.
    + intros i I. rewrite N_ by lia. rewrite E1 by exact I. split; [apply four_bytes; lia|apply word_at_byte, KB].
    + intros j J. rewrite LW in J. change ((44 - 1) / 4)%nat with 10%nat in J. clear - J.
      do 10 (destruct j as [|j]; [vm_compute; split; reflexivity|]). lia.
    + intros q Q. split; [|apply E3; exact Q]. unfold aes_words, KeyExpansion. change (4 * (4 + 7))%nat with 44%nat. rewrite LW in M. rewrite <- M.
      rewrite (nth_indep _ [] (word_bytes zero_word)) by (rewrite map_length, LW; exact Q). rewrite map_nth, N_ by exact Q. reflexivity.
Qed.
End Key.

(** ** The state *)
Definition is_state (s : list N) : Prop := length s = 16%nat /\ bytes_ok s.
Ltac state_of s H := destruct H as [?L H];
  do 16 (destruct s as [|? s]; [discriminate|]); destruct s; [|discriminate];
  repeat match goal with H : bytes_ok (_ :: _) |- _ => inversion H; clear H; subst | H : Forall is_byte (_ :: _) |- _ => inversion H; clear H; subst end;
  unfold is_byte in *.
Ltac bytes := repeat first [apply Forall_cons|apply Forall_nil]; unfold is_byte; repeat first [apply xor_byte|apply SBox_byte|apply xtime_byte|assumption].

(** Runs one access of the state. *)
Ltac access := match goal with
  | |- context [at_n (?x :: ?l) ?i] => let r := eval hnf in (at_n (x :: l) i) in change (at_n (x :: l) i) with r; cbn [obind]
  | |- context [put_n (?x :: ?l) ?i ?v] => let r := eval hnf in (put_n (x :: l) i v) in
      match r with Some ?u => let u' := eval cbv [upd_nat Z.to_nat Z.of_nat Pos.of_succ_nat Pos.to_nat Pos.iter_op Init.Nat.add Init.Nat.mul Pos.succ] in u in
        change (put_n (x :: l) i v) with (Some u'); cbn [obind] end
  end.

Lemma sub_bytes_state s : is_state s -> a23_SubBytes sbox_of s = Some (SubBytes s) /\ is_state (SubBytes s).
Proof.
  intros H. state_of s H. split; [|split; [reflexivity|cbn; bytes]].
  unfold a23_SubBytes, each_byte, for_. cbn [for_from Nat.mul Nat.add].
  repeat (access; rewrite ?SB by assumption; cbn [obind]). reflexivity.
Qed.
Lemma shift_rows_state s : is_state s -> a23_ShiftRows s = Some (ShiftRows s) /\ is_state (ShiftRows s).
Proof.
  intros H. state_of s H. split; [reflexivity|split; [reflexivity|cbn; bytes]].
Qed.
Lemma mix_columns_state s : is_state s -> a23_MixColumns s = Some (MixColumns s) /\ is_state (MixColumns s).
Proof.
  intros H. state_of s H.
  assert (E : forall a b c d t, a < 256 -> b < 256 -> c < 256 -> d < 256 -> t = N.lxor (N.lxor (N.lxor a b) c) d ->
     N.lxor a (N.lxor (a23_xtime (N.lxor a b)) t) = N.lxor (N.lxor (N.lxor (gf_mul 2 a) (gf_mul 3 b)) c) d).
  { intros a b c d t A B C D ->. rewrite a23_xtime_ok by (apply xor_byte; assumption). rewrite <- mix_byte by assumption. xors. }
  assert (B : forall a b c d, a < 256 -> b < 256 -> c < 256 -> d < 256 -> N.lxor (N.lxor (N.lxor (gf_mul 2 a) (gf_mul 3 b)) c) d < 256).
  { intros a b c d A B C D. rewrite <- xtime_mul, mul3 by assumption. bytes. }
  split; [|split; [reflexivity|cbn; repeat first [apply Forall_cons|apply Forall_nil]; apply B; assumption]].
  unfold a23_MixColumns, mix_one, for_. cbn [for_from Nat.mul Nat.add].
  repeat access. cbv zeta. repeat access. apply f_equal. cbn.
  repeat (apply f_equal2; [apply E; solve [assumption|xors]|]). reflexivity.
Qed.
Lemma add_round_key_state rk w round s : is_state s ->
  (forall k, (k < 16)%nat -> at_n rk (round * 16 + k) = Some (nth (k mod 4) (w (4 * round + k / 4)%nat) 0) /\ nth (k mod 4) (w (4 * round + k / 4)%nat) 0 < 256) ->
  a23_AddRoundKey rk round s = Some (AddRoundKey w round s) /\ is_state (AddRoundKey w round s).
Proof.
  intros H K. state_of s H. split.
  - unfold a23_AddRoundKey, each_byte, for_. cbn [for_from].
    repeat (access; try (match goal with |- context [at_n rk (round * 16 + ?k)%nat] => rewrite (proj1 (K k ltac:(apply Nat.ltb_lt; reflexivity))) end; cbn [obind])). reflexivity.
  - split; [reflexivity|]. unfold AddRoundKey, tabulate.
    pose proof (fun k H => proj2 (K k H)) as B.
    repeat (apply Forall_cons; [apply xor_byte; [cbn; assumption|apply B; apply Nat.ltb_lt; reflexivity]|]). apply Forall_nil.
Qed.

Local Opaque KeyExpansion key_words.
Lemma AES_eq key s : AES 4 key s = Cipher (aes_words 4 key) 10 s.
Proof. reflexivity. Qed.
Local Opaque Cipher.
Lemma cipher_ok Key rk s : is_state s -> length rk = 176%nat ->
  (forall q, (q < 44)%nat -> word_bytes (word_at rk (4 * q)) = aes_words 4 Key q /\ wbyte (word_at rk (4 * q))) ->
  a23_Cipher sbox_of rk s = Some (AES 4 Key s) /\ is_state (AES 4 Key s).
Proof.
  intros S0 L W. rewrite AES_eq. Local Transparent Cipher. unfold Cipher. change (10 - 1)%nat with 9%nat.
  assert (K : forall round k, (round <= 10)%nat -> (k < 16)%nat -> at_n rk (round * 16 + k) = Some (nth (k mod 4) (aes_words 4 Key (4 * round + k / 4)%nat) 0) /\
     nth (k mod 4) (aes_words 4 Key (4 * round + k / 4)%nat) 0 < 256).
  { intros round k R Hk. rewrite at_n_ok by lia.
    pose proof (Nat.div_mod k 4 ltac:(lia)) as D. pose proof (Nat.mod_upper_bound k 4 ltac:(lia)) as M.
    destruct (W (4 * round + k / 4)%nat ltac:(lia)) as [<- B]. set (q := (4 * round + k / 4)%nat) in *.
    assert (E : nth (k mod 4) (word_bytes (word_at rk (4 * q))) 0 = nth (round * 16 + k) rk 0).
    { replace (round * 16 + k)%nat with (4 * q + k mod 4)%nat by lia. unfold word_bytes, word_at. cbn [y0 y1 y2 y3].
      destruct (k mod 4)%nat as [|[|[|[|m]]]]; try lia; cbn [nth]; f_equal; lia. }
    rewrite <- E. split; [reflexivity|]. destruct B as (?&?&?&?). unfold word_bytes. destruct (k mod 4)%nat as [|[|[|[|m]]]]; try lia; cbn [nth]; assumption. }
  unfold a23_Cipher.
  destruct (add_round_key_state rk (aes_words 4 Key) 0 s S0) as [A0 S1]; [intros k Hk; apply K; lia|]. rewrite A0. cbn [obind].
  set (body := fun round state => do state <- a23_SubBytes sbox_of state; do state <- a23_ShiftRows state; do state <- a23_MixColumns state; a23_AddRoundKey rk round state).
  assert (LOOP : forall n first s, (first + n <= 10)%nat -> is_state s -> for_from body first n s = Some (rounds_from (aes_words 4 Key) first n s) /\ is_state (rounds_from (aes_words 4 Key) first n s)).
  { induction n as [|n IH]; intros first t F T; [split; [reflexivity|exact T]|]. rewrite rounds_from_S. cbn [for_from]. unfold body at 1.
    destruct (sub_bytes_state t T) as [-> T1]. cbn [obind]. destruct (shift_rows_state _ T1) as [-> T2]. cbn [obind].
    destruct (mix_columns_state _ T2) as [-> T3]. cbn [obind].
    destruct (add_round_key_state rk (aes_words 4 Key) first _ T3) as [-> T4]; [intros k Hk; apply K; lia|]. cbn [obind]. apply IH; [lia|exact T4]. }
  destruct (LOOP 9%nat 1%nat _ ltac:(lia) S1) as [-> S2]. cbn [obind].
  destruct (sub_bytes_state _ S2) as [-> T1]. cbn [obind]. destruct (shift_rows_state _ T1) as [-> T2]. cbn [obind].
  destruct (add_round_key_state rk (aes_words 4 Key) 10 _ T2) as [-> T3]; [intros k Hk; apply K; lia|].
  split; [reflexivity|exact T3].
Qed.

Lemma block_copy_ok output input : length output = 16%nat -> length input = 16%nat -> BlockCopy output input = Some input.
Proof.
  intros LO LI. do 16 (destruct output as [|? output]; [discriminate|]). destruct output; [|discriminate].
  do 16 (destruct input as [|? input]; [discriminate|]). destruct input; [|discriminate]. reflexivity.
Qed.
Theorem encrypt_is_aes : forall input key output rk, length input = 16%nat -> bytes_ok input -> length key = 16%nat -> bytes_ok key ->
  length output = 16%nat -> length rk = 176%nat ->
  AES128_ECB_encrypt sbox_of input key output rk = Some (AES 4 key input) /\ is_state (AES 4 key input).
Proof.
  intros input key output rk LI BI LK BK LO LR. unfold AES128_ECB_encrypt. rewrite block_copy_ok by assumption. cbn [obind].
  destruct (key_expansion_ok key rk LK BK LR) as (rk' & -> & L & W). cbn [obind]. apply cipher_ok; [split; assumption|assumption|assumption].
Qed.
End Proofs.

(** ** Bytes of [int] *)
Lemma int_bytes_ok w : length (int_to_bytes w) = 4%nat /\ bytes_ok (int_to_bytes w).
Proof.
  split; [reflexivity|]. unfold int_to_bytes. cbn [map]. repeat first [apply Forall_cons|apply Forall_nil]; unfold is_byte;
  match goal with |- Z.to_N (?a mod 256) < _ => pose proof (Z.mod_pos_bound a 256 ltac:(lia)); lia end.
Qed.
Lemma ints_bytes_ok l : length (ints_to_bytes l) = (4 * length l)%nat /\ bytes_ok (ints_to_bytes l).
Proof.
  induction l as [|w l [IH1 IH2]]; [split; [reflexivity|constructor]|]. cbn [ints_to_bytes flat_map]. fold (ints_to_bytes l).
  destruct (int_bytes_ok w) as [L B]. split; [rewrite app_length, L, IH1; cbn [length]; lia|]. apply Forall_app. split; assumption.
Qed.
Lemma bytes_back a b c d : a < 256 -> b < 256 -> c < 256 -> d < 256 ->
  int_to_bytes (to_int (Z.of_N a + 2 ^ 8 * Z.of_N b + 2 ^ 16 * Z.of_N c + 2 ^ 24 * Z.of_N d)) = [a; b; c; d].
Proof.
  intros A B C D. unfold int_to_bytes. rewrite to_uint_to_int. unfold to_uint. rewrite Z.mod_small by lia. cbn [map]. rewrite !Z.shiftr_div_pow2 by lia.
  assert (E : forall q r u x, x < 256 -> (u = (256 * q + Z.of_N x) * r -> True)%Z) by trivial. clear E.
  repeat (apply f_equal2; [|]); [..|reflexivity]; apply N2Z.inj; rewrite Z2N.id by (apply Z.mod_pos_bound; lia).
  - change (2 ^ (8 * 0))%Z with 1%Z. rewrite Z.div_1_r. symmetry. apply (Z.mod_unique _ _ (Z.of_N b + 2 ^ 8 * Z.of_N c + 2 ^ 16 * Z.of_N d)); lia.
  - change (8 * 1)%Z with 8%Z. replace (_ / 2 ^ 8)%Z with (Z.of_N b + 2 ^ 8 * (Z.of_N c + 2 ^ 8 * Z.of_N d))%Z by (apply (Z.div_unique _ _ _ (Z.of_N a)); lia).
    symmetry. apply (Z.mod_unique _ _ (Z.of_N c + 2 ^ 8 * Z.of_N d)); lia.
  - change (8 * 2)%Z with 16%Z. replace (_ / 2 ^ 16)%Z with (Z.of_N c + 2 ^ 8 * Z.of_N d)%Z by (apply (Z.div_unique _ _ _ (Z.of_N a + 2 ^ 8 * Z.of_N b)); lia).
    symmetry. apply (Z.mod_unique _ _ (Z.of_N d)); lia.
  - change (8 * 3)%Z with 24%Z. replace (_ / 2 ^ 24)%Z with (Z.of_N d) by (apply (Z.div_unique _ _ _ (Z.of_N a + 2 ^ 8 * Z.of_N b + 2 ^ 16 * Z.of_N c)); lia).
    apply Z.mod_small. lia.
Qed.
Lemma bytes_ints_back : forall k l, length l = (4 * k)%nat -> bytes_ok l -> ints_to_bytes (bytes_to_ints l) = l /\ length (bytes_to_ints l) = k.
Proof.
  induction k as [|k IH]; intros l L B; [destruct l; [split; reflexivity|discriminate]|].
  destruct l as [|a [|b [|c [|d l]]]]; cbn [length] in L; try lia.
  inversion B as [|? ? BA B1]; subst. inversion B1 as [|? ? BB B2]; subst. inversion B2 as [|? ? BC B3]; subst. inversion B3 as [|? ? BD B4]; subst.
  destruct (IH l ltac:(lia) B4) as [I1 I2]. cbn [bytes_to_ints ints_to_bytes flat_map length]. fold (ints_to_bytes (bytes_to_ints l)).
  rewrite bytes_back by assumption. rewrite I1, I2. split; reflexivity.
Qed.
(** Key and message of four words each: the output is the cipher of FIPS-197. *)
Theorem aes_main_ok : forall nt nz g e o rk, (9 <= nt)%nat -> (3 <= nz)%nat ->
  length g = 4%nat -> length e = 4%nat -> length o = 4%nat -> length rk = 176%nat ->
  exists o', aes_main nt nz g e o rk = Some o' /\ length o' = 4%nat /\ ints_to_bytes o' = AES 4 (ints_to_bytes g) (ints_to_bytes e).
Proof.
  intros nt nz g e o rk NT NZ G E O R.
  destruct (ints_bytes_ok g) as [LG BG]. destruct (ints_bytes_ok e) as [LE BE]. destruct (ints_bytes_ok o) as [LO BO].
  rewrite G in LG. rewrite E in LE. rewrite O in LO.
  destruct (encrypt_is_aes (getSBoxValue nt nz) (fun b H => sbox_value_more nt nz b NT NZ H) (ints_to_bytes e) (ints_to_bytes g) (ints_to_bytes o) rk LE BE LG BG LO R) as [EN ST].
  unfold aes_main. rewrite EN. cbn [obind]. destruct ST as [SL SB]. destruct (bytes_ints_back 4 _ SL SB) as [I1 I2].
  eexists. split; [reflexivity|]. split; [exact I2|exact I1].
Qed.
Lemma expand_step_none f i rk : (forall b, f b = None) -> (i mod 4 =? 0)%nat = true -> expand_step f i rk = None.
Proof.
  intros F M. unfold expand_step. rewrite M. repeat (match goal with |- obind (at_n rk ?k) _ = _ => destruct (at_n rk k); [|reflexivity] end; cbn [obind]).
  rewrite F. reflexivity.
Qed.
Lemma for_from_none {A} (body : nat -> A -> option A) i k s : body i s = None -> for_from body i (S k) s = None.
Proof. intros H. cbn [for_from]. rewrite H. reflexivity. Qed.
(** As declared in the file the S-box is undefined, and with it every encryption. *)
Theorem aes_main_outside : forall nt nz g e o rk, (nt < 9)%nat \/ (nz < 3)%nat -> 
  length g = 4%nat -> length e = 4%nat -> length o = 4%nat -> length rk = 176%nat -> aes_main nt nz g e o rk = None.
Proof.
  intros nt nz g e o rk H G E O R.
  destruct (ints_bytes_ok g) as [LG BG]. destruct (ints_bytes_ok e) as [LE BE]. destruct (ints_bytes_ok o) as [LO BO].
  rewrite G in LG. rewrite E in LE. rewrite O in LO.
  unfold aes_main, AES128_ECB_encrypt. rewrite block_copy_ok by assumption. cbn [obind].
  destruct (copy_key_ok (ints_to_bytes g) rk LG R) as (rk1 & C & L1 & _). unfold a23_KeyExpansion. rewrite C. cbn [obind].
  rewrite (for_from_none (expand_step (getSBoxValue nt nz)) 4 39); [reflexivity|]. apply expand_step_none; [|reflexivity]. intros b. apply sbox_outside, H.
Qed.
