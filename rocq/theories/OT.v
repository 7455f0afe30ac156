(** crypto/OT.cpp: the RSA based 1-out-of-2 oblivious transfer. *)
From Coq Require Import ZArith NArith List Bool Lia.
From Verif Require Import Base Gate Proc Codec Tcp BN.
Import ListNotations.
Open Scope Z_scope.

(** A key made by RSA_generate_key_ex (OT.cpp:41-51). *)
Record rsa_key := mkKey { rsa_n : Z; rsa_e : Z; rsa_d : Z }.

(** OpenSSL BN_mod_exp, BN_nnmod: non-negative residues also for a negative
    first argument. *)
Definition BN_mod_exp (a p m : BIGNUM) : BIGNUM := (a mod m) ^ p mod m.
Definition BN_nnmod (a m : BIGNUM) : BIGNUM := a mod m.

(** OT.cpp:38-65: send the length, the public key and two random numbers per
    message pair; [x i j] are the values drawn by BN_rand. *)
Definition OTSend_setup (key : rsa_key) (x : nat -> bool -> Z) (m_len : nat) : proc unit :=
  Send (le 4 (N.of_nat m_len))
  (let! _ := SendBN (rsa_n key) in
   let! _ := SendBN (rsa_e key) in
   pfor (fun i _ => let! _ := SendBN (x i false) in SendBN (x i true)) 0 m_len tt).

(** OT.cpp:74-87: answer one value [v]. *)
Definition OTSend_answer (key : rsa_key) (x : nat -> bool -> Z) (m : list (Z * Z)) (i : nat) (_ : unit) : proc unit :=
  let! v := RecvBN in
  let k0 := BN_mod_exp (v - x i false) (rsa_d key) (rsa_n key) in
  let k1 := BN_mod_exp (v - x i true) (rsa_d key) (rsa_n key) in
  match nth_error m i with
  | None => Crash
  | Some (m0, m1) => let! _ := SendBN (k0 + m0) in SendBN (k1 + m1)
  end.

(** OT.cpp:29-104 *)
Definition OTSendBN (key : rsa_key) (x : nat -> bool -> Z) (m : list (Z * Z)) : proc unit :=
  let! _ := OTSend_setup key x (length m) in
  pfor (OTSend_answer key x m) 0 (length m) tt.

(** OT.cpp:107-136; [None]: the lengths differ, FAILURE. *)
Definition OTRecv_setup (m_len : nat) : proc (option (Z * Z * list (Z * Z))) :=
  Recv 4 (fun b =>
    if negb (of_le b =? N.of_nat m_len)%N then Ret None else
    let! n := RecvBN in
    let! e := RecvBN in
    let! xs := pfor (fun _ xs => let! x0 := RecvBN in let! x1 := RecvBN in Ret (xs ++ [(x0, x1)])) 0 m_len [] in
    Ret (Some (n, e, xs))).

(** OT.cpp:139-157: [k] is the value drawn by BN_rand, [x] the received pair. *)
Definition ot_v (n e : Z) (x : Z * Z) (b : bool) (k : Z) : Z :=
  BN_nnmod ((if b then snd x else fst x) + BN_mod_exp (BN_nnmod k n) e n) n.
Definition OTRecv_choose (sel : BIGNUM) (m_len : nat) (k : nat -> Z) (n e : Z) (xs : list (Z * Z)) : proc unit :=
  pfor (fun i _ =>
    match nth_error xs i with
    | None => Crash
    | Some x => SendBN (ot_v n e x (BN_is_bit_set sel (N.of_nat i)) (k i))
    end) 0 m_len tt.

(** OT.cpp:163-177 *)
Definition OTRecv_finish (sel : BIGNUM) (m_len : nat) (k : nat -> Z) (n : Z) : proc (list Z) :=
  pfor (fun i ms =>
    let! m0p := RecvBN in
    let! m1p := RecvBN in
    Ret (ms ++ [(if BN_is_bit_set sel (N.of_nat i) then m1p else m0p) - BN_nnmod (k i) n])) 0 m_len [].

(** OT.cpp:105-191; [None]: FAILURE. *)
Definition OTRecvBN (sel : BIGNUM) (m_len : nat) (k : nat -> Z) : proc (option (list Z)) :=
  let! s := OTRecv_setup m_len in
  match s with
  | None => Ret None
  | Some (n, e, xs) =>
    let! _ := OTRecv_choose sel m_len k n e xs in
    let! ms := OTRecv_finish sel m_len k n in
    Ret (Some ms)
  end.

(** OT.cpp:193-211 *)
Definition OTSend (key : rsa_key) (x : nat -> bool -> Z) (m : list (block * block)) : proc unit :=
  OTSendBN key x (map (fun p => (BlockToBN (fst p), BlockToBN (snd p))) m).
(** OT.cpp:215-222, OT_extension.cpp:267-274 *)
Definition sel_bn (sel : list bool) : BIGNUM :=
  fold_left (fun a i => if nth i sel false then BN_set_bit a (N.of_nat i) else a) (seq 0 (length sel)) 0.
(** OT.cpp:213-233 *)
Definition OTRecv (sel : list bool) (k : nat -> Z) : proc (option (list block)) :=
  let! r := OTRecvBN (sel_bn sel) (length sel) k in
  match r with
  | None => Ret None
  | Some ms => Ret (Some (map BNToBlock ms))
  end.

(** * Correctness *)
(** The key works: decryption inverts encryption on every residue. *)
Definition key_ok (key : rsa_key) : Prop :=
  1 < rsa_n key /\ 0 <= rsa_e key /\ 0 <= rsa_d key /\
  forall k, 0 <= k < rsa_n key -> (k ^ rsa_e key mod rsa_n key) ^ rsa_d key mod rsa_n key = k.

Lemma num_bytes_mono a b : 0 <= a <= b -> (BN_num_bytes a <= BN_num_bytes b)%nat.
Proof.
  intros H. unfold BN_num_bytes.
  assert (N.size (mag a) <= N.size (mag b))%N.
  { apply size_le. eapply N.le_lt_trans; [|apply size_lt]. unfold mag. lia. }
  unfold BN_num_bits. pose proof (N.div_le_mono (N.size (mag a) + 7) (N.size (mag b) + 7) 8). lia.
Qed.
Lemma fits_mono a b : 0 <= a <= b -> bn_fits b -> bn_fits a.
Proof. intros H. unfold bn_fits. pose proof (num_bytes_mono a b H). lia. Qed.

Lemma recv_bn_pos a : 0 <= a -> bn_fits a -> does RecvBN (enc_bn a) [] a.
Proof. intros H F. rewrite <- (Z.abs_eq a H) at 2. apply recv_bn; auto. Qed.

Lemma seq_snoc i k : seq i (S k) = seq i k ++ [(i + k)%nat].
Proof. rewrite seq_S. auto. Qed.

Lemma concat_nil {A} l : concat (map (fun _ : A => @nil N) l) = [].
Proof. induction l; auto. Qed.

Section Correct.
Variable key : rsa_key.
Variable x : nat -> bool -> Z.
Variable m : list (Z * Z).
Variable sel : BIGNUM.
Variable k : nat -> Z.
Let n := rsa_n key.
Let e := rsa_e key.
Let d := rsa_d key.
Hypothesis OK : key_ok key.
Hypothesis LEN : Z.of_nat (length m) < 2 ^ 32.
Hypothesis FN : bn_fits n.
Hypothesis FE : bn_fits e.
Hypothesis FX : forall i j, 0 <= x i j /\ bn_fits (x i j).
Hypothesis FM : forall p, In p m -> 0 <= fst p /\ 0 <= snd p /\ bn_fits (n + fst p) /\ bn_fits (n + snd p).

Let xp i := (x i false, x i true).
Let b i := BN_is_bit_set sel (N.of_nat i).
Let v i := ot_v n e (xp i) (b i) (k i).
Let kk (i : nat) (j : bool) := BN_mod_exp (v i - x i j) d n.
Let mm i := nth i m (0, 0).

Lemma n_pos : 1 < n. Proof. apply OK. Qed.
Lemma res_range a : 0 <= a mod n < n.
Proof. apply Z.mod_pos_bound. pose proof n_pos. lia. Qed.
Lemma v_range i : 0 <= v i < n.
Proof. apply res_range. Qed.
Lemma kk_range i j : 0 <= kk i j < n.
Proof. apply res_range. Qed.

(** The sender recovers the receiver's blinding value at the chosen index. *)
Lemma kk_chosen i : kk i (b i) = k i mod n.
Proof.
  unfold kk, v, ot_v, BN_mod_exp, BN_nnmod. destruct OK as (_ & _ & _ & I). fold n in I.
  set (h := k i mod n).
  rewrite (Z.mod_small h) by apply res_range.
  replace (if b i then snd (xp i) else fst (xp i)) with (x i (b i)) by (unfold xp; destruct (b i); auto).
  rewrite Zminus_mod_idemp_l. replace (x i (b i) + h ^ e mod n - x i (b i)) with (h ^ e mod n) by lia.
  rewrite Z.mod_mod by (pose proof n_pos; lia). apply I. apply res_range.
Qed.

Definition setup_bytes : bytes := le 4 (N.of_nat (length m)) ++ enc_bn n ++ enc_bn e ++
  concat (map (fun i => enc_bn (x i false) ++ enc_bn (x i true)) (seq 0 (length m))).

Lemma send_setup : does (OTSend_setup key x (length m)) [] setup_bytes tt.
Proof.
  unfold OTSend_setup, setup_bytes. constructor.
  apply (does_bind _ _ [] _ tt [] _ _ (send_bn _)). apply (does_bind _ _ [] _ tt [] _ _ (send_bn _)).
  pose proof (does_pfor (fun i (_ : unit) => let! _ := SendBN (x i false) in SendBN (x i true)) (fun _ => [])
    (fun i => enc_bn (x i false) ++ enc_bn (x i true)) (fun _ => tt) (length m) 0) as D.
  rewrite concat_nil in D.
  apply D. intros j _. apply (does_bind _ _ [] _ tt [] _ _ (send_bn _)). apply send_bn.
Qed.

Lemma recv_setup : does (OTRecv_setup (length m)) setup_bytes [] (Some (n, e, map xp (seq 0 (length m)))).
Proof.
  unfold OTRecv_setup, setup_bytes. constructor; [rewrite le_length; auto|].
  rewrite of_le_small by (cbn; lia). rewrite N.eqb_refl. cbn [negb].
  eapply (does_bind _ _ _ [] n _ []); [apply recv_bn_pos; [pose proof n_pos; lia|auto]|].
  eapply (does_bind _ _ _ [] e _ []); [apply recv_bn_pos; [apply OK|auto]|].
  rewrite <- (app_nil_r (concat _)).
  eapply (does_bind _ _ _ [] (map xp (seq 0 (length m))) [] []); [|constructor].
  pose proof (does_pfor (fun (_ : nat) xs => let! x0 := RecvBN in let! x1 := RecvBN in Ret (xs ++ [(x0, x1)]))
    (fun i => enc_bn (x i false) ++ enc_bn (x i true)) (fun _ => []) (fun j => map xp (seq 0 j)) (length m) 0) as D.
  rewrite concat_nil in D. apply D. clear D. intros j _.
  eapply (does_bind _ _ _ [] (x j false) _ []); [apply recv_bn_pos; apply FX|].
  rewrite <- (app_nil_r (enc_bn (x j true))).
  eapply (does_bind _ _ _ [] (x j true) _ []); [apply recv_bn_pos; apply FX|].
  rewrite seq_snoc, map_app. constructor.
Qed.

Definition choose_bytes : bytes := concat (map (fun i => enc_bn (v i)) (seq 0 (length m))).
Definition answer_bytes : bytes :=
  concat (map (fun i => enc_bn (kk i false + fst (mm i)) ++ enc_bn (kk i true + snd (mm i))) (seq 0 (length m))).

Lemma recv_choose : does (OTRecv_choose sel (length m) k n e (map xp (seq 0 (length m)))) [] choose_bytes tt.
Proof.
  unfold OTRecv_choose, choose_bytes.
  match goal with |- does (pfor ?f _ _ _) _ _ _ =>
    pose proof (does_pfor f (fun _ => []) (fun i => enc_bn (v i)) (fun _ => tt) (length m) 0) as D end.
  rewrite concat_nil in D. apply D. intros j Hj. cbv beta.
  rewrite (map_nth_error xp j (seq 0 (length m)) (d := j)).
  - apply send_bn.
  - rewrite (nth_error_nth' _ O) by (rewrite seq_length; lia). rewrite seq_nth by lia. auto.
Qed.
Lemma mm_nth i : (i < length m)%nat -> nth_error m i = Some (mm i).
Proof. intros H. apply nth_error_nth'; auto. Qed.
Lemma mm_in i : (i < length m)%nat -> In (mm i) m.
Proof. intros H. apply nth_In; auto. Qed.
Lemma v_fits i : bn_fits (v i).
Proof. apply (fits_mono _ n); [pose proof (v_range i); lia|auto]. Qed.

Lemma send_answer : does (pfor (OTSend_answer key x m) 0 (length m) tt) choose_bytes answer_bytes tt.
Proof.
  apply (does_pfor (OTSend_answer key x m) (fun i => enc_bn (v i))
    (fun i => enc_bn (kk i false + fst (mm i)) ++ enc_bn (kk i true + snd (mm i))) (fun _ => tt)).
  intros j Hj. unfold OTSend_answer. rewrite <- (app_nil_r (enc_bn (v j))).
  eapply (does_bind _ _ _ [] (v j) [] _); [apply recv_bn_pos; [apply v_range|apply v_fits]|].
  rewrite mm_nth by lia. fold n d. change (BN_mod_exp (v j - x j ?c) d n) with (kk j c).
  destruct (mm j) as [m0 m1]. cbn [fst snd].
  apply (does_bind _ _ [] _ tt [] _ _ (send_bn _)). apply send_bn.
Qed.

Lemma recv_finish : does (OTRecv_finish sel (length m) k n) answer_bytes []
  (map (fun i => if b i then snd (mm i) else fst (mm i)) (seq 0 (length m))).
Proof.
  unfold OTRecv_finish, answer_bytes.
  match goal with |- does (pfor ?f _ _ _) _ _ _ =>
    pose proof (does_pfor f (fun i => enc_bn (kk i false + fst (mm i)) ++ enc_bn (kk i true + snd (mm i))) (fun _ => [])
      (fun j => map (fun i => if b i then snd (mm i) else fst (mm i)) (seq 0 j)) (length m) 0) as D end.
  rewrite concat_nil in D. apply D. clear D. intros j Hj. cbv beta.
  destruct (FM (mm j) (mm_in j ltac:(lia))) as (P0 & P1 & F0 & F1).
  pose proof (kk_range j false). pose proof (kk_range j true).
  eapply (does_bind _ _ _ [] (kk j false + fst (mm j)) _ []).
  { apply recv_bn_pos; [lia|]. apply (fits_mono _ (n + fst (mm j))); [lia|auto]. }
  rewrite <- (app_nil_r (enc_bn (_ + snd _))).
  eapply (does_bind _ _ _ [] (kk j true + snd (mm j)) _ []).
  { apply recv_bn_pos; [lia|]. apply (fits_mono _ (n + snd (mm j))); [lia|auto]. }
  rewrite seq_snoc, map_app. cbn [map Nat.add].
  match goal with |- does (Ret (?l ++ [?a])) _ _ (_ ++ [?c]) => assert (E : a = c); [|rewrite E; constructor] end.
  change (BN_is_bit_set sel (N.of_nat j)) with (b j). pose proof (kk_chosen j) as K. unfold BN_nnmod.
  destruct (b j); lia.
Qed.

Theorem ot_bn_correct : runs (OTSendBN key x m) (OTRecvBN sel (length m) k) tt
  (Some (map (fun i => if BN_is_bit_set sel (N.of_nat i) then snd (nth i m (0, 0)) else fst (nth i m (0, 0))) (seq 0 (length m)))).
Proof.
  unfold OTSendBN, OTRecvBN. eapply runs_bind; [eapply runs_AB; [apply send_setup|apply recv_setup]|].
  cbv beta. eapply runs_BAB; [apply recv_choose|apply send_answer|].
  rewrite <- (app_nil_r answer_bytes). eapply (does_bind _ _ _ [] _ _ []); [apply recv_finish|]. constructor.
Qed.
End Correct.

Lemma sel_bn_bits sel i : BN_is_bit_set (sel_bn sel) (N.of_nat i) = nth i sel false.
Proof.
  unfold sel_bn.
  assert (G : forall k, (k <= length sel)%nat -> forall a,
    a = fold_left (fun a i => if nth i sel false then BN_set_bit a (N.of_nat i) else a) (seq 0 k) 0 ->
    0 <= a /\ forall i, N.testbit (mag a) (N.of_nat i) = (if (i <? k)%nat then nth i sel false else false)).
  { induction k as [|k IH]; intros Hk a Ea.
    - cbn in Ea. subst a. split; [lia|]. intros j. rewrite N.bits_0. auto.
    - rewrite seq_snoc, fold_left_app in Ea. cbn [fold_left Nat.add] in Ea.
      destruct (IH ltac:(lia) _ eq_refl) as [P B].
      match type of P with 0 <= ?t => set (a0 := t) in * end. split.
      + subst a. destruct (nth k sel false); [apply set_bit_nonneg|]; auto.
      + intros j. subst a. destruct (nth k sel false) eqn:E.
        * rewrite set_bit_mag, N.setbit_eqb, B.
          destruct (N.eqb_spec (N.of_nat k) (N.of_nat j)) as [Q|Q].
          -- apply Nat2N.inj in Q. subst j. cbn [orb]. destruct (Nat.ltb_spec k (S k)); [auto|lia].
          -- cbn [orb]. destruct (Nat.ltb_spec j k), (Nat.ltb_spec j (S k)); auto; lia.
        * rewrite B. destruct (Nat.ltb_spec j k), (Nat.ltb_spec j (S k)); auto; try lia.
          replace j with k by lia. auto. }
  destruct (G (length sel) (le_n _) _ eq_refl) as [_ B]. unfold BN_is_bit_set. rewrite B.
  destruct (Nat.ltb_spec i (length sel)); [auto|]. rewrite nth_overflow by lia. auto.
Qed.

(** Choice of one message of each pair. *)
Definition chosen {A} (sel : list bool) (m : list (A * A)) : list A :=
  map (fun p : bool * (A * A) => if fst p then snd (snd p) else fst (snd p)) (combine sel m).

Definition is_block (w : block) : Prop := (w < 2 ^ 128)%N.

Lemma bn_to_block_id w : is_block w -> BNToBlock (Z.of_N w) = w.
Proof. intros H. rewrite bn_to_block, mag_of_N. apply N.mod_small. auto. Qed.

Lemma chosen_map sel : forall m, length sel = length m -> Forall (fun p => is_block (fst p) /\ is_block (snd p)) m ->
  map BNToBlock (map (fun i => if nth i sel false then snd (nth i (map (fun p => (BlockToBN (fst p), BlockToBN (snd p))) m) (0, 0))
     else fst (nth i (map (fun p => (BlockToBN (fst p), BlockToBN (snd p))) m) (0, 0))) (seq 0 (length m))) = chosen sel m.
Proof.
  induction sel as [|s sel IH]; intros [|[p0 p1] m] L F; cbn [length] in L; try discriminate; [reflexivity|].
  inversion F as [|? ? [B0 B1] F']; subst. cbn [fst snd] in *.
  cbn [length seq map nth fst snd chosen combine]. f_equal.
  - rewrite !block_to_bn by auto. destruct s; apply bn_to_block_id; auto.
  - rewrite <- seq_shift, map_map. change (map _ (combine sel m)) with (chosen sel m).
    rewrite <- (IH m) by (auto; lia). rewrite !map_map. apply map_ext. intros i. cbn [nth]. auto.
Qed.

(** crypto/OT.h:33 *)
Notation RSA_BITS := 1024 (only parsing).
(** A key of at most RSA_BITS bits with a small public exponent. *)
Definition key_sized (key : rsa_key) : Prop := rsa_n key < 2 ^ RSA_BITS /\ rsa_e key < 2 ^ RSA_BITS.
(** The sender's draws: BN_rand(x, RSA_BITS, -1, 0). *)
Definition draws_sized (x : nat -> bool -> Z) : Prop := forall i j, 0 <= x i j < 2 ^ RSA_BITS.

Lemma fits_pow a (b : N) : 0 <= a < 2 ^ Z.of_N b -> (b <= 2 ^ 33)%N -> bn_fits a.
Proof.
  intros H HB. unfold bn_fits, BN_num_bytes.
  assert (N.size (mag a) <= b)%N.
  { apply size_le. unfold mag. rewrite <- (Z2N.id (2 ^ Z.of_N b)) in H by lia.
    assert (E : Z.to_N (2 ^ Z.of_N b) = (2 ^ b)%N) by (change 2 with (Z.of_N 2); rewrite <- N2Z.inj_pow; apply N2Z.id). rewrite E in H. lia. }
  unfold BN_num_bits. assert ((N.size (mag a) + 7) / 8 <= (2 ^ 33 + 7) / 8)%N by (apply N.div_le_mono; lia).
  change ((2 ^ 33 + 7) / 8)%N with 1073741824%N in *. lia.
Qed.

Theorem ot_correct key x m sel k :
  key_ok key -> key_sized key -> draws_sized x ->
  Z.of_nat (length m) < 2 ^ 32 -> length sel = length m ->
  Forall (fun p => is_block (fst p) /\ is_block (snd p)) m ->
  runs (OTSend key x m) (OTRecv sel k) tt (Some (chosen sel m)).
Proof.
  intros OK [SN SE] FX LEN LS FB. unfold OTSend, OTRecv.
  set (m' := map _ m).
  assert (LM : length m' = length m) by apply map_length.
  assert (N1 : 1 < rsa_n key) by apply OK. assert (E1 : 0 <= rsa_e key) by apply OK.
  assert (P : 2 ^ 128 + 2 ^ 1024 < 2 ^ 1025) by reflexivity.
  assert (R : runs (OTSendBN key x m') (OTRecvBN (sel_bn sel) (length m') k) tt
     (Some (map (fun i => if BN_is_bit_set (sel_bn sel) (N.of_nat i) then snd (nth i m' (0, 0)) else fst (nth i m' (0, 0))) (seq 0 (length m'))))).
  { apply ot_bn_correct; auto.
    - rewrite LM; auto.
    - apply (fits_pow _ 1024); [|discriminate]. change (Z.of_N 1024) with 1024. lia.
    - apply (fits_pow _ 1024); [|discriminate]. change (Z.of_N 1024) with 1024. lia.
    - intros i j. split; [apply FX|]. apply (fits_pow _ 1024); [|discriminate]. apply FX.
    - intros p Hp. apply in_map_iff in Hp. destruct Hp as ([w0 w1] & <- & Hp). cbn [fst snd].
      rewrite Forall_forall in FB. destruct (FB _ Hp) as [B0 B1]. cbn [fst snd] in *. unfold is_block in *.
      rewrite !block_to_bn by auto.
      assert (Z.of_N w0 < 2 ^ 128) by (change (2 ^ 128) with (Z.of_N (2 ^ 128)); lia).
      assert (Z.of_N w1 < 2 ^ 128) by (change (2 ^ 128) with (Z.of_N (2 ^ 128)); lia).
      assert (forall a, 0 <= a < 2 ^ 128 -> bn_fits (rsa_n key + a)).
      { intros a Ha. apply (fits_pow _ 1025); [|discriminate]. change (Z.of_N 1025) with 1025. lia. }
      repeat split; try lia; auto with zarith. }
  rewrite LM, <- LS in R.
  eapply runs_map_B; [exact R|]. cbv beta iota. do 2 f_equal.
  transitivity (map BNToBlock (map (fun i => if nth i sel false then snd (nth i m' (0, 0)) else fst (nth i m' (0, 0))) (seq 0 (length m)))).
  - f_equal. rewrite LS. apply map_ext. intros i. rewrite sel_bn_bits. auto.
  - apply chosen_map; auto.
Qed.

(** * What the sender sees *)
Lemma exp_injective key k k' : key_ok key -> 0 <= k < rsa_n key -> 0 <= k' < rsa_n key ->
  k ^ rsa_e key mod rsa_n key = k' ^ rsa_e key mod rsa_n key -> k = k'.
Proof. intros (_ & _ & _ & I) H H' E. rewrite <- (I k H), <- (I k' H'), E. auto. Qed.

(** An injective map of [0, n) to itself is onto. *)
Lemma injective_onto (n : Z) (f : Z -> Z) :
  (forall k, 0 <= k < n -> 0 <= f k < n) ->
  (forall k k', 0 <= k < n -> 0 <= k' < n -> f k = f k' -> k = k') ->
  forall y, 0 <= y < n -> exists k, 0 <= k < n /\ f k = y.
Proof.
  intros HR HI y Hy. set (l := map Z.of_nat (seq 0 (Z.to_nat n))).
  assert (IN : forall k, In k l <-> 0 <= k < n).
  { intros k. unfold l. rewrite in_map_iff. split.
    - intros (j & <- & Hj). apply in_seq in Hj. lia.
    - intros H. exists (Z.to_nat k). split; [lia|]. apply in_seq. lia. }
  assert (ND : NoDup (map f l)).
  { unfold l. rewrite map_map. assert (G : forall s, (forall j, In j s -> (j < Z.to_nat n)%nat) -> NoDup s -> NoDup (map (fun j => f (Z.of_nat j)) s)).
    { induction s as [|a s IH]; intros HB HN; [constructor|]. inversion HN as [|? ? H1 H2]; subst. cbn [map]. constructor.
      - rewrite in_map_iff. intros (j & E & Hj). apply HI in E.
        + apply Nat2Z.inj in E. subst. auto.
        + pose proof (HB j (or_intror Hj)). lia.
        + pose proof (HB a (or_introl eq_refl)). lia.
      - apply IH; auto. intros j Hj. apply HB. right; auto. }
    apply G; [|apply seq_NoDup]. intros j Hj. apply in_seq in Hj. lia. }
  assert (INC : incl l (map f l)).
  { apply NoDup_length_incl; [auto|rewrite map_length; lia|].
    intros z Hz. apply in_map_iff in Hz. destruct Hz as (k & <- & Hk). apply IN, HR, IN, Hk. }
  specialize (INC y (proj2 (IN y) Hy)). apply in_map_iff in INC. destruct INC as (k & E & Hk).
  exists k. split; [apply IN; auto|auto].
Qed.

(** For every pair [x] and every value [v] the sender may see, each choice bit
    is explained by exactly one blinding residue. *)
Theorem ot_choice_hidden key x v (c : bool) : key_ok key -> 0 <= v < rsa_n key ->
  exists r, 0 <= r < rsa_n key /\
    forall k, ot_v (rsa_n key) (rsa_e key) x c k = v <-> k mod rsa_n key = r.
Proof.
  intros OK Hv. assert (N1 : 1 < rsa_n key) by apply OK.
  set (n := rsa_n key) in *. set (e := rsa_e key). set (xc := if c then snd x else fst x).
  assert (RG : forall a, 0 <= a mod n < n) by (intros; apply Z.mod_pos_bound; lia).
  destruct (injective_onto n (fun k => k ^ e mod n)) with (y := (v - xc) mod n) as (r & Hr & E).
  - intros; apply RG.
  - intros k k' H H' E. eapply exp_injective; eauto.
  - apply RG.
  - exists r. split; [auto|]. intros k. unfold ot_v, BN_nnmod, BN_mod_exp. fold xc.
    rewrite (Z.mod_small (k mod n)) by apply RG. split.
    + intros F. apply (exp_injective key); auto. change ((k mod n) ^ e mod n = r ^ e mod n). rewrite E.
      rewrite <- F, Zminus_mod_idemp_l. replace (xc + (k mod n) ^ e mod n - xc) with ((k mod n) ^ e mod n) by lia.
      rewrite Z.mod_mod by lia. auto.
    + intros <-. rewrite E. rewrite Zplus_mod_idemp_r. replace (xc + (v - xc)) with v by lia. apply Z.mod_small; auto.
Qed.

(** The blinding values are drawn from [0, 2^B) and then reduced, so a residue
    below [2^B - n] is hit twice as often as the others. *)
Theorem ot_coin_count n B r : 0 < n -> n <= B < 2 * n -> 0 <= r < n ->
  forall k, 0 <= k < B -> (k mod n = r <-> k = r \/ (r < B - n /\ k = r + n)).
Proof.
  intros Hn HB Hr k Hk. split.
  - intros E. destruct (Z.lt_ge_cases k n).
    + rewrite Z.mod_small in E by lia. lia.
    + right. assert (Q : k mod n = k - n).
      { symmetry. apply Z.mod_unique_pos with (q := 1); lia. }
      lia.
  - intros [->|[L ->]]; [apply Z.mod_small; lia|]. rewrite <- (Z.mul_1_l n) at 1. rewrite Z.mod_add by lia. apply Z.mod_small; lia.
Qed.

(** So the value sent by the receiver can be twice as likely under one choice
    as under the other: [v] is explained by two draws when the choice is 0 and
    by one when it is 1. *)
Theorem ot_choice_biased key bits : key_ok key -> rsa_n key < 2 ^ bits < 2 * rsa_n key ->
  exists x v k0 k0' k1, 0 <= fst x < rsa_n key /\ 0 <= snd x < rsa_n key /\ k0 <> k0' /\
    (forall k, 0 <= k < 2 ^ bits -> (ot_v (rsa_n key) (rsa_e key) x false k = v <-> k = k0 \/ k = k0')) /\
    (forall k, 0 <= k < 2 ^ bits -> (ot_v (rsa_n key) (rsa_e key) x true k = v <-> k = k1)) /\
    0 <= k0 < 2 ^ bits /\ 0 <= k0' < 2 ^ bits /\ 0 <= k1 < 2 ^ bits.
Proof.
  intros OK HB. assert (N1 : 1 < rsa_n key) by apply OK. set (n := rsa_n key) in *. set (e := rsa_e key).
  assert (RG : forall a, 0 <= a mod n < n) by (intros; apply Z.mod_pos_bound; lia).
  set (x := ((0 - 0 ^ e mod n) mod n, (0 - (n - 1) ^ e mod n) mod n)).
  assert (V : forall (c : bool) k, ot_v n e x c k = 0 <-> k mod n = (if c then n - 1 else 0)).
  { intros c k. destruct (ot_choice_hidden key x 0 c OK ltac:(lia)) as (r & Hr & E).
    fold n e in E. rewrite E. assert (R : (if c then n - 1 else 0) mod n = r).
    { apply E. unfold ot_v, BN_nnmod, BN_mod_exp. rewrite !Z.mod_mod by lia.
      destruct c; cbn [fst snd x].
      - rewrite (Z.mod_small (n - 1)) by lia. rewrite Zplus_mod_idemp_l.
        replace (0 - (n - 1) ^ e mod n + (n - 1) ^ e mod n) with 0 by lia. apply Z.mod_0_l; lia.
      - rewrite (Z.mod_0_l n) by lia. rewrite Zplus_mod_idemp_l.
        replace (0 - 0 ^ e mod n + 0 ^ e mod n) with 0 by lia. apply Z.mod_0_l; lia. }
    rewrite Z.mod_small in R by (destruct c; lia). rewrite R. tauto. }
  exists x, 0, 0, n, (n - 1). split; [apply RG|]. split; [apply RG|]. split; [lia|]. split; [|split; [|lia]].
  - intros k Hk. rewrite V. rewrite (ot_coin_count n (2 ^ bits) 0) by lia. lia.
  - intros k Hk. rewrite V. rewrite (ot_coin_count n (2 ^ bits) (n - 1)) by lia. lia.
Qed.
