(** crypto/OT_extension.cpp: OT extension. *)
From Coq Require Import ZArith NArith List Bool Lia.
From Verif Require Import Base Gate Proc Codec Tcp BN OT.
Import ListNotations.
Open Scope Z_scope.

(** OT_extension.cpp:32 *)
Notation SEC_K_BIT := 128%nat (only parsing).

(** OT_extension.cpp:61-79: the bytes fed to the digest: the tweak (4 bytes), the
    magnitude without leading zeros, then zero bytes up to 16. *)
Definition hash_input (tweak : N) (v : BIGNUM) : bytes :=
  let v_words := BN_num_bytes v in
  le 4 tweak ++
  if (v_words <=? 16)%nat then BN_bn2bin v ++ repeat 0%N (16 - v_words)
  else firstn 16 (skipn (v_words - 16) (BN_bn2bin v)).

(** OT_extension.cpp:90-107; the second component is [false] if one of the
    checked bit operations failed.  [v]: the rows, [v_len] of them. *)
Definition switch_row (v : list BIGNUM) (i : nat) : BIGNUM * bool :=
  fold_left (fun (st : BIGNUM * bool) (kv : nat * BIGNUM) =>
      let (w, ok) := st in
      if BN_is_bit_set (snd kv) (N.of_nat i) then (BN_set_bit w (N.of_nat (fst kv)), ok)
      else let (w', ok') := BN_clear_bit w (N.of_nat (fst kv)) in (w', ok && ok'))
    (combine (seq 0 (length v)) v) (BN_full_one (length v)).
Definition SwitchRowColumnBN (v : list BIGNUM) (v_bit_len : nat) : list BIGNUM * bool :=
  let ws := map (switch_row v) (seq 0 v_bit_len) in (map fst ws, forallb snd ws).
(** OT_extension.cpp:109-129: the same for both components of each row. *)
Definition SwitchRowColumnBNPair (v : list (BIGNUM * BIGNUM)) (v_bit_len : nat) : list (BIGNUM * BIGNUM) * bool :=
  let ws := map (fun i => (switch_row (map fst v) i, switch_row (map snd v) i)) (seq 0 v_bit_len) in
  (map (fun p => (fst (fst p), fst (snd p))) ws, forallb (fun p => snd (fst p) && snd (snd p))%bool ws).

Section Ext.
Variable sha : bytes -> bytes.        (* SHA-256 *)

(** OT_extension.cpp:50-88; [None]: FAILURE. *)
Definition HashBN (bits : nat) (tweak : N) (v : BIGNUM) : option BIGNUM :=
  if (256 <? bits)%nat then None else Some (BN_bin2bn (firstn (bits / 8) (sha (hash_input tweak v)))).

(** OT_extension.cpp:149-162: one message pair. [QS], [y0], [y1] are reused. *)
Definition ext_send_one (m : list (Z * Z)) (m_bitlen : nat) (Qr : list BIGNUM) (S : BIGNUM)
    (i : nat) (st : option (Z * Z * Z)) : proc (option (Z * Z * Z)) :=
  match st, nth_error Qr i, nth_error m i with
  | None, _, _ => Ret None
  | Some (QS, y0, y1), Some q, Some (m0, m1) =>
    let QS' := BN_xor QS SEC_K_BIT q S in
    match HashBN m_bitlen (N.of_nat i) q, HashBN m_bitlen (N.of_nat i) QS' with
    | Some h0, Some h1 =>
      let y0' := BN_xor y0 m_bitlen h0 m0 in
      let y1' := BN_xor y1 m_bitlen h1 m1 in
      let! _ := SendBN y0' in let! _ := SendBN y1' in Ret (Some (QS', y0', y1'))
    | _, _ => Ret None
    end
  | _, _, _ => Crash
  end.

(** OT_extension.cpp:131-180.  [S]: the 128-bit value drawn by BN_rand, [k]: the
    draws of the base OT. *)
Definition OTExtSendBN (m : list (Z * Z)) (m_bitlen : nat) (S : BIGNUM) (k : nat -> Z) : proc (option unit) :=
  let! r := OTRecvBN S SEC_K_BIT k in
  match r with
  | None => Ret None
  | Some Q =>
    let (Qr, ok) := SwitchRowColumnBN Q (length m) in
    if negb ok then Ret None else
    let! st := pfor (ext_send_one m m_bitlen Qr S) 0 (length m) (Some (0, 0, 0)) in
    Ret (match st with None => None | Some _ => Some tt end)
  end.

(** OT_extension.cpp:184-200: [t] are the 128-bit values drawn by BN_rand. *)
Definition ext_T (sel : BIGNUM) (m_len : nat) (t : nat -> Z) : list (BIGNUM * BIGNUM) :=
  map (fun i => (t i, if BN_is_bit_set sel (N.of_nat i) then BN_invert (t i) SEC_K_BIT else t i)) (seq 0 m_len).

(** OT_extension.cpp:206-221 *)
Definition ext_recv_one (sel : BIGNUM) (m_bitlen : nat) (t : nat -> Z)
    (i : nat) (st : option (list Z)) : proc (option (list Z)) :=
  match st with
  | None => Ret None
  | Some ms =>
    let! y0 := RecvBN in
    let! y1 := RecvBN in
    match HashBN m_bitlen (N.of_nat i) (t i) with
    | None => Ret None
    | Some h => Ret (Some (ms ++ [BN_xor 0 m_bitlen (if BN_is_bit_set sel (N.of_nat i) then y1 else y0) h]))
    end
  end.

(** OT_extension.cpp:181-243 *)
Definition OTExtRecvBN (sel : BIGNUM) (m_bitlen m_len : nat) (t : nat -> Z)
    (key : rsa_key) (x : nat -> bool -> Z) : proc (option (list Z)) :=
  let (T_rotate, ok) := SwitchRowColumnBNPair (ext_T sel m_len t) SEC_K_BIT in
  if negb ok then Ret None else
  let! _ := OTSendBN key x T_rotate in
  pfor (ext_recv_one sel m_bitlen t) 0 m_len (Some []).

(** OT_extension.cpp:245-263 *)
Definition OTExtSend (m : list (block * block)) (S : BIGNUM) (k : nat -> Z) : proc (option unit) :=
  OTExtSendBN (map (fun p => (BlockToBN (fst p), BlockToBN (snd p))) m) 128 S k.
(** OT_extension.cpp:265-286 *)
Definition OTExtRecv (sel : list bool) (t : nat -> Z) (key : rsa_key) (x : nat -> bool -> Z) : proc (option (list block)) :=
  let! r := OTExtRecvBN (sel_bn sel) 128 (length sel) t key x in
  match r with
  | None => Ret None
  | Some ms => Ret (Some (map BNToBlock ms))
  end.
End Ext.

(** * Row/column switching *)
Lemma nonneg_ext a b : 0 <= a -> 0 <= b -> (forall i, N.testbit (mag a) i = N.testbit (mag b) i) -> a = b.
Proof. intros Ha Hb H. apply N.bits_inj in H. unfold mag in H. lia. Qed.

Lemma firstn_snoc {A} k : forall (l : list A) p, nth_error l k = Some p -> firstn (S k) l = firstn k l ++ [p].
Proof.
  induction k as [|k IH]; intros [|z l] p E; try discriminate; cbn [nth_error] in E.
  - injection E as ->. auto.
  - change (firstn (S (S k)) (z :: l)) with (z :: firstn (S k) l). rewrite (IH l p E). auto.
Qed.

Lemma switch_row_ok v i :
  snd (switch_row v i) = true /\ 0 <= fst (switch_row v i) /\
  forall j, N.testbit (mag (fst (switch_row v i))) (N.of_nat j) =
    match nth_error v j with Some r => N.testbit (mag r) (N.of_nat i) | None => false end.
Proof.
  unfold switch_row. rewrite BN_full_one_ok.
  assert (G : forall k, (k <= length v)%nat ->
    let st := fold_left (fun (st : Z * bool) (kv : nat * Z) =>
      let (w, ok) := st in
      if BN_is_bit_set (snd kv) (N.of_nat i) then (BN_set_bit w (N.of_nat (fst kv)), ok)
      else let (w', ok') := BN_clear_bit w (N.of_nat (fst kv)) in (w', ok && ok'))
      (firstn k (combine (seq 0 (length v)) v)) (Z.of_N (N.ones (N.of_nat (length v))), true) in
    snd st = true /\ 0 <= fst st /\
    forall j, N.testbit (mag (fst st)) (N.of_nat j) =
      if (j <? k)%nat then match nth_error v j with Some r => N.testbit (mag r) (N.of_nat i) | None => false end
      else (j <? length v)%nat).
  { induction k as [|k IH]; intros Hk.
    - cbn [firstn fold_left snd fst]. split; [auto|]. split; [lia|]. intros j. rewrite mag_of_N.
      destruct (Nat.ltb_spec j 0); [lia|]. destruct (Nat.ltb_spec j (length v)).
      + apply N.ones_spec_low. lia.
      + apply N.ones_spec_high. lia.
    - specialize (IH ltac:(lia)). cbv zeta in IH. cbv zeta.
      destruct (nth_error v k) as [r|] eqn:Er; [|apply nth_error_None in Er; lia].
      assert (EF : firstn (S k) (combine (seq 0 (length v)) v) = firstn k (combine (seq 0 (length v)) v) ++ [(k, r)]).
      { assert (GC : forall a (l : list Z) s, nth_error l a = Some r -> nth_error (combine (seq s (length l)) l) a = Some ((s + a)%nat, r)).
        { induction a as [|a IHa]; intros [|z l] s E; try discriminate; cbn [length seq combine nth_error].
          - injection E as <-. rewrite Nat.add_0_r. auto.
          - rewrite <- Nat.add_succ_comm. apply IHa. auto. }
        specialize (GC k v O Er). cbn [Nat.add] in GC.
        apply firstn_snoc. exact GC. }
      rewrite EF, fold_left_app. cbn [fold_left fst snd].
      match goal with |- context [fold_left ?f ?l ?s] => destruct (fold_left f l s) as [w ok] end.
      cbn [fst snd] in IH. destruct IH as (E1 & E2 & E3).
      change (BN_is_bit_set r (N.of_nat i)) with (N.testbit (mag r) (N.of_nat i)).
      assert (SZ : (N.of_nat k < N.size (mag w))%N).
      { apply size_pos. rewrite E3. destruct (Nat.ltb_spec k k); [lia|]. destruct (Nat.ltb_spec k (length v)); [auto|lia]. }
      destruct (N.testbit (mag r) (N.of_nat i)) eqn:EB; cbn [fst snd].
      + split; [auto|]. split; [apply set_bit_nonneg; auto|]. intros j. rewrite set_bit_mag, N.setbit_eqb, E3.
        destruct (N.eqb_spec (N.of_nat k) (N.of_nat j)) as [Q|Q].
        * apply Nat2N.inj in Q. subst j. cbn [orb]. destruct (Nat.ltb_spec k (S k)); [|lia]. rewrite Er. auto.
        * cbn [orb]. destruct (Nat.ltb_spec j k), (Nat.ltb_spec j (S k)); auto; lia.
      + pose proof (clear_bit_mag w (N.of_nat k)) as CM. pose proof (clear_bit_nonneg w (N.of_nat k) E2) as CN.
        assert (CO : snd (BN_clear_bit w (N.of_nat k)) = true).
        { unfold BN_clear_bit. destruct (N.leb_spec (bn_top w) (N.of_nat k / 64)) as [L|L]; [|auto].
          unfold bn_top, BN_num_bits in L. apply div64 in L. lia. }
        destruct (BN_clear_bit w (N.of_nat k)) as [w' ok']. cbn [fst snd] in *.
        split; [rewrite E1, CO; auto|]. split; [auto|]. intros j. rewrite CM, N.clearbit_eqb, E3.
        destruct (N.eqb_spec (N.of_nat k) (N.of_nat j)) as [Q|Q].
        * apply Nat2N.inj in Q. subst j. cbn [negb]. rewrite andb_false_r. destruct (Nat.ltb_spec k (S k)); [|lia]. rewrite Er. auto.
        * cbn [negb]. rewrite andb_true_r. destruct (Nat.ltb_spec j k), (Nat.ltb_spec j (S k)); auto; lia. }
  specialize (G (length v) (le_n _)). rewrite firstn_all2 in G by (rewrite combine_length, seq_length; lia).
  cbv zeta in G. destruct G as (G1 & G2 & G3). split; [exact G1|]. split; [exact G2|].
  intros j. rewrite G3. destruct (Nat.ltb_spec j (length v)); [auto|].
  rewrite (proj2 (nth_error_None v j)) by auto. auto.
Qed.

(** [w] is the transpose of the bit matrix [v] of [length v] rows. *)
Definition transpose_of (v w : list BIGNUM) : Prop :=
  forall i k, (i < length w)%nat ->
    N.testbit (mag (nth i w 0)) (N.of_nat k) =
    match nth_error v k with Some r => N.testbit (mag r) (N.of_nat i) | None => false end.

Lemma switch_ok v bits : snd (SwitchRowColumnBN v bits) = true /\
  length (fst (SwitchRowColumnBN v bits)) = bits /\ transpose_of v (fst (SwitchRowColumnBN v bits)) /\
  Forall (fun w => 0 <= w) (fst (SwitchRowColumnBN v bits)).
Proof.
  unfold SwitchRowColumnBN. cbn [fst snd]. rewrite !map_length, seq_length.
  split; [|split; [auto|split]].
  - apply forallb_forall. intros p Hp. apply in_map_iff in Hp. destruct Hp as (i & <- & _). apply switch_row_ok.
  - intros i k Hi. rewrite !map_length, seq_length in Hi. rewrite map_map.
    rewrite (nth_indep _ 0 (fst (switch_row v 0))) by (rewrite map_length, seq_length; auto).
    rewrite (map_nth (fun x => fst (switch_row v x))), seq_nth by auto. apply switch_row_ok.
  - apply Forall_forall. intros w Hw. rewrite map_map in Hw. apply in_map_iff in Hw. destruct Hw as (i & <- & _).
    apply switch_row_ok.
Qed.
Lemma switch_pair_split v bits :
  map fst (fst (SwitchRowColumnBNPair v bits)) = fst (SwitchRowColumnBN (map fst v) bits) /\
  map snd (fst (SwitchRowColumnBNPair v bits)) = fst (SwitchRowColumnBN (map snd v) bits) /\
  snd (SwitchRowColumnBNPair v bits) = true.
Proof.
  unfold SwitchRowColumnBNPair, SwitchRowColumnBN. cbn [fst snd]. rewrite !map_map. cbn [fst snd].
  split; [auto|]. split; [auto|]. apply forallb_forall. intros p Hp. apply in_map_iff in Hp.
  destruct Hp as (i & <- & _). cbn [fst snd]. rewrite (proj1 (switch_row_ok _ _)), (proj1 (switch_row_ok _ _)). auto.
Qed.

(** * Correctness *)
Lemma mag_lt a b : 0 <= a < 2 ^ Z.of_nat b -> (mag a < 2 ^ N.of_nat b)%N.
Proof.
  intros H. unfold mag. assert (E : Z.of_N (2 ^ N.of_nat b) = 2 ^ Z.of_nat b) by (rewrite N2Z.inj_pow, nat_N_Z; auto). lia.
Qed.
Lemma of_N_lt a b : (a < 2 ^ N.of_nat b)%N -> 0 <= Z.of_N a < 2 ^ Z.of_nat b.
Proof.
  intros H. assert (E : Z.of_N (2 ^ N.of_nat b) = 2 ^ Z.of_nat b) by (rewrite N2Z.inj_pow, nat_N_Z; auto). lia.
Qed.
Lemma testbit_high a b i : (a < 2 ^ N.of_nat b)%N -> (b <= i)%nat -> N.testbit a (N.of_nat i) = false.
Proof. intros H L. apply size_testbit. etransitivity; [apply size_le; eassumption|]. lia. Qed.
Lemma lxor_lt a b c : (a < 2 ^ c)%N -> (b < 2 ^ c)%N -> (N.lxor a b < 2 ^ c)%N.
Proof.
  intros H1 H2. destruct (N.eq_dec (N.lxor a b) 0) as [->|Z0]; [lia|].
  apply N.log2_lt_pow2; [lia|]. pose proof (N.log2_lxor a b).
  assert (C0 : c <> 0%N) by (intros ->; cbn in *; replace a with 0%N in * by lia; replace b with 0%N in * by lia; auto).
  assert (HL : forall d, (d < 2 ^ c)%N -> (N.log2 d < c)%N).
  { intros d Hd. destruct (N.eq_dec d 0) as [->|]; [cbn; lia|]. apply N.log2_lt_pow2; lia. }
  pose proof (HL a H1). pose proof (HL b H2). lia.
Qed.

Section ExtCorrect.
Variable sha : bytes -> bytes.
Hypothesis SHA : forall l, Forall is_byte (sha l).
Variable m : list (Z * Z).
Variable bl : nat.                     (* m_bitlen *)
Variable sel S : BIGNUM.
Variable t : nat -> Z.
Variable k : nat -> Z.
Variable key : rsa_key.
Variable x : nat -> bool -> Z.
Hypothesis BL : (bl <= 256)%nat.
Hypothesis OK : key_ok key.
Hypothesis SIZED : key_sized key.
Hypothesis FX : draws_sized x.
Hypothesis LEN : Z.of_nat (length m) < 2 ^ 32.
Hypothesis HS : 0 <= S < 2 ^ 128.
Hypothesis HT : forall i, 0 <= t i < 2 ^ 128.
Hypothesis HM : forall p, In p m -> 0 <= fst p < 2 ^ Z.of_nat bl /\ 0 <= snd p < 2 ^ Z.of_nat bl.

Let n := length m.
Let T := ext_T sel n t.
Let Tr := fst (SwitchRowColumnBNPair T 128).
Let s i := BN_is_bit_set sel (N.of_nat i).
Let Q := map (fun i => if BN_is_bit_set S (N.of_nat i) then snd (nth i Tr (0, 0)) else fst (nth i Tr (0, 0))) (seq 0 128).
Let Qr := fst (SwitchRowColumnBN Q n).
Let mm i := nth i m (0, 0).

Lemma T_length : length T = n.
Proof. unfold T, ext_T. rewrite map_length, seq_length. auto. Qed.
Lemma T_nth i : (i < n)%nat -> nth_error T i = Some (t i, if s i then BN_invert (t i) 128 else t i).
Proof.
  intros H. unfold T, ext_T. apply map_nth_error with (f := fun i => (t i, _)).
  rewrite (nth_error_nth' _ O) by (rewrite seq_length; auto). rewrite seq_nth by auto. auto.
Qed.
Lemma Tr_length : length Tr = 128%nat.
Proof. unfold Tr. rewrite <- (map_length fst). rewrite (proj1 (switch_pair_split T 128)). apply (switch_ok (map fst T) 128). Qed.

(** Column [j], component [c] of the pairs. *)
Lemma Tr_bit j i (c : bool) : (j < 128)%nat ->
  N.testbit (mag (if c then snd (nth j Tr (0, 0)) else fst (nth j Tr (0, 0)))) (N.of_nat i) =
  if (i <? n)%nat then xorb (c && s i) (N.testbit (mag (t i)) (N.of_nat j)) else false.
Proof.
  intros Hj. destruct (switch_pair_split T 128) as (E0 & E1 & _). fold Tr in E0, E1.
  assert (B : forall w v, w = fst (SwitchRowColumnBN v 128) ->
     N.testbit (mag (nth j w 0)) (N.of_nat i) = match nth_error v i with Some r => N.testbit (mag r) (N.of_nat j) | None => false end).
  { intros w v ->. apply (proj1 (proj2 (proj2 (switch_ok v 128)))). rewrite (proj1 (proj2 (switch_ok v 128))). auto. }
  destruct c.
  - replace (snd (nth j Tr (0, 0))) with (nth j (map snd Tr) 0) by (rewrite <- (map_nth snd); auto).
    rewrite (B _ _ E1), nth_error_map. destruct (Nat.ltb_spec i n).
    + rewrite T_nth by auto. cbn [option_map snd andb]. destruct (s i) eqn:Es; [|rewrite xorb_false_l; auto].
      rewrite BN_invert_testbit by apply HT. destruct (N.ltb_spec (N.of_nat j) (N.of_nat 128)); [auto|lia].
    + rewrite (proj2 (nth_error_None T i)) by (rewrite T_length; auto). auto.
  - replace (fst (nth j Tr (0, 0))) with (nth j (map fst Tr) 0) by (rewrite <- (map_nth fst); auto).
    rewrite (B _ _ E0), nth_error_map. destruct (Nat.ltb_spec i n).
    + rewrite T_nth by auto. cbn [option_map fst andb]. rewrite xorb_false_l. auto.
    + rewrite (proj2 (nth_error_None T i)) by (rewrite T_length; auto). auto.
Qed.
Lemma Tr_nonneg j : 0 <= fst (nth j Tr (0, 0)) /\ 0 <= snd (nth j Tr (0, 0)).
Proof.
  destruct (switch_pair_split T 128) as (E0 & E1 & _). fold Tr in E0, E1.
  assert (B : forall w v, w = fst (SwitchRowColumnBN v 128) -> 0 <= nth j w 0).
  { intros w v ->. destruct (switch_ok v 128) as (_ & L & _ & F). destruct (Nat.lt_ge_cases j 128).
    - rewrite Forall_forall in F. apply F, nth_In. lia.
    - rewrite nth_overflow by lia. lia. }
  rewrite <- (map_nth fst), <- (map_nth snd). split; eapply B; eauto.
Qed.
Lemma Tr_lt j (c : bool) : (j < 128)%nat ->
  0 <= (if c then snd (nth j Tr (0, 0)) else fst (nth j Tr (0, 0))) < 2 ^ Z.of_nat n.
Proof.
  intros Hj. set (a := if c then _ else _). assert (P : 0 <= a) by (unfold a; destruct c; apply Tr_nonneg). split; [auto|].
  assert (M : (mag a < 2 ^ N.of_nat n)%N).
  { destruct (N.lt_ge_cases (mag a) (2 ^ N.of_nat n)) as [|L]; [auto|]. exfalso.
    assert (Z0 : mag a <> 0%N) by (pose proof (N.pow_nonzero 2 (N.of_nat n)); lia).
    pose proof (N.bit_log2 (mag a) Z0) as BT. apply N.log2_le_pow2 in L; [|lia].
    rewrite <- (N2Nat.id (N.log2 (mag a))) in BT. unfold a in BT at 1. rewrite Tr_bit in BT by auto.
    fold a in BT. destruct (Nat.ltb_spec (N.to_nat (N.log2 (mag a))) n); [lia|discriminate]. }
  apply of_N_lt in M. unfold mag in M. lia.
Qed.

Lemma Q_length : length Q = 128%nat.
Proof. unfold Q. rewrite map_length, seq_length. auto. Qed.
Lemma Qr_length : length Qr = n.
Proof. apply switch_ok. Qed.
Lemma Qr_nth i : (i < n)%nat -> nth_error Qr i = Some (Z.of_N (N.lxor (mag (t i)) (if s i then mag S else 0%N))).
Proof.
  intros Hi. rewrite (nth_error_nth' _ 0) by (rewrite Qr_length; auto). f_equal. apply nonneg_ext; [|lia|].
  - destruct (switch_ok Q n) as (_ & L & _ & F). rewrite Forall_forall in F. apply F, nth_In. fold Qr. rewrite Qr_length. auto.
  - intros j. rewrite <- (N2Nat.id j). set (j' := N.to_nat j).
    pose proof (proj1 (proj2 (proj2 (switch_ok Q n))) i j') as B. fold Qr in B. rewrite Qr_length in B. rewrite (B Hi). clear B.
    rewrite mag_of_N, N.lxor_spec.
    assert (TB : (mag (t i) < 2 ^ N.of_nat 128)%N) by (apply mag_lt, HT).
    assert (SB : (mag S < 2 ^ N.of_nat 128)%N) by (apply mag_lt, HS).
    destruct (Nat.lt_ge_cases j' 128) as [Hj|Hj].
    + unfold Q. rewrite (map_nth_error _ j' (seq 0 128) (d := j')).
      * rewrite Tr_bit by auto. destruct (Nat.ltb_spec i n); [|lia]. unfold BN_is_bit_set.
        destruct (s i), (N.testbit (mag S) (N.of_nat j')), (N.testbit (mag (t i)) (N.of_nat j')); cbn [andb xorb]; rewrite ?N.bits_0; auto.
      * rewrite (nth_error_nth' _ O) by (rewrite seq_length; auto). rewrite seq_nth by auto. auto.
    + rewrite (proj2 (nth_error_None Q j')) by (rewrite Q_length; auto).
      rewrite (testbit_high _ 128) by auto. destruct (s i); [rewrite (testbit_high _ 128) by auto|rewrite N.bits_0]; auto.
Qed.

Let h i (v : Z) := BN_bin2bn (firstn (bl / 8) (sha (hash_input (N.of_nat i) v))).
Lemma hash_ok i v : HashBN sha bl (N.of_nat i) v = Some (h i v).
Proof. unfold HashBN. destruct (Nat.ltb_spec 256 bl); [lia|auto]. Qed.
Lemma h_lt i v : 0 <= h i v < 2 ^ Z.of_nat bl.
Proof.
  unfold h, BN_bin2bn. apply of_N_lt. eapply N.lt_le_trans.
  - apply of_le_bound. apply Forall_rev, Forall_forall. intros z Hz.
    pose proof (SHA (hash_input (N.of_nat i) v)) as F. rewrite Forall_forall in F. apply F.
    rewrite <- (firstn_skipn (bl / 8)). apply in_app_iff. auto.
  - rewrite rev_length, firstn_length. change 256%N with (2 ^ 8)%N. rewrite <- N.pow_mul_r. apply N.pow_le_mono_r; [lia|].
    pose proof (Nat.div_mod bl 8). lia.
Qed.

Let q i := Z.of_N (N.lxor (mag (t i)) (if s i then mag S else 0%N)).
Let qs i := Z.of_N (N.lxor (mag (q i)) (mag S)).
Let y0 i := Z.of_N (N.lxor (mag (h i (q i))) (mag (fst (mm i)))).
Let y1 i := Z.of_N (N.lxor (mag (h i (qs i))) (mag (snd (mm i)))).
Let sst (j : nat) := match j with O => Some (0, 0, 0) | Datatypes.S j' => Some (qs j', y0 j', y1 j') end.

Lemma S_lt : (mag S < 2 ^ 128)%N. Proof. apply (mag_lt _ 128), HS. Qed.
Lemma t_lt i : (mag (t i) < 2 ^ 128)%N. Proof. apply (mag_lt _ 128), HT. Qed.
Lemma q_lt i : (mag (q i) < 2 ^ 128)%N.
Proof. unfold q. rewrite mag_of_N. apply lxor_lt; [apply t_lt|]. destruct (s i); [apply S_lt|lia]. Qed.
Lemma qs_lt i : (mag (qs i) < 2 ^ 128)%N.
Proof. unfold qs. rewrite mag_of_N. apply lxor_lt; [apply q_lt|apply S_lt]. Qed.
Lemma mm_lt i : (i < n)%nat -> (mag (fst (mm i)) < 2 ^ N.of_nat bl)%N /\ (mag (snd (mm i)) < 2 ^ N.of_nat bl)%N.
Proof. intros Hi. destruct (HM (mm i)) as [H0 H1]; [apply nth_In; auto|]. split; apply mag_lt; auto. Qed.
Lemma y_lt i : (i < n)%nat -> (mag (y0 i) < 2 ^ N.of_nat bl)%N /\ (mag (y1 i) < 2 ^ N.of_nat bl)%N.
Proof.
  intros Hi. destruct (mm_lt i Hi). unfold y0, y1. rewrite !mag_of_N.
  split; apply lxor_lt; auto; apply mag_lt, h_lt.
Qed.

Lemma ext_send_does : does (pfor (ext_send_one sha m bl Qr S) 0 n (Some (0, 0, 0))) []
  (concat (map (fun i => enc_bn (y0 i) ++ enc_bn (y1 i)) (seq 0 n))) (sst n).
Proof.
  pose proof (does_pfor (ext_send_one sha m bl Qr S) (fun _ => []) (fun i => enc_bn (y0 i) ++ enc_bn (y1 i)) sst n 0) as D.
  rewrite concat_nil in D. apply D. clear D. intros i Hi. unfold ext_send_one.
  assert (ST : exists a b c, sst i = Some (a, b, c) /\ 0 <= a /\ 0 <= b /\ 0 <= c /\
     (mag a < 2 ^ 128)%N /\ (mag b < 2 ^ N.of_nat bl)%N /\ (mag c < 2 ^ N.of_nat bl)%N).
  { destruct i as [|j]; cbn [sst].
    - exists 0, 0, 0. pose proof (N.pow_nonzero 2 (N.of_nat bl)). change (mag 0) with 0%N. repeat split; try lia.
    - destruct (y_lt j ltac:(lia)) as [Y0 Y1]. exists (qs j), (y0 j), (y1 j). split; [auto|]. unfold qs at 1, y0 at 1, y1 at 1.
      repeat split; try lia; auto. apply qs_lt. }
  destruct ST as (a & b & c & -> & A0 & B0 & C0 & AL & BLT & CL).
  rewrite Qr_nth by lia. fold (q i). rewrite (nth_error_nth' m (0, 0)) by (fold n; lia). fold (mm i).
  destruct (mm_lt i ltac:(lia)) as [M0 M1]. destruct (mm i) as [m0 m1] eqn:EM. cbn [fst snd] in *.
  rewrite !hash_ok.
  rewrite (BN_xor_small a 128) by (auto; try apply q_lt; apply S_lt). fold (qs i).
  rewrite !BN_xor_small by (auto; apply mag_lt, h_lt).
  replace (Z.of_N (N.lxor (mag (h i (q i))) (mag m0))) with (y0 i) by (unfold y0; rewrite EM; auto).
  replace (Z.of_N (N.lxor (mag (h i (qs i))) (mag m1))) with (y1 i) by (unfold y1; rewrite EM; auto).
  apply (does_bind _ _ [] _ tt [] _ _ (send_bn _)). rewrite <- (app_nil_r (enc_bn (y1 i))).
  apply (does_bind _ _ [] _ tt [] [] _ (send_bn _)). constructor.
Qed.

Lemma unmask i : (i < n)%nat ->
  BN_xor 0 bl (if s i then y1 i else y0 i) (h i (t i)) = if s i then snd (mm i) else fst (mm i).
Proof.
  intros Hi. destruct (y_lt i Hi) as [Y0 Y1]. destruct (HM (mm i)) as [H0 H1]; [apply nth_In; auto|].
  assert (TQ : t i = if s i then qs i else q i).
  { unfold qs, q. destruct (s i).
    - rewrite mag_of_N, N.lxor_assoc, N.lxor_nilpotent, N.lxor_0_r. unfold mag. rewrite N2Z.inj_abs_N. pose proof (HT i). lia.
    - rewrite N.lxor_0_r. unfold mag. rewrite N2Z.inj_abs_N. pose proof (HT i). lia. }
  rewrite BN_xor_small.
  - assert (E : forall a b, 0 <= b -> Z.of_N (N.lxor (N.lxor a (mag b)) a) = b).
    { intros a b Hb. rewrite (N.lxor_comm a), N.lxor_assoc, N.lxor_nilpotent, N.lxor_0_r. unfold mag. lia. }
    destruct (s i).
    + unfold y1. rewrite mag_of_N, <- TQ. apply E. lia.
    + unfold y0. rewrite mag_of_N, <- TQ. apply E. lia.
  - lia.
  - change (mag 0) with 0%N. pose proof (N.pow_nonzero 2 (N.of_nat bl)). lia.
  - destruct (s i); auto.
  - apply mag_lt, h_lt.
Qed.

Lemma ext_recv_does : does (pfor (ext_recv_one sha sel bl t) 0 n (Some []))
  (concat (map (fun i => enc_bn (y0 i) ++ enc_bn (y1 i)) (seq 0 n))) []
  (Some (map (fun i => if s i then snd (mm i) else fst (mm i)) (seq 0 n))).
Proof.
  pose proof (does_pfor (ext_recv_one sha sel bl t) (fun i => enc_bn (y0 i) ++ enc_bn (y1 i)) (fun _ => [])
    (fun j => Some (map (fun i => if s i then snd (mm i) else fst (mm i)) (seq 0 j))) n 0) as D.
  rewrite concat_nil in D. apply D. clear D. intros i Hi. unfold ext_recv_one.
  destruct (y_lt i ltac:(lia)) as [Y0 Y1].
  assert (F : forall a, 0 <= a -> (mag a < 2 ^ N.of_nat bl)%N -> bn_fits a).
  { intros a Ha HL. apply (fits_pow a (N.of_nat bl)); [|lia]. apply of_N_lt in HL. rewrite nat_N_Z. unfold mag in HL. lia. }
  eapply (does_bind _ _ _ [] (y0 i) _ []); [apply recv_bn_pos; [unfold y0; lia|apply F; [unfold y0; lia|auto]]|].
  rewrite <- (app_nil_r (enc_bn (y1 i))).
  eapply (does_bind _ _ _ [] (y1 i) _ []); [apply recv_bn_pos; [unfold y1; lia|apply F; [unfold y1; lia|auto]]|].
  rewrite hash_ok. change (BN_is_bit_set sel (N.of_nat i)) with (s i). rewrite unmask by lia.
  rewrite seq_snoc, map_app. constructor.
Qed.

Theorem ext_bn_correct : runs (OTExtSendBN sha m bl S k) (OTExtRecvBN sha sel bl (length m) t key x)
  (Some tt) (Some (map (fun i => if BN_is_bit_set sel (N.of_nat i) then snd (nth i m (0, 0)) else fst (nth i m (0, 0))) (seq 0 (length m)))).
Proof.
  unfold OTExtSendBN, OTExtRecvBN. fold n T.
  rewrite (surjective_pairing (SwitchRowColumnBNPair T 128)), (proj2 (proj2 (switch_pair_split T 128))). fold Tr.
  cbn [negb]. destruct SIZED as [SN SE].
  assert (N1 : 1 < rsa_n key) by apply OK. assert (E1 : 0 <= rsa_e key) by apply OK.
  assert (R : runs (OTSendBN key x Tr) (OTRecvBN S (length Tr) k) tt (Some Q)).
  { replace Q with (map (fun i => if BN_is_bit_set S (N.of_nat i) then snd (nth i Tr (0, 0)) else fst (nth i Tr (0, 0))) (seq 0 (length Tr)))
      by (rewrite Tr_length; auto).
    apply ot_bn_correct; auto.
    - rewrite Tr_length. lia.
    - apply (fits_pow _ 1024); [|discriminate]. change (Z.of_N 1024) with 1024. lia.
    - apply (fits_pow _ 1024); [|discriminate]. change (Z.of_N 1024) with 1024. lia.
    - intros i j. split; [apply FX|]. apply (fits_pow _ 1024); [|discriminate]. apply FX.
    - intros p Hp. apply (In_nth _ _ (0, 0)) in Hp. destruct Hp as (j & Hj & <-). rewrite Tr_length in Hj.
      pose proof (Tr_lt j false Hj) as L0. pose proof (Tr_lt j true Hj) as L1. cbv iota in L0, L1.
      assert (F : forall a, 0 <= a < 2 ^ Z.of_nat n -> bn_fits (rsa_n key + a)).
      { intros a Ha. apply (fits_pow _ (1024 + N.of_nat n + 1)); [|lia].
        assert (2 ^ 1024 <= 2 ^ (1024 + Z.of_nat n)) by (apply Z.pow_le_mono_r; lia).
        assert (2 ^ Z.of_nat n <= 2 ^ (1024 + Z.of_nat n)) by (apply Z.pow_le_mono_r; lia).
        replace (Z.of_N (1024 + N.of_nat n + 1)) with (Z.succ (1024 + Z.of_nat n)) by lia.
        rewrite Z.pow_succ_r by lia. set (p1 := 2 ^ (1024 + Z.of_nat n)) in *. lia. }
      split; [lia|]. split; [lia|]. split; apply F; auto. }
  rewrite Tr_length in R. apply runs_swap in R.
  eapply runs_bind; [exact R|]. cbv beta iota.
  rewrite (surjective_pairing (SwitchRowColumnBN Q n)), (proj1 (switch_ok Q n)). fold Qr.
  cbn [negb]. eapply runs_map_A with (a := sst n).
  - eapply runs_AB; [apply ext_send_does|apply ext_recv_does].
  - destruct n; auto.
Qed.
End ExtCorrect.

Theorem ext_correct sha m sel S t k key x :
  (forall l, Forall is_byte (sha l)) ->
  key_ok key -> key_sized key -> draws_sized x ->
  0 <= S < 2 ^ 128 -> (forall i, 0 <= t i < 2 ^ 128) ->
  Z.of_nat (length m) < 2 ^ 32 -> length sel = length m ->
  Forall (fun p => is_block (fst p) /\ is_block (snd p)) m ->
  runs (OTExtSend sha m S k) (OTExtRecv sha sel t key x) (Some tt) (Some (chosen sel m)).
Proof.
  intros SHA OK SZ FX HS HT LEN LS FB. unfold OTExtSend, OTExtRecv.
  set (m' := map _ m).
  assert (LM : length m' = length m) by apply map_length.
  pose proof (ext_bn_correct sha SHA m' 128 (sel_bn sel) S t k key x ltac:(lia) OK SZ FX) as R.
  rewrite LM in R. specialize (R LEN HS HT).
  eapply runs_map_B; [rewrite LS; apply R|].
  - intros p Hp. apply in_map_iff in Hp. destruct Hp as ([w0 w1] & <- & Hp). cbn [fst snd].
    rewrite Forall_forall in FB. destruct (FB _ Hp) as [B0 B1]. cbn [fst snd] in *. rewrite !block_to_bn by auto.
    split; apply (of_N_lt _ 128); auto.
  - cbv beta iota. do 2 f_equal.
    transitivity (map BNToBlock (map (fun i => if nth i sel false then snd (nth i m' (0, 0)) else fst (nth i m' (0, 0))) (seq 0 (length m)))).
    + f_equal. apply map_ext. intros i. rewrite sel_bn_bits. auto.
    + apply chosen_map; auto.
Qed.

(** * The digest input is not injective *)
Theorem hash_input_shift tw v : 0 < v -> 256 * v < 2 ^ 128 -> hash_input tw v = hash_input tw (256 * v).
Proof.
  intros H0 H1. unfold hash_input.
  assert (SZ : BN_num_bits (256 * v) = (8 + BN_num_bits v)%N).
  { unfold BN_num_bits, mag. rewrite Zabs2N.inj_mul. change (Z.abs_N 256) with (2 ^ 8)%N.
    rewrite !N.size_log2 by lia. rewrite N.mul_comm, N.log2_mul_pow2 by lia. lia. }
  assert (NB : BN_num_bytes (256 * v) = S (BN_num_bytes v)).
  { unfold BN_num_bytes. rewrite SZ. replace (8 + BN_num_bits v + 7)%N with (1 * 8 + (BN_num_bits v + 7))%N by lia.
    rewrite N.div_add_l by lia. lia. }
  assert (B16 : (BN_num_bytes (256 * v) <= 16)%nat).
  { unfold BN_num_bytes. assert (BN_num_bits (256 * v) <= 128)%N.
    { apply size_le. apply (mag_lt _ 128). lia. }
    assert ((BN_num_bits (256 * v) + 7) / 8 <= 135 / 8)%N by (apply N.div_le_mono; lia).
    change (135 / 8)%N with 16%N in *. lia. }
  rewrite NB in *. destruct (Nat.leb_spec (BN_num_bytes v) 16); [|lia]. destruct (Nat.leb_spec (S (BN_num_bytes v)) 16); [|lia].
  f_equal. unfold BN_bn2bin. rewrite NB. cbn [le]. unfold mag. rewrite Zabs2N.inj_mul. change (Z.abs_N 256) with 256%N.
  rewrite N.mul_comm, N.mod_mul, N.div_mul by lia. cbn [rev]. rewrite <- app_assoc. f_equal.
  replace (16 - BN_num_bytes v)%nat with (S (16 - S (BN_num_bytes v))) by lia. auto.
Qed.

(** * What the base OT inside the extension tells the other party
    The columns that the receiver of the extension offers as base-OT messages
    have one bit per transferred message and differ by its choice vector.  They
    are masked by adding a number below the RSA modulus, so the bits above
    RSA_BITS of both columns are visible up to a carry. *)
(** 1024 = RSA_BITS *)
Definition hi (a : Z) : N := mag (a / 2 ^ RSA_BITS).
Definition leak_candidates (a0 a1 : Z) : list N :=
  [N.lxor (hi a0) (hi a1); N.lxor (hi a0 - 1) (hi a1); N.lxor (hi a0) (hi a1 - 1); N.lxor (hi a0 - 1) (hi a1 - 1)].

Lemma hi_sum c a : 0 <= c < 2 ^ RSA_BITS -> 0 <= a -> hi (c + a) = hi a \/ (hi (c + a) - 1 = hi a)%N.
Proof.
  intros HC HA. unfold hi, mag. set (B := 2 ^ 1024) in *.
  pose proof (Z.div_mod a B ltac:(lia)) as D. pose proof (Z.mod_pos_bound a B ltac:(lia)) as M.
  assert (0 <= a / B) by (apply Z.div_pos; lia).
  destruct (Z.lt_ge_cases (c + a mod B) B).
  - left. f_equal. symmetry. apply Z.div_unique with (r := c + a mod B); lia.
  - right. assert (E : (c + a) / B = a / B + 1) by (symmetry; apply Z.div_unique with (r := c + a mod B - B); lia). rewrite E. lia.
Qed.

Theorem ext_choice_leaks sel n t key x j v :
  (forall i, 0 <= t i < 2 ^ 128) -> key_ok key -> key_sized key -> (j < SEC_K_BIT)%nat -> 0 <= v -> bn_fits v ->
  exists a0 a1,
    does (OTSend_answer key x (fst (SwitchRowColumnBNPair (ext_T sel n t) SEC_K_BIT)) j tt)
      (enc_bn v) (enc_bn a0 ++ enc_bn a1) tt /\
    In (mag sel mod 2 ^ N.of_nat n / 2 ^ 1024)%N (leak_candidates a0 a1).
Proof.
  intros HT OK [SN _] Hj Hv Fv. set (Tr := fst _). assert (N1 : 1 < rsa_n key) by apply OK.
  set (m := repeat (0, 0) n : list (Z * Z)). assert (LM : length m = n) by apply repeat_length.
  assert (TB : forall i (c : bool), N.testbit (mag (if c then snd (nth j Tr (0, 0)) else fst (nth j Tr (0, 0)))) (N.of_nat i) =
     if (i <? n)%nat then xorb (c && BN_is_bit_set sel (N.of_nat i)) (N.testbit (mag (t i)) (N.of_nat j)) else false).
  { intros i c. pose proof (Tr_bit m 0 sel t ltac:(lia) HT j i c Hj) as B. rewrite LM in B. exact B. }
  assert (TN : 0 <= fst (nth j Tr (0, 0)) /\ 0 <= snd (nth j Tr (0, 0))).
  { pose proof (Tr_nonneg m 0 sel t ltac:(lia) j) as B. rewrite LM in B. exact B. }
  set (T0 := fst (nth j Tr (0, 0))) in *. set (T1 := snd (nth j Tr (0, 0))) in *.
  set (k0 := BN_mod_exp (v - x j false) (rsa_d key) (rsa_n key)).
  set (k1 := BN_mod_exp (v - x j true) (rsa_d key) (rsa_n key)).
  exists (k0 + T0), (k1 + T1). split.
  - unfold OTSend_answer. rewrite <- (app_nil_r (enc_bn v)).
    eapply (does_bind _ _ _ [] v [] _); [apply recv_bn_pos; auto|]. cbv zeta. fold k0 k1.
    rewrite (nth_error_nth' _ (0, 0)).
    + rewrite (surjective_pairing (nth j Tr (0, 0))). fold T0 T1.
      apply (does_bind _ _ [] _ tt [] _ _ (send_bn _)). apply send_bn.
    + unfold Tr. rewrite <- LM. rewrite (Tr_length m sel t). auto.
  - assert (K0 : 0 <= k0 < 2 ^ 1024).
    { unfold k0, BN_mod_exp. pose proof (Z.mod_pos_bound (((v - x j false) mod rsa_n key) ^ rsa_d key) (rsa_n key)). lia. }
    assert (K1 : 0 <= k1 < 2 ^ 1024).
    { unfold k1, BN_mod_exp. pose proof (Z.mod_pos_bound (((v - x j true) mod rsa_n key) ^ rsa_d key) (rsa_n key)). lia. }
    assert (X : N.lxor (mag T0) (mag T1) = (mag sel mod 2 ^ N.of_nat n)%N).
    { apply N.bits_inj. intros i. rewrite <- (N2Nat.id i). set (i' := N.to_nat i).
      rewrite N.lxor_spec, mod_pow2_testbit. rewrite (TB i' false : N.testbit (mag T0) _ = _), (TB i' true : N.testbit (mag T1) _ = _).
      cbn [andb]. unfold BN_is_bit_set.
      destruct (Nat.ltb_spec i' n), (N.ltb_spec (N.of_nat i') (N.of_nat n)); try lia; cbn [andb]; auto.
      destruct (N.testbit (mag sel) (N.of_nat i')), (N.testbit (mag (t i')) (N.of_nat j)); auto. }
    assert (HX : N.lxor (hi T0) (hi T1) = (mag sel mod 2 ^ N.of_nat n / 2 ^ 1024)%N).
    { rewrite <- X. rewrite <- N.shiftr_div_pow2, N.shiftr_lxor, !N.shiftr_div_pow2. unfold hi, mag.
      assert (E : forall a, 0 <= a -> Z.abs_N (a / 2 ^ 1024) = (Z.abs_N a / 2 ^ 1024)%N).
      { intros a Ha. apply N2Z.inj. rewrite N2Z.inj_div, !N2Z.inj_abs_N, Z.abs_eq, Z.abs_eq by (try apply Z.div_pos; lia).
        f_equal. }
      rewrite !E by tauto. auto. }
    rewrite <- HX. unfold leak_candidates.
    destruct (hi_sum k0 T0 K0 ltac:(tauto)) as [E0|E0]; destruct (hi_sum k1 T1 K1 ltac:(tauto)) as [E1|E1]; rewrite <- E0, <- E1; cbn; tauto.
Qed.
Theorem hash_input_not_injective tw v : 0 < v -> 256 * v < 2 ^ 128 ->
  v <> 256 * v /\ hash_input tw v = hash_input tw (256 * v).
Proof. intros H L. split; [lia|apply hash_input_shift; auto]. Qed.
