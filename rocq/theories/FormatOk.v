(** Facts about the string helpers of util/util.cpp. *)
From Coq Require Import ZArith NArith List Bool Lia Ascii.
From Verif Require Import Base Gate Circuit Proc Codec Tcp BN Text Hex Protocol Format.
Import ListNotations.
Open Scope Z_scope.

(** * Specification *)
(** The two's-complement number of the low [w] bits. *)
Definition signed (w : Z) (v : Z) : Z := if 2 * (v mod 2 ^ w) <? 2 ^ w then v mod 2 ^ w else v mod 2 ^ w - 2 ^ w.
Definition sum (ws : list Z) : Z := fold_right Z.add 0 ws.
(** Fields laid out from the top, [offset] unused bits at the bottom. *)
Fixpoint fields (ws : list Z) (offset v : Z) : list Z :=
  match ws with
  | [] => []
  | w :: ws' => signed w (v / 2 ^ (offset + sum ws')) :: fields ws' offset v
  end.
Fixpoint pack (xs ws : list Z) : Z :=
  match xs, ws with
  | x :: xs', w :: ws' => x mod 2 ^ w * 2 ^ sum ws' + pack xs' ws'
  | _, _ => 0
  end.

(** * Digits *)
Lemma bin_chars t v : binnum t = Some v -> Forall (fun c => c = "0"%char \/ c = "1"%char) t.
Proof.
  revert v. unfold binnum. induction t as [|c t IH]; intros v; cbn [numeral]; [constructor|].
  destruct (bin_digit c) eqn:E; [|discriminate]. destruct (numeral 2 bin_digit t) as [w|]; [|discriminate]. intros _. constructor; [|eauto].
  unfold bin_digit in E. destruct (Ascii.eqb_spec c "0"); [auto|]. destruct (Ascii.eqb_spec c "1"); [auto|discriminate].
Qed.
Lemma small16 d : (d < 16)%N -> In d [0;1;2;3;4;5;6;7;8;9;10;11;12;13;14;15]%N.
Proof.
  intros H. assert (E : existsb (N.eqb d) [0;1;2;3;4;5;6;7;8;9;10;11;12;13;14;15]%N = true).
  { destruct d as [|p]; [reflexivity|]. do 4 (destruct p as [p|p|]; try reflexivity); lia. }
  apply existsb_exists in E as (k & K & E). apply N.eqb_eq in E. subst k. exact K.
Qed.
Lemma nibble_ok c d : hex_digit c = Some d -> binnum (nibble c) = Some d /\ length (nibble c) = 4%nat.
Proof.
  intros H. unfold nibble. rewrite H. pose proof (small16 d (hex_digit_bound c d H)) as K. clear H. split; [|rewrite map_length; apply seq_length].
  repeat (destruct K as [<-|K]; [vm_compute; reflexivity|]). destruct K.
Qed.
Lemma of_nibble_ok a b c d v : binnum [a; b; c; d] = Some v -> of_nibble [a; b; c; d] = [upper_digit v] /\ (v < 16)%N.
Proof.
  intros H. pose proof (binnum_bound _ _ H) as B. split; [|exact B]. revert H. unfold binnum, of_nibble. cbn [numeral].
  destruct (bin_digit a); [|discriminate]. destruct (bin_digit b); [|discriminate].
  destruct (bin_digit c); [|discriminate]. destruct (bin_digit d); [|discriminate]. cbn [length N.of_nat].
  change (2 ^ N.pos (Pos.of_succ_nat 2))%N with 8%N. change (2 ^ N.pos (Pos.of_succ_nat 1))%N with 4%N.
  change (2 ^ N.pos (Pos.of_succ_nat 0))%N with 2%N. change (2 ^ 0)%N with 1%N.
  intros [= <-]. f_equal. f_equal. lia.
Qed.

(** * Hexadecimal to binary and back *)
Lemma hex2bin_chunks t v : hexnum t = Some v -> binnum (flat_map nibble t) = Some v /\ length (flat_map nibble t) = (4 * length t)%nat.
Proof.
  revert v. unfold hexnum. induction t as [|c t IH]; intros v; cbn [numeral flat_map length]; [intros [= <-]; auto|].
  destruct (hex_digit c) as [d|] eqn:E; [|discriminate]. destruct (numeral 16 hex_digit t) as [w|]; [|discriminate]. intros [= <-].
  destruct (IH w eq_refl) as [IH1 IH2]. destruct (nibble_ok c d E) as [N1 N2]. split; [|rewrite app_length, N2, IH2; lia].
  unfold binnum. rewrite (numeral_app _ _ _ _ _ _ N1 IH1), IH2, Nat2N.inj_mul, N.pow_mul_r. reflexivity.
Qed.
Lemma u16_small z : 0 <= z < 2 ^ 16 -> u16 z = z.
Proof. intros H. apply Z.mod_small. lia. Qed.
Theorem hex2bin_ok t v : hexnum t = Some v -> Z.of_nat (length t) < 2 ^ 16 ->
  binnum (hex2bin t) = Some v /\ length (hex2bin t) = (4 * length t)%nat.
Proof. intros H SM. unfold hex2bin. rewrite u16_small, Nat2Z.id, firstn_all by lia. apply hex2bin_chunks. exact H. Qed.

Lemma bin2hex_chunks k : forall s v, length s = (4 * k)%nat -> binnum s = Some v ->
  hexnum (flat_map (fun i => of_nibble (firstn 4 (skipn (4 * i) s))) (seq 0 k)) = Some v /\
  length (flat_map (fun i => of_nibble (firstn 4 (skipn (4 * i) s))) (seq 0 k)) = k.
Proof.
  induction k as [|k IH]; intros s v HL H.
  - destruct s; [|discriminate]. cbn in H. injection H as <-. auto.
  - destruct s as [|a [|b [|c [|d s]]]]; cbn [length] in HL; try lia. assert (HL' : length s = (4 * k)%nat) by lia.
    change (a :: b :: c :: d :: s) with ([a; b; c; d] ++ s) in H. destruct (numeral_split _ _ _ _ _ H) as (x & y & Hx & Hy & ->).
    destruct (of_nibble_ok a b c d x Hx) as [E B]. destruct (IH s y HL' Hy) as [I1 I2].
    cbn [seq flat_map]. rewrite <- seq_shift.
    assert (M : flat_map (fun i => of_nibble (firstn 4 (skipn (4 * i) (a :: b :: c :: d :: s)))) (map S (seq 0 k)) =
                flat_map (fun i => of_nibble (firstn 4 (skipn (4 * i) s))) (seq 0 k)).
    { rewrite flat_map_concat_map, map_map, <- flat_map_concat_map. apply flat_map_ext. intros i.
      replace (4 * S i)%nat with (S (S (S (S (4 * i))))) by lia. reflexivity. }
    rewrite M. change (firstn 4 (skipn (4 * 0) (a :: b :: c :: d :: s))) with [a; b; c; d]. rewrite E. split.
    + assert (U : hexnum [upper_digit x] = Some x) by (unfold hexnum; cbn [numeral length]; rewrite hex_upper by exact B; f_equal; cbn; lia).
      pose proof (numeral_app _ _ _ _ _ _ U I1) as Q. unfold hexnum. rewrite Q. rewrite I2, HL', Nat2N.inj_mul, N.pow_mul_r. reflexivity.
    + cbn [app length]. rewrite I2. reflexivity.
Qed.
Lemma zeros_num n t v : binnum t = Some v -> binnum (repeat "0"%char n ++ t) = Some v.
Proof. intros H. induction n as [|n IH]; cbn [repeat app]; [exact H|]. unfold binnum in *. cbn [numeral]. rewrite IH. reflexivity. Qed.
Theorem bin2hex_ok s v : binnum s = Some v -> Z.of_nat (length s) < 2 ^ 16 - 4 ->
  hexnum (bin2hex s) = Some v /\ length (bin2hex s) = (length s / 4 + 1)%nat.
Proof.
  intros H SM. unfold bin2hex. rewrite (u16_small (Z.of_nat (length s))) by lia.
  pose proof (Z.div_mod (Z.of_nat (length s)) 4 ltac:(discriminate)) as DM. pose proof (Z.mod_pos_bound (Z.of_nat (length s)) 4 ltac:(lia)) as MB.
  set (q := Z.of_nat (length s) / 4) in *. set (r := Z.of_nat (length s) mod 4) in *.
  assert (L : Z.of_nat (length (repeat "0"%char (Z.to_nat (4 - r)) ++ s)) = 4 * (q + 1)) by (rewrite app_length, repeat_length; lia).
  rewrite u16_small by lia. rewrite L.
  replace ((4 * (q + 1) + 3) / 4) with (q + 1) by (apply (Z.div_unique _ _ _ 3); lia).
  assert (Q : Z.to_nat (q + 1) = (length s / 4 + 1)%nat).
  { apply Nat2Z.inj. rewrite Nat2Z.inj_add, Nat2Z.inj_div, Z2Nat.id by lia. reflexivity. }
  rewrite <- Q. apply bin2hex_chunks; [lia|]. apply zeros_num. exact H.
Qed.
(** Longer strings are cut. *)
Lemma bin2hex_drops s : Z.of_nat (length s) = 2 ^ 16 - 4 -> bin2hex s = [].
Proof.
  intros H. unfold bin2hex. assert (E : (2 ^ 16 - 4 - u16 (2 ^ 16 - 4) = 0 /\ u16 (2 ^ 16 - 4) mod 4 = 0)) by (split; reflexivity).
  rewrite H. destruct E as [_ ->].
  assert (L : Z.of_nat (length (repeat "0"%char (Z.to_nat (4 - 0)) ++ s)) = 2 ^ 16) by (rewrite app_length, repeat_length; lia).
  rewrite L. reflexivity.
Qed.

(** * Numbers to bits *)
Definition bits_of (x : Z) (n : nat) : text := map (fun i => bit_char (Z.testbit x (Z.of_nat n - 1 - Z.of_nat i))) (seq 0 n).
Lemma bits_S x n : bits_of x (S n) = bit_char (Z.testbit x (Z.of_nat n)) :: bits_of x n.
Proof.
  unfold bits_of. cbn [seq map]. f_equal; [f_equal; f_equal; lia|]. rewrite <- seq_shift, map_map. apply map_ext. intros i. f_equal. f_equal. lia.
Qed.
Lemma bits_length x n : length (bits_of x n) = n.
Proof. unfold bits_of. rewrite map_length. apply seq_length. Qed.
Lemma bin_bit_char b : bin_digit (bit_char b) = Some (N.b2n b).
Proof. destruct b; reflexivity. Qed.
Lemma mod_pow_S x n : 0 <= n -> x mod 2 ^ (n + 1) = Z.b2z (Z.testbit x n) * 2 ^ n + x mod 2 ^ n.
Proof.
  intros H. rewrite Z.pow_add_r, Z.pow_1_r by lia. rewrite Z.rem_mul_r by (try lia; apply Z.pow_nonzero; lia).
  rewrite Z.testbit_spec' by lia. lia.
Qed.
Lemma bits_num x n : binnum (bits_of x n) = Some (Z.to_N (x mod 2 ^ Z.of_nat n)).
Proof.
  induction n as [|n IH]; [cbn; rewrite Z.mod_1_r; reflexivity|].
  rewrite bits_S. unfold binnum. cbn [numeral]. fold binnum. rewrite bin_bit_char. fold (binnum (bits_of x n)). rewrite IH, bits_length.
  f_equal. rewrite Nat2Z.inj_succ, <- Z.add_1_r, mod_pow_S by lia.
  pose proof (Z.mod_pos_bound x (2 ^ Z.of_nat n) ltac:(apply Z.pow_pos_nonneg; lia)).
  assert (0 < 2 ^ Z.of_nat n) by (apply Z.pow_pos_nonneg; lia).
  rewrite Z2N.inj_add, Z2N.inj_mul, Z2N.inj_pow by (try lia; destruct (Z.testbit x (Z.of_nat n)); cbn [Z.b2z]; lia).
  rewrite <- nat_N_Z, N2Z.id. f_equal. destruct (Z.testbit x (Z.of_N (N.of_nat n))); reflexivity.
Qed.
Lemma skipn_bits x k n : skipn k (bits_of x (k + n)) = bits_of x n.
Proof. induction k as [|k IH]; [reflexivity|]. change (S k + n)%nat with (S (k + n)). rewrite bits_S. exact IH. Qed.
Theorem dec2bin_ok x w : 0 <= w <= 64 -> exists b, dec2bin x w = Some b /\ binnum b = Some (Z.to_N (x mod 2 ^ w)) /\ Z.of_nat (length b) = w.
Proof.
  intros H. unfold dec2bin, substr. change (map (fun i => bit_char (Z.testbit x (63 - Z.of_nat i))) (seq 0 64)) with (bits_of x 64).
  rewrite bits_length. destruct (Z.leb_spec 0 (64 - w)); [|lia]. destruct (Z.leb_spec (64 - w) (Z.of_nat 64)); [|lia]. cbn [andb].
  eexists. split; [reflexivity|]. replace 64%nat with (Z.to_nat (64 - w) + Z.to_nat w)%nat by lia.
  rewrite skipn_bits, firstn_all2 by (rewrite bits_length; lia).
  rewrite bits_num, bits_length, Z2Nat.id by lia. auto.
Qed.

(** * Bits to numbers *)
Lemma pow2_pos n : (0 < 2 ^ n)%N.
Proof. apply N.neq_0_lt_0. apply N.pow_nonzero. discriminate. Qed.
Lemma tows_ok s v : binnum s = Some v ->
  length (fst (tows s)) = length s /\ snd (tows s) = negb (v =? 0)%N /\
  binnum (fst (tows s)) = Some (if (v =? 0)%N then 0 else 2 ^ N.of_nat (length s) - v)%N.
Proof.
  revert v. induction s as [|c s IH]; intros v H; [cbn in H; injection H as <-; auto|].
  pose proof (binnum_bound _ _ H) as VB. pose proof (bin_chars _ _ H) as C. inversion C as [|? ? Cc Cs]; subst.
  unfold binnum in H. cbn [numeral] in H. destruct (bin_digit c) as [d|] eqn:E; [|discriminate].
  destruct (numeral 2 bin_digit s) as [w|] eqn:EW; [|discriminate]. injection H as <-. change (binnum s = Some w) in EW.
  pose proof (binnum_bound _ _ EW) as B. destruct (IH w EW) as (I1 & I2 & I3). cbn [tows].
  destruct (tows s) as [r invert]. cbn [fst snd] in *. subst invert. cbn [length] in *. rewrite I1. split; [reflexivity|].
  rewrite Nat2N.inj_succ, N.pow_succ_r' in VB |- *. pose proof (pow2_pos (N.of_nat (length s))) as P.
  unfold binnum. cbn [numeral]. fold (binnum r). rewrite I3, I1.
  destruct (N.eqb_spec w 0) as [W0|NW]; cbn [negb orb].
  - clear B I3 VB. subst w. rewrite E. destruct Cc as [-> | ->]; cbn in E; injection E as <-.
    + cbn [Ascii.eqb Bool.eqb negb]. rewrite N.mul_0_l. cbn. auto.
    + destruct (N.eqb_spec (1 * 2 ^ N.of_nat (length s) + 0) 0); [lia|]. split; [reflexivity|]. f_equal. lia.
  - destruct (N.eqb_spec (d * 2 ^ N.of_nat (length s) + w) 0); [lia|]. cbn [negb]. split; [reflexivity|].
    destruct Cc as [-> | ->]; cbn in E; injection E as <-; cbn [Ascii.eqb Bool.eqb]; cbn [bin_digit Ascii.eqb Bool.eqb]; f_equal; lia.
Qed.
Lemma bitset_ok s v : binnum s = Some v -> (length s <= 64)%nat -> bitset_val s = Some v.
Proof.
  intros H HL. unfold bitset_val. rewrite firstn_all2 by lia. clear HL.
  enough (G : forall a, fold_left bitset_step s (Some a) = Some (a * 2 ^ N.of_nat (length s) + v)%N) by exact (G 0%N).
  revert v H. induction s as [|c s IH]; intros v H a; [cbn in H; injection H as <-; cbn; f_equal; lia|].
  pose proof (bin_chars _ _ H) as C. inversion C as [|? ? Cc Cs]; subst. unfold binnum in H. cbn [numeral] in H.
  destruct (bin_digit c) as [d|] eqn:E; [|discriminate]. destruct (numeral 2 bin_digit s) as [w|] eqn:EW; [|discriminate]. injection H as <-.
  cbn [fold_left length]. rewrite Nat2N.inj_succ, N.pow_succ_r'.
  destruct Cc as [-> | ->]; cbn in E; injection E as <-;
    [change (bitset_step (Some a) "0") with (Some (2 * a)%N)|change (bitset_step (Some a) "1") with (Some (2 * a + 1)%N)];
    rewrite (IH w EW); f_equal; lia.
Qed.
Lemma to_i64_small z : - 2 ^ 63 <= z < 2 ^ 63 -> to_i64 z = z.
Proof. intros H. unfold to_i64. rewrite Z.mod_small; lia. Qed.
Theorem bin2dec_unsigned_ok s v : binnum s = Some v -> (length s <= 63)%nat -> bin2dec s false = Some (Z.of_N v).
Proof.
  intros H HL. unfold bin2dec. cbn [andb]. rewrite (bitset_ok s v H) by lia. cbn [obind]. f_equal. apply to_i64_small.
  pose proof (binnum_bound _ _ H). assert (2 ^ N.of_nat (length s) <= 2 ^ 63)%N by (apply N.pow_le_mono_r; lia). lia.
Qed.
Theorem bin2dec_ok s v : binnum s = Some v -> (length s <= 64)%nat -> v <> (2 ^ 63)%N -> 
  bin2dec s true = Some (signed (Z.of_nat (length s)) (Z.of_N v)).
Proof.
  intros H HL NM. pose proof (binnum_bound _ _ H) as VB. unfold bin2dec. cbn [andb].
  assert (VB' : Z.of_N v < 2 ^ Z.of_nat (length s)) by (rewrite <- nat_N_Z; change 2 with (Z.of_N 2); rewrite <- N2Z.inj_pow; lia).
  unfold signed. rewrite Z.mod_small by lia.
  destruct s as [|c s]; [cbn in H; injection H as <-; reflexivity|].
  pose proof (bin_chars _ _ H) as C. inversion C as [|? ? Cc Cs]; subst.
  assert (P : 2 ^ Z.of_nat (length (c :: s)) = 2 * 2 ^ Z.of_nat (length s)) by (cbn [length]; rewrite Nat2Z.inj_succ, Z.pow_succ_r by lia; reflexivity).
  rewrite P in *.
  assert (PB : 2 ^ Z.of_nat (length s) <= 2 ^ 63) by (apply Z.pow_le_mono_r; cbn [length] in HL; lia).
  pose proof H as H'. unfold binnum in H. cbn [numeral] in H. destruct (bin_digit c) as [d|] eqn:E; [|discriminate].
  destruct (numeral 2 bin_digit s) as [w|] eqn:EW; [|discriminate]. injection H as <-. change (binnum s = Some w) in EW.
  pose proof (binnum_bound _ _ EW) as WB.
  assert (WB' : Z.of_N w < 2 ^ Z.of_nat (length s)) by (rewrite <- nat_N_Z; change 2 with (Z.of_N 2); rewrite <- N2Z.inj_pow; lia).
  assert (PZ : Z.of_N (2 ^ N.of_nat (length s)) = 2 ^ Z.of_nat (length s)) by (rewrite N2Z.inj_pow, nat_N_Z; reflexivity).
  destruct Cc as [-> | ->]; cbn in E; injection E as <-; cbn [Ascii.eqb Bool.eqb].
  - rewrite (bitset_ok _ _ H' HL). cbn [obind]. destruct (Z.ltb_spec (2 * Z.of_N (0 * 2 ^ N.of_nat (length s) + w)) (2 * 2 ^ Z.of_nat (length s))); [|lia].
    f_equal. apply to_i64_small. lia.
  - destruct (tows_ok _ _ H') as (T1 & _ & T3). destruct (Z.ltb_spec (2 * Z.of_N (1 * 2 ^ N.of_nat (length s) + w)) (2 * 2 ^ Z.of_nat (length s))); [lia|].
    pose proof (pow2_pos (N.of_nat (length s))).
    destruct (N.eqb_spec (1 * 2 ^ N.of_nat (length s) + w) 0); [lia|].
    unfold towsComplement. rewrite (bitset_ok _ _ T3) by lia. cbn [obind].
    cbn [length]. rewrite Nat2N.inj_succ, N.pow_succ_r'. rewrite to_i64_small by lia.
    match goal with |- context [?a =? - 2 ^ 63] => destruct (Z.eqb_spec a (- 2 ^ 63)); [lia|] end. f_equal. lia.
Qed.

(** * Packing and unpacking fields *)
Lemma sum_app a b : sum (a ++ b) = sum a + sum b.
Proof. unfold sum. induction a as [|x a IH]; cbn [app fold_right]; [lia|]. rewrite IH. lia. Qed.
Lemma sum_nonneg ws : Forall (fun w => 0 <= w) ws -> 0 <= sum ws.
Proof. induction 1; cbn; [lia|]. fold (sum l). lia. Qed.
Lemma sum_firstn ws i : Forall (fun w => 0 <= w) ws -> 0 <= sum (firstn i ws) <= sum ws.
Proof.
  intros F. rewrite <- (firstn_skipn i ws) in F at 1. apply Forall_app in F as [F1 F2].
  pose proof (f_equal sum (firstn_skipn i ws)) as E. rewrite sum_app in E. pose proof (sum_nonneg _ F1). pose proof (sum_nonneg _ F2). lia.
Qed.
Lemma firstn_snoc {A} (l : list A) i x : nth_error l i = Some x -> firstn (S i) l = firstn i l ++ [x].
Proof. revert i. induction l as [|y l IH]; intros [|i] H; cbn in *; try discriminate; [congruence|]. rewrite (IH i H). reflexivity. Qed.
Lemma sum_S ws i w : nth_error ws i = Some w -> sum (firstn (S i) ws) = sum (firstn i ws) + w.
Proof. intros H. rewrite (firstn_snoc _ _ _ H), sum_app. cbn. lia. Qed.

Lemma fa_firstn {A} {P : A -> Prop} (l : list A) i : Forall P l -> Forall P (firstn i l).
Proof. intros F. rewrite <- (firstn_skipn i l) in F. apply Forall_app in F. tauto. Qed.
Lemma pack_bound xs : forall ws, length xs = length ws -> Forall (fun w => 0 <= w) ws -> 0 <= pack xs ws < 2 ^ sum ws.
Proof.
  induction xs as [|x xs IH]; intros [|w ws] HL F; cbn [length] in HL; try discriminate; [cbn; lia|].
  inversion F as [|? ? Fw Fs]; subst. injection HL as HL. specialize (IH ws HL Fs). cbn [pack]. change (sum (w :: ws)) with (w + sum ws).
  pose proof (sum_nonneg _ Fs). rewrite Z.pow_add_r by lia.
  pose proof (Z.mod_pos_bound x (2 ^ w) ltac:(apply Z.pow_pos_nonneg; lia)). nia.
Qed.
Lemma pack_snoc xs : forall ws x w, length xs = length ws -> Forall (fun w => 0 <= w) ws -> 0 <= w ->
  pack (xs ++ [x]) (ws ++ [w]) = pack xs ws * 2 ^ w + x mod 2 ^ w.
Proof.
  induction xs as [|y xs IH]; intros [|v ws] x w HL F Hw; cbn [length] in HL; try discriminate.
  - cbn [app pack sum fold_right]. cbn. lia.
  - inversion F as [|? ? Fv Fs]; subst. injection HL as HL. cbn [app pack]. rewrite (IH ws x w HL Fs Hw), sum_app.
    pose proof (sum_nonneg _ Fs). cbn [sum fold_right]. fold (sum ws). rewrite Z.add_0_r, Z.pow_add_r by lia. lia.
Qed.

(** The hexadecimal text made by formatGCInputString is the numeral of the packed
    fields, the first field at the top. *)
Theorem format_ok xs ws : length xs = length ws -> Forall (fun w => 0 <= w <= 64) ws -> sum ws < 2 ^ 16 - 4 ->
  exists t, formatGCInputString xs ws = Some t /\ hexnum t = Some (Z.to_N (pack xs ws)) /\ Z.of_nat (length t) = sum ws / 4 + 1.
Proof.
  intros HL F SM. assert (F0 : Forall (fun w => 0 <= w) ws) by (eapply Forall_impl; [|exact F]; cbn; lia).
  unfold formatGCInputString.
  destruct (for_inv (fun i bin => binnum bin = Some (Z.to_N (pack (firstn i xs) (firstn i ws))) /\ Z.of_nat (length bin) = sum (firstn i ws))
    (length xs) (fun i bin => do x <- rd xs (Z.of_nat i); do w <- rd ws (Z.of_nat i); do b <- dec2bin x w; Some (bin ++ b)) [])
    as (bin & E & B1 & B2).
  - split; reflexivity.
  - intros i bin Hi [H1 H2]. rewrite !rd_nat.
    destruct (nth_error xs i) as [x|] eqn:EX; [|apply nth_error_None in EX; lia].
    destruct (nth_error ws i) as [w|] eqn:EW; [|apply nth_error_None in EW; lia]. cbn [obind].
    assert (W : 0 <= w <= 64) by (rewrite Forall_forall in F; apply F; eapply nth_error_In; eauto).
    destruct (dec2bin_ok x w W) as (b & E1 & E2 & E3). rewrite E1. cbn [obind]. eexists. split; [reflexivity|].
    split; [|rewrite app_length, (sum_S _ _ _ EW); lia].
    unfold binnum. rewrite (numeral_app _ _ _ _ _ _ H1 E2). f_equal.
    rewrite (firstn_snoc _ _ _ EX), (firstn_snoc _ _ _ EW), pack_snoc; [| |apply fa_firstn; exact F0|lia].
    + assert (FL : length (firstn i xs) = length (firstn i ws)) by (rewrite !firstn_length; lia).
      pose proof (pack_bound _ _ FL (fa_firstn _ i F0)). pose proof (Z.mod_pos_bound x (2 ^ w) ltac:(apply Z.pow_pos_nonneg; lia)).
      rewrite Z2N.inj_add, Z2N.inj_mul, Z2N.inj_pow by (try lia; try apply Z.mul_nonneg_nonneg; try apply Z.pow_nonneg; lia).
      f_equal. f_equal. f_equal. lia.
    + rewrite !firstn_length. lia.
  - rewrite E. cbn [obind]. rewrite firstn_all in B1. rewrite HL, firstn_all in B1, B2.
    destruct (bin2hex_ok bin _ B1 ltac:(lia)) as [R1 R2]. eexists. split; [reflexivity|]. split; [exact R1|].
    rewrite R2, Nat2Z.inj_add, Nat2Z.inj_div, B2. reflexivity.
Qed.

Lemma substr_num s pos w v : binnum s = Some v -> 0 <= pos -> 0 <= w -> pos + w <= Z.of_nat (length s) ->
  exists f, substr s pos w = Some f /\ Z.of_nat (length f) = w /\
    exists x, binnum f = Some x /\ Z.of_N x = Z.of_N v / 2 ^ (Z.of_nat (length s) - pos - w) mod 2 ^ w.
Proof.
  intros H Hp Hw HB. unfold substr. destruct (Z.leb_spec 0 pos); [|lia]. destruct (Z.leb_spec pos (Z.of_nat (length s))); [|lia]. cbn [andb].
  eexists. split; [reflexivity|]. set (f := firstn (Z.to_nat w) (skipn (Z.to_nat pos) s)).
  assert (LF : length f = Z.to_nat w) by (unfold f; rewrite firstn_length, skipn_length; lia). split; [lia|].
  pose proof H as H'. rewrite <- (firstn_skipn (Z.to_nat pos) s) in H'. destruct (numeral_split _ _ _ _ _ H') as (a & b & Ha & Hb & ->).
  rewrite <- (firstn_skipn (Z.to_nat w) (skipn (Z.to_nat pos) s)) in Hb. fold f in Hb.
  destruct (numeral_split _ _ _ _ _ Hb) as (x & y & Hx & Hy & ->).
  exists x. split; [exact Hx|]. pose proof (binnum_bound _ _ Hx) as BX. pose proof (binnum_bound _ _ Hy) as BY.
  rewrite LF in BX. set (m := length (skipn (Z.to_nat w) (skipn (Z.to_nat pos) s))) in *.
  assert (LM : m = (length s - Z.to_nat pos - Z.to_nat w)%nat) by (unfold m; rewrite !skipn_length; lia).
  rewrite skipn_length. replace (length s - Z.to_nat pos)%nat with (Z.to_nat w + m)%nat by lia.
  rewrite Nat2N.inj_add, N.pow_add_r. replace (Z.of_nat (length s) - pos - w) with (Z.of_nat m) by lia.
  rewrite !N2Z.inj_add, !N2Z.inj_mul, !N2Z.inj_pow, !nat_N_Z. change (Z.of_N 2) with 2. rewrite Z2Nat.id by lia.
  assert (BX' : Z.of_N x < 2 ^ w) by (apply N2Z.inj_lt in BX; rewrite N2Z.inj_pow, nat_N_Z, Z2Nat.id in BX by lia; exact BX).
  assert (BY' : Z.of_N y < 2 ^ Z.of_nat m) by (apply N2Z.inj_lt in BY; rewrite N2Z.inj_pow, nat_N_Z in BY; exact BY).
  assert (PM : 0 < 2 ^ Z.of_nat m) by (apply Z.pow_pos_nonneg; lia).
  replace (Z.of_N a * (2 ^ w * 2 ^ Z.of_nat m) + (Z.of_N x * 2 ^ Z.of_nat m + Z.of_N y)) with
    (Z.of_N y + (Z.of_N x + Z.of_N a * 2 ^ w) * 2 ^ Z.of_nat m) by lia.
  rewrite Z.div_add, Z.div_small, Z.add_0_l, Z.mod_add, Z.mod_small by (try apply Z.pow_nonzero; lia). reflexivity.
Qed.

Lemma fields_length ws off v : length (fields ws off v) = length ws.
Proof. induction ws; cbn; auto. Qed.
Lemma fields_nth ws off v : forall i w, nth_error ws i = Some w ->
  nth_error (fields ws off v) i = Some (signed w (v / 2 ^ (off + sum ws - sum (firstn i ws) - w))).
Proof.
  induction ws as [|w0 ws IH]; intros [|i] w H; cbn in H; try discriminate.
  - injection H as <-. cbn [fields nth_error firstn]. change (sum (w0 :: ws)) with (w0 + sum ws). change (sum []) with 0. do 4 f_equal. lia.
  - cbn [fields nth_error firstn]. rewrite (IH i w H). change (sum (w0 :: ws)) with (w0 + sum ws).
    change (sum (w0 :: firstn i ws)) with (w0 + sum (firstn i ws)). do 4 f_equal. lia.
Qed.
Lemma mod_field v L m w : 0 <= m -> 0 <= w -> m + w <= L -> (v mod 2 ^ L) / 2 ^ m mod 2 ^ w = v / 2 ^ m mod 2 ^ w.
Proof.
  intros H1 H2 H3. rewrite <- !Z.shiftr_div_pow2, <- !Z.land_ones by lia. apply Z.bits_inj'. intros j Hj.
  rewrite !Z.land_spec, !Z.shiftr_spec, Z.land_spec by lia.
  destruct (Z.ltb_spec j w).
  - rewrite !Z.ones_spec_low by lia. rewrite !andb_true_r. reflexivity.
  - rewrite (Z.ones_spec_high w) by lia. rewrite !andb_false_r. reflexivity.
Qed.
Lemma nth_error_ext' {A} (a b : list A) : length a = length b -> (forall i, (i < length a)%nat -> nth_error a i = nth_error b i) -> a = b.
Proof.
  revert b. induction a as [|x a IH]; intros [|y b] HL H; cbn in HL; try discriminate; [reflexivity|].
  pose proof (H 0%nat ltac:(cbn; lia)) as H0. cbn in H0. injection H0 as ->. f_equal. apply IH; [lia|]. intros i Hi. apply (H (S i)). cbn. lia.
Qed.

(** parseGCOutputString reads the fields of the number, whatever the number of
    leading zeros of the numeral. *)
Theorem parse_ok out t v ws off : hexnum t = Some v -> Z.of_nat (length t) < 2 ^ 16 ->
  length out = length ws -> (length ws < 256)%nat -> Forall (fun w => 0 <= w <= 64) ws -> 0 <= off -> off + sum ws < 2 ^ 16 ->
  ~ In (- 2 ^ 63) (fields ws off (Z.of_N v)) ->
  parseGCOutputString out t ws off = Some (fields ws off (Z.of_N v)).
Proof.
  intros H SM HL HK F HO HS NM. assert (F0 : Forall (fun w => 0 <= w) ws) by (eapply Forall_impl; [|exact F]; cbn; lia).
  unfold parseGCOutputString. rewrite Z.mod_small, Nat2Z.id by lia. rewrite HL.
  destruct (hex2bin_ok t v H SM) as [B BL].
  assert (E1 : for_ (length ws) (fun i len => do w <- rd ws (Z.of_nat i); Some (u16 (len + w))) off = Some (off + sum ws)).
  { destruct (for_inv (fun i len => len = off + sum (firstn i ws)) (length ws) (fun i len => do w <- rd ws (Z.of_nat i); Some (u16 (len + w))) off) as (len & E & ->).
    - cbn. lia.
    - intros i len Hi ->. rewrite rd_nat. destruct (nth_error ws i) as [w|] eqn:EW; [|apply nth_error_None in EW; lia]. cbn [obind].
      eexists. split; [reflexivity|]. rewrite (sum_S _ _ _ EW). pose proof (sum_firstn ws (S i) F0). rewrite (sum_S _ _ _ EW) in *.
      assert (0 <= w) by (rewrite Forall_forall in F0; apply F0; eapply nth_error_In; eauto). pose proof (sum_firstn ws i F0).
      rewrite u16_small by lia. lia.
    - rewrite E, firstn_all. reflexivity. }
  rewrite E1. cbn [obind]. set (L := off + sum ws) in *. pose proof (sum_nonneg _ F0) as S0.
  set (bin := if Z.of_nat (length (hex2bin t)) <? L then _ else _).
  assert (BB : exists u, binnum bin = Some u /\ Z.of_nat (length bin) = L /\ Z.of_N u = Z.of_N v mod 2 ^ L).
  { pose proof (binnum_bound _ _ B) as VB. unfold bin. destruct (Z.ltb_spec (Z.of_nat (length (hex2bin t))) L) as [C|C].
    - exists v. split; [apply zeros_num; exact B|]. split; [rewrite app_length, repeat_length; lia|].
      rewrite Z.mod_small; [reflexivity|]. split; [lia|]. apply N2Z.inj_lt in VB. rewrite N2Z.inj_pow, nat_N_Z in VB.
      eapply Z.lt_le_trans; [exact VB|]. apply Z.pow_le_mono_r; lia.
    - pose proof B as B'. rewrite <- (firstn_skipn (Z.to_nat (Z.of_nat (length (hex2bin t)) - L)) (hex2bin t)) in B'.
      destruct (numeral_split _ _ _ _ _ B') as (a & b & Ha & Hb & ->). exists b. split; [exact Hb|].
      assert (LB : Z.of_nat (length (skipn (Z.to_nat (Z.of_nat (length (hex2bin t)) - L)) (hex2bin t))) = L) by (rewrite skipn_length; lia).
      split; [exact LB|]. pose proof (binnum_bound _ _ Hb) as BB. apply N2Z.inj_lt in BB.
      rewrite N2Z.inj_pow, nat_N_Z, LB in BB. rewrite N2Z.inj_add, N2Z.inj_mul, N2Z.inj_pow, nat_N_Z, LB.
      change (Z.of_N 2) with 2 in *. rewrite Z.add_comm, Z.mod_add by (apply Z.pow_nonzero; lia). rewrite Z.mod_small by lia. reflexivity. }
  destruct BB as (u & U1 & U2 & U3).
  set (FS := fields ws off (Z.of_N v)) in *.
  set (body := fun (i : nat) (oc : list Z * Z) => _).
  destruct (for_inv (fun i oc => length (fst oc) = length ws /\ (forall j, (j < i)%nat -> nth_error (fst oc) j = nth_error FS j) /\
      snd oc = sum (firstn i ws)) (length ws) body (out, 0)) as (oc & E & P1 & P2 & P3).
  - split; [exact HL|]. split; [lia|reflexivity].
  - intros i [o cur] Hi (Q1 & Q2 & Q3). cbn [fst snd] in *. subst cur. unfold body. cbn [fst snd]. rewrite rd_nat.
    destruct (nth_error ws i) as [w|] eqn:EW; [|apply nth_error_None in EW; lia]. cbn [obind].
    assert (W : 0 <= w <= 64) by (rewrite Forall_forall in F; apply F; eapply nth_error_In; eauto).
    pose proof (sum_firstn ws i F0) as SI. pose proof (sum_firstn ws (S i) F0) as SI'. rewrite (sum_S _ _ _ EW) in SI'.
    destruct (substr_num bin (sum (firstn i ws)) w u U1 ltac:(lia) ltac:(lia) ltac:(lia)) as (f & E2 & E3 & x & E4 & E5).
    rewrite E2. cbn [obind].
    pose proof (fields_nth ws off (Z.of_N v) i w EW) as FN. fold FS in FN.
    assert (SE : signed w (Z.of_N x) = signed w (Z.of_N v / 2 ^ (L - sum (firstn i ws) - w))).
    { rewrite U2, U3, mod_field in E5 by lia. unfold signed. rewrite E5, Z.mod_mod by (apply Z.pow_nonzero; lia). reflexivity. }
    replace (off + sum ws - sum (firstn i ws) - w) with (L - sum (firstn i ws) - w) in FN by (unfold L; lia).
    rewrite <- SE in FN.
    assert (XN : x <> (2 ^ 63)%N).
    { intros ->. assert (w = 64 \/ w < 64) as [->|W'] by lia.
      - apply NM. eapply nth_error_In. rewrite FN. reflexivity.
      - pose proof (binnum_bound _ _ E4) as XB. assert (2 ^ N.of_nat (length f) <= 2 ^ 63)%N by (apply N.pow_le_mono_r; lia). lia. }
    rewrite (bin2dec_ok f x E4 ltac:(lia) XN), E3. cbn [obind].
    destruct (wr_ok o (Z.of_nat i) (signed w (Z.of_N x)) ltac:(lia)) as [o' W']. rewrite W'. cbn [obind].
    eexists. split; [reflexivity|]. cbn [fst snd]. split; [rewrite (wr_length _ _ _ _ W'); exact Q1|]. split.
    + intros j Hj. rewrite <- !rd_nat. destruct (Nat.eq_dec j i) as [->|NE].
      * rewrite (rd_wr_same _ _ _ _ W'), rd_nat. symmetry. exact FN.
      * rewrite (rd_wr_other _ _ _ _ _ W') by lia. rewrite !rd_nat. apply Q2. lia.
    + rewrite (sum_S _ _ _ EW). rewrite u16_small by lia. reflexivity.
  - rewrite E. cbn [obind]. destruct oc as [o cur]. cbn [fst snd] in *. f_equal. apply nth_error_ext'.
    + unfold FS. rewrite fields_length. exact P1.
    + intros i Hi. apply P2. lia.
Qed.

(** Packing, then unpacking. *)
Lemma fields_pack xs : forall ws hi, length xs = length ws -> Forall (fun w => 0 <= w) ws ->
  fields ws 0 (hi * 2 ^ sum ws + pack xs ws) = map (fun xw => signed (snd xw) (fst xw)) (combine xs ws).
Proof.
  induction xs as [|x xs IH]; intros [|w ws] hi HL F; cbn [length] in HL; try discriminate; [reflexivity|].
  inversion F as [|? ? Fw Fs]; subst. injection HL as HL. cbn [fields pack combine map fst snd].
  pose proof (sum_nonneg _ Fs) as S0. pose proof (pack_bound xs ws HL Fs) as PB. change (sum (w :: ws)) with (w + sum ws).
  rewrite Z.pow_add_r by lia. rewrite Z.add_0_l. assert (P : 0 < 2 ^ sum ws) by (apply Z.pow_pos_nonneg; lia). f_equal.
  - replace (hi * (2 ^ w * 2 ^ sum ws) + (x mod 2 ^ w * 2 ^ sum ws + pack xs ws)) with (pack xs ws + (x mod 2 ^ w + hi * 2 ^ w) * 2 ^ sum ws) by lia.
    rewrite Z.div_add, Z.div_small, Z.add_0_l by lia. unfold signed.
    assert (2 ^ w <> 0) by (apply Z.pow_nonzero; lia).
    rewrite Z.mod_add, Z.mod_mod by auto. reflexivity.
  - rewrite <- (IH ws (hi * 2 ^ w + x mod 2 ^ w) HL Fs). f_equal. lia.
Qed.
Theorem format_parse xs ws out : length xs = length ws -> length out = length ws -> (length ws < 256)%nat -> 
  Forall (fun w => 0 <= w <= 64) ws -> sum ws < 2 ^ 16 - 4 -> (forall x, In (x, 64) (combine xs ws) -> x mod 2 ^ 64 <> 2 ^ 63) ->
  exists t, formatGCInputString xs ws = Some t /\
    parseGCOutputString out t ws 0 = Some (map (fun xw => signed (snd xw) (fst xw)) (combine xs ws)).
Proof.
  intros HL HO HK F SM NM. assert (F0 : Forall (fun w => 0 <= w) ws) by (eapply Forall_impl; [|exact F]; cbn; lia).
  destruct (format_ok xs ws HL F SM) as (t & E & HN & LT). exists t. split; [exact E|].
  pose proof (pack_bound xs ws HL F0) as PB. pose proof (fields_pack xs ws 0 HL F0) as FP.
  rewrite Z.mul_0_l, Z.add_0_l in FP. pose proof (sum_nonneg _ F0).
  rewrite (parse_ok out t _ ws 0 HN); rewrite ?Z2N.id by lia; rewrite ?FP; try lia; auto.
  - pose proof (Z.div_le_upper_bound (sum ws) 4 (sum ws) ltac:(lia) ltac:(lia)). lia.
  - intros I. apply in_map_iff in I as ([x w] & EQ & I). cbn [fst snd] in EQ.
    assert (W : 0 <= w <= 64) by (rewrite Forall_forall in F; apply F; eapply in_combine_r; eauto).
    unfold signed in EQ. assert (P : 0 < 2 ^ w) by (apply Z.pow_pos_nonneg; lia). pose proof (Z.mod_pos_bound x (2 ^ w) P).
    assert (w = 64 \/ w <= 63) as [->|W'] by lia.
    + apply (NM x I). destruct (Z.ltb_spec (2 * (x mod 2 ^ 64)) (2 ^ 64)); lia.
    + assert (2 ^ w <= 2 ^ 63) by (apply Z.pow_le_mono_r; lia). destruct (Z.ltb_spec (2 * (x mod 2 ^ w)) (2 ^ w)); lia.
Qed.
(** Fields in the range of their width come back unchanged. *)
Lemma signed_id w x : 0 < w -> - 2 ^ (w - 1) <= x < 2 ^ (w - 1) -> signed w x = x.
Proof.
  intros Hw H. unfold signed. assert (P : 2 ^ w = 2 * 2 ^ (w - 1)) by (rewrite <- Z.pow_succ_r by lia; f_equal; lia).
  destruct (Z_lt_le_dec x 0) as [N|N].
  - assert (E : x mod 2 ^ w = x + 2 ^ w) by (symmetry; apply (Z.mod_unique_pos _ _ (-1)); lia). rewrite E.
    destruct (Z.ltb_spec (2 * (x + 2 ^ w)) (2 ^ w)); lia.
  - rewrite Z.mod_small by lia. destruct (Z.ltb_spec (2 * x) (2 ^ w)); lia.
Qed.

(** * The output mask *)
Lemma ones_num n t v : binnum t = Some v -> binnum (repeat "1"%char n ++ t) = Some (N.ones (N.of_nat n) * 2 ^ N.of_nat (length t) + v)%N.
Proof.
  intros H. induction n as [|n IH]; [exact H|]. cbn [repeat app]. unfold binnum in *. cbn [numeral]. rewrite IH.
  change (bin_digit "1") with (Some 1%N). f_equal. rewrite app_length, repeat_length, Nat2N.inj_add, N.pow_add_r, !N.ones_equiv.
  rewrite Nat2N.inj_succ, N.pow_succ_r'. pose proof (pow2_pos (N.of_nat n)).
  replace (N.pred (2 * 2 ^ N.of_nat n)) with (2 ^ N.of_nat n + N.pred (2 ^ N.of_nat n))%N by lia. rewrite N.mul_add_distr_r. f_equal. lia.
Qed.
Theorem mask_ok g e left : 0 <= g -> 0 <= e -> g + e < 2 ^ 16 - 4 -> exists m, hexnum (formatGCOutputMask g e left) = Some m /\
  forall i, 0 <= i < g + e -> N.testbit m (Z.to_N i) = (if left : bool then e <=? i else i <? g).
Proof.
  intros Hg He SM. unfold formatGCOutputMask.
  assert (E0 : binnum (repeat "0"%char (Z.to_nat e)) = Some 0%N) by (rewrite <- (app_nil_r (repeat _ _)); apply zeros_num; reflexivity).
  assert (E1 : binnum (repeat "1"%char (Z.to_nat g)) = Some (N.ones (Z.to_N g))).
  { rewrite <- (app_nil_r (repeat _ _)), (ones_num _ [] 0%N eq_refl). f_equal. cbn [length]. change (2 ^ N.of_nat 0)%N with 1%N. rewrite Z_nat_N. lia. }
  destruct left.
  - pose proof (ones_num (Z.to_nat g) _ _ E0) as E. eexists. split; [apply bin2hex_ok; [exact E|rewrite app_length, !repeat_length; lia]|].
    intros i Hi. rewrite N.add_0_r, repeat_length, !Z_nat_N, <- N.shiftl_mul_pow2. destruct (Z.leb_spec e i).
    + rewrite N.shiftl_spec_high' by lia. apply N.ones_spec_low. lia.
    + apply N.shiftl_spec_low. lia.
  - pose proof (zeros_num (Z.to_nat e) _ _ E1) as E. eexists. split; [apply bin2hex_ok; [exact E|rewrite app_length, !repeat_length; lia]|].
    intros i Hi. destruct (Z.ltb_spec i g); [apply N.ones_spec_low|apply N.ones_spec_high]; lia.
Qed.

(** * The claims of the list *)
Theorem fields_round_trip xs ws out : length xs = length ws -> length out = length ws -> (length ws < 256)%nat ->
  Forall (fun w => 0 < w <= 64) ws -> sum ws < 2 ^ 16 - 4 ->
  (forall x w, In (x, w) (combine xs ws) -> - 2 ^ (w - 1) <= x < 2 ^ (w - 1) /\ x <> - 2 ^ 63) ->
  exists t, formatGCInputString xs ws = Some t /\ parseGCOutputString out t ws 0 = Some xs.
Proof.
  intros HL HO HK F SM R. destruct (format_parse xs ws out HL HO HK) as (t & E & P); auto.
  - eapply Forall_impl; [|exact F]. cbn. lia.
  - intros x HI. destruct (R x 64 HI) as [B N]. change (2 ^ (64 - 1)) with (2 ^ 63) in B. intros E.
    destruct (Z_lt_le_dec x 0).
    + assert (x mod 2 ^ 64 = x + 2 ^ 64) by (symmetry; apply (Z.mod_unique_pos _ _ (-1)); lia). lia.
    + rewrite Z.mod_small in E by lia. lia.
  - exists t. split; [exact E|]. rewrite P. f_equal.
    assert (G : map (fun xw => signed (snd xw) (fst xw)) (combine xs ws) = map fst (combine xs ws)).
    { apply map_ext_in. intros [x w] HI. cbn [fst snd]. destruct (R x w HI) as [B _]. apply signed_id; [|exact B].
      rewrite Forall_forall in F. apply F. eapply in_combine_r; eauto. }
    rewrite G. clear - HL. revert ws HL. induction xs as [|x xs IH]; intros [|w ws] HL; cbn in *; try discriminate; [reflexivity|].
    f_equal. apply IH. lia.
Qed.
Theorem bin2hex_long_refuted : ~ forall s v, binnum s = Some v -> hexnum (bin2hex s) = Some v.
Proof.
  intros C. destruct (Z_of_nat_complete (2 ^ 16 - 4) ltac:(lia)) as [k K]. symmetry in K.
  assert (D : bin2hex (repeat "1"%char k) = []) by (apply bin2hex_drops; rewrite repeat_length; exact K).
  assert (B : binnum (repeat "1"%char k) = Some (N.ones (N.of_nat k))).
  { rewrite <- (app_nil_r (repeat _ _)), (ones_num _ [] 0%N eq_refl). f_equal. cbn [length]. change (2 ^ N.of_nat 0)%N with 1%N. lia. }
  specialize (C _ _ B). rewrite D in C. injection C as C. assert (T : N.testbit (N.ones (N.of_nat k)) 0 = true) by (apply N.ones_spec_low; lia).
  rewrite <- C in T. discriminate.
Qed.
Theorem least_number_refuted : ~ forall xs ws out, length xs = length ws -> length out = length ws ->
  (length ws < 256)%nat -> Forall (fun w => 0 < w <= 64) ws -> sum ws < 2 ^ 16 - 4 ->
  (forall x w, In (x, w) (combine xs ws) -> - 2 ^ (w - 1) <= x < 2 ^ (w - 1)) ->
  exists t, formatGCInputString xs ws = Some t /\ parseGCOutputString out t ws 0 = Some xs.
Proof.
  intros C. destruct (C [- 2 ^ 63] [64] [0]) as (t & E & P); cbn [length]; auto; try lia.
  - repeat constructor; lia.
  - cbn. lia.
  - intros x w [[= <- <-]|[]]. lia.
  - vm_compute in E. injection E as <-. vm_compute in P. discriminate.
Qed.
