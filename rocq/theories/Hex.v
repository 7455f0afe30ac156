(** Hexadecimal and binary numerals, and OpenSSL's conversions between big
    numbers and hexadecimal text. *)
From Coq Require Import ZArith NArith List Bool Lia Ascii.
From Verif Require Import Base Gate Proc Codec Tcp BN Text.
Import ListNotations.
Open Scope N_scope.

(** * Specification: the number written by a numeral, most significant digit first *)
Definition hex_digit (c : ascii) : option N :=
  let n := N_of_ascii c in
  if (48 <=? n) && (n <=? 57) then Some (n - 48)
  else if (65 <=? n) && (n <=? 70) then Some (n - 55)
  else if (97 <=? n) && (n <=? 102) then Some (n - 87)
  else None.
Definition bin_digit (c : ascii) : option N :=
  if Ascii.eqb c "0" then Some 0 else if Ascii.eqb c "1" then Some 1 else None.
Fixpoint numeral (base : N) (digit : ascii -> option N) (t : text) : option N :=
  match t with
  | [] => Some 0
  | c :: t' => match digit c, numeral base digit t' with
               | Some d, Some v => Some (d * base ^ N.of_nat (length t') + v)
               | _, _ => None
               end
  end.
Definition hexnum : text -> option N := numeral 16 hex_digit.
Definition binnum : text -> option N := numeral 2 bin_digit.

(** * OpenSSL *)
(** The hexadecimal digits at the start of a text: their value and number. *)
Fixpoint span_hex (acc : N) (t : text) : N * nat :=
  match t with
  | c :: t' => match hex_digit c with
               | Some d => let '(v, k) := span_hex (16 * acc + d) t' in (v, S k)
               | None => (acc, O)
               end
  | [] => (acc, O)
  end.
(** BN_hex2bn(&a, t): an optional sign, then as many hexadecimal digits as there
    are; without any, or with more than INT_MAX / 4, [a] keeps its value. *)
Definition BN_hex2bn (a : BIGNUM) (t : text) : BIGNUM :=
  let '(neg, t') := match t with
                    | c :: t' => if Ascii.eqb c "-" then (true, t') else (false, t)
                    | [] => (false, [])
                    end in
  let '(v, k) := span_hex 0 t' in
  if (Nat.eqb k 0) || (2 ^ 31 / 4 <? N.of_nat k + 1) then a
  else if neg then (- Z.of_N v)%Z else Z.of_N v.

Definition upper_digit (d : N) : ascii := ascii_of_N (if d <? 10 then 48 + d else 55 + d).
(** BN_bn2hex: two upper-case digits for each byte of the magnitude; "0" for 0. *)
Definition BN_bn2hex (a : BIGNUM) : text :=
  if (a =? 0)%Z then ["0"%char]
  else (if (a <? 0)%Z then ["-"%char] else []) ++
       flat_map (fun b => [upper_digit (b / 16); upper_digit (b mod 16)]) (BN_bn2bin a).

(** BN_rshift(r, a, n): a negative [n] is an error that leaves [r] alone. *)
Definition BN_rshift (r a : BIGNUM) (n : Z) : BIGNUM :=
  if (n <? 0)%Z then r else with_mag a (N.shiftr (mag a) (Z.to_N n)).

(** * Facts *)
Lemma numeral_app b dg s t x y : numeral b dg s = Some x -> numeral b dg t = Some y ->
  numeral b dg (s ++ t) = Some (x * b ^ N.of_nat (length t) + y).
Proof.
  revert x. induction s as [|c s IH]; intros x; cbn [numeral app].
  - intros [= <-] ->. reflexivity.
  - destruct (dg c) as [d|]; [|discriminate]. destruct (numeral b dg s) as [v|] eqn:E; [|discriminate].
    intros [= <-] Ht. rewrite (IH v eq_refl Ht). rewrite app_length, Nat2N.inj_add, N.pow_add_r. f_equal. lia.
Qed.
Lemma numeral_split b dg s t v : numeral b dg (s ++ t) = Some v ->
  exists x y, numeral b dg s = Some x /\ numeral b dg t = Some y /\ v = x * b ^ N.of_nat (length t) + y.
Proof.
  revert v. induction s as [|c s IH]; intros v; cbn [numeral app].
  - intros H. exists 0, v. repeat split; auto.
  - destruct (dg c) as [d|] eqn:ED; [|discriminate]. destruct (numeral b dg (s ++ t)) as [w|] eqn:E; [|discriminate].
    intros [= <-]. destruct (IH w eq_refl) as (x & y & Hx & Hy & ->). exists (d * b ^ N.of_nat (length s) + x), y.
    rewrite Hx. split; [reflexivity|]. split; [exact Hy|]. rewrite app_length, Nat2N.inj_add, N.pow_add_r. lia.
Qed.
Lemma numeral_bound b dg t v : (forall c d, dg c = Some d -> d < b) -> numeral b dg t = Some v -> v < b ^ N.of_nat (length t).
Proof.
  intros HD. revert v. induction t as [|c t IH]; intros v; cbn [numeral length].
  - intros [= <-]. cbn. lia.
  - destruct (dg c) as [d|] eqn:E; [|discriminate]. destruct (numeral b dg t) as [w|]; [|discriminate]. intros [= <-].
    specialize (IH w eq_refl). specialize (HD c d E). rewrite Nat2N.inj_succ, N.pow_succ_r'.
    assert (d * b ^ N.of_nat (length t) <= (b - 1) * b ^ N.of_nat (length t)) by (apply N.mul_le_mono_r; lia).
    replace (b * b ^ N.of_nat (length t)) with ((b - 1) * b ^ N.of_nat (length t) + b ^ N.of_nat (length t)); [lia|].
    rewrite N.mul_sub_distr_r. assert (b ^ N.of_nat (length t) <= b * b ^ N.of_nat (length t)); [|lia].
    rewrite <- (N.mul_1_l (b ^ N.of_nat (length t))) at 1. apply N.mul_le_mono_r. lia.
Qed.
Lemma hex_digit_bound c d : hex_digit c = Some d -> d < 16.
Proof.
  unfold hex_digit. repeat match goal with |- context [if ?b then _ else _] => destruct b eqn:?; [rewrite andb_true_iff, !N.leb_le in *; intros [= <-]; lia|] end. discriminate.
Qed.
Lemma bin_digit_bound c d : bin_digit c = Some d -> d < 2.
Proof. unfold bin_digit. destruct (Ascii.eqb c "0"); [intros [= <-]; lia|]. destruct (Ascii.eqb c "1"); [intros [= <-]; lia|discriminate]. Qed.
Lemma hexnum_bound t v : hexnum t = Some v -> v < 16 ^ N.of_nat (length t).
Proof. apply numeral_bound. exact hex_digit_bound. Qed.
Lemma binnum_bound t v : binnum t = Some v -> v < 2 ^ N.of_nat (length t).
Proof. apply numeral_bound. exact bin_digit_bound. Qed.

Lemma span_hex_ok t : forall v acc r, hexnum t = Some v ->
  (match r with c :: _ => hex_digit c = None | [] => True end) ->
  span_hex acc (t ++ r) = (acc * 16 ^ N.of_nat (length t) + v, length t).
Proof.
  induction t as [|c t IH]; intros v acc r; unfold hexnum; cbn [numeral app span_hex length].
  - intros [= <-] H. destruct r as [|c r]; cbn [span_hex]; [|rewrite H]; f_equal; cbn; lia.
  - destruct (hex_digit c) as [d|]; [|discriminate]. destruct (numeral 16 hex_digit t) as [w|] eqn:E; [|discriminate].
    intros [= <-] H. rewrite (IH w _ _ E H). f_equal. rewrite Nat2N.inj_succ, N.pow_succ_r'. lia.
Qed.
Lemma minus_not_hex c d : hex_digit c = Some d -> Ascii.eqb c "-" = false.
Proof. intros H. destruct (Ascii.eqb_spec c "-") as [->|]; [discriminate|auto]. Qed.

(** A text that starts with a numeral. *)
Theorem hex2bn_ok a t r v : hexnum t = Some v -> t <> [] -> N.of_nat (length t) < 2 ^ 29 ->
  (match r with c :: _ => hex_digit c = None | [] => True end) -> BN_hex2bn a (t ++ r) = Z.of_N v.
Proof.
  intros H NE SM HR. unfold BN_hex2bn.
  assert (E : match t ++ r with [] => (false, []) | c :: t' => if Ascii.eqb c "-" then (true, t') else (false, t ++ r) end = (false, t ++ r)).
  { destruct t as [|c t]; [congruence|]. cbn [app]. unfold hexnum in H. cbn [numeral] in H.
    destruct (hex_digit c) as [d|] eqn:ED; [|discriminate]. rewrite (minus_not_hex c d ED). reflexivity. }
  rewrite E, (span_hex_ok t v 0 r H HR).
  destruct t as [|c t]; [congruence|]. change (Nat.eqb (length (c :: t)) 0) with false. cbn [orb].
  destruct (N.ltb_spec (2 ^ 31 / 4) (N.of_nat (length (c :: t)) + 1)) as [L|L]; [|f_equal; lia].
  change (2 ^ 31 / 4) with (2 ^ 29) in L. lia.
Qed.
Lemma hex2bn_whole a t v : hexnum t = Some v -> t <> [] -> N.of_nat (length t) < 2 ^ 29 -> BN_hex2bn a t = Z.of_N v.
Proof. intros. rewrite <- (app_nil_r t). apply hex2bn_ok; auto. Qed.

Lemma hex_upper d : d < 16 -> hex_digit (upper_digit d) = Some d.
Proof.
  intros H. assert (E : existsb (N.eqb d) [0;1;2;3;4;5;6;7;8;9;10;11;12;13;14;15] = true).
  { destruct d as [|p]; [reflexivity|]. do 4 (destruct p as [p|p|]; try reflexivity); lia. }
  apply existsb_exists in E as (k & K & E). apply N.eqb_eq in E. subst k.
  repeat (destruct K as [<-|K]; [vm_compute; reflexivity|]). destruct K.
Qed.
Lemma hex_bytes l : Forall is_byte l ->
  hexnum (flat_map (fun b => [upper_digit (b / 16); upper_digit (b mod 16)]) l) = Some (of_le (rev l)).
Proof.
  induction l as [|b l IH]; intros F; [reflexivity|]. inversion F as [|? ? Hb F']; subst.
  cbn [flat_map]. unfold is_byte in Hb.
  assert (A : hexnum [upper_digit (b / 16); upper_digit (b mod 16)] = Some b).
  { unfold hexnum. cbn [numeral]. rewrite !hex_upper by (first [apply N.mod_lt; lia|apply N.div_lt_upper_bound; lia]).
    cbn [length N.of_nat]. f_equal. pose proof (N.div_mod b 16). cbn. lia. }
  pose proof (numeral_app _ _ _ _ _ _ A (IH F')) as E. unfold hexnum. rewrite E. f_equal.
  cbn [rev]. clear. assert (L : length (flat_map (fun b0 => [upper_digit (b0 / 16); upper_digit (b0 mod 16)]) l) = (2 * length (rev l))%nat).
  { rewrite rev_length. induction l; cbn [flat_map app length]; [auto|]. rewrite IHl. lia. }
  rewrite L. generalize (rev l). intros k. rewrite Nat2N.inj_mul, N.pow_mul_r. change (16 ^ N.of_nat 2) with 256.
  induction k as [|x k IH]; cbn [app of_le length]; [cbn; lia|]. rewrite <- IH. rewrite Nat2N.inj_succ, N.pow_succ_r'. lia.
Qed.
Definition no_newline (t : text) : Prop := ~ In "010"%char t.
Lemma hexnum_chars t v : hexnum t = Some v -> Forall (fun c => hex_digit c <> None) t.
Proof.
  revert v. unfold hexnum. induction t as [|c t IH]; intros v; cbn [numeral]; [constructor|].
  destruct (hex_digit c) eqn:E; [|discriminate]. destruct (numeral 16 hex_digit t) as [w|]; [|discriminate]. intros _.
  constructor; [congruence|eauto].
Qed.
Lemma hexnum_one_line t v : hexnum t = Some v -> no_newline t.
Proof. intros H I. apply hexnum_chars in H. rewrite Forall_forall in H. apply (H _ I). reflexivity. Qed.

(** Printing a natural number in hexadecimal. *)
Theorem bn2hex_ok n : hexnum (BN_bn2hex (Z.of_N n)) = Some n /\ BN_bn2hex (Z.of_N n) <> [].
Proof.
  unfold BN_bn2hex. destruct (Z.eqb_spec (Z.of_N n) 0) as [E|E].
  - assert (n = 0) by lia. subst n. split; [reflexivity|discriminate].
  - destruct (Z.ltb_spec (Z.of_N n) 0); [lia|]. cbn [app].
    assert (A : hexnum (flat_map (fun b => [upper_digit (b / 16); upper_digit (b mod 16)]) (BN_bn2bin (Z.of_N n))) = Some n).
    { rewrite hex_bytes.
      - f_equal. pose proof (bin2bn_bn2bin (Z.of_N n)) as Q. unfold BN_bin2bn in Q. lia.
      - unfold BN_bn2bin. apply Forall_rev. apply le_bytes. }
    split; [exact A|]. intros Q. rewrite Q in A. cbn in A. injection A as A. lia.
Qed.
Lemma bn2hex_length n : N.of_nat (length (BN_bn2hex (Z.of_N n))) <= 2 * ((N.size n + 7) / 8) + 1.
Proof.
  unfold BN_bn2hex. destruct (Z.eqb_spec (Z.of_N n) 0); [cbn; lia|]. destruct (Z.ltb_spec (Z.of_N n) 0); [lia|]. cbn [app].
  assert (L : forall l, length (flat_map (fun b => [upper_digit (b / 16); upper_digit (b mod 16)]) l) = (2 * length l)%nat).
  { intros l. induction l; cbn [flat_map app length]; [auto|]. rewrite IHl. lia. }
  rewrite L, bn2bin_length. unfold BN_num_bytes, BN_num_bits. rewrite mag_of_N. lia.
Qed.

(** Masking keeps the low bits, whether or not there is anything to drop. *)
Lemma mask_bits_ok a n : (0 <= a)%Z -> fst (BN_mask_bits a n) = Z.of_N (mag a mod 2 ^ n).
Proof.
  intros H. unfold BN_mask_bits. destruct (N.leb_spec (bn_top a) (n / 64)) as [L|L]; cbn [fst].
  - unfold bn_top, BN_num_bits in L. rewrite N.mod_small; [unfold mag; lia|].
    eapply N.lt_le_trans; [apply size_lt|]. apply N.pow_le_mono_r; [lia|].
    pose proof (N.div_mod (N.size (mag a) + 63) 64 ltac:(discriminate)).
    pose proof (N.mod_lt (N.size (mag a) + 63) 64 ltac:(discriminate)).
    pose proof (N.div_mod n 64 ltac:(discriminate)). revert H0 H1 H2 L.
    generalize ((N.size (mag a) + 63) / 64), ((N.size (mag a) + 63) mod 64), (n / 64), (n mod 64), (N.size (mag a)). lia.
  - apply with_mag_nonneg. auto.
Qed.
