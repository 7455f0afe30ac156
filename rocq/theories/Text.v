(** Decimal numbers in text files, as the C++ streams write and read them. *)
From Coq Require Import ZArith NArith List Bool Lia Ascii String.
Import ListNotations.
Open Scope Z_scope.

Notation text := (list ascii).

Definition digit_char (d : N) : ascii := ascii_of_N (48 + d).
Definition char_digit (c : ascii) : option N :=
  let n := N_of_ascii c in if (48 <=? n)%N && (n <=? 57)%N then Some (n - 48)%N else None.

(** Decimal digits of a number, without leading zeros; [fuel] digits suffice. *)
Fixpoint dec_fuel (fuel : nat) (n : N) (acc : text) : text :=
  let acc := digit_char (n mod 10) :: acc in
  match fuel with
  | O => acc
  | S fuel => if (n <? 10)%N then acc else dec_fuel fuel (n / 10) acc
  end.
(** operator<< of an unsigned number, std::to_string. *)
Definition dec (n : N) : text := dec_fuel (N.to_nat (N.log2 n)) n [].
(** operator<< of a signed number. *)
Definition dec_Z (z : Z) : text := if z <? 0 then "-"%char :: dec (Z.to_N (- z)) else dec (Z.to_N z).

(** Value of a digit string after [acc]. *)
Fixpoint span_digits (acc : N) (t : text) : N * nat * text :=
  match t with
  | [] => (acc, O, [])
  | c :: t' => match char_digit c with
               | Some d => let '(v, k, r) := span_digits (10 * acc + d) t' in (v, S k, r)
               | None => (acc, O, t)
               end
  end.

(** isspace in the C locale *)
Definition is_space (c : ascii) : bool :=
  let n := N_of_ascii c in (n =? 32)%N || ((9 <=? n)%N && (n <=? 13)%N).
Fixpoint skip_ws (t : text) : text :=
  match t with
  | c :: t' => if is_space c then skip_ws t' else t
  | [] => []
  end.

(** A stream: the characters left and whether it is still good. *)
Record stream := mkS { rest : text; good : bool }.

Definition split_sign (t : text) : bool * text :=
  match t with
  | c :: t' => if Ascii.eqb c "-" then (true, t') else if Ascii.eqb c "+" then (false, t') else (false, t)
  | [] => (false, [])
  end.
(** operator>> of a number into a variable holding [old].  [unsigned]: a leading
    minus sign is accepted and the value negated modulo [hi + 1].  A failed read
    stores 0, a number out of range stores the nearest limit; both set failbit.
    At the end of the file, or after a failure, nothing is stored. *)
Definition extract (unsigned : bool) (lo hi : Z) (s : stream) (old : Z) : Z * stream :=
  if negb (good s) then (old, s) else
  match skip_ws (rest s) with
  | [] => (old, mkS [] false)
  | t =>
    let (neg, t) := split_sign t in
    let '(v, k, r) := span_digits 0 t in
    if (k =? 0)%nat then (0, mkS r false)
    else if unsigned then
      if hi <? Z.of_N v then (hi, mkS r false)
      else ((if (neg : bool) then (- Z.of_N v) mod (hi + 1) else Z.of_N v), mkS r true)
    else
      let z := if (neg : bool) then - Z.of_N v else Z.of_N v in
      if hi <? z then (hi, mkS r false) else if z <? lo then (lo, mkS r false) else (z, mkS r true)
  end.
Definition extract_u64 := extract true 0 (2 ^ 64 - 1).
Definition extract_i64 := extract false (- 2 ^ 63) (2 ^ 63 - 1).
Definition extract_int := extract false (- 2 ^ 31) (2 ^ 31 - 1).

(** A loop that reads [k] numbers; [old j] is what the memory of number [j] held. *)
Fixpoint extract_list (ex : stream -> Z -> Z * stream) (k : nat) (old : nat -> Z) (s : stream) : list Z * stream :=
  match k with
  | O => ([], s)
  | S k => let (v, s1) := ex s (old O) in
           let (l, s2) := extract_list ex k (fun j => old (S j)) s1 in (v :: l, s2)
  end.

(** * Facts *)
Lemma char_digit_char d : (d < 10)%N -> char_digit (digit_char d) = Some d.
Proof.
  intros H. unfold char_digit, digit_char. rewrite N_ascii_embedding by lia.
  destruct (N.leb_spec 48 (48 + d)); [|lia]. destruct (N.leb_spec (48 + d) 57); [|lia]. cbn [andb]. f_equal. lia.
Qed.
Lemma char_digit_bound c d : char_digit c = Some d -> (d < 10)%N.
Proof.
  unfold char_digit. destruct (N.leb_spec 48 (N_of_ascii c)); [|discriminate]. destruct (N.leb_spec (N_of_ascii c) 57); [|discriminate].
  intros [= <-]. lia.
Qed.
Definition is_digit (c : ascii) : Prop := exists d, char_digit c = Some d.
(** The text does not start with a digit. *)
Definition no_digit (t : text) : Prop := match t with [] => True | c :: _ => char_digit c = None end.

Lemma dec_fuel_ok : forall fuel n acc, (n < 10 ^ N.of_nat (S fuel))%N ->
  exists ds, dec_fuel fuel n acc = ds ++ acc /\ ds <> [] /\ Forall is_digit ds /\
    forall a r, no_digit r -> span_digits a (ds ++ r) = (a * 10 ^ N.of_nat (List.length ds) + n, List.length ds, r)%N.
Proof.
  assert (ONE : forall n, (n < 10)%N -> Forall is_digit [digit_char n] /\ forall a r, no_digit r -> span_digits a ([digit_char n] ++ r) = (a * 10 ^ N.of_nat 1 + n, 1%nat, r)%N).
  { intros n H. split; [constructor; [exists n; apply char_digit_char; auto|constructor]|].
    intros a r R. cbn [app span_digits]. rewrite char_digit_char by auto.
    destruct r as [|c r]; cbn [span_digits]; [|cbn in R; rewrite R]; do 2 f_equal; change (10 ^ N.of_nat 1)%N with 10%N; lia. }
  induction fuel; intros n acc H.
  - change (10 ^ N.of_nat 1)%N with 10%N in H. exists [digit_char n]. cbn [dec_fuel]. rewrite N.mod_small by lia.
    destruct (ONE n H) as [A B]. repeat split; auto. discriminate.
  - cbn [dec_fuel]. destruct (N.ltb_spec n 10) as [L|L].
    + exists [digit_char n]. rewrite N.mod_small by lia. destruct (ONE n L) as [A B]. repeat split; auto. discriminate.
    + assert (M : (n mod 10 < 10)%N) by (apply N.mod_lt; lia).
      destruct (IHfuel (n / 10)%N (digit_char (n mod 10) :: acc)) as (ds & E & NE & F & V).
      { apply N.div_lt_upper_bound; [lia|]. replace (N.of_nat (S (S fuel))) with (N.succ (N.of_nat (S fuel))) in H by lia. rewrite N.pow_succ_r' in H. lia. }
      exists (ds ++ [digit_char (n mod 10)]). rewrite E, <- app_assoc. split; [reflexivity|]. split; [destruct ds; discriminate|].
      split. { apply Forall_app. split; auto. apply ONE. exact M. }
      intros a r R. rewrite <- app_assoc. cbn [app].
      assert (G : forall ds a r, Forall is_digit ds -> forall v k, (forall r', no_digit r' -> span_digits a (ds ++ r') = (v, k, r')) ->
         span_digits a (ds ++ r) = let '(w, j, q) := span_digits v r in (w, (k + j)%nat, q)).
      { clear. induction ds as [|c ds IH]; intros a r F v k H; cbn [app] in *.
        - specialize (H [] I). cbn in H. injection H as <- <-. destruct (span_digits a r) as [[w j] q]. reflexivity.
        - inversion F as [|? ? [d D] F']; subst. cbn [span_digits] in *. rewrite D in *.
          destruct (span_digits (10 * a + d) ds) as [[w0 k0] q0] eqn:E0.
          pose proof (H [] I) as H0. rewrite app_nil_r, E0 in H0. injection H0 as <- <- ->.
          rewrite (IH (10 * a + d)%N r F' w0 k0).
          + destruct (span_digits w0 r) as [[w j] q]. reflexivity.
          + intros r' R'. specialize (H r' R'). destruct (span_digits (10 * a + d) (ds ++ r')) as [[w1 k1] q1]. injection H as <- E ->. do 2 f_equal. lia. }
      rewrite (G ds a _ F _ _ (V a)). destruct (ONE _ M) as [_ V1]. cbn [app] in V1. rewrite (V1 _ _ R).
      rewrite app_length. cbn [List.length]. replace (N.of_nat (List.length ds + 1)) with (N.succ (N.of_nat (List.length ds))) by lia. rewrite N.pow_succ_r'.
      change (10 ^ N.of_nat 1)%N with 10%N. do 2 f_equal. pose proof (N.div_mod' n 10). lia.
Qed.
Lemma pow2_10 k : (2 ^ k <= 10 ^ k)%N.
Proof. apply N.pow_le_mono_l. lia. Qed.
Theorem dec_ok n : dec n <> [] /\ Forall is_digit (dec n) /\ forall r, no_digit r -> span_digits 0 (dec n ++ r) = (n, List.length (dec n), r).
Proof.
  unfold dec. destruct (dec_fuel_ok (N.to_nat (N.log2 n)) n []) as (ds & E & NE & F & V).
  { rewrite Nat2N.inj_succ, N2Nat.id. destruct (N.eq_dec n 0) as [->|Z]; [cbn; lia|]. destruct (N.log2_spec n) as [_ L]; [lia|]. pose proof (pow2_10 (N.succ (N.log2 n))). lia. }
  rewrite E, app_nil_r. split; [exact NE|]. split; [exact F|]. intros r R. rewrite (V 0%N r R). reflexivity.
Qed.
Theorem dec_inj n m : dec n = dec m -> n = m.
Proof.
  intros E. destruct (dec_ok n) as (_ & _ & A). destruct (dec_ok m) as (_ & _ & B).
  specialize (A [] I). specialize (B [] I). rewrite E in A. congruence.
Qed.
Lemma digit_not_space c : is_digit c -> is_space c = false.
Proof.
  intros [d H]. unfold char_digit in H. unfold is_space.
  destruct (N.leb_spec 48 (N_of_ascii c)); [|discriminate]. destruct (N.leb_spec (N_of_ascii c) 57); [|discriminate].
  destruct (N.eqb_spec (N_of_ascii c) 32); [lia|]. destruct (N.leb_spec (N_of_ascii c) 13); [lia|]. apply andb_false_r.
Qed.
Lemma digit_not_sign c : is_digit c -> c <> "-"%char /\ c <> "+"%char.
Proof. intros [d H]. split; intros ->; discriminate. Qed.
Lemma skip_ws_app w t : Forall (fun c => is_space c = true) w -> skip_ws (w ++ t) = skip_ws t.
Proof. induction 1; cbn; [auto|]. rewrite H. auto. Qed.

(** What is written is read back; [w] is white space, [r] does not start with a digit. *)
Lemma sign_digit (c : ascii) (t : text) : is_digit c -> split_sign (c :: t) = (false, c :: t).
Proof.
  intros H. destruct (digit_not_sign c H). unfold split_sign. destruct (Ascii.eqb_spec c "-"); [congruence|]. destruct (Ascii.eqb_spec c "+"); [congruence|auto].
Qed.
Lemma extract_nat unsigned lo hi w n r old : Forall (fun c => is_space c = true) w -> no_digit r -> Z.of_N n <= hi -> lo <= 0 ->
  extract unsigned lo hi (mkS (w ++ dec n ++ r) true) old = (Z.of_N n, mkS r true).
Proof.
  intros W R H L. unfold extract. cbn [good rest negb]. rewrite skip_ws_app by exact W. destruct (dec_ok n) as (NE & F & V).
  specialize (V r R). destruct (dec n) as [|c ds] eqn:ED; [congruence|]. inversion F as [|? ? C F']; subst. cbn [app] in *.
  cbn [skip_ws]. rewrite (digit_not_space _ C). rewrite (sign_digit c (ds ++ r)) by exact C.
  rewrite V. cbn [List.length Nat.eqb]. destruct unsigned.
  - destruct (Z.ltb_spec hi (Z.of_N n)); [lia|reflexivity].
  - destruct (Z.ltb_spec hi (Z.of_N n)); [lia|]. destruct (Z.ltb_spec (Z.of_N n) lo); [lia|reflexivity].
Qed.
Lemma extract_Z lo hi w z r old : Forall (fun c => is_space c = true) w -> no_digit r -> lo <= z <= hi -> lo <= 0 <= hi ->
  extract false lo hi (mkS (w ++ dec_Z z ++ r) true) old = (z, mkS r true).
Proof.
  intros W R H L. unfold dec_Z. destruct (Z.ltb_spec z 0) as [N|N].
  - unfold extract. cbn [good rest negb]. rewrite skip_ws_app by exact W. destruct (dec_ok (Z.to_N (- z))) as (NE & F & V).
    cbn [app skip_ws split_sign]. change (is_space "-") with false. cbv iota. change (Ascii.eqb "-" "-") with true. cbv iota. rewrite (V r R).
    destruct (dec (Z.to_N (- z))) as [|c ds]; [congruence|]. cbn [List.length Nat.eqb]. rewrite Z2N.id by lia.
    replace (- - z) with z by lia. destruct (Z.ltb_spec hi z); [lia|]. destruct (Z.ltb_spec z lo); [lia|reflexivity].
  - rewrite extract_nat by (auto; rewrite ?Z2N.id; lia). rewrite Z2N.id by lia. reflexivity.
Qed.
