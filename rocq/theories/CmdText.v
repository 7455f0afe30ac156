(** util/util.cpp: the texts given on the command line, or in files named there. *)
From Coq Require Import ZArith NArith List Bool Lia Ascii.
From Verif Require Import Base Gate Circuit Spec Proc Codec Tcp BN Text Scd MapFile Trace Hex Format Protocol Programs.
Import ListNotations.
Open Scope N_scope.

(** * Model *)

(** What ifstream finds under a name: the contents of the file, [None] when it
    cannot be opened.  (A directory can be opened and has no contents.) *)
Notation filesystem := (text -> option text) (only parsing).
(** ReadFileOrPassHex, util.cpp:379-393 *)
Definition ReadFileOrPassHex (fs : filesystem) (file_hex_str : text) : text :=
  match fs file_hex_str with
  | Some f => fold_left (fun hex_str line => (line ++ hex_str)%list) (lines_of f) []
  | None => file_hex_str
  end.

(** std::stoull(t, nullptr, 16): spaces, a sign, "0x", then as many digits as there
    are; [None]: an exception (no digits, or out of range).  A "0x" without digits
    behind it is the digit 0. *)
Definition skip_0x (t : text) : text :=
  match t with
  | z :: x :: d :: _ => if Ascii.eqb z "0" && (Ascii.eqb x "x" || Ascii.eqb x "X") &&
                           match hex_digit d with Some _ => true | None => false end
                        then skipn 2 t else t
  | _ => t
  end.
Definition stoull16 (t : text) : option N :=
  let (neg, t) := split_sign (skip_ws t) in
  let '(v, k) := span_hex 0 (skip_0x t) in
  if (Nat.eqb k 0) || (2 ^ 64 <=? v) then None
  else Some (if (neg : bool) then (2 ^ 64 - v) mod 2 ^ 64 else v).
(** util.cpp:158-161 *)
Definition is_pad (c : ascii) : bool := Ascii.eqb c " " || Ascii.eqb c "009" || Ascii.eqb c "_".
(** Str2Block, util.cpp:152-188; [None]: FAILURE. *)
Definition Str2Block (s : text) : option block :=
  let v_str := filter (fun c => negb (is_pad c)) s in
  if (32 <? List.length v_str)%nat then None else
  let v_str := (repeat "0"%char (32 - List.length v_str) ++ v_str)%list in
  match stoull16 (skipn 16 v_str), stoull16 (firstn 16 v_str) with
  | Some lo, Some hi => Some (MakeBlock hi lo)
  | _, _ => None
  end.

(** Lower-case hexadecimal digits without leading zeros, as operator<< with
    std::hex writes them; [fuel] digits suffice. *)
Definition lower_digit (d : N) : ascii := ascii_of_N (if d <? 10 then 48 + d else 87 + d).
Fixpoint hex_fuel (fuel : nat) (n : N) (acc : text) : text :=
  let acc := lower_digit (n mod 16) :: acc in
  match fuel with
  | O => acc
  | S fuel => if n <? 16 then acc else hex_fuel fuel (n / 16) acc
  end.
(** to_string_hex, util.cpp:190-195; setw pads on the left. *)
Definition to_string_hex (v : N) (pad : nat) : text :=
  let t := hex_fuel 15 v [] in (repeat "0"%char (pad - List.length t) ++ t)%list.

(** std::tolower in the C locale. *)
Definition tolower (c : ascii) : ascii :=
  let n := N_of_ascii c in if (65 <=? n) && (n <=? 90) then ascii_of_N (n + 32) else c.
(** icompare, util.cpp:396-406 *)
Definition icompare (a b : text) : bool :=
  if Nat.eqb (List.length a) (List.length b) then forallb (fun p => Ascii.eqb (tolower (fst p)) (tolower (snd p))) (combine b a)
  else false.

(** * Specification *)

(** A file with these lines; each is ended by a newline, only the last one's may be
    missing. *)
Definition file_of (ls : list text) (f : text) : Prop :=
  f = flat_map (fun l => (l ++ [nl])%list) ls \/
  exists ls' l, ls = (ls' ++ [l])%list /\ l <> [] /\ f = (flat_map (fun l => (l ++ [nl])%list) ls' ++ l)%list.
(** Line [cy] of [d] digits has the value [v cy]. *)
Definition lines_write (d : nat) (ls : list text) (v : nat -> N) : Prop :=
  forall cy l, nth_error ls cy = Some l -> List.length l = d /\ hexnum l = Some (v cy).

(** * Files *)
Lemma fold_lines (ls : list text) (acc : text) : fold_left (fun h l => (l ++ h)%list) ls acc = (concat (rev ls) ++ acc)%list.
Proof.
  revert acc. induction ls as [|l ls IH]; intros acc; [reflexivity|]. cbn [fold_left rev]. rewrite IH.
  rewrite concat_app. cbn [concat]. rewrite app_nil_r, <- app_assoc. reflexivity.
Qed.
Lemma lines_last l : Forall (fun c => c <> nl) l -> l <> [] -> lines_of l = [l].
Proof.
  induction 1 as [|c l H F IH]; [congruence|]. intros _. cbn [lines_of]. destruct (Ascii.eqb_spec c nl); [congruence|].
  destruct l as [|c' l]; [reflexivity|]. rewrite IH by discriminate. reflexivity.
Qed.
Lemma lines_of_file ls f : Forall (Forall (fun c => c <> nl)) ls -> file_of ls f -> lines_of f = ls.
Proof.
  assert (E : forall ls r, Forall (Forall (fun c => c <> nl)) ls -> lines_of (flat_map (fun l => (l ++ [nl])%list) ls ++ r) = (ls ++ lines_of r)%list).
  { induction 1 as [|l ls' H F IH]; cbn [flat_map app]; [reflexivity|]. rewrite <- !app_assoc. cbn [app]. rewrite lines_line by exact H. rewrite IH. reflexivity. }
  intros F [->|(ls' & l & -> & NE & ->)].
  - rewrite <- (app_nil_r (flat_map _ _)), E by exact F. apply app_nil_r.
  - apply Forall_app in F as [F1 F2]. inversion F2; subst. rewrite E by exact F1. rewrite lines_last by auto. reflexivity.
Qed.
Lemma hex_not_nl t v : hexnum t = Some v -> Forall (fun c => c <> nl) t.
Proof.
  intros H. apply hexnum_chars in H. eapply Forall_impl; [|exact H]. intros c Hc ->. apply Hc. reflexivity.
Qed.

(** The bits of a concatenation of lines of equal length, the first line last. *)
Lemma concat_rev_bits d ls v : lines_write d ls v ->
  exists w, hexnum (concat (rev ls)) = Some w /\ List.length (concat (rev ls)) = (List.length ls * d)%nat /\
  forall cy i, (i < 4 * d)%nat -> N.testbit w (N.of_nat (cy * (4 * d) + i)) =
    if (cy <? List.length ls)%nat then N.testbit (v cy) (N.of_nat i) else false.
Proof.
  revert v. induction ls as [|l ls IH]; intros v H.
  - exists 0. split; [reflexivity|]. split; [reflexivity|]. intros. apply N.bits_0.
  - destruct (IH (fun cy => v (S cy))) as (w & W & L & B). { intros cy k E. apply (H (S cy) k E). }
    destruct (H O l eq_refl) as [L0 V0]. cbn [rev]. rewrite concat_app. cbn [concat]. rewrite app_nil_r.
    pose proof (numeral_app _ _ _ _ _ _ W V0) as E. exists (w * 16 ^ N.of_nat (List.length l) + v O).
    split; [exact E|]. split; [rewrite app_length, L; cbn [List.length]; lia|].
    pose proof (hexnum_bound _ _ V0) as BD. rewrite L0 in *.
    assert (P : 16 ^ N.of_nat d = 2 ^ N.of_nat (4 * d)).
    { change 16 with (2 ^ 4). rewrite <- N.pow_mul_r. f_equal. lia. }
    rewrite P in *. intros cy i Hi.
    rewrite <- (N.shiftl_mul_pow2 w). 
    assert (D : N.shiftl w (N.of_nat (4 * d)) + v O = N.lor (N.shiftl w (N.of_nat (4 * d))) (v O)).
    { symmetry. rewrite <- N.lxor_lor, <- N.add_nocarry_lxor; auto; apply N.bits_inj; intros q; rewrite N.land_spec, N.bits_0;
      (destruct (N.lt_ge_cases q (N.of_nat (4 * d))) as [Q|Q];
       [rewrite N.shiftl_spec_low by exact Q; reflexivity|]);
      (rewrite <- (N.mod_small _ _ BD), N.mod_pow2_bits_high by exact Q; apply andb_false_r). }
    rewrite D, N.lor_spec. destruct cy as [|cy].
    + cbn [Nat.mul Nat.add]. rewrite N.shiftl_spec_low by lia. reflexivity.
    + rewrite N.shiftl_spec_high' by lia. replace (N.of_nat (S cy * (4 * d) + i) - N.of_nat (4 * d)) with (N.of_nat (cy * (4 * d) + i)) by lia.
      rewrite B by exact Hi. rewrite <- (N.mod_small _ _ BD), (N.mod_pow2_bits_high (v O)) by lia. rewrite orb_false_r. reflexivity.
Qed.

(** A file with one line per cycle: what the programs get is a numeral in which the
    bits of line [cy] stand at the positions of cycle [cy]. *)
Theorem input_file_ok fs name f d ls v : fs name = Some f -> file_of ls f -> lines_write d ls v ->
  N.of_nat (List.length ls * d) < 2 ^ 29 ->
  exists w, writes (ReadFileOrPassHex fs name) w /\
  forall cy i, (i < 4 * d)%nat -> N.testbit w (N.of_nat (cy * (4 * d) + i)) =
    if (cy <? List.length ls)%nat then N.testbit (v cy) (N.of_nat i) else false.
Proof.
  intros FS FO LW SM. destruct (concat_rev_bits d ls v LW) as (w & W & L & B). exists w. split; [|exact B].
  unfold ReadFileOrPassHex. rewrite FS, (lines_of_file ls f), fold_lines, app_nil_r; [|..|exact FO].
  - split; [exact W|]. rewrite L. exact SM.
  - apply Forall_forall. intros l Hl. apply In_nth_error in Hl as (cy & E). destruct (LW cy l E) as [_ V]. eapply hex_not_nl; eauto.
Qed.
Theorem pass_hex : forall fs t, fs t = None -> ReadFileOrPassHex fs t = t.
Proof. intros fs t H. unfold ReadFileOrPassHex. rewrite H. reflexivity. Qed.

(** * Blocks *)

(** The text without blanks and underscores is a numeral of at most 32 digits. *)
Definition block_text (s : text) (v : N) : Prop :=
  let t := filter (fun c => negb (is_pad c)) s in (List.length t <= 32)%nat /\ hexnum t = Some v.

Lemma hex_char_plain c d : hex_digit c = Some d -> is_space c = false /\ Ascii.eqb c "-" = false /\ Ascii.eqb c "+" = false /\
  Ascii.eqb c "x" = false /\ Ascii.eqb c "X" = false /\ is_pad c = false /\ tolower c = lower_digit d.
Proof.
  destruct c as [[] [] [] [] [] [] [] []]; cbv; try discriminate; intros [= <-]; repeat split; reflexivity.
Qed.
Lemma stoull16_ok t v : hexnum t = Some v -> t <> [] -> v < 2 ^ 64 -> stoull16 t = Some v.
Proof.
  intros H NE B. unfold stoull16.
  assert (E1 : skip_ws t = t /\ split_sign t = (false, t) /\ skip_0x t = t).
  { destruct t as [|c t]; [congruence|]. unfold hexnum in H. cbn [numeral] in H. destruct (hex_digit c) as [d|] eqn:D; [|discriminate].
    destruct (hex_char_plain c d D) as (A1 & A2 & A3 & _). cbn [skip_ws split_sign]. rewrite A1, A2, A3. split; [auto|]. split; [auto|].
    destruct t as [|x t]; [reflexivity|]. destruct t as [|y t]; [reflexivity|]. cbn [numeral] in H.
    destruct (hex_digit x) as [e|] eqn:X; [|discriminate]. destruct (hex_char_plain x e X) as (_ & _ & _ & B1 & B2 & _).
    unfold skip_0x. rewrite B1, B2. cbn [orb]. rewrite andb_false_r. reflexivity. }
  destruct E1 as (-> & -> & ->). pose proof (span_hex_ok t v 0 [] H Logic.I) as E. rewrite app_nil_r in E. rewrite E. rewrite N.mul_0_l, N.add_0_l.
  destruct t as [|c t]; [congruence|]. change (Nat.eqb (List.length (c :: t)) 0) with false. cbn [orb].
  destruct (N.leb_spec (2 ^ 64) v); [lia|reflexivity].
Qed.
Lemma zeros_numeral k : hexnum (repeat "0"%char k) = Some 0.
Proof. unfold hexnum. induction k; cbn [repeat numeral]; [reflexivity|]. rewrite IHk. cbn. reflexivity. Qed.
Theorem Str2Block_ok s v : block_text s v -> Str2Block s = Some v.
Proof.
  intros [L H]. unfold Str2Block. set (t := filter _ s) in *. destruct (Nat.ltb_spec 32 (List.length t)); [lia|].
  set (u := (repeat "0"%char (32 - List.length t) ++ t)%list).
  assert (HU : hexnum u = Some v).
  { pose proof (numeral_app _ _ _ _ _ _ (zeros_numeral (32 - List.length t)) H) as E. rewrite N.mul_0_l, N.add_0_l in E. exact E. }
  assert (LU : List.length u = 32%nat) by (unfold u; rewrite app_length, repeat_length; lia).
  clearbody u. rewrite <- (firstn_skipn 16 u) in HU.
  destruct (numeral_split _ _ _ _ _ HU) as (hi & lo & HH & HL & ->).
  assert (L1 : List.length (firstn 16 u) = 16%nat) by (rewrite firstn_length; lia).
  assert (L2 : List.length (skipn 16 u) = 16%nat) by (rewrite skipn_length; lia).
  pose proof (hexnum_bound _ _ HH) as B1. pose proof (hexnum_bound _ _ HL) as B2. rewrite L1 in B1. rewrite L2 in *.
  change (16 ^ N.of_nat 16) with (2 ^ 64) in *.
  rewrite (stoull16_ok _ _ HL), (stoull16_ok _ _ HH); auto; intros Z; rewrite Z in *; discriminate.
Qed.

(** ** to_string_hex *)
Lemma hex_lower d : d < 16 -> hex_digit (lower_digit d) = Some d.
Proof.
  intros H. assert (E : existsb (N.eqb d) [0;1;2;3;4;5;6;7;8;9;10;11;12;13;14;15] = true).
  { destruct d as [|p]; [reflexivity|]. do 4 (destruct p as [p|p|]; try reflexivity); lia. }
  apply existsb_exists in E as (k & K & E). apply N.eqb_eq in E. subst k.
  repeat (destruct K as [<-|K]; [vm_compute; reflexivity|]). destruct K.
Qed.
Lemma hex_fuel_ok : forall fuel n acc w, n < 16 ^ N.of_nat (S fuel) -> hexnum acc = Some w ->
  hexnum (hex_fuel fuel n acc) = Some (n * 16 ^ N.of_nat (List.length acc) + w) /\
  (List.length acc < List.length (hex_fuel fuel n acc) <= List.length acc + S fuel)%nat.
Proof.
  induction fuel as [|fuel IH]; intros n acc w B H; cbn [hex_fuel].
  - change (16 ^ N.of_nat 1) with 16 in B. rewrite N.mod_small by exact B. unfold hexnum in *. cbn [numeral]. rewrite hex_lower, H by exact B. split; [reflexivity|cbn [List.length]; lia].
  - assert (M : n mod 16 < 16) by (apply N.mod_lt; discriminate).
    assert (H1 : hexnum (lower_digit (n mod 16) :: acc) = Some (n mod 16 * 16 ^ N.of_nat (List.length acc) + w)).
    { unfold hexnum in *. cbn [numeral]. rewrite hex_lower, H by exact M. reflexivity. }
    destruct (N.ltb_spec n 16) as [L|L].
    + rewrite H1, N.mod_small by exact L. split; [reflexivity|cbn [List.length]; lia].
    + destruct (IH (n / 16) _ _ ltac:(apply N.div_lt_upper_bound; [discriminate|]; rewrite <- N.pow_succ_r', <- Nat2N.inj_succ; exact B) H1) as [A1 A2].
      rewrite A1. cbn [List.length] in *. split; [|lia]. f_equal. rewrite Nat2N.inj_succ, N.pow_succ_r'. pose proof (N.div_mod' n 16). nia.
Qed.
Theorem to_string_hex_ok v pad : v < 2 ^ 64 ->
  hexnum (to_string_hex v pad) = Some v /\ (pad <= List.length (to_string_hex v pad) <= Nat.max pad 16)%nat.
Proof.
  intros B. destruct (hex_fuel_ok 15 v [] 0 B eq_refl) as [H L]. cbn [List.length] in L. rewrite N.mul_1_r, N.add_0_r in H.
  unfold to_string_hex. set (t := hex_fuel 15 v []) in *. split.
  - pose proof (numeral_app _ _ _ _ _ _ (zeros_numeral (pad - List.length t)) H) as E. rewrite N.mul_0_l, N.add_0_l in E. exact E.
  - rewrite app_length, repeat_length. lia.
Qed.
Lemma no_pad t v : hexnum t = Some v -> filter (fun c => negb (is_pad c)) t = t.
Proof.
  intros H. apply hexnum_chars in H. induction H as [|c t D F IH]; [reflexivity|]. cbn [filter].
  destruct (hex_digit c) as [d|] eqn:E; [|congruence]. destruct (hex_char_plain c d E) as (_ & _ & _ & _ & _ & P & _). rewrite P. cbn [negb]. rewrite IH. reflexivity.
Qed.
(** A block written as two words, with anything to separate them, is read back. *)
Theorem block_round_trip hi lo gap : hi < 2 ^ 64 -> lo < 2 ^ 64 -> forallb is_pad gap = true ->
  Str2Block (to_string_hex hi 16 ++ gap ++ to_string_hex lo 16)%list = Some (MakeBlock hi lo).
Proof.
  intros H1 H2 G. destruct (to_string_hex_ok hi 16 H1) as [A1 A2]. destruct (to_string_hex_ok lo 16 H2) as [B1 B2].
  apply Str2Block_ok. unfold block_text. rewrite !filter_app, (no_pad _ _ A1), (no_pad _ _ B1).
  replace (filter (fun c => negb (is_pad c)) gap) with (@nil ascii).
  2:{ clear -G. induction gap as [|c g IH]; [reflexivity|]. cbn [forallb filter] in *. apply andb_prop in G as [-> G]. cbn [negb]. auto. }
  cbn [app]. split; [rewrite app_length; lia|].
  pose proof (numeral_app _ _ _ _ _ _ A1 B1) as E. replace (List.length (to_string_hex lo 16)) with 16%nat in E by lia. exact E.
Qed.

(** * Comparing results without regard to case *)
(** The same character up to the case of an English letter *)
Definition same_letter (c d : ascii) : Prop :=
  c = d \/ exists k, k < 26 /\ (N_of_ascii c = 65 + k /\ N_of_ascii d = 97 + k \/ N_of_ascii c = 97 + k /\ N_of_ascii d = 65 + k).
Lemma tolower_code c : N_of_ascii (tolower c) = if (65 <=? N_of_ascii c) && (N_of_ascii c <=? 90) then N_of_ascii c + 32 else N_of_ascii c.
Proof.
  unfold tolower. destruct ((65 <=? N_of_ascii c) && (N_of_ascii c <=? 90)) eqn:E; [|reflexivity].
  apply andb_prop in E as [E1 E2]. apply N.leb_le in E2. apply N_ascii_embedding. lia.
Qed.
Lemma tolower_same c d : Ascii.eqb (tolower c) (tolower d) = true <-> same_letter c d.
Proof.
  assert (CODE : forall a b, N_of_ascii a = N_of_ascii b -> a = b) by (intros a b H; rewrite <- (ascii_N_embedding a), <- (ascii_N_embedding b), H; reflexivity).
  rewrite Ascii.eqb_eq. unfold same_letter. pose proof (tolower_code c) as TC. pose proof (tolower_code d) as TD. split.
  - intros E. rewrite E in TC. rewrite TC in TD. clear TC E.
    destruct (N.leb_spec 65 (N_of_ascii c)), (N.leb_spec (N_of_ascii c) 90), (N.leb_spec 65 (N_of_ascii d)), (N.leb_spec (N_of_ascii d) 90); cbn [andb] in TD;
      first [left; apply CODE; lia | right; exists (N_of_ascii c - 65); lia | right; exists (N_of_ascii d - 65); lia].
  - intros [->|(k & K & [[E1 E2]|[E1 E2]])]; [reflexivity|..]; apply CODE; rewrite TC, TD, E1, E2;
      repeat match goal with |- context [?a <=? ?b] => destruct (N.leb_spec a b); try lia end; cbn [andb]; lia.
Qed.
Theorem icompare_text a b : icompare a b = true <-> Forall2 same_letter a b.
Proof.
  unfold icompare. revert b. induction a as [|c a IH]; intros [|d b]; cbn [List.length Nat.eqb].
  - split; [constructor|reflexivity].
  - split; [discriminate|intros H; inversion H].
  - split; [discriminate|intros H; inversion H].
  - specialize (IH b). destruct (Nat.eqb (List.length a) (List.length b)); cbn [combine forallb fst snd].
    + rewrite andb_true_iff, tolower_same. split.
      * intros [H1 H2]. constructor; [|apply IH, H2]. destruct H1 as [->|(k & K & H1)]; [left; reflexivity|right; exists k; tauto].
      * intros H. inversion H as [|? ? ? ? H1 H2]; subst. split; [|apply IH, H2]. destruct H1 as [->|(k & K & H1)]; [left; reflexivity|right; exists k; tauto].
    + split; [discriminate|]. intros H. inversion H as [|? ? ? ? H1 H2]; subst. apply IH in H2. discriminate.
Qed.
Lemma numeral_same_digits a b v : List.length a = List.length b -> hexnum a = Some v -> hexnum b = Some v ->
  map hex_digit a = map hex_digit b.
Proof.
  revert b v. induction a as [|c a IH]; intros [|e b] v L; try discriminate; [reflexivity|]. cbn [List.length] in L. injection L as L.
  unfold hexnum. cbn [numeral map]. destruct (hex_digit c) as [x|] eqn:EX; [|discriminate]. destruct (hex_digit e) as [y|] eqn:EY; [|discriminate].
  destruct (numeral 16 hex_digit a) as [p|] eqn:EP; [|discriminate]. destruct (numeral 16 hex_digit b) as [q|] eqn:EQ; [|discriminate].
  intros [= <-] [= E]. rewrite <- L in E. pose proof (hexnum_bound _ _ EP) as BP. pose proof (hexnum_bound _ _ EQ) as BQ. rewrite <- L in BQ.
  assert (x = y /\ p = q) as [<- <-].
  { apply (N.div_mod_unique (16 ^ N.of_nat (List.length a))); auto. rewrite !(N.mul_comm (16 ^ _)). lia. }
  f_equal. apply (IH b p); auto.
Qed.
Theorem icompare_ok a b v w : hexnum a = Some v -> hexnum b = Some w -> List.length a = List.length b ->
  icompare a b = true <-> v = w.
Proof.
  intros HA HB L. unfold icompare. rewrite (proj2 (Nat.eqb_eq _ _) L). split.
  - revert b v w HA HB L. induction a as [|c a IH]; intros [|e b] v w HA HB L F; try discriminate.
    + cbn in HA, HB. congruence.
    + cbn [List.length combine forallb fst snd] in *. injection L as L. apply andb_prop in F as [F1 F2]. apply Ascii.eqb_eq in F1.
      unfold hexnum in *. cbn [numeral] in *. destruct (hex_digit c) as [x|] eqn:EX; [|discriminate]. destruct (hex_digit e) as [y|] eqn:EY; [|discriminate].
      destruct (numeral 16 hex_digit a) as [p|] eqn:EP; [|discriminate]. destruct (numeral 16 hex_digit b) as [q|] eqn:EQ; [|discriminate].
      injection HA as <-. injection HB as <-. rewrite (IH b p q eq_refl EQ L F2). rewrite L.
      destruct (hex_char_plain c x EX) as (_ & _ & _ & _ & _ & _ & TX). destruct (hex_char_plain e y EY) as (_ & _ & _ & _ & _ & _ & TY).
      rewrite TX, TY in F1. apply (f_equal hex_digit) in F1. rewrite !hex_lower in F1 by eauto using hex_digit_bound. congruence.
  - intros <-. pose proof (numeral_same_digits a b v L HA HB) as E. apply hexnum_chars in HA. clear HB.
    revert b L E. induction HA as [|c a NC F IH]; intros [|e b] L E; try discriminate; [reflexivity|].
    cbn [List.length combine forallb fst snd map] in *. injection L as L. injection E as E1 E2. rewrite (IH b L E2), andb_true_r. apply Ascii.eqb_eq.
    destruct (hex_digit c) as [x|] eqn:EX; [|congruence]. symmetry in E1.
    destruct (hex_char_plain c x EX) as (_ & _ & _ & _ & _ & _ & TX). destruct (hex_char_plain e x E1) as (_ & _ & _ & _ & _ & _ & TY). congruence.
Qed.

(** * A file of inputs as the circuit sees it *)
Theorem file_inputs fs name f d ls v : fs name = Some f -> file_of ls f -> lines_write d ls v -> N.of_nat (List.length ls * d) < 2 ^ 29 ->
  forall c x, (g_input x = parsed (ReadFileOrPassHex fs name) -> g_input_size c = (4 * d)%nat ->
    forall cy i, (cy < List.length ls)%nat -> (i < g_input_size c)%nat ->
      input_value c x cy (p_input_size c + i) = N.testbit (v cy) (N.of_nat i)) /\
  (e_input x = parsed (ReadFileOrPassHex fs name) -> e_input_size c = (4 * d)%nat ->
    forall cy i, (cy < List.length ls)%nat -> (i < e_input_size c)%nat ->
      input_value c x cy (p_input_size c + g_input_size c + i) = N.testbit (v cy) (N.of_nat i)).
Proof.
  intros FS FO LW SM c x. destruct (input_file_ok fs name f d ls v FS FO LW SM) as (w & W & B). rewrite (parsed_ok _ _ W).
  split; intros E S cy i Hc Hi; unfold input_value; cbv zeta.
  - destruct (Nat.ltb_spec (p_input_size c + i) (p_input_size c)); [lia|].
    destruct (Nat.ltb_spec (p_input_size c + i) (p_input_size c + g_input_size c)); [|lia].
    replace (p_input_size c + i - p_input_size c)%nat with i by lia. rewrite E, S. rewrite S in Hi. unfold bit. rewrite B by exact Hi.
    destruct (Nat.ltb_spec cy (List.length ls)); [reflexivity|lia].
  - destruct (Nat.ltb_spec (p_input_size c + g_input_size c + i) (p_input_size c)); [lia|].
    destruct (Nat.ltb_spec (p_input_size c + g_input_size c + i) (p_input_size c + g_input_size c)); [lia|].
    replace (p_input_size c + g_input_size c + i - p_input_size c - g_input_size c)%nat with i by lia. rewrite E, S. rewrite S in Hi. unfold bit. rewrite B by exact Hi.
    destruct (Nat.ltb_spec cy (List.length ls)); [reflexivity|lia].
Qed.
