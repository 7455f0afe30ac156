(** util/util.cpp: printing results, and packing fields into hexadecimal text. *)
From Coq Require Import ZArith NArith List Bool Lia Ascii.
From Verif Require Import Base Gate Circuit Proc Codec Tcp BN Text Hex Protocol.
Import ListNotations.
Open Scope Z_scope.

Definition newline : ascii := "010"%char.

(** * Printing the outputs of a run *)

(** BN_mask_bits(a, n) with n of type int: a negative n is an error. *)
Definition mask_int (a : BIGNUM) (n : Z) : BIGNUM := if n <? 0 then a else fst (BN_mask_bits a (Z.to_N n)).
(** util.cpp:207-208 and 217-218: the outputs of cycle [i]; the products are
    64-bit and converted to int. *)
Definition cycle_bits (n : nat) (temp outputs : BIGNUM) (i : Z) : BIGNUM :=
  mask_int (BN_rshift temp outputs (to_int (i * Z.of_nat n))) (to_int (Z.of_nat n)).
(** util.cpp:205-214, 233-242 *)
Definition separated_step (n T : nat) (outputs : BIGNUM) (ts : BIGNUM * text) (i : nat) : BIGNUM * text :=
  let temp := cycle_bits n (fst ts) outputs (Z.of_nat i) in
  (temp, snd ts ++ BN_bn2hex temp ++ (if (i <? T - 1)%nat then [newline] else [])).
Definition separated (n T : nat) (outputs : BIGNUM) : text :=
  snd (fold_left (separated_step n T outputs) (seq 0 T) (0, [])).
(** OutputBN2StrHighMem, util.cpp:197-223; [n] is output_size, [T] the number of
    cycles executed. *)
Definition OutputBN2StrHighMem (n : nat) (outputs : BIGNUM) (T : nat) (mode : OutputMode) : text :=
  match mode with
  | consecutive => BN_bn2hex outputs
  | separated_clock => separated n T outputs
  | last_clock => BN_bn2hex (cycle_bits n 0 outputs (Z.of_nat T - 1))
  end.
(** OutputBN2StrLowMem, util.cpp:225-248 *)
Definition OutputBN2StrLowMem (n : nat) (outputs : BIGNUM) (T : nat) (mode : OutputMode) : text :=
  match mode with
  | consecutive => BN_bn2hex outputs
  | separated_clock => separated n T outputs
  | last_clock => BN_bn2hex outputs
  end.

(** ** Specification *)
Fixpoint join (ls : list text) : text :=
  match ls with
  | [] => []
  | [l] => l
  | l :: ls' => l ++ newline :: join ls'
  end.
(** The text is the numeral of the [n]-bit number made of bits [from, from+n) of [v]. *)
Definition shows (t : text) (v : N) (from n : nat) : Prop := exists w, hexnum t = Some w /\ (w < 2 ^ N.of_nat n)%N /\
  forall j, (j < n)%nat -> N.testbit w (N.of_nat j) = N.testbit v (N.of_nat (from + j)).

(** ** Facts *)
Lemma cycle_bits_ok n i temp v : Z.of_nat (i * n) < 2 ^ 31 -> Z.of_nat n < 2 ^ 31 ->
  cycle_bits n temp (Z.of_N v) (Z.of_nat i) = Z.of_N (N.shiftr v (N.of_nat (i * n)) mod 2 ^ N.of_nat n).
Proof.
  intros H1 H2. unfold cycle_bits, mask_int, BN_rshift.
  rewrite <- Nat2Z.inj_mul, !to_int_small by lia.
  destruct (Z.ltb_spec (Z.of_nat n) 0); [lia|]. destruct (Z.ltb_spec (Z.of_nat (i * n)) 0); [lia|].
  rewrite mask_bits_ok by (rewrite with_mag_nonneg; lia). rewrite mag_with, mag_of_N.
  rewrite <- !nat_N_Z, !N2Z.id. reflexivity.
Qed.
Lemma shows_slice v from n : shows (BN_bn2hex (Z.of_N (N.shiftr v (N.of_nat from) mod 2 ^ N.of_nat n))) v from n.
Proof.
  eexists. split; [apply bn2hex_ok|]. split; [apply N.mod_lt; apply N.pow_nonzero; discriminate|].
  intros j Hj. rewrite N.mod_pow2_bits_low by lia. rewrite N.shiftr_spec by lia. f_equal. lia.
Qed.
Lemma join_snoc ls l : ls <> [] -> join (ls ++ [l]) = join ls ++ newline :: l.
Proof.
  induction ls as [|k ls IH]; intros H; [congruence|]. destruct ls as [|k' ls]; [reflexivity|].
  change ((k :: k' :: ls) ++ [l]) with (k :: (k' :: ls) ++ [l]).
  change (join (k :: (k' :: ls) ++ [l])) with (k ++ newline :: join ((k' :: ls) ++ [l])).
  rewrite IH by discriminate. change (join (k :: k' :: ls)) with (k ++ newline :: join (k' :: ls)). rewrite <- app_assoc. reflexivity.
Qed.
Lemma separated_ok n T v : Z.of_nat (T * n) < 2 ^ 31 -> Z.of_nat n < 2 ^ 31 ->
  separated n T (Z.of_N v) = join (map (fun i => BN_bn2hex (Z.of_N (N.shiftr v (N.of_nat (i * n)) mod 2 ^ N.of_nat n))) (seq 0 T)).
Proof.
  intros H1 H2. unfold separated. set (line := fun i => BN_bn2hex (Z.of_N (N.shiftr v (N.of_nat (i * n)) mod 2 ^ N.of_nat n))).
  enough (E : forall k, (k <= T)%nat -> exists temp, fold_left (separated_step n T (Z.of_N v)) (seq 0 k) (0, [])
    = (temp, join (map line (seq 0 k)) ++ if (k =? 0)%nat || (k =? T)%nat then [] else [newline])).
  { destruct (E T (le_n T)) as [temp ->]. cbn [snd]. rewrite Nat.eqb_refl, orb_true_r. apply app_nil_r. }
  induction k as [|k IH]; intros Hk; [exists 0; reflexivity|].
  destruct (IH ltac:(lia)) as [temp E]. rewrite seq_S, fold_left_app, E. cbn [fold_left separated_step fst snd Nat.add]. unfold separated_step. cbn [fst snd].
  eexists. f_equal. rewrite cycle_bits_ok; [|nia|lia]. fold (line k).
  rewrite map_app. cbn [map].
  assert (B : (k <? T - 1)%nat = negb (S k =? T)%nat) by (destruct (Nat.ltb_spec k (T - 1)), (Nat.eqb_spec (S k) T); auto; lia).
  rewrite B. change (S k =? 0)%nat with false. cbn [orb].
  destruct k as [|k].
  - cbn [seq map join app]. change (0 =? 0)%nat with true. cbn [orb app]. destruct (1 =? T)%nat; reflexivity.
  - rewrite join_snoc by discriminate. change (S k =? 0)%nat with false. cbn [orb].
    destruct (Nat.eqb_spec (S k) T); [lia|]. rewrite <- !app_assoc. cbn [app]. destruct (S (S k) =? T)%nat; reflexivity.
Qed.

(** What is printed in the three modes. *)
Theorem consecutive_ok low n T v :
  hexnum ((if low : bool then OutputBN2StrLowMem else OutputBN2StrHighMem) n (Z.of_N v) T consecutive) = Some v.
Proof. destruct low; apply bn2hex_ok. Qed.
Theorem separated_clock_ok low n T v : Z.of_nat (T * n) < 2 ^ 31 -> Z.of_nat n < 2 ^ 31 -> exists ls,
  (if low : bool then OutputBN2StrLowMem else OutputBN2StrHighMem) n (Z.of_N v) T separated_clock = join ls /\
  length ls = T /\ forall i l, nth_error ls i = Some l -> shows l v (i * n) n.
Proof.
  intros H1 H2. eexists. split; [destruct low; apply separated_ok; auto|]. rewrite map_length, seq_length. split; [reflexivity|].
  intros i l H. rewrite nth_error_map in H.
  destruct (nth_error (seq 0 T) i) as [k|] eqn:E; cbn [option_map] in H; [|discriminate]. injection H as <-.
  assert (i < T)%nat by (rewrite <- (seq_length T 0); apply nth_error_Some; congruence).
  rewrite (nth_error_nth' _ 0%nat), seq_nth in E by (rewrite ?seq_length; auto). injection E as <-. apply shows_slice.
Qed.
Theorem last_clock_ok n T v : (0 < T)%nat -> Z.of_nat (T * n) < 2 ^ 31 -> Z.of_nat n < 2 ^ 31 ->
  shows (OutputBN2StrHighMem n (Z.of_N v) T last_clock) v ((T - 1) * n) n /\
  hexnum (OutputBN2StrLowMem n (Z.of_N v) T last_clock) = Some v.
Proof.
  intros HT H1 H2. split; [|apply bn2hex_ok]. cbn [OutputBN2StrHighMem].
  replace (Z.of_nat T - 1) with (Z.of_nat (T - 1)) by lia. rewrite cycle_bits_ok; [apply shows_slice|nia|lia].
Qed.

(** * Binary and hexadecimal strings *)
Definition u16 (z : Z) : Z := z mod 2 ^ 16.
(** std::string::substr(pos, n): [None] is the exception for pos > size. *)
Definition substr (s : text) (pos n : Z) : option text :=
  if (0 <=? pos) && (pos <=? Z.of_nat (length s)) then Some (firstn (Z.to_nat n) (skipn (Z.to_nat pos) s)) else None.
Definition bit_char (b : bool) : ascii := if b then "1"%char else "0"%char.

(** dec2bin, util.cpp:292-296: std::bitset<64>(dec).to_string(), last bit_len
    characters; 64 - bit_len is negative (a huge position) for bit_len > 64. *)
Definition dec2bin (dec : Z) (bit_len : Z) : option text :=
  substr (map (fun i => bit_char (Z.testbit dec (63 - Z.of_nat i))) (seq 0 64)) (64 - bit_len) bit_len.

(** towsComplement, util.cpp:278-290: from the right, characters are inverted
    once a 1 has been passed. *)
Fixpoint tows (s : text) : text * bool :=
  match s with
  | [] => ([], false)
  | c :: s' => let '(r, invert) := tows s' in
               ((if invert then (if Ascii.eqb c "1" then "0"%char else "1"%char) else c) :: r,
                invert || Ascii.eqb c "1")
  end.
Definition towsComplement (s : text) : text := fst (tows s).

(** std::bitset<64>(s).to_ulong(): the first 64 characters; [None] is the
    exception for a character other than 0 and 1. *)
Definition bitset_step (a : option N) (c : ascii) : option N :=
  do v <- a; if Ascii.eqb c "1" then Some (2 * v + 1)%N else if Ascii.eqb c "0" then Some (2 * v)%N else None.
Definition bitset_val (s : text) : option N := fold_left bitset_step (firstn 64 s) (Some 0%N).
(** Conversion to int64_t. *)
Definition to_i64 (z : Z) : Z := (z + 2 ^ 63) mod 2 ^ 64 - 2 ^ 63.
(** bin2dec, util.cpp:298-305.  [None]: the exception, and the overflow when
    negating the least number. *)
Definition bin2dec (bin : text) (s : bool) : option Z :=
  let neg := s && match bin with c :: _ => Ascii.eqb c "1" | [] => false end in
  let bin := if neg then towsComplement bin else bin in
  do v <- bitset_val bin;
  let dec := to_i64 (Z.of_N v) in
  if neg then if dec =? - 2 ^ 63 then None else Some (- dec) else Some dec.

(** The digit tables of hex2bin and bin2hex. *)
Definition nibble (c : ascii) : text :=
  match hex_digit c with
  | Some d => map (fun i => bit_char (N.testbit d (3 - N.of_nat i))) (seq 0 4)
  | None => []
  end.
Definition of_nibble (b : text) : text :=
  match b with
  | [a; b; c; d] =>
    match bin_digit a, bin_digit b, bin_digit c, bin_digit d with
    | Some a, Some b, Some c, Some d => [upper_digit (8 * a + 4 * b + 2 * c + d)]
    | _, _, _, _ => []
    end
  | _ => []
  end.
(** hex2bin, util.cpp:307-333; the length is kept in 16 bits. *)
Definition hex2bin (hex : text) : text := flat_map nibble (firstn (Z.to_nat (u16 (Z.of_nat (length hex)))) hex).
(** bin2hex, util.cpp:335-363: one to four zeros are put in front; the length is
    kept in 16 bits.  The substrings exist since i < len <= bin.length(). *)
Definition bin2hex (bin : text) : text :=
  let len := u16 (Z.of_nat (length bin)) in
  let bin := repeat "0"%char (Z.to_nat (4 - len mod 4)) ++ bin in
  let len := u16 (Z.of_nat (length bin)) in
  flat_map (fun i => of_nibble (firstn 4 (skipn (4 * i) bin))) (seq 0 (Z.to_nat ((len + 3) / 4))).

(** formatGCInputString, util.cpp:250-257.  [None]: an exception or an access
    beyond bit_len. *)
Definition formatGCInputString (input : list Z) (bit_len : list Z) : option text :=
  do bin <- for_ (length input) (fun i bin =>
      do x <- rd input (Z.of_nat i); do w <- rd bit_len (Z.of_nat i); do b <- dec2bin x w; Some (bin ++ b)) [];
  Some (bin2hex bin).

(** parseGCOutputString, util.cpp:259-276; the number of outputs is kept in 8
    bits, positions in 16 bits. *)
Definition parseGCOutputString (output : list Z) (output_str : text) (bit_len : list Z) (offset : Z) : option (list Z) :=
  let bin := hex2bin output_str in
  let k := Z.to_nat (Z.of_nat (length output) mod 2 ^ 8) in
  do len <- for_ k (fun i len => do w <- rd bit_len (Z.of_nat i); Some (u16 (len + w))) offset;
  let size := Z.of_nat (length bin) in
  let bin := if size <? len then repeat "0"%char (Z.to_nat (len - size)) ++ bin
             else skipn (Z.to_nat (size - len)) bin in
  do '(out, _) <- for_ k (fun i oc =>
      do w <- rd bit_len (Z.of_nat i);
      do f <- substr bin (snd oc) w;
      do v <- bin2dec f true;
      do o <- wr (fst oc) (Z.of_nat i) v;
      Some (o, u16 (snd oc + w))) (output, 0);
  Some out.

(** formatGCOutputMask, util.cpp:365-377 *)
Definition formatGCOutputMask (garbler_share evaluator_share : Z) (garbler_left : bool) : text :=
  let g := repeat "1"%char (Z.to_nat garbler_share) in
  let e := repeat "0"%char (Z.to_nat evaluator_share) in
  bin2hex (if garbler_left then g ++ e else e ++ g).
