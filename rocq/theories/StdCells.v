(** circuit_synthesis/lib/stdcells_S.v: the cells for arithmetic and comparison that yosys maps to gates. *)
From Coq Require Import ZArith List Bool Lia.
Import ListNotations.
Open Scope Z_scope.

(** * Model *)
(** A vector is the list of its bits, bit 0 first.  A port of a number of bits that only passes values on
    is represented by its value. *)
Fixpoint uval (l : list bool) : Z := match l with [] => 0 | b :: l => Z.b2z b + 2 * uval l end.
(** The cell $pos, stdcells_S.v:41-43, which yosys maps itself: extension by zero or by the sign, or truncation *)
Definition pos (signed : bool) (w : nat) (A : list bool) : list bool := firstn w (A ++ repeat (signed && last A false) w).
(** $__fulladd, stdcells_S.v:404-424: ({X, Y}) *)
Definition fulladd (A B C : bool) : bool * bool :=
  let t1 := xorb A C in
  let t2 := xorb B C in
  let t3 := t1 && t2 in
  let Y := xorb t1 B in
  let X := xorb t3 C in
  (X, Y).
(** $__alu, stdcells_S.v:429-457, from bit i on with carry[i-1] and carry[i]: (Y, Cout, Csign) *)
Fixpoint alu_from (A B : list bool) (before c : bool) : list bool * bool * bool :=
  match A, B with
  | a :: A, b :: B => let (x, y) := fulladd a b c in let '(Y, Cout, Csign) := alu_from A B c x in (y :: Y, Cout, Csign)
  | _, _ => ([], c, before)
  end.
Definition alu (A B : list bool) (Cin : bool) : list bool * bool * bool := alu_from A B false Cin.
(** $add, stdcells_S.v:715-742, and $sub, 746-771; w is Y_WIDTH *)
Definition add (sa sb : bool) (w : nat) (A B : list bool) (C : bool) : list bool := fst (fst (alu (pos sa w A) (pos sb w B) C)).
Definition sub (sa sb : bool) (w : nat) (A B : list bool) : list bool := fst (fst (alu (pos sa w A) (map negb (pos sb w B)) true)).
(** $neg, stdcells_S.v:53-74 *)
Definition neg (s : bool) (w : nat) (A : list bool) : list bool := sub s s w [false] A.
(** $lt, stdcells_S.v:461-506, and $le, 510-555: bit 0 of Y (the others are 0) *)
Definition flags (sa sb : bool) (A B : list bool) : bool * bool * bool * bool :=
  let w := Nat.max (length A) (length B) in
  let '(Y, carry, carry_sign) := alu (pos sa w A) (map negb (pos sb w B)) true in
  (negb carry, xorb carry carry_sign, negb (existsb (fun y => y) Y), last Y false).
Definition lt (sa sb : bool) (A B : list bool) : bool :=
  let '(cf, of, zf, sf) := flags sa sb A B in if sa && sb then xorb of sf else cf.
Definition le (sa sb : bool) (A B : list bool) : bool :=
  let '(cf, of, zf, sf) := flags sa sb A B in if sa && sb then zf || xorb of sf else zf || cf.
(** $ge, stdcells_S.v:659-683, and $gt, 687-711 *)
Definition ge (sa sb : bool) (A B : list bool) : bool := le sb sa B A.
Definition gt (sa sb : bool) (A B : list bool) : bool := lt sb sa B A.
(** $eq, stdcells_S.v:559-580, and $ne, 584-605 ($eqx and $nex, 609-655, are the same): bit 0 of Y *)
Definition differences (sa sb : bool) (A B : list bool) : list bool :=
  let w := Nat.max (length A) (length B) in map (fun ab => xorb (fst ab) (snd ab)) (combine (pos sa w A) (pos sb w B)).
Definition eq (sa sb : bool) (A B : list bool) : bool := negb (existsb (fun b => b) (differences sa sb A B)).
Definition ne (sa sb : bool) (A B : list bool) : bool := existsb (fun b => b) (differences sa sb A B).
(** $__arraymul, stdcells_S.v:775-791, from row i on with the sum of the rows before (0 before row 0) *)
Fixpoint arraymul (w : nat) (i : Z) (A : list bool) (B p : Z) : Z :=
  match A with
  | [] => p
  | a :: A => arraymul w (i + 1) A B (((if a then B * 2 ^ i mod 2 ^ Z.of_nat w else 0) + p) mod 2 ^ Z.of_nat w)
  end.
(** $mul, stdcells_S.v:795-819 *)
Definition mul (sa sb : bool) (w : nat) (A B : list bool) : Z := arraymul w 0 (pos sa w A) (uval (pos sb w B)) 0.
(** $__div_mod_u, stdcells_S.v:823-849, with k stages to go: (Y, R) *)
Fixpoint div_mod_u (w : nat) (k : nat) (stage_in B : Z) : Z * Z :=
  match k with
  | O => (0, stage_in)
  | S k =>
    let t := B * 2 ^ Z.of_nat k in
    let y := t <=? stage_in in
    let (Y, R) := div_mod_u w k (if y then (stage_in - t) mod 2 ^ Z.of_nat w else stage_in) B in
    (Z.b2z y * 2 ^ Z.of_nat k + Y, R)
  end.
(** $__div_mod, stdcells_S.v:853-889: (Y, R), of w bits *)
Definition negative (W : nat) (x : Z) : Z := (- x) mod 2 ^ Z.of_nat W.
Definition div_mod (sa sb : bool) (w : nat) (A B : list bool) : Z * Z :=
  let W := Nat.max (Nat.max (length A) (length B)) w in
  let A_buf := pos sa W A in
  let B_buf := pos sb W B in
  let A_top := last A_buf false in
  let B_top := last B_buf false in
  let A_u := if sa && A_top then negative W (uval A_buf) else uval A_buf in
  let B_u := if sb && B_top then negative W (uval B_buf) else uval B_buf in
  let (Y_u, R_u) := div_mod_u W W A_u B_u in
  ((if sa && sb && xorb A_top B_top then negative W Y_u else Y_u) mod 2 ^ Z.of_nat w,
   (if sa && sb && A_top then negative W R_u else R_u) mod 2 ^ Z.of_nat w).

(** $__shift, stdcells_S.v:132-155 *)
Definition shift (X : bool) (W : nat) (SHIFT : Z) (A : list bool) : list bool :=
  map (fun k => let i := Z.of_nat k in if i + SHIFT <? 0 then false else if i + SHIFT <? Z.of_nat W then nth (Z.to_nat (i + SHIFT)) A false else X) (seq 0 W).
(** BB_WIDTH, stdcells_S.v:168, 227, 286 and 345 *)
Definition bb_width (W : nat) (B : list bool) : nat :=
  let c := (Z.to_nat (Z.log2_up (Z.of_nat W)) + 2)%nat in if Nat.ltb c (length B) then c else length B.
(** BBIT of stage i, stdcells_S.v:190-193 *)
Definition bbit (W : nat) (B : list bool) (i : nat) : bool :=
  if Nat.eqb i (bb_width W B - 1) && Nat.ltb (bb_width W B) (length B) then existsb (fun b => b) (skipn (bb_width W B - 1) B) else nth i B false.
(** The stages from i on; [left]: $shl and $sshl, stdcells_S.v:186-210, else $shr and $sshr *)
Fixpoint stages (left X : bool) (W : nat) (B : list bool) (i n : nat) (unshifted : list bool) : list bool :=
  match n with
  | O => unshifted
  | S n =>
    let d := 2 ^ Z.of_nat (if Nat.ltb 30 i then 30 else i) in
    let shifted := shift X W (if left then 0 - d else d) unshifted in
    stages left X W B (S i) n (if bbit W B i then shifted else unshifted)
  end.
(** $shl, stdcells_S.v:159-214, and $sshl, 277-332 *)
Definition shl (sa : bool) (w : nat) (A B : list bool) : list bool := stages true false w B 0 (bb_width w B) (pos sa w A).
(** $shr, stdcells_S.v:218-273, and $sshr, 336-400; Y is cut off to w bits *)
Definition shr (sa : bool) (w : nat) (A B : list bool) : list bool :=
  let W := Nat.max (length A) w in firstn w (stages false false W B 0 (bb_width W B) (pos sa W A)).
Definition sshr (sa : bool) (w : nat) (A B : list bool) : list bool :=
  let W := Nat.max (length A) w in firstn w (stages false (sa && last A false) W B 0 (bb_width W B) (pos sa W A)).

(** * Specification *)
(** The number that a vector stands for: in two's complement if signed *)
Fixpoint bits_sum (l : list bool) (weight : Z) : Z := match l with [] => 0 | b :: l => (if b then weight else 0) + bits_sum l (2 * weight) end.
Definition number (signed : bool) (l : list bool) : Z :=
  bits_sum l 1 - if signed && last l false then 2 ^ Z.of_nat (length l) else 0.

(** * Proofs *)
Lemma bits_sum_uval l : forall k, bits_sum l k = k * uval l.
Proof. induction l as [|b l IH]; intros k; cbn [bits_sum uval]; [lia|]. rewrite IH. destruct b; cbn [Z.b2z]; lia. Qed.
Lemma number_uval s l : number s l = uval l - if s && last l false then 2 ^ Z.of_nat (length l) else 0.
Proof. unfold number. rewrite bits_sum_uval. lia. Qed.
Lemma pow_S n : 2 ^ Z.of_nat (S n) = 2 * 2 ^ Z.of_nat n.
Proof. rewrite Nat2Z.inj_succ, Z.pow_succ_r by lia. reflexivity. Qed.
Lemma pow_pos n : 0 < 2 ^ Z.of_nat n.
Proof. apply Z.pow_pos_nonneg; lia. Qed.
Lemma uval_range l : 0 <= uval l < 2 ^ Z.of_nat (length l).
Proof. induction l as [|b l IH]; [cbn; lia|]. cbn [length]. rewrite pow_S. cbn [uval]. destruct b; cbn [Z.b2z]; lia. Qed.
Lemma uval_app a b : uval (a ++ b) = uval a + 2 ^ Z.of_nat (length a) * uval b.
Proof. induction a as [|x a IH]; [cbn [app uval length]; change (2 ^ Z.of_nat 0) with 1; lia|]. cbn [app length]. rewrite pow_S. cbn [uval]. rewrite IH. lia. Qed.
Lemma uval_repeat b n : uval (repeat b n) = Z.b2z b * (2 ^ Z.of_nat n - 1).
Proof. induction n as [|n IH]; [cbn; lia|]. rewrite pow_S. cbn [repeat uval]. rewrite IH. destruct b; cbn [Z.b2z]; lia. Qed.
Lemma uval_firstn n : forall l, uval (firstn n l) = uval l mod 2 ^ Z.of_nat n.
Proof.
  induction n as [|n IH]; intros l; [cbn [firstn uval]; change (2 ^ Z.of_nat 0) with 1; now rewrite Z.mod_1_r|]. pose proof (pow_pos n) as P.
  destruct l as [|b l]; [cbn [firstn uval]; symmetry; apply Z.mod_0_l; pose proof (pow_pos (S n)); lia|].
  rewrite pow_S. cbn [firstn uval]. rewrite IH. pose proof (Z.div_mod (uval l) (2 ^ Z.of_nat n) ltac:(lia)) as D. pose proof (Z.mod_pos_bound (uval l) _ P) as R.
  apply (Z.mod_unique _ _ (uval l / 2 ^ Z.of_nat n)); [left; destruct b; cbn [Z.b2z]; lia|]. lia.
Qed.
Lemma uval_negb l : uval (map negb l) = 2 ^ Z.of_nat (length l) - 1 - uval l.
Proof. induction l as [|b l IH]; [reflexivity|]. cbn [map length]. rewrite pow_S. cbn [uval]. rewrite IH. destruct b; cbn [negb Z.b2z]; lia. Qed.
Lemma pos_length s w A : length (pos s w A) = w.
Proof. unfold pos. rewrite firstn_length, app_length, repeat_length. lia. Qed.
Lemma pos_value s w A : uval (pos s w A) = number s A mod 2 ^ Z.of_nat w.
Proof.
  unfold pos. rewrite uval_firstn, uval_app, uval_repeat, number_uval. set (P := 2 ^ Z.of_nat w). set (Q := 2 ^ Z.of_nat (length A)).
  destruct (s && last A false); cbn [Z.b2z]; [|f_equal; lia]. replace (uval A + Q * (1 * (P - 1))) with (uval A - Q + Q * P) by lia. apply Z.mod_add. pose proof (pow_pos w). lia.
Qed.
Lemma number_snoc s l : number s (l ++ [s && last l false]) = number s l.
Proof.
  rewrite !number_uval, last_last, uval_app, app_length. cbn [length uval]. rewrite Nat.add_1_r, pow_S. destruct s; cbn [andb Z.b2z]; [|lia]. destruct (last l false); cbn [Z.b2z]; lia.
Qed.
Lemma number_extend s n : forall l, number s (l ++ repeat (s && last l false) n) = number s l.
Proof.
  induction n as [|n IH]; intros l; [cbn [repeat]; now rewrite app_nil_r|]. cbn [repeat]. rewrite <- (number_snoc s l). rewrite <- (IH (l ++ [s && last l false])), last_last.
  replace (s && (s && last l false)) with (s && last l false) by (destruct s; reflexivity). now rewrite <- app_assoc.
Qed.
Lemma firstn_rep (x : bool) n : forall k, (k <= n)%nat -> firstn k (repeat x n) = repeat x k.
Proof. induction n as [|n IH]; intros [|k] H; try reflexivity; [lia|]. cbn [repeat firstn]. now rewrite IH by lia. Qed.
Lemma pos_number s w A : (length A <= w)%nat -> number s (pos s w A) = number s A.
Proof. intros H. unfold pos. rewrite firstn_app, firstn_all2, firstn_rep by lia. apply number_extend. Qed.
Theorem full_adder A B C : let (X, Y) := fulladd A B C in 2 * Z.b2z X + Z.b2z Y = Z.b2z A + Z.b2z B + Z.b2z C.
Proof. destruct A, B, C; reflexivity. Qed.
Lemma alu_value A : forall B p c, length A = length B -> let '(Y, Cout, _) := alu_from A B p c in
  length Y = length A /\ uval Y + 2 ^ Z.of_nat (length A) * Z.b2z Cout = uval A + uval B + Z.b2z c.
Proof.
  induction A as [|a A IH]; intros [|b B] p c H; try discriminate; cbn [alu_from]; [split; [reflexivity|cbn [length uval]; change (2 ^ Z.of_nat 0) with 1; lia]|]. injection H as H.
  pose proof (full_adder a b c) as F. destruct (fulladd a b c) as [x y]. specialize (IH B c x H). destruct (alu_from A B c x) as [[Y co] cs]. destruct IH as (L & V).
  split; [cbn [length]; now rewrite L|]. cbn [length]. rewrite pow_S. cbn [uval]. lia.
Qed.
Lemma alu_snoc A : forall B a b p c, length A = length B -> alu_from (A ++ [a]) (B ++ [b]) p c =
  let '(Y, Cout, _) := alu_from A B p c in (Y ++ [snd (fulladd a b Cout)], fst (fulladd a b Cout), Cout).
Proof.
  induction A as [|a' A IH]; intros [|b' B] a b p c H; try discriminate; cbn [app alu_from]; [destruct (fulladd a b c); reflexivity|]. injection H as H.
  destruct (fulladd a' b' c) as [x y]. rewrite IH by exact H. destruct (alu_from A B c x) as [[Y co] cs]. reflexivity.
Qed.
Theorem add_exact sa sb w A B C : length (add sa sb w A B C) = w /\ number false (add sa sb w A B C) = (number sa A + number sb B + Z.b2z C) mod 2 ^ Z.of_nat w.
Proof.
  unfold add, alu. pose proof (alu_value (pos sa w A) (pos sb w B) false C ltac:(now rewrite !pos_length)) as V. destruct (alu_from _ _ _ _) as [[Y co] cs]. cbn [fst]. destruct V as (L & V).
  rewrite pos_length in L, V. split; [exact L|]. rewrite number_uval. cbn [andb]. rewrite !pos_value in V. pose proof (pow_pos w) as P. pose proof (uval_range Y) as R. rewrite L in R.
  apply (Z.mod_unique _ _ (number sa A / 2 ^ Z.of_nat w + number sb B / 2 ^ Z.of_nat w + Z.b2z co)); [left; lia|].
  pose proof (Z.div_mod (number sa A) (2 ^ Z.of_nat w) ltac:(lia)). pose proof (Z.div_mod (number sb B) (2 ^ Z.of_nat w) ltac:(lia)). lia.
Qed.
Theorem sub_exact sa sb w A B : length (sub sa sb w A B) = w /\ number false (sub sa sb w A B) = (number sa A - number sb B) mod 2 ^ Z.of_nat w.
Proof.
  unfold sub, alu. pose proof (alu_value (pos sa w A) (map negb (pos sb w B)) false true ltac:(now rewrite map_length, !pos_length)) as V. destruct (alu_from _ _ _ _) as [[Y co] cs]. cbn [fst]. destruct V as (L & V).
  rewrite uval_negb in V. rewrite pos_length in L. rewrite !pos_length in V. split; [exact L|]. rewrite number_uval. cbn [andb]. rewrite !pos_value in V. pose proof (pow_pos w) as P. pose proof (uval_range Y) as R. rewrite L in R.
  cbn [Z.b2z] in V. rewrite Z.sub_0_r.
  apply (Z.mod_unique _ _ (number sa A / 2 ^ Z.of_nat w - number sb B / 2 ^ Z.of_nat w - 1 + Z.b2z co)); [left; lia|].
  pose proof (Z.div_mod (number sa A) (2 ^ Z.of_nat w) ltac:(lia)). pose proof (Z.div_mod (number sb B) (2 ^ Z.of_nat w) ltac:(lia)). lia.
Qed.
Theorem neg_exact s w A : number false (neg s w A) = (- number s A) mod 2 ^ Z.of_nat w.
Proof. unfold neg. destruct (sub_exact s s w [false] A) as (_ & ->). f_equal. rewrite (number_uval s [false]). cbn [last uval Z.b2z]. rewrite andb_false_r. lia. Qed.

(** The two vectors of a comparison, after extension to the same width *)
Lemma zero_bits Y : negb (existsb (fun y => y) Y) = (uval Y =? 0).
Proof. induction Y as [|y Y IH]; [reflexivity|]. cbn [existsb uval]. pose proof (uval_range Y) as R. destruct y; cbn [orb negb Z.b2z]; [symmetry; apply Z.eqb_neq; lia|]. rewrite IH. destruct (Z.eqb_spec (uval Y) 0) as [E|E]; symmetry; [apply Z.eqb_eq|apply Z.eqb_neq]; lia. Qed.
Lemma compare_unsigned A B : length A = length B -> let '(Y, carry, _) := alu A (map negb B) true in
  negb carry = (uval A <? uval B) /\ (uval Y =? 0) = (uval A =? uval B).
Proof.
  intros H. unfold alu. pose proof (alu_value A (map negb B) false true ltac:(now rewrite map_length)) as V. destruct (alu_from _ _ _ _) as [[Y co] cs]. destruct V as (L & V).
  rewrite uval_negb, <- H in V. pose proof (uval_range A). pose proof (uval_range B) as RB. pose proof (uval_range Y) as RY. rewrite <- H in RB. rewrite L in RY. cbn [Z.b2z] in V.
  split; destruct co; cbn [Z.b2z negb] in *; try (destruct (Z.ltb_spec (uval A) (uval B)); [lia|reflexivity] || lia); try (destruct (Z.ltb_spec (uval A) (uval B)); [reflexivity|lia]);
    destruct (Z.eqb_spec (uval Y) 0), (Z.eqb_spec (uval A) (uval B)); try reflexivity; lia.
Qed.
Lemma compare_signed A B : length A = length B -> A <> [] -> let '(Y, carry, carry_sign) := alu A (map negb B) true in
  xorb (xorb carry carry_sign) (last Y false) = (number true A <? number true B).
Proof.
  intros H NE. destruct (exists_last NE) as (A' & a & ->). assert (NB : B <> []) by (intros ->; rewrite app_length in H; cbn in H; lia). destruct (exists_last NB) as (B' & b & ->).
  rewrite !app_length in H. cbn [length] in H. assert (L : length A' = length B') by lia. clear H NE NB. rewrite map_app. cbn [map]. unfold alu. rewrite alu_snoc by (now rewrite map_length).
  pose proof (alu_value A' (map negb B') false true ltac:(now rewrite map_length)) as V. destruct (alu_from _ _ _ _) as [[Y co] cs]. destruct V as (LY & V). rewrite last_last.
  rewrite !number_uval, !last_last, !uval_app, !app_length, <- L. cbn [length uval andb]. rewrite Nat.add_1_r, pow_S. rewrite uval_negb, <- L in V.
  pose proof (uval_range A'). pose proof (uval_range B') as RB. pose proof (uval_range Y) as RY. rewrite <- L in RB. rewrite LY in RY. pose proof (pow_pos (length A')).
  destruct a, b, co; cbn [Z.b2z negb] in *; match goal with |- _ = (?x <? ?y) => destruct (Z.ltb_spec x y) end; try reflexivity; lia.
Qed.
Lemma number_false l : number false l = uval l.
Proof. rewrite number_uval. cbn [andb]. lia. Qed.
Lemma uval_number s A B : length A = length B -> (uval A =? uval B) = (number s A =? number s B).
Proof.
  intros L. destruct s; [|now rewrite !number_false]. rewrite !number_uval. cbn [andb]. rewrite <- L. pose proof (uval_range A). pose proof (uval_range B) as RB. rewrite <- L in RB.
  destruct (Z.eqb_spec (uval A) (uval B)) as [E|E].
  - assert (A = B) as ->; [|symmetry; apply Z.eqb_refl]. revert B L E RB. clear. induction A as [|a A IH]; intros [|b B] L E R; try discriminate; [reflexivity|]. injection L as L. cbn [uval] in E.
    pose proof (uval_range B). f_equal; [destruct a, b; cbn [Z.b2z] in E; (reflexivity || lia)|]. apply IH; [exact L| |rewrite L; assumption]. destruct a, b; cbn [Z.b2z] in E; lia.
  - symmetry. apply Z.eqb_neq. destruct (last A false), (last B false); lia.
Qed.
Lemma compared s A B : A <> [] -> lt s s A B = (number s A <? number s B) /\ le s s A B = (number s A <=? number s B).
Proof.
  intros NE. unfold lt, le, flags. set (w := Nat.max (length A) (length B)). set (A' := pos s w A). set (B' := pos s w B).
  assert (L : length A' = length B') by (unfold A', B'; now rewrite !pos_length).
  assert (NA : number s A' = number s A) by (apply pos_number; lia). assert (NB : number s B' = number s B) by (apply pos_number; lia).
  assert (N' : A' <> []) by (intros E; apply (f_equal (@length bool)) in E; unfold A' in E; rewrite pos_length in E; cbn [length] in E; unfold w in E; destruct A; [congruence|cbn [length] in E; lia]).
  pose proof (compare_unsigned A' B' L) as U. pose proof (compare_signed A' B' L N') as S. destruct (alu A' (map negb B') true) as [[Y co] cs]. destruct U as (U & Z0). rewrite zero_bits, Z0, (uval_number s A' B' L).
  assert (LE : forall x y, (x =? y) || (x <? y) = (x <=? y)) by (intros x y; destruct (Z.eqb_spec x y), (Z.ltb_spec x y), (Z.leb_spec x y); cbn [orb]; (reflexivity || lia)).
  rewrite <- NA, <- NB. destruct s; cbn [andb]; [rewrite S|rewrite U, !number_false]; split; auto.
Qed.
Theorem comparisons s A B : A <> [] -> B <> [] -> lt s s A B = (number s A <? number s B) /\ le s s A B = (number s A <=? number s B) /\
  gt s s A B = (number s B <? number s A) /\ ge s s A B = (number s B <=? number s A).
Proof. intros NA NB. unfold gt, ge. destruct (compared s A B NA), (compared s B A NB). auto. Qed.
Theorem mixed_exact sa sb A B : sa && sb = false -> lt sa sb A B = (number sa A mod 2 ^ Z.of_nat (Nat.max (length A) (length B)) <? number sb B mod 2 ^ Z.of_nat (Nat.max (length A) (length B))) /\
  le sa sb A B = (number sa A mod 2 ^ Z.of_nat (Nat.max (length A) (length B)) <=? number sb B mod 2 ^ Z.of_nat (Nat.max (length A) (length B))).
Proof.
  intros H. unfold lt, le, flags. set (w := Nat.max (length A) (length B)). rewrite <- !pos_value. set (A' := pos sa w A). set (B' := pos sb w B).
  assert (L : length A' = length B') by (unfold A', B'; now rewrite !pos_length). pose proof (compare_unsigned A' B' L) as U. destruct (alu A' (map negb B') true) as [[Y co] cs]. destruct U as (U & Z0).
  rewrite H, zero_bits, Z0, U. split; [reflexivity|]. destruct (Z.eqb_spec (uval A') (uval B')), (Z.ltb_spec (uval A') (uval B')), (Z.leb_spec (uval A') (uval B')); cbn [orb]; (reflexivity || lia).
Qed.
(** Operands of which one is signed are compared as if both were not, but the signed one is extended by its sign *)
Theorem mixed_refuted : ~ forall sa sb A B, A <> [] -> B <> [] -> lt sa sb A B = (number sa A <? number sb B).
Proof. intros H. specialize (H true false [true] [false; true]). discriminate H; discriminate. Qed.

Lemma same_bits A : forall B, length A = length B -> negb (existsb (fun b => b) (map (fun ab => xorb (fst ab) (snd ab)) (combine A B))) = (uval A =? uval B).
Proof.
  induction A as [|a A IH]; intros [|b B] H; try discriminate; [reflexivity|]. injection H as H. cbn [combine map existsb fst snd uval]. rewrite negb_orb, (IH B H).
  destruct a, b; cbn [xorb negb andb Z.b2z]; destruct (Z.eqb_spec (uval A) (uval B)); symmetry; (apply Z.eqb_eq + apply Z.eqb_neq); lia.
Qed.
Theorem equality s A B : eq s s A B = (number s A =? number s B) /\ ne s s A B = negb (number s A =? number s B).
Proof.
  assert (E : eq s s A B = (number s A =? number s B)).
  { unfold eq, differences. set (w := Nat.max (length A) (length B)). rewrite same_bits by (now rewrite !pos_length). rewrite (uval_number s) by (now rewrite !pos_length). now rewrite !pos_number by lia. }
  split; [exact E|]. rewrite <- E. unfold eq, ne. now rewrite negb_involutive.
Qed.

(** * Products *)
Lemma arraymul_value w A : forall i B p, 0 <= i -> 0 <= p < 2 ^ Z.of_nat w -> arraymul w i A B p = (p + 2 ^ i * B * uval A) mod 2 ^ Z.of_nat w.
Proof.
  pose proof (pow_pos w) as P. induction A as [|a A IH]; intros i B p Hi Hp; cbn [arraymul uval]; [rewrite Z.mul_0_r, Z.add_0_r, Z.mod_small by lia; reflexivity|].
  rewrite IH by (try lia; apply Z.mod_pos_bound; lia). rewrite Z.add_mod_idemp_l by lia. rewrite Z.pow_add_r by lia. change (2 ^ 1) with 2.
  destruct a; cbn [Z.b2z]; [|f_equal; lia]. rewrite <- Z.add_assoc, Z.add_mod_idemp_l by lia. f_equal. lia.
Qed.
Theorem mul_exact sa sb w A B : mul sa sb w A B = (number sa A * number sb B) mod 2 ^ Z.of_nat w.
Proof.
  pose proof (pow_pos w) as P. unfold mul. rewrite arraymul_value by lia. rewrite !pos_value. change (2 ^ 0) with 1. rewrite Z.add_0_l, Z.mul_1_l, <- Z.mul_mod by lia. f_equal. lia.
Qed.

(** * Quotients *)
Lemma div_mod_u_value w k : forall x B, 0 < B -> 0 <= x < 2 ^ Z.of_nat w -> x < B * 2 ^ Z.of_nat k -> div_mod_u w k x B = (x / B, x mod B).
Proof.
  induction k as [|k IH]; intros x B HB Hx Hk; cbn [div_mod_u].
  - change (2 ^ Z.of_nat 0) with 1 in Hk. rewrite Z.div_small, Z.mod_small by lia. reflexivity.
  - rewrite pow_S in Hk. pose proof (pow_pos k) as P. set (t := B * 2 ^ Z.of_nat k) in *. destruct (Z.leb_spec t x) as [C|C].
    + assert (0 <= t) by (unfold t; apply Z.mul_nonneg_nonneg; lia). rewrite (Z.mod_small (x - t)) by lia. rewrite IH by (try lia; unfold t in *; lia). cbn [Z.b2z].
      replace (x - t) with (x + - 2 ^ Z.of_nat k * B) by (unfold t; lia). rewrite Z.div_add, Z.mod_add by lia. f_equal. lia.
    + rewrite IH by (try lia; exact C). cbn [Z.b2z]. f_equal.
Qed.
Lemma div_mod_u_zero w k : forall x, 0 <= x < 2 ^ Z.of_nat w -> div_mod_u w k x 0 = (2 ^ Z.of_nat k - 1, x).
Proof.
  induction k as [|k IH]; intros x Hx; cbn [div_mod_u]; [reflexivity|]. rewrite Z.mul_0_l. destruct (Z.leb_spec 0 x); [|lia]. rewrite Z.sub_0_r, Z.mod_small, IH by lia. rewrite pow_S. cbn [Z.b2z]. f_equal. lia.
Qed.
Lemma number_sign l : l <> [] -> last l false = (number true l <? 0).
Proof.
  intros NE. destruct (exists_last NE) as (l' & b & ->). rewrite number_uval, last_last, uval_app, app_length. cbn [length uval andb]. rewrite Nat.add_1_r, pow_S. pose proof (uval_range l'). pose proof (pow_pos (length l')).
  destruct b; cbn [Z.b2z]; symmetry; [apply Z.ltb_lt|apply Z.ltb_ge]; lia.
Qed.
(** The magnitude of a vector *)
Lemma magnitude s W A : (length A <= W)%nat -> (0 < W)%nat -> (if s && last (pos s W A) false then negative W (uval (pos s W A)) else uval (pos s W A)) = Z.abs (number s A) /\
  s && last (pos s W A) false = (number s A <? 0) /\ 0 <= Z.abs (number s A) < 2 ^ Z.of_nat W.
Proof.
  intros L HW. pose proof (pos_number s W A L) as N. pose proof (pos_length s W A) as PL. set (P := pos s W A) in *. pose proof (uval_range P) as R. rewrite PL in R. pose proof (pow_pos W).
  assert (NE : P <> []) by (intros E; rewrite E in PL; cbn in PL; lia). rewrite <- N. destruct s; cbn [andb].
  - rewrite <- (number_sign P NE). assert (LR : last P false = true -> 0 < uval P) by (intros E; destruct (exists_last NE) as (l' & b & E2); rewrite E2 in *; rewrite last_last in E; subst b; rewrite uval_app; cbn [uval Z.b2z]; pose proof (uval_range l'); pose proof (pow_pos (length l')); lia).
    rewrite number_uval, PL. cbn [andb]. destruct (last P false); cbn [andb]; [|split; [lia|split; [reflexivity|lia]]]. specialize (LR eq_refl). split; [|split; [reflexivity|lia]].
    unfold negative. rewrite Z.abs_neq by lia. symmetry. apply (Z.mod_unique _ _ (-1)); [left; lia|lia].
  - rewrite number_false. split; [lia|]. split; [symmetry; apply Z.ltb_ge; lia|lia].
Qed.
Lemma mod_mod_pow x w W : (w <= W)%nat -> (x mod 2 ^ Z.of_nat W) mod 2 ^ Z.of_nat w = x mod 2 ^ Z.of_nat w.
Proof.
  intros H. replace (2 ^ Z.of_nat W) with (2 ^ Z.of_nat w * 2 ^ Z.of_nat (W - w)) by (rewrite <- Z.pow_add_r by lia; f_equal; lia). pose proof (pow_pos w). pose proof (pow_pos (W - w)).
  rewrite Z.rem_mul_r by lia. rewrite Z.mul_comm, Z.mod_add by lia. apply Z.mod_mod. lia.
Qed.
Theorem div_exact s w A B : A <> [] -> B <> [] -> number s B <> 0 -> div_mod s s w A B = (Z.quot (number s A) (number s B) mod 2 ^ Z.of_nat w, Z.rem (number s A) (number s B) mod 2 ^ Z.of_nat w).
Proof.
  intros NA NB NZ. unfold div_mod. set (W := Nat.max (Nat.max (length A) (length B)) w).
  assert (HW : (0 < W)%nat) by (unfold W; destruct A; [congruence|cbn [length]; lia]).
  destruct (magnitude s W A) as (-> & SA & RA); [unfold W; lia|exact HW|]. destruct (magnitude s W B) as (-> & SB & RB); [unfold W; lia|exact HW|].
  set (a := number s A) in *. set (b := number s B) in *. rewrite div_mod_u_value; [|lia|exact RA|nia].
  rewrite Z.quot_div, Z.rem_mod by exact NZ. pose proof (pow_pos W). assert (WW : (w <= W)%nat) by (unfold W; lia).
  assert (ST : forall x, negative W x mod 2 ^ Z.of_nat w = (- x) mod 2 ^ Z.of_nat w) by (intros x; apply mod_mod_pow, WW).
  assert (A0 : a = 0 -> Z.abs a / Z.abs b = 0 /\ Z.abs a mod Z.abs b = 0) by (intros ->; split; [apply Z.div_0_l|apply Z.mod_0_l]; lia).
  replace (s && s && xorb (last (pos s W A) false) (last (pos s W B) false)) with (xorb (a <? 0) (b <? 0)) by (rewrite <- SA, <- SB; destruct s, (last (pos _ W A) false), (last (pos _ W B) false); reflexivity).
  replace (s && s && last (pos s W A) false) with (a <? 0) by (rewrite <- SA; destruct s; reflexivity).
  destruct (Z.ltb_spec a 0) as [Na|Pa], (Z.ltb_spec b 0) as [Nb|Pb]; cbn [xorb]; rewrite ?ST.
  - rewrite (Z.sgn_neg a), (Z.sgn_neg b) by lia. f_equal; f_equal; lia.
  - rewrite (Z.sgn_neg a), (Z.sgn_pos b) by lia. f_equal; f_equal; lia.
  - destruct (Z.eq_dec a 0) as [E|E]; [destruct (A0 E) as (-> & ->); f_equal; f_equal; lia|]. rewrite (Z.sgn_pos a), (Z.sgn_neg b) by lia. f_equal; f_equal; lia.
  - destruct (Z.eq_dec a 0) as [E|E]; [destruct (A0 E) as (-> & ->); f_equal; f_equal; lia|]. rewrite (Z.sgn_pos a), (Z.sgn_pos b) by lia. f_equal; f_equal; lia.
Qed.
(** By zero: a quotient of ones only, and the dividend as the remainder *)
Theorem div_zero w A B : A <> [] -> number false B = 0 -> div_mod false false w A B = (2 ^ Z.of_nat w - 1, number false A mod 2 ^ Z.of_nat w).
Proof.
  intros NA NZ. unfold div_mod. set (W := Nat.max (Nat.max (length A) (length B)) w). cbn [andb].
  assert (WW : (w <= W)%nat) by (unfold W; lia). assert (LA : (length A <= W)%nat) by (unfold W; lia). rewrite !pos_value, NZ, number_false. pose proof (pow_pos W). pose proof (pow_pos w). rewrite Z.mod_0_l by lia.
  rewrite div_mod_u_zero by (apply Z.mod_pos_bound; lia). rewrite mod_mod_pow by exact WW. f_equal.
  replace (2 ^ Z.of_nat W) with (2 ^ Z.of_nat w * 2 ^ Z.of_nat (W - w)) by (rewrite <- Z.pow_add_r by lia; f_equal; lia). symmetry. apply (Z.mod_unique _ _ (2 ^ Z.of_nat (W - w) - 1)); [left; lia|lia].
Qed.

(** * Shifts *)
Lemma nth_map_seq (f : nat -> bool) n k : (k < n)%nat -> nth k (map f (seq 0 n)) false = f k.
Proof. intros H. rewrite (nth_indep _ false (f 0%nat)) by (now rewrite map_length, seq_length). rewrite map_nth, seq_nth by exact H. reflexivity. Qed.
Lemma shift_length X W d A : length (shift X W d A) = W.
Proof. unfold shift. now rewrite map_length, seq_length. Qed.
Lemma shift_left X W n A : length A = W -> shift X W (0 - Z.of_nat n) A = firstn W (repeat false n ++ A).
Proof.
  intros L. apply (nth_ext _ _ false false); rewrite shift_length; [rewrite firstn_length, app_length, repeat_length; lia|]. intros k Hk. unfold shift. rewrite nth_map_seq by exact Hk.
  assert (E : nth k (firstn W (repeat false n ++ A)) false = nth k (repeat false n ++ A) false) by (rewrite <- (firstn_skipn W (repeat false n ++ A)) at 2; symmetry; apply app_nth1; rewrite firstn_length, app_length, repeat_length; lia).
  rewrite E. destruct (Z.ltb_spec (Z.of_nat k + (0 - Z.of_nat n)) 0).
  - rewrite app_nth1 by (rewrite repeat_length; lia). symmetry. apply nth_repeat.
  - destruct (Z.ltb_spec (Z.of_nat k + (0 - Z.of_nat n)) (Z.of_nat W)); [|lia]. rewrite app_nth2 by (rewrite repeat_length; lia). rewrite repeat_length. f_equal. lia.
Qed.
Lemma shift_right X W n A : length A = W -> shift X W (Z.of_nat n) A = skipn n A ++ repeat X (Nat.min n W).
Proof.
  intros L. apply (nth_ext _ _ false X); rewrite shift_length; [rewrite app_length, skipn_length, repeat_length; lia|]. intros k Hk. unfold shift. rewrite nth_map_seq by exact Hk.
  destruct (Z.ltb_spec (Z.of_nat k + Z.of_nat n) 0); [lia|]. destruct (Z.ltb_spec (Z.of_nat k + Z.of_nat n) (Z.of_nat W)).
  - rewrite app_nth1 by (rewrite skipn_length; lia). rewrite <- (firstn_skipn n A) at 1. rewrite app_nth2; rewrite firstn_length; [|lia]. rewrite (nth_indep (skipn n A) X false) by (rewrite skipn_length; lia). f_equal. lia.
  - rewrite app_nth2 by (rewrite skipn_length; lia). symmetry. apply nth_repeat.
Qed.
Theorem shift_exact X W n A : length A = W -> shift X W (- Z.of_nat n) A = firstn W (repeat false n ++ A) /\ shift X W (Z.of_nat n) A = skipn n A ++ repeat X (Nat.min n W).
Proof. intros L. split; [exact (shift_left X W n A L)|exact (shift_right X W n A L)]. Qed.
Lemma shift_left_value W n A : length A = W -> uval (shift false W (0 - Z.of_nat n) A) = (uval A * 2 ^ Z.of_nat n) mod 2 ^ Z.of_nat W.
Proof. intros L. rewrite shift_left, uval_firstn, uval_app, uval_repeat, repeat_length by exact L. f_equal. cbn [Z.b2z]. lia. Qed.
Lemma uval_skipn n : forall A, uval (skipn n A) = uval A / 2 ^ Z.of_nat n.
Proof.
  induction n as [|n IH]; intros A; [cbn [skipn]; change (2 ^ Z.of_nat 0) with 1; now rewrite Z.div_1_r|]. rewrite pow_S. pose proof (pow_pos n). destruct A as [|a A]; [cbn [skipn uval]; symmetry; apply Z.div_0_l; lia|].
  cbn [skipn uval]. rewrite IH, <- Z.div_div by lia. f_equal. rewrite (Z.mul_comm 2), Z.div_add by lia. rewrite (Z.div_small (Z.b2z a)) by (destruct a; cbn; lia). lia.
Qed.
Lemma far_div v W e X : 0 <= W <= e -> - (Z.b2z X) * 2 ^ W <= v < (1 - Z.b2z X) * 2 ^ W -> v / 2 ^ e = - Z.b2z X.
Proof.
  intros H R. assert (P : 2 ^ W <= 2 ^ e) by (apply Z.pow_le_mono_r; lia). assert (0 < 2 ^ W) by (apply Z.pow_pos_nonneg; lia). symmetry.
  apply (Z.div_unique v (2 ^ e) (- Z.b2z X) (v + Z.b2z X * 2 ^ e)); [left; destruct X; cbn [Z.b2z] in *; lia|lia].
Qed.
Lemma shift_right_value X W n A : length A = W -> uval (shift X W (Z.of_nat n) A) - Z.b2z X * 2 ^ Z.of_nat W = (uval A - Z.b2z X * 2 ^ Z.of_nat W) / 2 ^ Z.of_nat n.
Proof.
  intros L. rewrite shift_right by exact L. rewrite uval_app, uval_skipn, uval_repeat, skipn_length, L. pose proof (uval_range A) as R. rewrite L in R. pose proof (pow_pos n).
  destruct (Nat.le_gt_cases n W) as [C|C].
  - rewrite Nat.min_l by exact C. assert (E : 2 ^ Z.of_nat W = 2 ^ Z.of_nat (W - n) * 2 ^ Z.of_nat n) by (rewrite <- Z.pow_add_r by lia; f_equal; lia).
    replace (uval A - Z.b2z X * 2 ^ Z.of_nat W) with (uval A + - (Z.b2z X * 2 ^ Z.of_nat (W - n)) * 2 ^ Z.of_nat n) by (rewrite E; lia). rewrite Z.div_add by lia. rewrite E. lia.
  - rewrite Nat.min_r by lia. replace (W - n)%nat with 0%nat by lia. change (2 ^ Z.of_nat 0) with 1. rewrite (Z.div_small (uval A)) by (split; [lia|]; apply Z.lt_le_trans with (2 ^ Z.of_nat W); [lia|]; apply Z.pow_le_mono_r; lia).
    rewrite (far_div _ (Z.of_nat W) (Z.of_nat n) X) by lia. lia.
Qed.
(** The distance that the stages from i on shift by *)
Fixpoint distance (W : nat) (B : list bool) (i n : nat) : Z := match n with O => 0 | S n => (if bbit W B i then 2 ^ Z.of_nat i else 0) + distance W B (S i) n end.
Lemma distance_nonneg W B n : forall i, 0 <= distance W B i n.
Proof. induction n as [|n IH]; intros i; cbn [distance]; [lia|]. specialize (IH (S i)). pose proof (pow_pos i). destruct (bbit W B i); lia. Qed.
Lemma stages_length l X W B n : forall i A, length A = W -> length (stages l X W B i n A) = W.
Proof. induction n as [|n IH]; intros i A L; cbn [stages]; [exact L|]. apply IH. destruct (bbit W B i); [apply shift_length|exact L]. Qed.
Lemma pow_nat i : 2 ^ Z.of_nat i = Z.of_nat (2 ^ i).
Proof. rewrite Nat2Z.inj_pow. reflexivity. Qed.
Lemma stages_left W B n : forall i A, (i + n <= 31)%nat -> length A = W -> uval (stages true false W B i n A) = (uval A * 2 ^ distance W B i n) mod 2 ^ Z.of_nat W.
Proof.
  pose proof (pow_pos W) as P. induction n as [|n IH]; intros i A H L; cbn [stages distance].
  - change (2 ^ 0) with 1. rewrite Z.mul_1_r, Z.mod_small; [reflexivity|]. rewrite <- L. apply uval_range.
  - destruct (Nat.ltb_spec 30 i); [lia|]. pose proof (distance_nonneg W B n (S i)). rewrite IH by (first [lia|destruct (bbit W B i); [apply shift_length|exact L]]).
    destruct (bbit W B i); [|f_equal]. rewrite (pow_nat i), shift_left_value by exact L. rewrite Z.mul_mod_idemp_l by lia. rewrite Z.pow_add_r by lia. f_equal. lia.
Qed.
Lemma stages_right X W B n : forall i A, (i + n <= 31)%nat -> length A = W -> uval (stages false X W B i n A) - Z.b2z X * 2 ^ Z.of_nat W = (uval A - Z.b2z X * 2 ^ Z.of_nat W) / 2 ^ distance W B i n.
Proof.
  induction n as [|n IH]; intros i A H L; cbn [stages distance]; [change (2 ^ 0) with 1; now rewrite Z.div_1_r|].
  destruct (Nat.ltb_spec 30 i); [lia|]. pose proof (distance_nonneg W B n (S i)). rewrite IH by (first [lia|destruct (bbit W B i); [apply shift_length|exact L]]).
  destruct (bbit W B i); [|f_equal]. rewrite (pow_nat i), shift_right_value by exact L. assert (0 < 2 ^ distance W B (S i) n) by (apply Z.pow_pos_nonneg; lia). pose proof (pow_pos (2 ^ i)).
  rewrite Z.div_div, Z.pow_add_r by lia. reflexivity.
Qed.
(** The stages shift by B, or B and the distance are both at least the width *)
Lemma low_distance W B n : forall i, (forall j, (i <= j < i + n)%nat -> bbit W B j = nth j B false) -> distance W B i n = 2 ^ Z.of_nat i * uval (firstn n (skipn i B)).
Proof.
  induction n as [|n IH]; intros i H; cbn [distance]; [cbn [firstn uval]; lia|]. rewrite IH by (intros j Hj; apply H; lia). rewrite (H i) by lia. rewrite pow_S.
  replace (skipn (S i) B) with (skipn 1 (skipn i B)) by (clear; revert B; induction i as [|i IH]; intros [|b B]; [reflexivity|reflexivity|reflexivity|exact (IH B)]). assert (N : nth i B false = nth 0 (skipn i B) false).
  { clear. revert B. induction i as [|i IH]; intros [|b B]; cbn [skipn nth]; auto. }
  rewrite N. destruct (skipn i B) as [|b l]; cbn [skipn nth firstn uval]; [rewrite firstn_nil; cbn [uval]; lia|]. destruct b; cbn [Z.b2z]; lia.
Qed.
Lemma distance_split W B n m : forall i, distance W B i (n + m) = distance W B i n + distance W B (i + n) m.
Proof. induction n as [|n IH]; intros i; cbn [distance Nat.add]; [now rewrite Nat.add_0_r|]. rewrite IH. replace (S i + n)%nat with (i + S n)%nat by lia. lia. Qed.
Lemma some_bits l : existsb (fun b => b) l = negb (uval l =? 0).
Proof. rewrite <- zero_bits. now rewrite negb_involutive. Qed.
Lemma total_distance W B : (0 < W)%nat -> distance W B 0 (bb_width W B) = uval B \/ (Z.of_nat W <= distance W B 0 (bb_width W B) /\ Z.of_nat W <= uval B).
Proof.
  intros HW. destruct (Nat.ltb_spec (bb_width W B) (length B)) as [C|C].
  - assert (E : bb_width W B = (Z.to_nat (Z.log2_up (Z.of_nat W)) + 2)%nat) by (unfold bb_width in *; destruct (Nat.ltb_spec (Z.to_nat (Z.log2_up (Z.of_nat W)) + 2) (length B)); [reflexivity|lia]).
    set (m := (bb_width W B - 1)%nat). assert (BB : bb_width W B = (m + 1)%nat) by (unfold m; lia). pose proof (distance_nonneg W B m 0) as D0.
    assert (BIG : Z.of_nat W <= 2 ^ Z.of_nat m).
    { apply Z.le_trans with (2 ^ Z.log2_up (Z.of_nat W)).
      - destruct (Z.eq_dec (Z.of_nat W) 1) as [O|O]; [rewrite O; cbn; lia|]. apply Z.log2_up_spec. lia.
      - apply Z.pow_le_mono_r; [lia|]. pose proof (Z.log2_up_nonneg (Z.of_nat W)). unfold m. rewrite E. lia. }
    assert (LOW : distance W B 0 m = uval (firstn m B)).
    { rewrite low_distance; [cbn [skipn]; change (2 ^ Z.of_nat 0) with 1; lia|]. intros j Hj. unfold bbit. fold m. destruct (Nat.eqb_spec j m); [lia|reflexivity]. }
    assert (TOP : bbit W B m = negb (uval (skipn m B) =? 0)) by (unfold bbit; fold m; rewrite Nat.eqb_refl; destruct (Nat.ltb_spec (bb_width W B) (length B)); [apply some_bits|lia]).
    assert (SP : uval B = uval (firstn m B) + 2 ^ Z.of_nat m * uval (skipn m B)) by (rewrite <- (firstn_skipn m B) at 1; rewrite uval_app, firstn_length, Nat.min_l by lia; reflexivity).
    rewrite BB, distance_split. cbn [distance Nat.add]. rewrite TOP, LOW. pose proof (uval_range (skipn m B)). pose proof (uval_range (firstn m B)).
    destruct (Z.eqb_spec (uval (skipn m B)) 0) as [Z0|Z0]; cbn [negb]; [left; rewrite SP, Z0; lia|right]. split; [lia|]. rewrite SP. nia.
  - left. rewrite low_distance; [cbn [skipn]; change (2 ^ Z.of_nat 0) with 1; rewrite firstn_all2 by lia; lia|]. intros j Hj. unfold bbit. destruct (Nat.ltb_spec (bb_width W B) (length B)); [lia|]. now rewrite andb_false_r.
Qed.
Lemma stages_few W B : Z.of_nat W <= 2 ^ 29 -> (0 + bb_width W B <= 31)%nat.
Proof.
  intros H. assert (Z.log2_up (Z.of_nat W) <= 29) by (rewrite <- (Z.log2_up_pow2 29) by lia; apply Z.log2_up_le_mono, H). unfold bb_width.
  destruct (Nat.ltb_spec (Z.to_nat (Z.log2_up (Z.of_nat W)) + 2) (length B)); lia.
Qed.
Lemma pow_far W e : 0 <= W <= e -> 2 ^ e mod 2 ^ W = 0.
Proof. intros H. replace e with ((e - W) + W) by lia. rewrite Z.pow_add_r by lia. apply Z.mod_mul. assert (0 < 2 ^ W) by (apply Z.pow_pos_nonneg; lia). lia. Qed.
Theorem shl_exact s w A B : (0 < w)%nat -> Z.of_nat w <= 2 ^ 29 -> length (shl s w A B) = w /\ number false (shl s w A B) = (number s A * 2 ^ number false B) mod 2 ^ Z.of_nat w.
Proof.
  intros H0 H. unfold shl. split; [apply stages_length, pos_length|]. rewrite !number_false, stages_left by (first [apply stages_few, H|apply pos_length]). pose proof (pow_pos w) as P. rewrite pos_value, Z.mul_mod_idemp_l by lia.
  destruct (total_distance w B H0) as [-> |(D1 & D2)]; [reflexivity|]. 
  assert (F : forall e, Z.of_nat w <= e -> (number s A * 2 ^ e) mod 2 ^ Z.of_nat w = 0) by (intros e He; rewrite <- Z.mul_mod_idemp_r by lia; rewrite pow_far, Z.mul_0_r by lia; apply Z.mod_0_l; lia).
  rewrite (F _ D1), (F _ D2). reflexivity.
Qed.
Lemma right_exact X W B A : (0 < W)%nat -> Z.of_nat W <= 2 ^ 29 -> length A = W ->
  uval (stages false X W B 0 (bb_width W B) A) = (uval A - Z.b2z X * 2 ^ Z.of_nat W) / 2 ^ uval B + Z.b2z X * 2 ^ Z.of_nat W.
Proof.
  intros H0 H L. pose proof (stages_right X W B (bb_width W B) 0 A (stages_few W B H) L) as E. pose proof (uval_range A) as R. rewrite L in R.
  enough (Q : (uval A - Z.b2z X * 2 ^ Z.of_nat W) / 2 ^ distance W B 0 (bb_width W B) = (uval A - Z.b2z X * 2 ^ Z.of_nat W) / 2 ^ uval B) by lia.
  destruct (total_distance W B H0) as [-> |(D1 & D2)]; [reflexivity|]. now rewrite !(far_div _ (Z.of_nat W) _ X) by lia.
Qed.
Theorem shr_exact s w A B : (0 < w)%nat -> Z.of_nat (length A) <= 2 ^ 29 -> Z.of_nat w <= 2 ^ 29 ->
  number false (shr s w A B) = number s A mod 2 ^ Z.max (Z.of_nat (length A)) (Z.of_nat w) / 2 ^ number false B mod 2 ^ Z.of_nat w.
Proof.
  intros H0 HA H. unfold shr. rewrite !number_false, uval_firstn, right_exact by (first [lia|apply pos_length]). cbn [Z.b2z]. rewrite Z.mul_0_l, Z.sub_0_r, Z.add_0_r, pos_value, Nat2Z.inj_max. reflexivity.
Qed.
Theorem sshr_exact s w A B : (0 < w)%nat -> A <> [] -> Z.of_nat (length A) <= 2 ^ 29 -> Z.of_nat w <= 2 ^ 29 ->
  number false (sshr s w A B) = (number s A / 2 ^ number false B) mod 2 ^ Z.of_nat w.
Proof.
  intros H0 NA HA H. unfold sshr. set (W := Nat.max (length A) w). rewrite !number_false, uval_firstn, right_exact by (first [unfold W; lia|apply pos_length]).
  destruct (magnitude s W A) as (_ & SG & _); [unfold W; lia|unfold W; lia|].
  assert (SL : s && last A false = (number s A <? 0)) by (destruct s; cbn [andb]; [now apply number_sign|rewrite number_false; symmetry; apply Z.ltb_ge; apply uval_range]).
  assert (V : uval (pos s W A) - Z.b2z (s && last A false) * 2 ^ Z.of_nat W = number s A).
  { rewrite <- (pos_number s W A) by (unfold W; lia). rewrite number_uval, pos_length, SG, <- SL. destruct (s && last A false); cbn [Z.b2z]; lia. }
  rewrite V. assert (WW : (w <= W)%nat) by (unfold W; lia). replace (2 ^ Z.of_nat W) with (2 ^ Z.of_nat (W - w) * 2 ^ Z.of_nat w) by (rewrite <- Z.pow_add_r by lia; f_equal; lia).
  rewrite Z.mul_assoc. apply Z.mod_add. pose proof (pow_pos w). lia.
Qed.

(** * Cases *)
(** 6 - 9 in five bits, - 2 < 1 and 6 < 1 (the same bits), and 6 >= 6 *)
Lemma arithmetic_case : sub false false 5 [false; true; true] [true; false; false; true] = [true; false; true; true; true] /\
  add true false 4 [true; false] [false; true; true] true = [false; false; false; true] /\
  lt true true [false; true; true] [true; false] = true /\ lt false false [false; true; true] [true; false] = false /\ ge true true [false; true; true] [false; true; true; true] = true /\
  eq true true [false; true] [false; true; true] = true /\ eq false false [false; true] [false; true; true] = false.
Proof. vm_compute. repeat split. Qed.
(** One bit of - 1, extended to 3, is not below 2 and not above 3; 1 is below - 2, taken as 2 *)
Lemma mixed_case : lt true false [true] [false; true] = false /\ le true false [true] [true; true] = true /\ lt false true [true] [false; true] = true.
Proof. vm_compute. repeat split. Qed.
(** - 7 / 2 = - 3 remainder - 1; 3 * (- 2) in four bits; - 8 shifted by 2, and by 9 *)
Lemma division_case : div_mod true true 4 [true; false; false; true] [false; true; false] = (13, 15) /\ mul true true 4 [true; true; false] [false; true] = 10 /\
  div_mod false false 3 [true; false; true] [false] = (7, 5) /\
  sshr true 4 [false; false; false; true] [false; true] = [false; true; true; true] /\ shr true 4 [false; false; false; true] [false; true] = [false; true; false; false] /\
  sshr true 4 [false; false; false; true] [true; false; false; true; false; false] = [true; true; true; true] /\ shl false 4 [true; true] [false; true] = [false; false; true; true] /\
  shl false 4 [true; true] [false; false; false; false; false; true] = [false; false; false; false].
Proof. vm_compute. repeat split. Qed.
Lemma shift_case : shift true 4 (- 1) [true; false; false; true] = [false; true; false; false] /\ shift true 4 2 [true; false; false; true] = [false; true; true; true].
Proof. vm_compute. split; reflexivity. Qed.
