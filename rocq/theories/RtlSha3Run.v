(** The circuits for SHA3 in Verilog: their runs, and what they do not do. *)
From Coq Require Import ZArith NArith List Bool Lia.
From Verif Require Import RtlBase RtlArith RtlSeq RtlSha3 Sha3Spec.
From Verif Require A23Sha3 Base.
Import ListNotations.
Open Scope nat_scope.

(** * The rounds of Keccak are injective *)
Definition same (S S' : list bool) : Prop := forall x y z, x < 5 -> y < 5 -> z < 64 -> bit_at S x y z = bit_at S' x y z.
(** A parity that theta maps to zero is zero. *)
Lemma parity_double (Q : Z -> Z -> bool) k : (forall x z, Q x z = xorb (Q (x - k)%Z z) (Q (x + k)%Z (z - k)%Z)) ->
  forall x z, Q x z = xorb (Q (x - 2 * k)%Z z) (Q (x + 2 * k)%Z (z - 2 * k)%Z).
Proof.
  intros H x z. rewrite (H x z), (H (x - k)%Z z), (H (x + k)%Z (z - k)%Z). replace (x - k - k)%Z with (x - 2 * k)%Z by lia. replace (x - k + k)%Z with x by lia.
  replace (x + k - k)%Z with x by lia. replace (x + k + k)%Z with (x + 2 * k)%Z by lia. replace (z - k - k)%Z with (z - 2 * k)%Z by lia.
  destruct (Q (x - 2 * k)%Z z), (Q x (z - k)%Z), (Q (x + 2 * k)%Z (z - 2 * k)%Z); reflexivity.
Qed.
Lemma parity_zero (P : nat -> nat -> bool) : (forall x z, x < 5 -> z < 64 -> P x z = xorb (P ((x + 4) mod 5) z) (P ((x + 1) mod 5) ((z + 63) mod 64))) ->
  forall x z, x < 5 -> z < 64 -> P x z = false.
Proof.
  intros H. set (Q := fun x z : Z => P (Z.to_nat (x mod 5)) (Z.to_nat (z mod 64))).
  assert (Q1 : forall x z, Q x z = xorb (Q (x - 1)%Z z) (Q (x + 1)%Z (z - 1)%Z)).
  { intros x z. unfold Q. pose proof (Z.mod_pos_bound x 5 ltac:(lia)) as X. pose proof (Z.mod_pos_bound z 64 ltac:(lia)) as Hz. rewrite H by lia. f_equal; f_equal.
    - apply Nat2Z.inj. rewrite Nat2Z.inj_mod, Nat2Z.inj_add, !Z2Nat.id by (apply Z.mod_pos_bound; lia || lia). change (Z.of_nat 4) with 4%Z. change (Z.of_nat 5) with 5%Z. rewrite Zplus_mod_idemp_l. replace (x + 4)%Z with (x - 1 + 1 * 5)%Z by lia. apply Z.mod_add. lia.
    - apply Nat2Z.inj. rewrite Nat2Z.inj_mod, Nat2Z.inj_add, !Z2Nat.id by (apply Z.mod_pos_bound; lia || lia). change (Z.of_nat 1) with 1%Z. change (Z.of_nat 5) with 5%Z. apply Zplus_mod_idemp_l.
    - apply Nat2Z.inj. rewrite Nat2Z.inj_mod, Nat2Z.inj_add, !Z2Nat.id by (apply Z.mod_pos_bound; lia || lia). change (Z.of_nat 63) with 63%Z. change (Z.of_nat 64) with 64%Z. rewrite Zplus_mod_idemp_l. replace (z + 63)%Z with (z - 1 + 1 * 64)%Z by lia. apply Z.mod_add. lia. }
  pose proof (parity_double _ _ (parity_double _ _ (parity_double _ _ (parity_double _ _ (parity_double _ _ (parity_double _ _ Q1)))))) as Q64. cbn [Z.mul Pos.mul] in Q64.
  assert (PX : forall x z k, Q (x + 5 * k)%Z z = Q x z). { intros x z k. unfold Q. do 2 f_equal. rewrite Z.mul_comm. apply Z.mod_add. lia. }
  assert (PZ : forall x z k, Q x (z + 64 * k)%Z = Q x z). { intros x z k. unfold Q. do 2 f_equal. rewrite Z.mul_comm. apply Z.mod_add. lia. }
  assert (R : forall x z, Q x z = xorb (Q (x + 1)%Z z) (Q (x - 1)%Z z)).
  { intros x z. rewrite Q64. replace (x - 64)%Z with (x + 1 + 5 * -13)%Z by lia. replace (x + 64)%Z with (x - 1 + 5 * 13)%Z by lia. replace (z - 64)%Z with (z + 64 * -1)%Z by lia. rewrite !PX, PZ. reflexivity. }
  assert (Z0 : forall x z, Q x z = false).
  { intros x z. pose proof (R x z) as A. pose proof (R (x + 1)%Z z) as B. pose proof (R (x - 1)%Z z) as C. pose proof (R (x + 2)%Z z) as D. pose proof (R (x - 2)%Z z) as E.
    replace (x + 1 + 1)%Z with (x + 2)%Z in B by lia. replace (x + 1 - 1)%Z with x in B by lia. replace (x - 1 + 1)%Z with x in C by lia. replace (x - 1 - 1)%Z with (x - 2)%Z in C by lia.
    replace (x + 2 + 1)%Z with (x - 2 + 5 * 1)%Z in D by lia. replace (x + 2 - 1)%Z with (x + 1)%Z in D by lia. replace (x - 2 + 1)%Z with (x - 1)%Z in E by lia. replace (x - 2 - 1)%Z with (x + 2 + 5 * -1)%Z in E by lia. rewrite PX in D, E.
    destruct (Q x z), (Q (x + 1)%Z z), (Q (x - 1)%Z z), (Q (x + 2)%Z z), (Q (x - 2)%Z z); cbn in *; congruence. }
  intros x z X Hz. pose proof (Z0 (Z.of_nat x) (Z.of_nat z)) as E. unfold Q in E. rewrite !Z.mod_small, !Nat2Z.id in E by lia. exact E.
Qed.
Lemma theta_inj S S' : theta S = theta S' -> same S S'.
Proof.
  intros H. set (E := fun x y z => xorb (bit_at S x y z) (bit_at S' x y z)). set (P := fun x z => xorb (xorb (xorb (xorb (E x 0 z) (E x 1 z)) (E x 2 z)) (E x 3 z)) (E x 4 z)).
  assert (EP : forall x y z, x < 5 -> y < 5 -> z < 64 -> E x y z = xorb (P ((x + 4) mod 5) z) (P ((x + 1) mod 5) ((z + 63) mod 64))).
  { intros x y z X Y Hz. unfold theta in H. pose proof (string_inj _ _ H x y z X Y Hz) as T. cbv beta zeta in T. change (w - 1) with 63 in T. change w with 64 in T. unfold P, E.
    set (x4 := (x + 4) mod 5) in *. set (x1 := (x + 1) mod 5) in *. set (z1 := (z + 63) mod 64) in *. clearbody x4 x1 z1.
    assert (XS : forall a b, a = b -> xorb a b = false) by (intros a b ->; apply xorb_nilpotent). apply XS in T.
    match goal with |- ?l = ?r => assert (G : xorb l r = false) end.
    { rewrite <- T. ring. }
    apply xorb_eq, G. }
  assert (PP : forall x z, x < 5 -> z < 64 -> P x z = xorb (P ((x + 4) mod 5) z) (P ((x + 1) mod 5) ((z + 63) mod 64))).
  { intros x z X Hz. unfold P at 1. rewrite !(EP x) by lia. destruct (xorb (P ((x + 4) mod 5) z) (P ((x + 1) mod 5) ((z + 63) mod 64))); reflexivity. }
  pose proof (parity_zero P PP) as P0. intros x y z X Y Hz. apply xorb_eq. change (E x y z = false). rewrite EP by assumption. rewrite !P0 by (try assumption; apply Nat.mod_upper_bound; lia). reflexivity.
Qed.
Lemma rho_inj S S' : same (rho S) (rho S') -> same S S'.
Proof.
  intros H x y z X Y Hz. set (n := offset x y mod w). assert (N : n < 64) by (apply Nat.mod_upper_bound; discriminate). set (z' := (z + n) mod 64). assert (Z' : z' < 64) by (apply Nat.mod_upper_bound; lia).
  specialize (H x y z' X Y Z'). unfold rho in H. rewrite !bit_string in H by assumption. fold n in H. change w with 64 in H.
  replace ((z' + (64 - n)) mod 64) with z in H; [exact H|]. unfold z'. rewrite Nat.add_mod_idemp_l by lia. apply (Nat.mod_unique _ _ 1); lia.
Qed.
Lemma pi_inj S S' : same (pi S) (pi S') -> same S S'.
Proof.
  intros H X Y z HX HY Hz. assert (K : exists k, k < 5 /\ (Y + 3 * k) mod 5 = X).
  { do 5 (destruct X as [|X]; [do 5 (destruct Y as [|Y]; [solve [exists 0; split; [lia|reflexivity]|exists 1; split; [lia|reflexivity]|exists 2; split; [lia|reflexivity]|exists 3; split; [lia|reflexivity]|exists 4; split; [lia|reflexivity]]|]); lia|]). lia. }
  destruct K as (k & K & E). specialize (H Y k z HY K Hz). unfold pi in H. rewrite !bit_string in H by assumption. rewrite E in H. exact H.
Qed.
Lemma chi_row a b c d e a' b' c' d' e' :
  xorb a (negb b && c) = xorb a' (negb b' && c') -> xorb b (negb c && d) = xorb b' (negb c' && d') -> xorb c (negb d && e) = xorb c' (negb d' && e') ->
  xorb d (negb e && a) = xorb d' (negb e' && a') -> xorb e (negb a && b) = xorb e' (negb a' && b') -> a = a' /\ b = b' /\ c = c' /\ d = d' /\ e = e'.
Proof. destruct a, b, c, d, e, a', b', c', d', e'; cbn; intros; repeat split; congruence. Qed.
Lemma chi_inj S S' : same (chi S) (chi S') -> same S S'.
Proof.
  intros H x y z X Y Hz. assert (R : forall x, x < 5 -> xorb (bit_at S x y z) (negb (bit_at S ((x + 1) mod 5) y z) && bit_at S ((x + 2) mod 5) y z) = xorb (bit_at S' x y z) (negb (bit_at S' ((x + 1) mod 5) y z) && bit_at S' ((x + 2) mod 5) y z)).
  { intros x0 X0. specialize (H x0 y z X0 Y Hz). unfold chi in H. rewrite !bit_string in H by assumption. exact H. }
  pose proof (R 0 ltac:(lia)) as R0. pose proof (R 1 ltac:(lia)) as R1. pose proof (R 2 ltac:(lia)) as R2. pose proof (R 3 ltac:(lia)) as R3. pose proof (R 4 ltac:(lia)) as R4.
  change ((0 + 1) mod 5) with 1 in R0. change ((0 + 2) mod 5) with 2 in R0. change ((1 + 1) mod 5) with 2 in R1. change ((1 + 2) mod 5) with 3 in R1. change ((2 + 1) mod 5) with 3 in R2. change ((2 + 2) mod 5) with 4 in R2.
  change ((3 + 1) mod 5) with 4 in R3. change ((3 + 2) mod 5) with 0 in R3. change ((4 + 1) mod 5) with 0 in R4. change ((4 + 2) mod 5) with 1 in R4.
  destruct (chi_row _ _ _ _ _ _ _ _ _ _ R0 R1 R2 R3 R4) as (A & B & C & D & E). do 5 (destruct x as [|x]; [assumption|]). lia.
Qed.
Lemma iota_inj c S S' : same (iota_with c S) (iota_with c S') -> same S S'.
Proof.
  intros H x y z X Y Hz. specialize (H x y z X Y Hz). unfold iota_with in H. rewrite !bit_string in H by assumption. destruct (_ && _); [|exact H]. destruct (bit_at S x y z), (bit_at S' x y z), (c z); cbn in H; congruence.
Qed.
Lemma same_string f g : same (string_of f) (string_of g) -> string_of f = string_of g.
Proof. intros H. apply string_ext. intros x y z X Y Hz. specialize (H x y z X Y Hz). rewrite !bit_string in H by assumption. exact H. Qed.
Theorem Rnd_inj c S S' : same (Rnd_with c S) (Rnd_with c S') -> same S S'.
Proof. intros H. unfold Rnd_with in H. apply iota_inj, chi_inj, pi_inj, rho_inj in H. apply theta_inj. unfold theta in *. apply same_string, H. Qed.
Theorem rounds_inj n : forall from S S', same (rounds from n S) (rounds from n S') -> same S S'.
Proof. induction n as [|n IH]; intros from S S' H; [exact H|]. rewrite !rounds_S, !Rnd_eq in H. apply Rnd_inj in H. apply IH in H. exact H. Qed.

(** * The output determines both inputs *)
Theorem sha3_comb_reveals CC g e g' e' o : sha3_comb CC g e o -> sha3_comb CC g' e' o -> 0 < CC <= 24 -> veq 288 g g' /\ veq 288 e e'.
Proof.
  intros H H' HC. apply sha3_comb_rounds in H; [|exact HC]. apply sha3_comb_rounds in H'; [|exact HC]. rewrite H in H'.
  assert (E : same (state (message g e)) (state (message g' e'))). { apply (rounds_inj (24 / CC) 0). rewrite H'. intros x y z _ _ _. reflexivity. }
  apply same_string in E. apply state_inj in E. split; intros i Hi.
  - specialize (E i ltac:(lia)). unfold message, cat in E. destruct (Nat.ltb_spec i 288); [exact E|lia].
  - specialize (E (288 + i) ltac:(lia)). unfold message, cat in E. destruct (Nat.ltb_spec (288 + i) 288); [lia|]. replace (288 + i - 288) with i in E by lia. destruct (Nat.ltb_spec i 288); [exact E|lia].
Qed.

(** * The input is not in the place of a message block *)
Lemma word_string_bit n v l z : l < n -> z < 64 -> nth (64 * l + z) (words_string n v) false = v (64 * (n - 1 - l) + z).
Proof.
  intros L Hz. unfold words_string. rewrite (nth_flat _ 64 false 0); [|intros; rewrite map_length, seq_length; reflexivity|exact Hz|rewrite seq_length; exact L].
  rewrite seq_nth by exact L. rewrite (nth_indep _ false (v (64 * (n - 1 - (0 + l)) + 0))) by (rewrite map_length, seq_length; exact Hz). rewrite (map_nth (fun z => v (64 * (n - 1 - (0 + l)) + z))), seq_nth by exact Hz. reflexivity.
Qed.
Lemma words_length n v : length (words_string n v) = n * 64.
Proof.
  assert (F : forall (f : nat -> list bool) l, (forall a, length (f a) = 64) -> length (flat_map f l) = length l * 64). { intros f l H. induction l as [|a l IH]; [reflexivity|]. cbn [flat_map length]. rewrite app_length, IH, H. lia. }
  unfold words_string. rewrite F by (intros; rewrite map_length, seq_length; reflexivity). rewrite seq_length. reflexivity.
Qed.
Lemma keccak_rounds S : keccak_f S = rounds 0 24 S.
Proof. reflexivity. Qed.
Theorem sha3_comb_not_block g e o : sha3_comb 1 g e o -> (exists i, i < 576 /\ cat e 288 g i = true) ->
  state o <> keccak_f (words_string 9 (cat e 288 g) ++ repeat false (16 * 64)).
Proof.
  intros H (i & Hi & E) K. rewrite (sha3_comb_ok _ _ _ H), !keccak_rounds in K.
  assert (SM : same (repeat false (16 * 64) ++ words_string 9 (cat e 288 g)) (words_string 9 (cat e 288 g) ++ repeat false (16 * 64))) by (apply (rounds_inj 24 0); rewrite K; intros x y z _ _ _; reflexivity).
  set (l := 24 - i / 64). assert (D := Nat.div_mod i 64 ltac:(lia)). assert (M := Nat.mod_upper_bound i 64 ltac:(lia)).
  assert (I9 : i / 64 < 9) by (apply Nat.div_lt_upper_bound; lia).
  assert (D5 := Nat.div_mod l 5 ltac:(lia)). assert (M5 := Nat.mod_upper_bound l 5 ltac:(lia)). assert (Y : l / 5 < 5) by (apply Nat.div_lt_upper_bound; unfold l; lia).
  specialize (SM (l mod 5) (l / 5) (i mod 64) M5 Y M). unfold bit_at in SM. rewrite <- D5 in SM. change w with 64 in SM.
  rewrite app_nth2 in SM by (rewrite repeat_length; unfold l; lia). rewrite repeat_length in SM. replace (64 * l + i mod 64 - 16 * 64) with (64 * (l - 16) + i mod 64) in SM by (unfold l; lia).
  rewrite word_string_bit in SM by (unfold l; lia). replace (64 * (9 - 1 - (l - 16)) + i mod 64) with i in SM by (unfold l; lia). rewrite E in SM.
  rewrite app_nth2 in SM by (rewrite words_length; unfold l; lia). rewrite words_length in SM.
  assert (R : forall n k, nth k (repeat false n) false = false). { clear. induction n as [|n IH]; intros [|k]; try reflexivity. apply IH. } rewrite R in SM. discriminate.
Qed.

(** * The sequential circuit does not compute Keccak-f *)
Lemma zero_state g e : veq 288 g (rep false) -> veq 288 e (rep false) -> state (message g e) = A23Sha3.bits (repeat 0%N 25).
Proof.
  intros G E. unfold state. apply A23Sha3.string_bits; [reflexivity|]. intros x y z X Y Hz. set (i := 64 * (24 - (5 * y + x)) + z).
  assert (Q : N.testbit (nth (5 * y + x) (repeat 0%N 25) 0%N) (N.of_nat z) = false). { assert (R : forall n k, nth k (repeat 0%N n) 0%N = 0%N). { clear. induction n as [|n IH]; intros [|k]; try reflexivity. apply IH. } rewrite R. apply N.bits_0. }
  rewrite Q. unfold message, cat. destruct (Nat.ltb_spec i 288); [apply G; lia|]. destruct (Nat.ltb_spec (i - 288) 288); [apply E; lia|reflexivity].
Qed.
Lemma bits_zero x y z : z < 64 -> bit_at (A23Sha3.bits (repeat 0%N 25)) x y z = false.
Proof.
  intros Hz. rewrite A23Sha3.bit_bits by exact Hz. assert (R : forall n k, nth k (repeat 0%N n) 0%N = 0%N). { clear. induction n as [|n IH]; intros [|k]; try reflexivity. apply IH. } rewrite R. apply N.bits_0.
Qed.
Lemma zero_string f : (forall x y z, x < 5 -> y < 5 -> z < 64 -> f x y z = false) -> string_of f = A23Sha3.bits (repeat 0%N 25).
Proof. intros H. apply A23Sha3.string_bits; [reflexivity|]. intros x y z X Y Hz. rewrite <- A23Sha3.bit_bits, bits_zero by exact Hz. apply H; assumption. Qed.
Lemma plain_zero m : plain m (A23Sha3.bits (repeat 0%N 25)) = A23Sha3.bits (repeat 0%N 25).
Proof.
  induction m as [|m IH]; [reflexivity|]. change (plain (S m) (A23Sha3.bits (repeat 0%N 25))) with (Rnd_with (fun _ => false) (plain m (A23Sha3.bits (repeat 0%N 25)))). rewrite IH. unfold Rnd_with.
  assert (T : theta (A23Sha3.bits (repeat 0%N 25)) = A23Sha3.bits (repeat 0%N 25)) by (apply zero_string; intros x y z X Y Hz; rewrite !bits_zero by (try exact Hz; apply Nat.mod_upper_bound; discriminate); reflexivity). rewrite T.
  assert (R : rho (A23Sha3.bits (repeat 0%N 25)) = A23Sha3.bits (repeat 0%N 25)) by (apply zero_string; intros x y z X Y Hz; rewrite !bits_zero by (try exact Hz; apply Nat.mod_upper_bound; discriminate); reflexivity). rewrite R.
  assert (P : pi (A23Sha3.bits (repeat 0%N 25)) = A23Sha3.bits (repeat 0%N 25)) by (apply zero_string; intros x y z X Y Hz; rewrite !bits_zero by exact Hz; reflexivity). rewrite P.
  assert (C : chi (A23Sha3.bits (repeat 0%N 25)) = A23Sha3.bits (repeat 0%N 25)) by (apply zero_string; intros x y z X Y Hz; rewrite !bits_zero by exact Hz; reflexivity). rewrite C.
  apply zero_string. intros x y z X Y Hz. rewrite !bits_zero by exact Hz. destruct (_ && _); reflexivity.
Qed.
Lemma rounds_words k : k <= 24 -> exists A, Base.for_ k A23Sha3.keccak_round (repeat 0%N 25) = Some A /\ A23Sha3.bits A = rounds 0 k (A23Sha3.bits (repeat 0%N 25)).
Proof.
  intros K. destruct (Base.for_inv (fun k A' => A23Sha3.lanes A' /\ A23Sha3.bits A' = rounds 0 k (A23Sha3.bits (repeat 0%N 25))) k A23Sha3.keccak_round (repeat 0%N 25)) as (A' & F & L & B).
  - split; [|reflexivity]. split; [reflexivity|]. apply Forall_forall. intros q Hq. apply repeat_spec in Hq. subst. apply A23Sha3.w64_0.
  - intros i A' I [L B]. destruct (A23Sha3.round_ok A' i L ltac:(lia)) as (A2 & X & L2 & B2). exists A2. split; [exact X|]. split; [exact L2|]. rewrite rounds_S, <- B. exact B2.
  - exists A'. split; [exact F|exact B].
Qed.
Lemma rounds_differ k : k < 24 -> rounds 0 k (A23Sha3.bits (repeat 0%N 25)) <> rounds 0 24 (A23Sha3.bits (repeat 0%N 25)).
Proof.
  intros K E. destruct (rounds_words k ltac:(lia)) as (A & FA & BA). destruct (rounds_words 24 ltac:(lia)) as (B & FB & BB). rewrite <- BA, <- BB in E.
  assert (W : forall l z, z < 64 -> N.testbit (nth l A 0%N) (N.of_nat z) = N.testbit (nth l B 0%N) (N.of_nat z)). { intros l z Hz. rewrite <- !A23Sha3.nth_bits by exact Hz. rewrite E. reflexivity. }
  pose (lane0 := fun k => match Base.for_ k A23Sha3.keccak_round (repeat 0%N 25) with Some A => nth 0 A 0%N | None => 0%N end).
  assert (C : (let b := lane0 24 in forallb (fun k => let a := lane0 k in existsb (fun z => negb (Bool.eqb (N.testbit a (N.of_nat z)) (N.testbit b (N.of_nat z)))) (seq 0 64)) (seq 0 24)) = true) by (vm_compute; reflexivity).
  cbv zeta in C. rewrite forallb_forall in C. specialize (C k ltac:(apply in_seq; lia)). apply existsb_exists in C. destruct C as (z & Hz & C). apply in_seq in Hz. unfold lane0 in C. rewrite FA, FB, W in C by lia. rewrite eqb_reflx in C. discriminate.
Qed.
(** After CC cycles the result is wrong, already for zeros. *)
Theorem sha3_seq_refuted CC m n i o : CC * m = 24 -> 2 <= CC -> sha3_seq CC (rep false) (rep false) n i o -> CC <= n ->
  state (o (CC - 1)) <> keccak_f (state (message (rep false) (rep false))).
Proof.
  intros HC C2 H Hn E. rewrite (sha3_seq_rounds CC m _ _ _ _ _ H HC C2) in E by lia. rewrite keccak_rounds, zero_state, plain_zero in E by (intros j _; reflexivity).
  revert E. apply rounds_differ. assert (0 < m) by lia. nia.
Qed.
(** After one more cycle it is that of another input. *)
Theorem sha3_seq_next CC m g e n i o : CC * m = 24 -> 2 <= CC -> sha3_seq CC g e n i o -> CC < n ->
  state (o CC) = keccak_f (plain m (state (message g e))).
Proof. intros HC C2 H Hn. rewrite (sha3_seq_rounds CC m _ _ _ _ _ H HC C2), keccak_rounds by lia. f_equal. lia. Qed.
Lemma plain_moves : bit_at (plain 1 (state (message (of_val 1) (rep false)))) 4 4 0 <> bit_at (state (message (of_val 1) (rep false))) 4 4 0.
Proof. vm_compute. discriminate. Qed.
Theorem sha3_seq_next_refuted n i o : sha3_seq 24 (of_val 1) (rep false) n i o -> 24 < n -> state (o 24) <> keccak_f (state (message (of_val 1) (rep false))).
Proof.
  intros H Hn E. rewrite (sha3_seq_next 24 1 _ _ _ _ _ eq_refl ltac:(lia) H Hn), !keccak_rounds in E.
  apply plain_moves. apply (rounds_inj 24 0); [rewrite E; intros x y z _ _ _; reflexivity|lia|lia|lia].
Qed.

(** * Every run exists *)
Lemma round_total inp rc : exists out, round inp rc out.
Proof.
  set (a := fun x y => part (low_pos x y) inp). set (b := fun x => vxor (vxor (vxor (vxor (a x 0) (a x 1)) (a x 2)) (a x 3)) (a x 4)).
  set (c := fun x y => vxor (vxor (a x y) (b (sub_1 x))) (rot_up_1 (b (add_1 x)))). set (d := fun x y => rot_up (c x y) (nth (5 * y + x) A23Sha3.offsets 0)).
  set (e := fun x y => d ((x + 3 * y) mod 5) x). set (f := fun x y => vxor (e x y) (fun z => vnot (e (add_1 x) y) z && e (add_2 x) y z)).
  set (g := fun x y : nat => if (x =? 0) && (y =? 0) then (fun z => if existsb (Nat.eqb z) [0; 1; 3; 7; 15; 31; 63] then xorb (f 0 0 z) (rc z) else f 0 0 z) else f x y).
  destruct (joined_exists 64 25 (fun t => g ((24 - t) mod 5) ((24 - t) / 5))) as (out & J). exists out, a, b, c, d, e, f, g.
  split; [intros x y _ _ z _; reflexivity|]. split; [intros x _ z _; reflexivity|]. split; [intros x y _ _ z _; reflexivity|].
  split. { intros z Hz. unfold d, rot_up, cat. cbn [Nat.mul Nat.add nth A23Sha3.offsets Nat.ltb Nat.leb]. rewrite Nat.sub_0_r. reflexivity. }
  split; [intros z _; reflexivity|]. split; [unfold rho_list; repeat (apply Forall_cons; [intros z _; reflexivity|]); apply Forall_nil|].
  split; [unfold pi_list; repeat (apply Forall_cons; [intros z _; reflexivity|]); apply Forall_nil|]. split; [intros x y _ _ z _; reflexivity|]. split; [intros x _; reflexivity|].
  split. { intros x y _ _ N z _. unfold g. destruct (Nat.eqb_spec x 0), (Nat.eqb_spec y 0); try reflexivity. lia. }
  intros x y X Y. rewrite low_pos_eq by assumption. specialize (J (24 - (5 * y + x)) ltac:(lia)). cbv beta in J. replace (24 - (24 - (5 * y + x))) with (5 * y + x) in J by lia.
  replace ((5 * y + x) mod 5) with x in J by (apply (Nat.mod_unique _ _ y); lia). replace ((5 * y + x) / 5) with y in J by (apply (Nat.div_unique _ _ _ x); lia). rewrite Nat.mul_comm. exact J.
Qed.
Lemma rounds_total n x rc : exists ri : nat -> vec, ri 0 = x /\ forall q, q < n -> round (ri q) (rc q) (ri (S q)).
Proof. apply (iterate x (fun q => fun a b => round a (rc q) b)). intros k a. apply round_total. Qed.
Definition rconst_f (i : vec) : vec := fun z => match find (fun p => fst p =? z) rconst_list with Some (_, l) => existsb i l | None => false end.
Theorem sha3_comb_total CC g e : exists o, sha3_comb CC g e o.
Proof.
  set (rc := fun q => rconst_f (if q =? 0 then cat (rep false) 1 (bit true) else cat (cat (rep false) 1 (bit true)) q (rep false))).
  destruct (rounds_total (24 / CC) (message g e) rc) as (ri & R0 & R). exists (ri (S (24 / CC - 1))), rc, ri, (fun q => ri (S q)). split; [rewrite R0; intros z _; reflexivity|]. split; [intros z _; reflexivity|].
  split; [intros q Q1 _ z _; replace (S (q - 1)) with q by lia; reflexivity|]. split; [intros q _ z _; reflexivity|exact R].
Qed.
Theorem sha3_seq_total CC g e n i : exists o, sha3_seq CC g e n i o.
Proof.
  apply clocked_total; [exists (false, rep false, message g e); repeat split; intros z _; reflexivity|]. intros u [[ini rci] reg].
  set (rcj := fun k j => existsb (fun t => (j =? 24 / CC * t + k) && rci t) (seq 0 CC)). set (rc := fun q => rconst_f (rcj q)).
  destruct (rounds_total (24 / CC) reg rc) as (ri & R0 & R). exists (ri (S (24 / CC - 1))), (true, cat rci 1 (bit (negb ini)), ri (S (24 / CC - 1))), rcj, rc, ri, (fun q => ri (S q)).
  split; [reflexivity|]. split; [intros z _; reflexivity|]. split; [intros z _; reflexivity|]. split; [rewrite R0; intros z _; reflexivity|]. split; [intros z _; reflexivity|]. split.
  { intros k Hk. split.
    - intros t Ht. unfold rcj. destruct (rci t) eqn:E.
      + apply existsb_exists. exists t. rewrite E, Nat.eqb_refl. split; [apply in_seq; lia|reflexivity].
      + apply not_true_is_false. intros X. apply existsb_exists in X. destruct X as (t' & _ & X). apply andb_prop in X. destruct X as [X1 X2]. apply Nat.eqb_eq in X1. assert (t = t') by nia. congruence.
    - intros j _ Hj. apply not_true_is_false. intros X. apply existsb_exists in X. destruct X as (t' & I & X). apply in_seq in I. apply andb_prop in X. destruct X as [X1 _]. apply Nat.eqb_eq in X1. apply (Hj t'); [lia|exact X1]. }
  split; [intros q Q1 _ z _; replace (S (q - 1)) with q by lia; reflexivity|]. split; [intros q _ z _; reflexivity|exact R].
Qed.

(** * The known first lane of Keccak-f of zeros *)
Example sha3_case : exists o, sha3_comb 1 (rep false) (rep false) o /\ val 64 (part 1536 o) = 0xF1258F7940E1DDE7%Z.
Proof.
  destruct (sha3_comb_total 1 (rep false) (rep false)) as (o & H). exists o. split; [exact H|]. apply sha3_comb_rounds in H; [|lia]. rewrite zero_state in H by (intros j _; reflexivity). change (24 / 1) with 24 in H.
  destruct (rounds_words 24 ltac:(lia)) as (A & FA & BA). rewrite <- BA in H.
  assert (F : (match Base.for_ 24 A23Sha3.keccak_round (repeat 0%N 25) with Some A => nth 0 A 0%N | None => 0%N end) = 0xF1258F7940E1DDE7%N) by (vm_compute; reflexivity). rewrite FA in F.
  rewrite (val_ext 64 _ (of_val 0xF1258F7940E1DDE7)); [rewrite val_of_val; reflexivity|]. intros z Hz. pose proof (state_bit o 0 0 z ltac:(lia) ltac:(lia) Hz) as B. rewrite H, A23Sha3.bit_bits in B by exact Hz. cbn [Nat.mul Nat.add] in B. rewrite F in B.
  unfold part, of_val. transitivity (N.testbit 0xF1258F7940E1DDE7 (N.of_nat z)); [symmetry; exact B|]. rewrite <- N2Z.inj_testbit, nat_N_Z. reflexivity.
Qed.
