(** The circuits for SHA3, written in Verilog (circuit_synthesis/sha3). *)
From Coq Require Import ZArith NArith List Bool Lia.
From Verif Require Import RtlBase RtlSeq Sha3Spec.
From Verif Require A23Sha3.
Import ListNotations.
Open Scope nat_scope.

(** * Model *)

(** rconst, sha3/rconst.v:18-34: the assigned bits of rc with the bits of i; the others are 0 *)
Definition rconst_list : list (nat * list nat) := [
  (0, [0; 4; 5; 6; 7; 10; 12; 13; 14; 15; 20; 22]);
  (1, [1; 2; 4; 8; 11; 12; 13; 15; 16; 18; 19]);
  (3, [2; 4; 7; 8; 9; 10; 11; 12; 13; 14; 18; 19; 23]);
  (7, [1; 2; 4; 6; 8; 9; 12; 13; 14; 17; 20; 21]);
  (15, [1; 2; 3; 4; 6; 7; 10; 12; 14; 15; 16; 18; 20; 21; 23]);
  (31, [3; 5; 6; 10; 11; 12; 19; 20; 22; 23]);
  (63, [2; 3; 6; 7; 13; 14; 15; 16; 17; 19; 20; 21; 23])].
Definition rconst (i rc : vec) : Prop :=
  veq 64 rc (fun z => match find (fun p => fst p =? z) rconst_list with Some (_, l) => existsb i l | None => false end).

(** The macros, sha3/round.v:17-23 *)
Definition high_pos (x y : nat) : nat := 1599 - 64 * (5 * y + x).
Definition low_pos (x y : nat) : nat := high_pos x y - 63.
Definition add_1 (x : nat) : nat := if x =? 4 then 0 else x + 1.
Definition add_2 (x : nat) : nat := if x =? 3 then 0 else if x =? 4 then 1 else x + 2.
Definition sub_1 (x : nat) : nat := if x =? 0 then 4 else x - 1.
Definition rot_up (v : vec) (n : nat) : vec := cat v n (part (63 - n + 1) v).
Definition rot_up_1 (v : vec) : vec := cat v 1 (part 63 v).
(** sha3/round.v:69-91: d[x][y] is c[x][y], rotated *)
Definition rho_list : list (nat * nat * nat) := [
  (2, 0, 62); (3, 0, 28); (4, 0, 27); (0, 1, 36); (1, 1, 44); (2, 1, 6); (3, 1, 55); (4, 1, 20);
  (0, 2, 3); (1, 2, 10); (2, 2, 43); (3, 2, 25); (4, 2, 39); (0, 3, 41); (1, 3, 45); (2, 3, 15);
  (3, 3, 21); (4, 3, 8); (0, 4, 18); (1, 4, 2); (2, 4, 61); (3, 4, 56); (4, 4, 14)].
(** sha3/round.v:94-118: e at the first place is d at the second *)
Definition pi_list : list (nat * nat * (nat * nat)) := [
  (0, 0, (0, 0)); (0, 2, (1, 0)); (0, 4, (2, 0)); (0, 1, (3, 0)); (0, 3, (4, 0));
  (1, 3, (0, 1)); (1, 0, (1, 1)); (1, 2, (2, 1)); (1, 4, (3, 1)); (1, 1, (4, 1));
  (2, 1, (0, 2)); (2, 3, (1, 2)); (2, 0, (2, 2)); (2, 2, (3, 2)); (2, 4, (4, 2));
  (3, 4, (0, 3)); (3, 1, (1, 3)); (3, 3, (2, 3)); (3, 0, (3, 3)); (3, 2, (4, 3));
  (4, 2, (0, 4)); (4, 4, (1, 4)); (4, 1, (2, 4)); (4, 3, (3, 4)); (4, 0, (4, 4))].
(** round, sha3/round.v:25-163 *)
Definition round (inp round_const out : vec) : Prop :=
  exists (a : nat -> nat -> vec) (b : nat -> vec) (c d e f g : nat -> nat -> vec),
    (forall x y, x < 5 -> y < 5 -> veq 64 (a x y) (part (low_pos x y) inp)) /\
    (forall x, x < 5 -> veq 64 (b x) (vxor (vxor (vxor (vxor (a x 0) (a x 1)) (a x 2)) (a x 3)) (a x 4))) /\
    (forall x y, x < 5 -> y < 5 -> veq 64 (c x y) (vxor (vxor (a x y) (b (sub_1 x))) (rot_up_1 (b (add_1 x))))) /\
    veq 64 (d 0 0) (c 0 0) /\ veq 64 (d 1 0) (rot_up_1 (c 1 0)) /\
    Forall (fun p => let '(x, y, n) := p in veq 64 (d x y) (rot_up (c x y) n)) rho_list /\
    Forall (fun p => let '(x, y, (x', y')) := p in veq 64 (e x y) (d x' y')) pi_list /\
    (forall x y, x < 5 -> y < 5 -> veq 64 (f x y) (vxor (e x y) (fun z => vnot (e (add_1 x) y) z && e (add_2 x) y z))) /\
    (forall x, x < 64 -> g 0 0 x = if existsb (Nat.eqb x) [0; 1; 3; 7; 15; 31; 63] then xorb (f 0 0 x) (round_const x) else f 0 0 x) /\
    (forall x y, x < 5 -> y < 5 -> x <> 0 \/ y <> 0 -> veq 64 (g x y) (f x y)) /\
    (forall x y, x < 5 -> y < 5 -> veq 64 (part (low_pos x y) out) (g x y)).

(** {e_input, g_input}, extended with zeros to 1600 bits *)
Definition message (g e : vec) : vec := cat (cat (rep false) 288 e) 288 g.
(** sha3_comb, sha3/sha3_comb.v:18-90: 24/CC rounds.  The port i of rconst is extended with zeros. *)
Definition sha3_comb (CC : nat) (g_input e_input o : vec) : Prop :=
  exists rc round_in round_out : nat -> vec,
    veq 1600 (round_in 0) (message g_input e_input) /\ veq 1600 o (round_out (24 / CC - 1)) /\
    (forall q, 1 <= q -> q < 24 / CC -> veq 1600 (round_in q) (round_out (q - 1))) /\
    (forall q, q < 24 / CC -> rconst (if q =? 0 then cat (rep false) 1 (bit true) else cat (cat (rep false) 1 (bit true)) q (rep false)) (rc q)) /\
    (forall q, q < 24 / CC -> round (round_in q) (rc q) (round_out q)).

(** sha3_seq, sha3/sha3_seq.v:18-112: the registers init, rc_i and round_reg *)
Definition sha3_step (CC : nat) (_ : unit) (r : bool * vec * vec) (o : vec) (r' : bool * vec * vec) : Prop :=
  let '(init, rc_i, round_reg) := r in let '(init', rc_i', round_reg') := r' in
  exists rc_j rc round_in round_out : nat -> vec,
    init' = true /\ veq CC rc_i' (cat rc_i 1 (bit (negb init))) /\ veq 1600 round_reg' (round_out (24 / CC - 1)) /\
    veq 1600 (round_in 0) round_reg /\ veq 1600 o (round_out (24 / CC - 1)) /\
    (forall k, k < 24 / CC -> (forall t, t < CC -> rc_j k (24 / CC * t + k) = rc_i t) /\
      (forall j, j < 24 -> (forall t, t < CC -> j <> 24 / CC * t + k) -> rc_j k j = false)) /\
    (forall q, 1 <= q -> q < 24 / CC -> veq 1600 (round_in q) (round_out (q - 1))) /\
    (forall q, q < 24 / CC -> rconst (rc_j q) (rc q)) /\
    (forall q, q < 24 / CC -> round (round_in q) (rc q) (round_out q)).
Definition sha3_seq (CC : nat) (g_init e_init : vec) :=
  clocked (fun r => let '(init, rc_i, round_reg) := r in init = false /\ veq CC rc_i (rep false) /\ veq 1600 round_reg (message g_init e_init)) (sha3_step CC).

(** * Specification; the rest is Sha3Spec.v *)

(** The string of a state: lane (0, 0) is the highest 64 bits, each lane has its lowest bit first. *)
Definition state (v : vec) : list bool := string_of (fun x y z => v (64 * (24 - (5 * y + x)) + z)).
(** Rounds with any round constant *)
Definition iota_with (c : nat -> bool) (S : list bool) : list bool :=
  string_of (fun x y z => if Nat.eqb x 0 && Nat.eqb y 0 then xorb (bit_at S x y z) (c z) else bit_at S x y z).
Definition Rnd_with (c : nat -> bool) (S : list bool) : list bool := iota_with c (chi (pi (rho (theta S)))).
(** The rounds [from], ..., [from + n - 1] *)
Definition rounds (from n : nat) (S : list bool) : list bool := fold_left (fun S ir => Rnd ir S) (seq from n) S.
(** The 64-bit words of a vector, the highest first, each with its lowest bit first *)
Definition words_string (n : nat) (v : vec) : list bool :=
  flat_map (fun l => map (fun z => v (64 * (n - 1 - l) + z)) (seq 0 64)) (seq 0 n).

(** * Strings and states *)
Lemma nth_flat {A B} (f : A -> list B) k d da : (forall a, length (f a) = k) -> forall l i j, j < k -> i < length l ->
  nth (k * i + j) (flat_map f l) d = nth j (f (nth i l da)) d.
Proof.
  intros L. induction l as [|a l IH]; intros i j J I; [cbn in I; lia|]. cbn [flat_map]. destruct i as [|i].
  - rewrite app_nth1 by (rewrite L; lia). cbn [nth]. f_equal. lia.
  - rewrite app_nth2 by (rewrite L; nia). rewrite L. replace (k * Datatypes.S i + j - k) with (k * i + j) by nia. cbn [nth]. apply IH; [exact J|cbn [length] in I; lia].
Qed.
Lemma bit_string f x y z : x < 5 -> y < 5 -> z < 64 -> bit_at (string_of f) x y z = f x y z.
Proof.
  intros X Y Hz. unfold bit_at, string_of. rewrite (nth_flat _ w false 0); [|intros; rewrite map_length, seq_length; reflexivity|exact Hz|rewrite seq_length; lia].
  rewrite seq_nth by lia. rewrite (nth_indep _ false (f ((0 + (5 * y + x)) mod 5) ((0 + (5 * y + x)) / 5) 0)) by (rewrite map_length, seq_length; exact Hz).
  rewrite (map_nth (fun z => f _ _ z)). rewrite seq_nth by exact Hz.
  replace ((0 + (5 * y + x)) mod 5) with x by (apply (Nat.mod_unique _ _ y); lia). replace ((0 + (5 * y + x)) / 5) with y by (apply (Nat.div_unique _ _ _ x); lia). reflexivity.
Qed.
Lemma string_ext f g : (forall x y z, x < 5 -> y < 5 -> z < 64 -> f x y z = g x y z) -> string_of f = string_of g.
Proof.
  intros H. unfold string_of. rewrite !flat_map_concat_map. f_equal. apply map_ext_in. intros l I. apply in_seq in I. apply map_ext_in. intros z Z1. apply in_seq in Z1. change w with 64 in Z1.
  apply H; [apply Nat.mod_upper_bound; lia|apply Nat.div_lt_upper_bound; lia|lia].
Qed.
Lemma string_inj f g : string_of f = string_of g -> forall x y z, x < 5 -> y < 5 -> z < 64 -> f x y z = g x y z.
Proof. intros H x y z X Y Hz. rewrite <- (bit_string f), <- (bit_string g), H by assumption. reflexivity. Qed.
Lemma low_pos_eq x y : x < 5 -> y < 5 -> low_pos x y = 64 * (24 - (5 * y + x)).
Proof. intros X Y. unfold low_pos, high_pos. change 1599 with (64 * 24 + 63). lia. Qed.
Lemma state_bit v x y z : x < 5 -> y < 5 -> z < 64 -> bit_at (state v) x y z = v (64 * (24 - (5 * y + x)) + z).
Proof. intros. unfold state. rewrite bit_string by assumption. reflexivity. Qed.
Lemma state_ext v v' : veq 1600 v v' -> state v = state v'.
Proof. intros H. apply string_ext. intros x y z X Y Hz. apply H. change 1600 with (64 * 25). lia. Qed.
Lemma state_inj v v' : state v = state v' -> veq 1600 v v'.
Proof.
  intros H i Hi. set (l := 24 - i / 64). assert (D := Nat.div_mod i 64 ltac:(lia)). assert (M := Nat.mod_upper_bound i 64 ltac:(lia)).
  assert (I25 : i / 64 < 25) by (apply Nat.div_lt_upper_bound; [lia|change (64 * 25) with 1600; lia]).
  assert (D5 := Nat.div_mod l 5 ltac:(lia)). assert (M5 := Nat.mod_upper_bound l 5 ltac:(lia)).
  assert (Y : l / 5 < 5) by (apply Nat.div_lt_upper_bound; unfold l; lia).
  pose proof (string_inj _ _ H (l mod 5) (l / 5) (i mod 64) M5 Y M) as E. cbv beta in E. rewrite <- D5 in E.
  replace (64 * (24 - l) + i mod 64) with i in E by (unfold l; lia). exact E.
Qed.

(** * One round *)
Ltac by_lane x y tac := do 5 (destruct x as [|x]; [do 5 (destruct y as [|y]; [tac|]); lia|]); lia.
Lemma rot_bit v n z : 0 < n -> n < 64 -> z < 64 -> rot_up v n z = v ((z + (64 - n)) mod 64).
Proof.
  intros N0 N1 Hz. unfold rot_up, cat, part. destruct (Nat.ltb_spec z n).
  - rewrite Nat.mod_small by lia. f_equal. lia.
  - f_equal. apply (Nat.mod_unique _ _ 1); lia.
Qed.
Lemma rot_1 v : rot_up_1 v = rot_up v 1.
Proof. reflexivity. Qed.
Lemma add_1_mod x : x < 5 -> add_1 x = (x + 1) mod 5.
Proof. intros H. do 5 (destruct x as [|x]; [reflexivity|]). lia. Qed.
Lemma add_2_mod x : x < 5 -> add_2 x = (x + 2) mod 5.
Proof. intros H. do 5 (destruct x as [|x]; [reflexivity|]). lia. Qed.
Lemma sub_1_mod x : x < 5 -> sub_1 x = (x + 4) mod 5.
Proof. intros H. do 5 (destruct x as [|x]; [reflexivity|]). lia. Qed.
Definition all_rho : list (nat * nat * nat) := (1, 0, 1) :: rho_list.
Lemma rho_in x y : x < 5 -> y < 5 -> x = 0 /\ y = 0 \/ In (x, y, nth (5 * y + x) A23Sha3.offsets 0) all_rho.
Proof. intros X Y. by_lane x y ltac:(first [left; split; reflexivity|right; vm_compute; tauto]). Qed.
Lemma offset_range x y : x < 5 -> y < 5 -> x = 0 /\ y = 0 \/ 0 < nth (5 * y + x) A23Sha3.offsets 0 < 64.
Proof. intros X Y. by_lane x y ltac:(first [left; split; reflexivity|right; cbn; lia]). Qed.
Lemma pi_in x y : x < 5 -> y < 5 -> In (x, y, ((x + 3 * y) mod 5, x)) pi_list.
Proof. intros X Y. by_lane x y ltac:(vm_compute; tauto). Qed.
Definition special (z : nat) : bool := existsb (Nat.eqb z) [0; 1; 3; 7; 15; 31; 63].

Theorem round_ok i rc c o : round i rc o -> (forall z, z < 64 -> (if special z then rc z else false) = c z) -> state o = Rnd_with c (state i).
Proof.
  intros (a & b & c0 & d & e & f & g & A & B & C & D0 & D1 & D & E & F & G0 & G & OUT) RC0.
  assert (AB : forall x y z, x < 5 -> y < 5 -> z < 64 -> bit_at (state i) x y z = a x y z).
  { intros x y z X Y Hz. rewrite state_bit by assumption. rewrite (A x y X Y z Hz). unfold part. rewrite low_pos_eq by assumption. reflexivity. }
  assert (T : forall x y z, x < 5 -> y < 5 -> z < 64 -> bit_at (theta (state i)) x y z = c0 x y z).
  { intros x y z X Y Hz. unfold theta. rewrite bit_string by assumption. rewrite (C x y X Y z Hz). unfold vxor at 1 2. rewrite rot_1, rot_bit by lia.
    assert (M : (z + (64 - 1)) mod 64 < 64) by (apply Nat.mod_upper_bound; lia). rewrite add_1_mod, sub_1_mod by exact X.
    assert (X1 : (x + 1) mod 5 < 5) by (apply Nat.mod_upper_bound; lia). assert (X4 : (x + 4) mod 5 < 5) by (apply Nat.mod_upper_bound; lia).
    rewrite (B _ X1 _ M), (B _ X4 _ Hz). change w with 64. rewrite !AB by (assumption || lia). unfold vxor. symmetry. apply xorb_assoc. }
  assert (R : forall x y z, x < 5 -> y < 5 -> z < 64 -> bit_at (rho (theta (state i))) x y z = d x y z).
  { intros x y z X Y Hz. unfold rho. rewrite bit_string by assumption. rewrite A23Sha3.offset_table by assumption. change w with 64.
    rewrite T by (try assumption; apply Nat.mod_upper_bound; lia). destruct (rho_in x y X Y) as [[-> ->]|I].
    - rewrite (D0 z Hz). f_equal. cbn [nth Nat.mul Nat.add A23Sha3.offsets]. symmetry. apply (Nat.mod_unique _ _ 1); lia.
    - destruct (offset_range x y X Y) as [[-> ->]|OR]. { rewrite (D0 z Hz). f_equal. cbn [nth Nat.mul Nat.add A23Sha3.offsets]. symmetry. apply (Nat.mod_unique _ _ 1); lia. }
      destruct I as [I|I].
      + pose proof (f_equal (fun p => fst (fst p)) I) as X1. pose proof (f_equal (fun p => snd (fst p)) I) as Y1. cbn [fst snd] in X1, Y1. subst x y. change (nth (5 * 0 + 1) A23Sha3.offsets 0) with 1. rewrite (D1 z Hz), rot_1, rot_bit by lia. reflexivity.
      + rewrite Forall_forall in D. specialize (D _ I). cbv beta iota in D. rewrite (D z Hz), rot_bit by lia. reflexivity. }
  assert (P : forall x y z, x < 5 -> y < 5 -> z < 64 -> bit_at (pi (rho (theta (state i)))) x y z = e x y z).
  { intros x y z X Y Hz. unfold pi. rewrite bit_string by assumption. rewrite R by (try assumption; apply Nat.mod_upper_bound; lia).
    rewrite Forall_forall in E. specialize (E _ (pi_in x y X Y)). cbv beta iota in E. symmetry. exact (E z Hz). }
  assert (CH : forall x y z, x < 5 -> y < 5 -> z < 64 -> bit_at (chi (pi (rho (theta (state i))))) x y z = f x y z).
  { intros x y z X Y Hz. unfold chi. rewrite bit_string by assumption. rewrite !P by (try assumption; apply Nat.mod_upper_bound; lia).
    rewrite (F x y X Y z Hz). unfold vxor, vnot. rewrite add_1_mod, add_2_mod by exact X. reflexivity. }
  unfold Rnd_with, iota_with. apply string_ext. intros x y z X Y Hz. rewrite CH by assumption.
  pose proof (OUT x y X Y z Hz) as O1. unfold part in O1. rewrite low_pos_eq in O1 by assumption. rewrite O1.
  destruct (Nat.eqb_spec x 0) as [->|NX].
  - destruct (Nat.eqb_spec y 0) as [->|NY]; cbn [andb].
    + rewrite (G0 z Hz), <- (RC0 z Hz). unfold special. destruct (existsb _ _); [reflexivity|]. rewrite xorb_false_r. reflexivity.
    + apply (G 0 y X Y (or_intror NY) z Hz).
  - apply (G x y X Y (or_introl NX) z Hz).
Qed.

(** The constants *)
Lemma constants_table : forallb (fun ir => forallb (fun z => Bool.eqb (match find (fun p => fst p =? z) rconst_list with Some (_, l) => existsb (Nat.eqb ir) l | None => false end) (RC ir z)) (seq 0 64)) (seq 0 24) = true.
Proof. vm_compute. reflexivity. Qed.
Lemma special_ok z : z < 64 -> special z = false -> find (fun p => fst p =? z) rconst_list = None.
Proof.
  intros Hz. assert (H : forallb (fun z => special z || match find (fun p => fst p =? z) rconst_list with None => true | _ => false end) (seq 0 64) = true) by (vm_compute; reflexivity).
  rewrite forallb_forall in H. specialize (H z ltac:(apply in_seq; lia)). intros S0. rewrite S0 in H. destruct (find _ _); [discriminate|reflexivity].
Qed.
Lemma in_24 : forallb (fun p => forallb (fun j => j <? 24) (snd p)) rconst_list = true.
Proof. vm_compute. reflexivity. Qed.
Lemma existsb_ext_in {A} (f g : A -> bool) l : (forall x, In x l -> f x = g x) -> existsb f l = existsb g l.
Proof. induction l as [|a l IH]; intros H; [reflexivity|]. cbn [existsb]. rewrite (H a) by (left; reflexivity). rewrite IH by (intros x I; apply H; right; exact I). reflexivity. Qed.
Lemma rconst_one i rc ir : rconst i rc -> ir < 24 -> (forall j, j < 24 -> i j = (ir =? j)) -> forall z, z < 64 -> (if special z then rc z else false) = RC ir z.
Proof.
  intros H I Hi z Hz. pose proof constants_table as T. rewrite forallb_forall in T. specialize (T ir ltac:(apply in_seq; lia)). rewrite forallb_forall in T. specialize (T z ltac:(apply in_seq; lia)).
  apply eqb_prop in T. rewrite <- T. specialize (H z Hz). destruct (special z) eqn:SP; [|rewrite (special_ok z Hz SP); reflexivity]. rewrite H.
  destruct (find _ rconst_list) as [[p l]|] eqn:F; [|reflexivity]. apply find_some in F. destruct F as [F _]. pose proof in_24 as Q. rewrite forallb_forall in Q. specialize (Q _ F). cbn [snd] in Q. rewrite forallb_forall in Q.
  apply existsb_ext_in. intros j J. apply Hi. apply Nat.ltb_lt, Q, J.
Qed.
Lemma rconst_none i rc : rconst i rc -> (forall j, j < 24 -> i j = false) -> forall z, z < 64 -> (if special z then rc z else false) = false.
Proof.
  intros H Hi z Hz. specialize (H z Hz). destruct (special z) eqn:SP; [|reflexivity]. rewrite H.
  destruct (find _ rconst_list) as [[p l]|] eqn:F; [|reflexivity]. apply find_some in F. destruct F as [F _]. pose proof in_24 as Q. rewrite forallb_forall in Q. specialize (Q _ F). cbn [snd] in Q. rewrite forallb_forall in Q.
  rewrite (existsb_ext_in i (fun _ => false)); [clear; induction l; [reflexivity|exact IHl]|]. intros j J. apply Hi, Nat.ltb_lt, Q, J.
Qed.
Lemma Rnd_eq ir S : Rnd ir S = Rnd_with (RC ir) S.
Proof. unfold Rnd, Rnd_with, iota, iota_with. reflexivity. Qed.
Theorem round_constant i rc ir inp out : rconst i rc -> ir < 24 -> (forall j, j < 24 -> i j = (ir =? j)) -> round inp rc out -> state out = Rnd ir (state inp).
Proof. intros H I Hi R. rewrite Rnd_eq. apply (round_ok _ _ _ _ R). intros z Hz. apply (rconst_one i rc ir H I Hi z Hz). Qed.
Theorem round_plain i rc inp out : rconst i rc -> (forall j, j < 24 -> i j = false) -> round inp rc out -> state out = Rnd_with (fun _ => false) (state inp).
Proof. intros H Hi R. apply (round_ok _ _ _ _ R). intros z Hz. apply (rconst_none i rc H Hi z Hz). Qed.

(** * The circuit of one cycle *)
Lemma rounds_S from n S : rounds from (Datatypes.S n) S = Rnd (from + n) (rounds from n S).
Proof. unfold rounds. rewrite seq_S, fold_left_app. reflexivity. Qed.
Lemma rounds_app from n m S : rounds from (n + m) S = rounds (from + n) m (rounds from n S).
Proof. unfold rounds. rewrite seq_app, fold_left_app. reflexivity. Qed.
Lemma message_words g e : state (message g e) = repeat false (16 * 64) ++ words_string 9 (cat e 288 g).
Proof.
  unfold state, string_of. change (seq 0 25) with (seq 0 16 ++ seq 16 9). rewrite flat_map_app. apply (f_equal2 (@app bool)).
  - assert (H : forall n, n <= 16 -> flat_map (fun l => map (fun z => message g e (64 * (24 - (5 * (l / 5) + l mod 5)) + z)) (seq 0 w)) (seq 0 n) = repeat false (n * 64)).
    { induction n as [|n IH]; intros Hn; [reflexivity|]. rewrite seq_S, flat_map_app, IH by lia. replace (Datatypes.S n * 64) with (n * 64 + 64) by lia. rewrite repeat_app. f_equal.
      cbn [flat_map]. rewrite app_nil_r. rewrite <- (Nat.div_mod (0 + n) 5) by lia.
      assert (Q : forall z, message g e (64 * (24 - (0 + n)) + z) = false). { intros z. unfold message, cat, rep. destruct (Nat.ltb_spec (64 * (24 - (0 + n)) + z) 288); [lia|]. destruct (Nat.ltb_spec (64 * (24 - (0 + n)) + z - 288) 288); [lia|reflexivity]. }
      rewrite (map_ext _ (fun _ => false)) by exact Q. reflexivity. }
    apply H. lia.
  - reflexivity.
Qed.
Theorem sha3_comb_rounds CC g e o : sha3_comb CC g e o -> 0 < CC <= 24 -> state o = rounds 0 (24 / CC) (state (message g e)).
Proof.
  intros (rc & ri & ro & R0 & OE & RI & RCN & RO) HC.
  assert (Q : 0 < 24 / CC <= 24). { split; [apply Nat.div_str_pos; lia|]. apply Nat.div_le_upper_bound; nia. }
  assert (I : forall q, q < 24 / CC -> state (ro q) = rounds 0 (Datatypes.S q) (state (message g e))).
  { induction q as [|q IH]; intros Hq.
    - rewrite <- (state_ext _ _ R0). apply (round_constant _ _ 0 _ _ (RCN 0 Hq) ltac:(lia)); [|apply RO, Hq]. intros j Hj. cbn [Nat.eqb]. destruct j; reflexivity.
    - rewrite rounds_S, <- IH by lia. cbn [Nat.add].
      pose proof (RI (Datatypes.S q) ltac:(lia) Hq) as E. replace (Datatypes.S q - 1) with q in E by lia. rewrite <- (state_ext _ _ E).
      apply (round_constant _ _ (Datatypes.S q) _ _ (RCN (Datatypes.S q) Hq) ltac:(lia)); [|apply RO, Hq]. intros j Hj. replace (Datatypes.S q =? 0) with false by reflexivity. unfold cat, rep, bit.
      destruct (Nat.ltb_spec j (Datatypes.S q)); [symmetry; apply Nat.eqb_neq; lia|]. destruct (Nat.ltb_spec (j - Datatypes.S q) 1); [symmetry; apply Nat.eqb_eq; lia|symmetry; apply Nat.eqb_neq; lia]. }
  rewrite (state_ext _ _ OE), I by lia. f_equal. lia.
Qed.
(** Keccak-f of the two inputs, put at the end of the state *)
Theorem sha3_comb_ok g e o : sha3_comb 1 g e o -> state o = keccak_f (repeat false (16 * 64) ++ words_string 9 (cat e 288 g)).
Proof. intros H. rewrite (sha3_comb_rounds _ _ _ _ H), message_words by lia. reflexivity. Qed.

(** * The circuit of several cycles *)
(** [m] rounds without constant *)
Definition plain (m : nat) (S : list bool) : list bool := Nat.iter m (Rnd_with (fun _ => false)) S.
Theorem sha3_seq_rounds CC m g e n i o : sha3_seq CC g e n i o -> CC * m = 24 -> 2 <= CC ->
  forall t, t < n -> t <= CC -> state (o t) = rounds 0 (m * t) (plain m (state (message g e))).
Proof.
  intros (s & S0 & ST) HC C2. assert (HQ : 24 / CC = m) by (symmetry; apply (Nat.div_unique _ _ _ 0); lia). assert (M0 : 0 < m) by (destruct m; lia).
  assert (I : forall t, t <= n -> t <= Datatypes.S CC -> let '(init, rc_i, reg) := s t in init = negb (t =? 0) /\ (forall j, j < CC -> rc_i j = (t =? j + 1)) /\
    state reg = match t with O => state (message g e) | Datatypes.S k => rounds 0 (m * k) (plain m (state (message g e))) end).
  2: { intros t Ht Hc. specialize (I (Datatypes.S t) ltac:(lia) ltac:(lia)). specialize (ST t Ht). destruct (s t) as [[ini rci] reg]. destruct (s (Datatypes.S t)) as [[ini' rci'] reg']. destruct ST as (rcj & rc & ri & ro & _ & _ & E & _ & E' & _).
       destruct I as (_ & _ & I). rewrite <- I. rewrite (state_ext _ _ E), (state_ext _ _ E'). reflexivity. }
  induction t as [|t IH]; intros Ht Hc.
  - destruct (s 0) as [[ini rci] reg]. destruct S0 as (A & B & C). split; [rewrite A; reflexivity|]. split; [|apply state_ext, C]. intros j Hj. rewrite (B j Hj). destruct j; reflexivity.
  - specialize (IH ltac:(lia) ltac:(lia)). specialize (ST t ltac:(lia)). destruct (s t) as [[ini rci] reg]. destruct (s (Datatypes.S t)) as [[ini' rci'] reg'].
    destruct IH as (I1 & I2 & I3). destruct ST as (rcj & rc & ri & ro & J1 & J2 & J3 & J4 & _ & J5 & J6 & J7 & J8). split; [rewrite J1; reflexivity|]. split.
    + intros j Hj. rewrite (J2 j Hj). unfold cat, bit. destruct (Nat.ltb_spec j 1).
      * rewrite I1. replace j with 0 by lia. destruct t as [|t]; reflexivity.
      * rewrite I2 by lia. replace (j - 1 + 1) with j by lia. replace (Datatypes.S t =? j + 1) with (t =? j); [reflexivity|]. destruct (Nat.eqb_spec t j); symmetry; [apply Nat.eqb_eq|apply Nat.eqb_neq]; lia.
    + rewrite (state_ext _ _ J3), HQ. rewrite HQ in *.
      assert (OH : forall k j, k < m -> j < 24 -> rcj k j = match t with O => false | Datatypes.S u => m * u + k =? j end).
      { intros k j Hk Hj. destruct (J5 k Hk) as (P1 & P2). assert (DJ := Nat.div_mod j m ltac:(lia)). assert (MJ := Nat.mod_upper_bound j m ltac:(lia)). assert (QJ : j / m < CC) by (apply Nat.div_lt_upper_bound; lia).
        destruct (Nat.eq_dec (j mod m) k) as [E|E].
        - rewrite DJ at 1. rewrite E, P1, I2 by exact QJ. destruct t as [|u]; [symmetry; destruct (j / m); reflexivity|].
          destruct (Nat.eqb_spec (Datatypes.S u) (j / m + 1)) as [U|U]; symmetry; [apply Nat.eqb_eq; replace u with (j / m) by lia; lia|]. apply Nat.eqb_neq. intros X. apply U. assert (u = j / m) by (apply (Nat.div_unique j m u k); lia). lia.
        - rewrite P2; [|exact Hj|]. 2: { intros t0 _ X. apply E. symmetry. apply (Nat.mod_unique j m t0 k); lia. }
          destruct t as [|u]; [reflexivity|]. symmetry. apply Nat.eqb_neq. intros X. apply E. symmetry. apply (Nat.mod_unique j m u k); lia. }
      assert (G : forall q, q < m -> state (ro q) = match t with O => plain (Datatypes.S q) (state reg) | Datatypes.S u => rounds (m * u) (Datatypes.S q) (state reg) end).
      { induction q as [|q IQ]; intros Hq.
        - rewrite <- (state_ext _ _ J4). destruct t as [|u].
          + apply (round_plain _ _ _ _ (J7 0 Hq)); [intros j Hj; apply (OH 0 j Hq Hj)|apply J8, Hq].
          + change (rounds (m * u) 1) with (Rnd (m * u)). apply (round_constant _ _ _ _ _ (J7 0 Hq)); [nia|intros j Hj; rewrite (OH 0 j Hq Hj); f_equal; lia|apply J8, Hq].
        - pose proof (J6 (Datatypes.S q) ltac:(lia) Hq) as E. replace (Datatypes.S q - 1) with q in E by lia. specialize (IQ ltac:(lia)). rewrite <- (state_ext _ _ E) in IQ. destruct t as [|u].
          + change (plain (Datatypes.S (Datatypes.S q)) (state reg)) with (Rnd_with (fun _ => false) (plain (Datatypes.S q) (state reg))). rewrite <- IQ.
            apply (round_plain _ _ _ _ (J7 _ Hq)); [intros j Hj; apply (OH _ j Hq Hj)|apply J8, Hq].
          + rewrite rounds_S, <- IQ. apply (round_constant _ _ _ _ _ (J7 _ Hq)); [nia|intros j Hj; apply (OH _ j Hq Hj)|apply J8, Hq]. }
      rewrite G by lia. replace (Datatypes.S (m - 1)) with m by lia. destruct t as [|u]; [rewrite I3, Nat.mul_0_r; reflexivity|].
      rewrite I3. replace (m * Datatypes.S u) with (m * u + m) by lia. rewrite rounds_app. reflexivity.
Qed.
