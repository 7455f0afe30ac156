(** The circuits for modular multiplication and exponentiation, written in Verilog
    (circuit_synthesis/rsa). *)
From Coq Require Import ZArith List Bool Lia.
From Verif Require Import RtlBase RtlLib RtlArith RtlSeq.
Import ListNotations.
Open Scope Z_scope.

(** * Model

    The files use the multiplexer as if S = 1 chose its input A, see the comments in
    rsa/modmult.v:66-67 and 164-166; the one in syn_lib chooses B.  [swap] = false is the
    circuit as it is; with [swap] = true the two data inputs of every multiplexer are
    exchanged. *)
Definition mux (swap : bool) (N : nat) (A B : vec) (S : bool) (O : vec) : Prop := if swap then MUX N B A S O else MUX N A B S O.

(** modmult_step, rsa/modmult.v:128-298 *)
Definition modmult_step (swap : bool) (N : nat) (xregN_1 : bool) (y n zin zout : vec) : Prop :=
  exists (y_ext n_ext z1 z2 z3 w1 w2 w3 : vec) (c1 c2 c2p co1 co2 co3 : bool),
    veq (N + 2) y_ext (cat (rep false) N y) /\ veq (N + 2) n_ext (cat (rep false) N n) /\
    veq (N + 2) z1 (cat zin 1 (bit false)) /\
    mux swap (N + 2) y_ext (rep false) xregN_1 w1 /\ mux swap (N + 2) n_ext (rep false) c1 w2 /\ mux swap (N + 2) n_ext (rep false) c2p w3 /\
    ADD (N + 2) (N + 2) z1 w1 false co1 z2 /\ COMP (N + 2) (N + 2) z2 n_ext c1 /\ SUB (N + 2) (N + 2) z2 w2 co2 z3 /\
    COMP (N + 2) (N + 2) n_ext z3 c2 /\ c2p = negb c2 /\ SUB (N + 2) (N + 2) z3 w3 co3 zout.
(** The chain of [k] steps, rsa/modmult.v:70-99, from zin[0] to zout[k - 1] *)
Definition modmult_chain (swap : bool) (N k : nat) (xin y n z res : vec) : Prop :=
  exists zin zout : nat -> vec,
    veq (N + 2) (zin 0%nat) z /\ veq (N + 2) res (zout (k - 1)%nat) /\
    (forall g, (1 <= g)%nat -> (g < k)%nat -> veq (N + 2) (zin g) (zout (g - 1)%nat)) /\
    (forall g, (g < k)%nat -> modmult_step swap N (xin (N - 1 - g)%nat) y n (zin g) (zout g)).
(** modmult, rsa/modmult.v:1-125, for CC = 1 *)
Definition modmult_comb (swap : bool) (N : nat) (x y n o : vec) : Prop :=
  exists z, modmult_chain swap N (N / 1) x y n (rep false) z /\ veq N o z.
(** modmult for CC > 1: the registers xreg and zreg *)
Definition modmult_clock (swap : bool) (N CC : nat) (i : bool * vec * vec * vec) (r : vec * vec) (o : vec) (r' : vec * vec) : Prop :=
  let '(start, x, y, n) := i in let '(xreg, zreg) := r in let '(xreg', zreg') := r' in
  exists z, modmult_chain swap N (N / CC) xreg y n zreg z /\ veq N o z /\
    (if start then veq (N + 2) zreg' (rep false) /\ veq N xreg' x
     else veq (N + 2) zreg' z /\ veq N xreg' (cat xreg (N / CC) (rep false))).
Definition modmult (swap : bool) (N CC : nat) :=
  clocked (fun r => let '(xreg, zreg) := r in veq N xreg (rep false) /\ veq (N + 2) zreg (rep false)) (modmult_clock swap N CC).

(** modexp_2N_NN, rsa/modexp_2N_NN.v:1-153, [K] being CC/(2*N); the last two registers are
    those of modmult *)
Record regs2 := Regs2 { first_one : bool; mul_pow : bool; start_reg : vec; ereg : vec; creg : vec; mreg : vec; nreg : vec; mult_regs : vec * vec }.
Definition modexp_2N_step (swap : bool) (N K : nat) (_ : unit) (r : regs2) (o : vec) (r' : regs2) : Prop :=
  exists y mod_mult_o creg_next ereg_next : vec,
    mux swap N mod_mult_o (creg r) (first_one r && ereg r (N - 1)%nat && mul_pow r || first_one r && negb (mul_pow r)) creg_next /\
    mux swap N (cat (ereg r) 1 (bit false)) (ereg r) (mul_pow r) ereg_next /\
    mux swap N (mreg r) (creg r) (mul_pow r) y /\
    (if (1 <? K)%nat then modmult_clock swap N K (start_reg r 0%nat, creg r, y, nreg r) (mult_regs r) mod_mult_o (mult_regs r')
     else modmult_comb swap N (creg r) y (nreg r) mod_mult_o) /\
    veq N o creg_next /\
    veq N (mreg r') (mreg r) /\ veq N (nreg r') (nreg r) /\
    veq K (start_reg r') (if (1 <? K)%nat then cat (start_reg r) 1 (bit (start_reg r (K - 1)%nat)) else bit (start_reg r (K - 1)%nat)) /\
    mul_pow r' = (if start_reg r (K - 1)%nat then negb (mul_pow r) else mul_pow r) /\
    veq N (ereg r') ereg_next /\ veq N (creg r') creg_next /\
    first_one r' = (if start_reg r (K - 1)%nat && (ereg r (N - 1)%nat && mul_pow r) then true else first_one r).
Definition modexp_2N_init (N K : nat) (g_init e_init : vec) (r : regs2) : Prop :=
  veq N (mreg r) g_init /\ veq N (creg r) g_init /\ veq N (nreg r) e_init /\ veq N (ereg r) (part N e_init) /\
  first_one r = false /\ mul_pow r = false /\ veq K (start_reg r) (cat (rep false) 1 (bit true)) /\
  veq N (fst (mult_regs r)) (rep false) /\ veq (N + 2) (snd (mult_regs r)) (rep false).
Definition modexp_2N (swap : bool) (N K : nat) (g_init e_init : vec) := clocked (modexp_2N_init N K g_init e_init) (modexp_2N_step swap N K).

(** modexp_1_N, rsa/modexp_1_N.v:1-168, for CC > 1: the registers init, first_one, ereg and
    creg.  The output o is assigned nowhere; the wire c, of one bit, is not used. *)
Record regs1 := Regs1 { init1 : bool; first_one1 : bool; ereg1 : vec; creg1 : vec }.
Definition modexp_1_step (swap : bool) (N CC : nat) (i : vec * vec) (r : regs1) (o : vec) (r' : regs1) : Prop :=
  let '(g_input, e_input) := i in let k := (N / CC)%nat in
  exists (e n ein : vec) (cin cout1 cout2 : nat -> vec) (keep_1 keep_2 : nat -> bool),
    veq N e e_input /\ veq N n (part N e_input) /\
    veq N (cin 0%nat) (creg1 r) /\ veq N ein (if init1 r then ereg1 r else e) /\
    (forall j, (j < k)%nat -> keep_1 j = first_one1 r || existsb (fun b => ein (N - 1 - b)%nat) (seq 0 j)) /\
    (forall j, (j < k)%nat -> keep_2 j = (first_one1 r || existsb (fun b => ein (N - 1 - b)%nat) (seq 0 j)) && ein (N - 1 - j)%nat) /\
    init1 r' = true /\
    first_one1 r' = (if existsb (fun b => ein (N - 1 - b)%nat) (seq 0 k) then true else first_one1 r) /\
    veq N (creg1 r') (if keep_2 (k - 1)%nat then cout2 (k - 1)%nat else if keep_1 (k - 1)%nat then cout1 (k - 1)%nat else g_input) /\
    veq N (ereg1 r') (cat ein k (rep false)) /\
    (forall j, (1 <= j)%nat -> (j < k)%nat -> veq N (cin j) (if keep_2 (j - 1)%nat then cout2 (j - 1)%nat else if keep_1 (j - 1)%nat then cout1 (j - 1)%nat else g_input)) /\
    (forall j, (j < k)%nat -> modmult_comb swap N (cin j) (cin j) n (cout1 j)) /\
    (forall j, (j < k)%nat -> modmult_comb swap N (cout1 j) g_input n (cout2 j)).
Definition modexp_1_init (N : nat) (r : regs1) : Prop :=
  init1 r = false /\ veq N (creg1 r) (rep false) /\ veq N (ereg1 r) (rep false) /\ first_one1 r = false.
Definition modexp_1 (swap : bool) (N CC : nat) := clocked (modexp_1_init N) (modexp_1_step swap N CC).

(** * The step on numbers *)
Definition stepZ (swap : bool) (N : nat) (xb : bool) (y n z : Z) : Z :=
  let M := 2 ^ Z.of_nat (N + 2) in
  let z2 := (2 * z + (if Bool.eqb xb swap then y else 0)) mod M in
  let z3 := (z2 - (if Bool.eqb (n <=? z2) swap then n else 0)) mod M in
  (z3 - (if Bool.eqb (negb (z3 <=? n)) swap then n else 0)) mod M.
Lemma mux_val swap N A B S O : mux swap N A B S O -> val N O = if Bool.eqb S swap then val N A else val N B.
Proof. unfold mux. destruct swap; intros H; rewrite (MUX_val _ _ _ _ _ H); destruct S; reflexivity. Qed.
Lemma val_ext0 N k v : val (N + k) (cat (rep false) N v) = val N v.
Proof. rewrite val_cat, val_rep_false. lia. Qed.
Lemma val_double N v : val N (cat v 1 (bit false)) = (2 * val N v) mod 2 ^ Z.of_nat N.
Proof.
  rewrite (val_mod N (1 + N)) by lia. rewrite val_cat, val_bit. change (2 ^ Z.of_nat 1) with 2. reflexivity.
Qed.
Lemma step_val swap N xb y n zin zout : modmult_step swap N xb y n zin zout ->
  val (N + 2) zout = stepZ swap N xb (val N y) (val N n) (val (N + 2) zin).
Proof.
  intros (ye & ne & z1 & z2 & z3 & w1 & w2 & w3 & c1 & c2 & c2p & co1 & co2 & co3 & Y & NE & Z1 & W1 & W2 & W3 & A & C1 & S1 & C2 & P & S2).
  apply val_ext in Y, NE, Z1. rewrite val_ext0 in Y, NE. rewrite val_double in Z1.
  apply mux_val in W1, W2, W3. rewrite val_rep_false in W1, W2, W3. rewrite Y in W1. rewrite NE in W2, W3.
  apply ADD_sum in A; [|lia]. destruct A as [A _]. apply COMP_ok in C1; [|lia]. apply SUB_ok in S1; [|lia]. destruct S1 as [S1 _]. apply COMP_ok in C2; [|lia]. apply SUB_ok in S2; [|lia]. destruct S2 as [S2 _].
  cbn [Z.b2z] in A. rewrite Z.add_0_r, Z1, W1, Zplus_mod_idemp_l in A. rewrite NE in C1, C2. subst c2p c1 c2. unfold stepZ. cbv zeta.
  rewrite S2, W3, S1, W2, A. reflexivity.
Qed.
Definition chainZ (swap : bool) (N k : nat) (x y n z : Z) : Z :=
  fold_left (fun z g => stepZ swap N (Z.testbit x (Z.of_nat (N - 1 - g))) y n z) (seq 0 k) z.
Lemma chain_val swap N k xin y n z res : (0 < k <= N)%nat -> modmult_chain swap N k xin y n z res ->
  val (N + 2) res = chainZ swap N k (val N xin) (val N y) (val N n) (val (N + 2) z).
Proof.
  intros K (zin & zout & Z0 & R & L & ST).
  assert (I : forall g, (g < k)%nat -> val (N + 2) (zout g) = chainZ swap N (S g) (val N xin) (val N y) (val N n) (val (N + 2) z)).
  { induction g as [|g IH]; intros Hg.
    - rewrite (step_val _ _ _ _ _ _ _ (ST 0%nat Hg)), (val_ext _ _ _ Z0). unfold chainZ. cbn [seq fold_left]. rewrite val_testbit by lia. reflexivity.
    - rewrite (step_val _ _ _ _ _ _ _ (ST (S g) Hg)), (val_ext _ _ _ (L (S g) ltac:(lia) Hg)). replace (S g - 1)%nat with g by lia. rewrite IH by lia.
      unfold chainZ. rewrite (seq_S (S g)), fold_left_app. cbn [fold_left Nat.add]. rewrite val_testbit by lia. reflexivity. }
  rewrite (val_ext _ _ _ R), I by lia. f_equal. lia.
Qed.
Lemma val_low N k o z : veq N o z -> val N o = val (N + k) z mod 2 ^ Z.of_nat N.
Proof. intros H. rewrite (val_ext _ _ _ H). apply val_mod. lia. Qed.
Definition multZ (swap : bool) (N : nat) (x y n : Z) : Z := chainZ swap N N x y n 0 mod 2 ^ Z.of_nat N.
Lemma comb_val swap N x y n o : (0 < N)%nat -> modmult_comb swap N x y n o -> val N o = multZ swap N (val N x) (val N y) (val N n).
Proof.
  intros HN (z & C & E). rewrite Nat.div_1_r in C. apply chain_val in C; [|lia]. rewrite (val_low N 2 _ _ E), C, val_rep_false. reflexivity.
Qed.

(** * With exchanged inputs: the product modulo n, or n instead of 0 *)
Lemma stepZ_ok N xb y n z : 0 < n < 2 ^ Z.of_nat N -> 0 <= y <= n -> 0 <= z <= n ->
  0 <= stepZ true N xb y n z <= n /\ stepZ true N xb y n z mod n = (2 * z + Z.b2z xb * y) mod n.
Proof.
  intros Hn Hy Hz. unfold stepZ. cbv zeta. pose proof (pow2_add N 2) as P. change (2 ^ Z.of_nat 2) with 4 in P. rewrite P. set (M := 2 ^ Z.of_nat N) in *.
  replace (if Bool.eqb xb true then y else 0) with (Z.b2z xb * y) by (destruct xb; cbn [Bool.eqb Z.b2z]; lia). set (b := Z.b2z xb). assert (0 <= b <= 1) by apply b2z_bound. set (s := 2 * z + b * y). assert (0 <= s <= 3 * n) by (unfold s; nia).
  rewrite (Z.mod_small s) by lia.
  destruct (Z.leb_spec n s); cbn [Bool.eqb].
  - rewrite (Z.mod_small (s - n)) by lia. destruct (Z.leb_spec (s - n) n); cbn [negb Bool.eqb]; rewrite Z.mod_small by lia; (split; [lia|]).
    + replace (s - n - 0) with (s + (-1) * n) by lia. apply Z.mod_add. lia.
    + replace (s - n - n) with (s + (-2) * n) by lia. apply Z.mod_add. lia.
  - rewrite (Z.mod_small (s - 0)) by lia. destruct (Z.leb_spec (s - 0) n); cbn [negb Bool.eqb]; [|lia]. rewrite Z.mod_small by lia. split; [lia|]. f_equal. lia.
Qed.
(** The upper [k] of the [N] bits of a number *)
Definition top (N k : nat) (x : Z) : Z := x / 2 ^ Z.of_nat (N - k).
Lemma top_S N k x : (k < N)%nat -> 0 <= x -> top N (S k) x = 2 * top N k x + Z.b2z (Z.testbit x (Z.of_nat (N - 1 - k))).
Proof.
  intros H X. unfold top. replace (N - k)%nat with (S (N - S k)) by lia. replace (N - 1 - k)%nat with (N - S k)%nat by lia. rewrite pow2_S. pose proof (pow2_pos (N - S k)). replace (2 * 2 ^ Z.of_nat (N - S k)) with (2 ^ Z.of_nat (N - S k) * 2) by ring. rewrite <- Z.div_div by lia.
  set (q := x / 2 ^ Z.of_nat (N - S k)). pose proof (Z.div_mod q 2 ltac:(lia)) as D. rewrite Z.testbit_spec' by lia. fold q. lia.
Qed.
Lemma top_all N x : top N N x = x.
Proof. unfold top. rewrite Nat.sub_diag. apply Z.div_1_r. Qed.
Lemma top_0 N x : 0 <= x < 2 ^ Z.of_nat N -> top N 0 x = 0.
Proof. intros H. unfold top. rewrite Nat.sub_0_r. apply Z.div_small, H. Qed.
Lemma chainZ_S swap N k x y n z : chainZ swap N (S k) x y n z = stepZ swap N (Z.testbit x (Z.of_nat (N - 1 - k))) y n (chainZ swap N k x y n z).
Proof. unfold chainZ. rewrite seq_S, fold_left_app. reflexivity. Qed.
Lemma chainZ_ok N x y n z : 0 <= x < 2 ^ Z.of_nat N -> 0 < n < 2 ^ Z.of_nat N -> 0 <= y <= n -> 0 <= z <= n -> forall k, (k <= N)%nat ->
  0 <= chainZ true N k x y n z <= n /\ chainZ true N k x y n z mod n = (z * 2 ^ Z.of_nat k + top N k x * y) mod n.
Proof.
  intros X Hn Y Hz. induction k as [|k IH]; intros K.
  - rewrite top_0 by exact X. cbn [chainZ seq fold_left]. split; [exact Hz|]. f_equal. cbn [Z.of_nat]. rewrite Z.pow_0_r. lia.
  - destruct (IH ltac:(lia)) as [B E]. rewrite chainZ_S. destruct (stepZ_ok N (Z.testbit x (Z.of_nat (N - 1 - k))) y n _ Hn Y B) as [B' E']. split; [exact B'|].
    rewrite E', top_S, pow2_S by lia. set (b := Z.b2z _). rewrite <- Z.add_mod_idemp_l, <- Z.mul_mod_idemp_r, E, Z.mul_mod_idemp_r, Z.add_mod_idemp_l by lia. f_equal. ring.
Qed.
Theorem multZ_ok N x y n : 0 <= x < 2 ^ Z.of_nat N -> 0 < n < 2 ^ Z.of_nat N -> 0 <= y <= n -> 0 <= multZ true N x y n <= n /\ multZ true N x y n mod n = (x * y) mod n.
Proof.
  intros X Hn Y. destruct (chainZ_ok N x y n 0 X Hn Y ltac:(lia) N (le_n N)) as [B E]. unfold multZ. rewrite Z.mod_small by lia. split; [exact B|]. rewrite E, top_all. f_equal.
Qed.
Theorem modmult_comb_ok N x y n o : (0 < N)%nat -> modmult_comb true N x y n o -> 0 < val N n -> val N y <= val N n ->
  val N o <= val N n /\ val N o mod val N n = (val N x * val N y) mod val N n.
Proof.
  intros HN H H0 HY. rewrite (comb_val _ _ _ _ _ _ HN H). pose proof (val_bound N x). pose proof (val_bound N y). pose proof (val_bound N n). destruct (multZ_ok N (val N x) (val N y) (val N n)) as [B E]; lia || (split; [lia|exact E]).
Qed.
