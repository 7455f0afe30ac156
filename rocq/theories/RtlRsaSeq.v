(** The circuits for RSA in Verilog, in several cycles. *)
From Coq Require Import ZArith List Bool Lia.
From Verif Require Import RtlBase RtlLib RtlArith RtlSeq RtlRsa.
Import ListNotations.
Open Scope Z_scope.

(** * Modular multiplication *)
Lemma top_add N q k x : (q + k <= N)%nat -> 0 <= x -> top N (q + k) x = top N q x * 2 ^ Z.of_nat k + top N k ((x * 2 ^ Z.of_nat q) mod 2 ^ Z.of_nat N).
Proof.
  intros H X. unfold top. set (a := (N - (q + k))%nat). replace (N - q)%nat with (a + k)%nat by lia. replace (N - k)%nat with (a + q)%nat by lia. replace N with (a + k + q)%nat at 1 by (unfold a; lia).
  pose proof (pow2_pos a). pose proof (pow2_pos k). pose proof (pow2_pos q). rewrite (pow2_add (a + k) q), (pow2_add a k), (pow2_add a q). set (A := 2 ^ Z.of_nat a) in *. set (B := 2 ^ Z.of_nat k) in *. set (C := 2 ^ Z.of_nat q) in *.
  rewrite Z.mul_mod_distr_r by nia. rewrite Z.div_mul_cancel_r by lia. set (u := x / (A * B)). assert (D : x = A * B * u + x mod (A * B)) by (apply Z.div_mod; nia). set (r := x mod (A * B)) in *. clearbody u r. subst x.
  replace (A * B * u + r) with (r + (u * B) * A) by ring. rewrite Z.div_add by lia. lia.
Qed.
Lemma val_shift N k v : val N (cat v k (rep false)) = (val N v * 2 ^ Z.of_nat k) mod 2 ^ Z.of_nat N.
Proof. rewrite (val_mod N (k + N)) by lia. rewrite val_cat, val_rep_false. f_equal. ring. Qed.
Lemma shift_shift N a b x : ((x * 2 ^ Z.of_nat a) mod 2 ^ Z.of_nat N * 2 ^ Z.of_nat b) mod 2 ^ Z.of_nat N = (x * 2 ^ Z.of_nat (a + b)) mod 2 ^ Z.of_nat N.
Proof. pose proof (pow2_pos N). rewrite Z.mul_mod_idemp_l by lia. rewrite pow2_add. f_equal. ring. Qed.
(** The product of an [x] taken over in cycle [t] is there in cycle [t + CC]. *)
Theorem modmult_ok N CC k c i o t x x0 y0 y n : modmult true N CC c i o -> (CC * k = N)%nat -> (0 < N)%nat -> (t + CC < c)%nat ->
  i t = (true, x, x0, y0) -> (forall j, (1 <= j <= CC)%nat -> exists s xj, i (t + j)%nat = (s, xj, y, n) /\ (s = true -> j = CC)) ->
  0 < val N n -> val N y <= val N n ->
  val N (o (t + CC)%nat) <= val N n /\ val N (o (t + CC)%nat) mod val N n = (val N x * val N y) mod val N n.
Proof.
  intros (s & _ & ST) HC HN HT I0 I1 N0 YN. assert (KP : (0 < k)%nat) by nia. assert (CP : (0 < CC)%nat) by nia. assert (KE : (N / CC)%nat = k) by (symmetry; apply (Nat.div_unique _ _ _ 0); lia).
  pose proof (val_bound N x) as BX. pose proof (val_bound N y) as BY. pose proof (val_bound N n) as BN.
  assert (I : forall j, (j < CC)%nat -> let '(xr, zr) := s (t + S j)%nat in val N xr = (val N x * 2 ^ Z.of_nat (k * j)) mod 2 ^ Z.of_nat N /\
    0 <= val (N + 2) zr <= val N n /\ val (N + 2) zr mod val N n = (top N (k * j) (val N x) * val N y) mod val N n).
  { induction j as [|j IH]; intros Hj.
    - specialize (ST t ltac:(lia)). rewrite I0 in ST. replace (t + 1)%nat with (S t) by lia. unfold modmult_clock in ST. destruct (s t) as [xr0 zr0]. destruct (s (S t)) as [xr zr]. destruct ST as (z & _ & _ & Z0 & X0).
      rewrite (val_ext _ _ _ Z0), val_rep_false, (val_ext _ _ _ X0), Nat.mul_0_r, top_0 by exact BX. cbn [Z.of_nat]. rewrite Z.pow_0_r, Z.mul_1_r, Z.mod_small by exact BX. split; [reflexivity|]. split; [lia|]. reflexivity.
    - specialize (IH ltac:(lia)). specialize (ST (t + S j)%nat ltac:(lia)). replace (t + S (S j))%nat with (S (t + S j)) by lia. destruct (I1 (S j) ltac:(lia)) as (sj & xj & E & F). rewrite E in ST. unfold modmult_clock in ST.
      destruct (s (t + S j)%nat) as [xr zr]. destruct (s (S (t + S j))) as [xr' zr']. destruct IH as (IX & IZ & IM). destruct ST as (z & C & _ & U). destruct sj; [specialize (F eq_refl); lia|]. destruct U as [Z0 X0].
      rewrite KE in *. apply chain_val in C; [|nia]. rewrite (val_ext _ _ _ Z0), C, (val_ext _ _ _ X0), val_shift, IX, shift_shift. replace (k * j + k)%nat with (k * S j)%nat by lia. split; [reflexivity|].
      destruct (chainZ_ok N ((val N x * 2 ^ Z.of_nat (k * j)) mod 2 ^ Z.of_nat N) (val N y) (val N n) (val (N + 2) zr) ltac:(apply Z.mod_pos_bound, pow2_pos) ltac:(lia) ltac:(lia) IZ k ltac:(nia)) as [B M]. split; [exact B|]. rewrite M.
      rewrite <- Z.add_mod_idemp_l, <- Z.mul_mod_idemp_l, IM, Z.mul_mod_idemp_l, Z.add_mod_idemp_l by lia. replace (k * S j)%nat with (k * j + k)%nat by lia. rewrite top_add by nia. f_equal. ring. }
  specialize (I (CC - 1)%nat ltac:(lia)). replace (t + S (CC - 1))%nat with (t + CC)%nat in I by lia. specialize (ST (t + CC)%nat HT). destruct (I1 CC ltac:(lia)) as (sj & xj & E & _). rewrite E in ST. unfold modmult_clock in ST.
  destruct (s (t + CC)%nat) as [xr zr]. destruct (s (S (t + CC))) as [xr' zr']. destruct I as (IX & IZ & IM). destruct ST as (z & C & OE & _). rewrite KE in C. apply chain_val in C; [|nia].
  rewrite (val_low N 2 _ _ OE), C, IX. 
  destruct (chainZ_ok N ((val N x * 2 ^ Z.of_nat (k * (CC - 1))) mod 2 ^ Z.of_nat N) (val N y) (val N n) (val (N + 2) zr) ltac:(apply Z.mod_pos_bound, pow2_pos) ltac:(lia) ltac:(lia) IZ k ltac:(nia)) as [B M].
  rewrite (Z.mod_small _ (2 ^ Z.of_nat N)) by lia. split; [lia|]. rewrite M, <- Z.add_mod_idemp_l, <- Z.mul_mod_idemp_l, IM, Z.mul_mod_idemp_l, Z.add_mod_idemp_l by lia. f_equal.
  pose proof (top_add N (k * (CC - 1)) k (val N x) ltac:(nia) ltac:(lia)) as T. replace (k * (CC - 1) + k)%nat with N in T by nia. rewrite top_all in T. rewrite T at 3. ring.
Qed.

(** As it is, the circuit is wrong for every width: 0 * 0 modulo 3 gives a power of two. *)
Lemma chainZ_zero N : (2 <= N)%nat -> forall k, (k < N)%nat -> chainZ false N (S k) 0 0 3 0 = 2 ^ Z.of_nat (N + 2) - 3 * 2 ^ Z.of_nat k.
Proof.
  intros HN. assert (P4 : 4 <= 2 ^ Z.of_nat N) by (change 4 with (2 ^ 2); apply Z.pow_le_mono_r; lia). pose proof (pow2_add N 2) as PN. change (2 ^ Z.of_nat 2) with 4 in PN.
  induction k as [|k IH]; intros K.
  - rewrite chainZ_S. cbn [chainZ seq fold_left]. rewrite Z.bits_0. unfold stepZ. cbv zeta. set (M := 2 ^ Z.of_nat (N + 2)) in *. cbn [Bool.eqb]. rewrite (Z.mod_small (2 * 0 + 0)) by lia. cbn [Z.mul Z.add Z.leb Z.compare Bool.eqb].
    replace ((0 - 3) mod M) with (M - 3) by (apply (Z.mod_unique_pos _ _ (-1)); lia). destruct (Z.leb_spec (M - 3) 3); [lia|]. cbn [negb Bool.eqb]. rewrite Z.mod_small by lia. cbn [Z.of_nat]. rewrite Z.pow_0_r. lia.
  - rewrite chainZ_S, IH by lia. rewrite Z.bits_0. unfold stepZ. cbv zeta. cbn [Bool.eqb]. pose proof (pow2_pos k). assert (KN : 2 ^ Z.of_nat (S k) <= 2 ^ Z.of_nat N) by (apply Z.pow_le_mono_r; lia). rewrite pow2_S in KN |- *. set (M := 2 ^ Z.of_nat (N + 2)) in *. set (p := 2 ^ Z.of_nat k) in *.
    replace ((2 * (M - 3 * p) + 0) mod M) with (M - 3 * (2 * p)) by (apply (Z.mod_unique_pos _ _ 1); lia). destruct (Z.leb_spec 3 (M - 3 * (2 * p))); [|lia]. cbn [Bool.eqb]. rewrite (Z.mod_small (M - 3 * (2 * p) - 0)) by lia.
    destruct (Z.leb_spec (M - 3 * (2 * p) - 0) 3); [lia|]. cbn [negb Bool.eqb]. rewrite Z.mod_small by lia. lia.
Qed.
Theorem modmult_refuted N o : (2 <= N)%nat -> modmult_comb false N (rep false) (rep false) (of_val 3) o -> val N o = 2 ^ Z.of_nat (N - 1).
Proof.
  intros HN H. apply comb_val in H; [|lia]. rewrite H, val_rep_false, val_of_val. pose proof (pow2_pos (N - 1)). assert (P4 : 4 <= 2 ^ Z.of_nat N) by (change 4 with (2 ^ 2); apply Z.pow_le_mono_r; lia). rewrite (Z.mod_small 3) by lia. unfold multZ.
  replace N with (S (N - 1)) at 2 by lia. rewrite chainZ_zero by lia. rewrite pow2_add. change (2 ^ Z.of_nat 2) with 4. assert (E : 2 ^ Z.of_nat N = 2 * 2 ^ Z.of_nat (N - 1)) by (rewrite <- pow2_S; do 2 f_equal; lia). rewrite E.
  symmetry. apply (Z.mod_unique_pos _ _ 2); lia.
Qed.

(** * modexp_2N_NN on numbers *)
Record st := St { sf : bool; sp : bool; ss : Z; se : Z; sc : Z; sm : Z; sn : Z; sx : Z; sz : Z }.
Definition simZ (swap : bool) (N K : nat) (r : st) : st :=
  let last := Z.testbit (ss r) (Z.of_nat (K - 1)) in
  let top := Z.testbit (se r) (Z.of_nat (N - 1)) in
  let y := if Bool.eqb (sp r) swap then sm r else sc r in
  let z := chainZ swap N (N / K) (sx r) y (sn r) (sz r) in
  let mo := if (1 <? K)%nat then z mod 2 ^ Z.of_nat N else multZ swap N (sc r) y (sn r) in
  St (if last && (top && sp r) then true else sf r) (if last then negb (sp r) else sp r)
     (if (1 <? K)%nat then (2 * ss r + Z.b2z last) mod 2 ^ Z.of_nat K else Z.b2z last)
     (if Bool.eqb (sp r) swap then (2 * se r) mod 2 ^ Z.of_nat N else se r)
     (if Bool.eqb (sf r && top && sp r || sf r && negb (sp r)) swap then mo else sc r)
     (sm r) (sn r)
     (if (1 <? K)%nat then if Z.testbit (ss r) 0 then sc r else (sx r * 2 ^ Z.of_nat (N / K)) mod 2 ^ Z.of_nat N else 0)
     (if (1 <? K)%nat then if Z.testbit (ss r) 0 then 0 else z else 0).
Definition abs (N K : nat) (r : regs2) : st :=
  St (first_one r) (mul_pow r) (val K (start_reg r)) (val N (ereg r)) (val N (creg r)) (val N (mreg r)) (val N (nreg r))
     (if (1 <? K)%nat then val N (fst (mult_regs r)) else 0) (if (1 <? K)%nat then val (N + 2) (snd (mult_regs r)) else 0).
Lemma sim_step swap N K u r o r' : (0 < K <= N)%nat -> modexp_2N_step swap N K u r o r' -> abs N K r' = simZ swap N K (abs N K r) /\ val N o = sc (abs N K r').
Proof.
  intros HK (y & mo & cn & en & W1 & W2 & W3 & MM & OE & ME & NE & SE & MP & EE & CE & FO). assert (HN : (0 < N)%nat) by lia.
  assert (ND : (0 < N / K <= N)%nat). { split; [apply Nat.div_str_pos; lia|]. apply Nat.div_le_upper_bound; nia. }
  apply mux_val in W1, W2, W3. rewrite val_double in W2.
  split; [|rewrite (val_ext _ _ _ OE); cbn [abs sc]; rewrite (val_ext _ _ _ CE); reflexivity].
  unfold abs at 1, simZ. cbn [abs sf sp ss se sc sm sn sx sz].
  assert (SV : val K (start_reg r') = if (1 <? K)%nat then (2 * val K (start_reg r) + Z.b2z (start_reg r (K - 1)%nat)) mod 2 ^ Z.of_nat K else Z.b2z (start_reg r (K - 1)%nat)).
  { rewrite (val_ext _ _ _ SE). destruct (Nat.ltb_spec 1 K).
    - rewrite (val_mod K (1 + K)) by lia. rewrite val_cat, val_bit. change (2 ^ Z.of_nat 1) with 2. f_equal. lia.
    - replace K with 1%nat by lia. apply val_bit. }
  rewrite !val_testbit by lia. replace (Z.testbit (val K (start_reg r)) 0) with (start_reg r 0%nat) by (symmetry; apply (val_testbit K _ 0); lia).
  assert (MV : val N mo = (if (1 <? K)%nat then chainZ swap N (N / K) (val N (fst (mult_regs r))) (val N y) (val N (nreg r)) (val (N + 2) (snd (mult_regs r))) mod 2 ^ Z.of_nat N else multZ swap N (val N (creg r)) (val N y) (val N (nreg r))) /\
    ((1 <? K)%nat = true -> val N (fst (mult_regs r')) = (if start_reg r 0%nat then val N (creg r) else (val N (fst (mult_regs r)) * 2 ^ Z.of_nat (N / K)) mod 2 ^ Z.of_nat N) /\
       val (N + 2) (snd (mult_regs r')) = if start_reg r 0%nat then 0 else chainZ swap N (N / K) (val N (fst (mult_regs r))) (val N y) (val N (nreg r)) (val (N + 2) (snd (mult_regs r))))).
  { destruct (1 <? K)%nat.
    - unfold modmult_clock in MM. destruct (mult_regs r) as [xr zr]. destruct (mult_regs r') as [xr' zr']. cbn [fst snd]. destruct MM as (z & C & ZO & U). apply chain_val in C; [|exact ND]. split; [rewrite (val_low N 2 _ _ ZO), C; reflexivity|].
      intros _. destruct (start_reg r 0%nat); destruct U as [U1 U2]; rewrite (val_ext _ _ _ U1), (val_ext _ _ _ U2); [rewrite val_rep_false; split; reflexivity|]. rewrite val_shift, C. split; reflexivity.
    - split; [apply comb_val; [exact HN|exact MM]|discriminate]. }
  destruct MV as [MV1 MV2]. rewrite MP, FO, SV, (val_ext _ _ _ EE), (val_ext _ _ _ CE), (val_ext _ _ _ ME), (val_ext _ _ _ NE), W1, W2, MV1, W3.
  destruct (1 <? K)%nat; [|reflexivity]. destruct (MV2 eq_refl) as [-> ->]. rewrite W3. reflexivity.
Qed.
Definition startZ (K : nat) (m e n : Z) : st := St false false (1 mod 2 ^ Z.of_nat K) e m m n 0 0.
Theorem modexp_sim swap N K g e c i o : (0 < K <= N)%nat -> modexp_2N swap N K g e c i o -> forall t, (t < c)%nat ->
  val N (o t) = sc (Nat.iter (S t) (simZ swap N K) (startZ K (val N g) (val N (part N e)) (val N e))).
Proof.
  intros HK (s & I0 & ST) t Ht.
  assert (A : forall t, (t <= c)%nat -> abs N K (s t) = Nat.iter t (simZ swap N K) (startZ K (val N g) (val N (part N e)) (val N e))).
  { induction t0 as [|u IH]; intros Hu.
    - destruct I0 as (H1 & H2 & H3 & H4 & H5 & H6 & H7 & H8 & H9). unfold abs, startZ. cbn [Nat.iter nat_rect]. rewrite H5, H6, (val_ext _ _ _ H1), (val_ext _ _ _ H2), (val_ext _ _ _ H3), (val_ext _ _ _ H4), (val_ext _ _ _ H7), (val_ext _ _ _ H8), (val_ext _ _ _ H9), !val_rep_false.
      f_equal; try (destruct (1 <? K)%nat; reflexivity). rewrite (val_mod K (1 + K)) by lia. rewrite val_cat, val_bit, val_rep_false. f_equal.
    - match goal with |- _ = Nat.iter (S u) ?f ?x => change (Nat.iter (S u) f x) with (f (Nat.iter u f x)) end. rewrite <- (IH ltac:(lia)). apply (sim_step _ _ _ _ _ _ _ HK (ST u ltac:(lia))). }
  destruct (sim_step _ _ _ _ _ _ _ HK (ST t Ht)) as [_ ->]. rewrite A by lia. reflexivity.
Qed.

(** With exchanged inputs and CC = 2*N, the power modulo n, or n instead of 0 *)
Lemma pow_even m p : 0 <= p -> m ^ (2 * p) = m ^ p * m ^ p.
Proof. intros H. replace (2 * p) with (p + p) by lia. apply Z.pow_add_r; lia. Qed.
Lemma mod_pos_iff a : 0 <= a -> (0 <? a) = negb (a =? 0).
Proof. intros H. destruct (Z.eqb_spec a 0), (Z.ltb_spec 0 a); cbn; lia || reflexivity. Qed.
Section Power.
Variables (N : nat) (m e n : Z).
Hypotheses (HN : (0 < N)%nat) (Hm : 0 <= m <= n) (Hn : 0 < n < 2 ^ Z.of_nat N) (He : 0 <= e < 2 ^ Z.of_nat N).
(** [c] after the bits of the exponent whose number is [p] *)
Definition power (p c : Z) : Prop := if p =? 0 then c = m else 0 <= c <= n /\ c mod n = m ^ p mod n.
Definition bit_at_step (j : nat) : bool := Z.testbit e (Z.of_nat (N - 1 - j)).
Lemma top_nonneg j : 0 <= top N j e.
Proof. apply Z.div_pos; [lia|apply pow2_pos]. Qed.
Lemma shifted_bit j : (j < N)%nat -> Z.testbit ((e * 2 ^ Z.of_nat j) mod 2 ^ Z.of_nat N) (Z.of_nat (N - 1)) = bit_at_step j.
Proof.
  intros H. rewrite Z.mod_pow2_bits_low by lia. rewrite Z.mul_pow2_bits by lia. unfold bit_at_step. f_equal. lia.
Qed.
Lemma square_ok c p : 0 < p -> power p c -> power (2 * p) (multZ true N c c n).
Proof.
  unfold power. intros P. destruct (Z.eqb_spec p 0); [lia|]. destruct (Z.eqb_spec (2 * p) 0); [lia|]. intros [B E].
  destruct (multZ_ok N c c n ltac:(lia) Hn ltac:(lia)) as [B' E']. split; [exact B'|]. rewrite E', pow_even by lia. rewrite Z.mul_mod, E, <- Z.mul_mod by lia. reflexivity.
Qed.
Lemma times_ok c p : 0 < p -> power p c -> power (p + 1) (multZ true N c m n).
Proof.
  unfold power. intros P. destruct (Z.eqb_spec p 0); [lia|]. destruct (Z.eqb_spec (p + 1) 0); [lia|]. intros [B E].
  destruct (multZ_ok N c m n ltac:(lia) Hn ltac:(lia)) as [B' E']. split; [exact B'|]. rewrite E', Z.pow_add_r, Z.pow_1_r by lia. rewrite Z.mul_mod, E, <- Z.mul_mod by lia. reflexivity.
Qed.
Lemma power_one : power 1 m.
Proof. unfold power. cbn [Z.eqb]. split; [exact Hm|]. rewrite Z.pow_1_r. reflexivity. Qed.
Lemma sim_power j : (j <= N)%nat -> exists c, Nat.iter (2 * j) (simZ true N 1) (startZ 1 m e n) =
    St (0 <? top N j e) false 1 ((e * 2 ^ Z.of_nat j) mod 2 ^ Z.of_nat N) c m n 0 0 /\ power (top N j e) c.
Proof.
  induction j as [|j IH]; intros Hj.
  - exists m. rewrite top_0 by exact He. cbn [Nat.mul Nat.iter nat_rect]. unfold startZ. cbn [Z.of_nat Z.ltb Z.compare]. rewrite Z.pow_0_r, Z.mul_1_r, (Z.mod_small e) by exact He. split; [reflexivity|]. reflexivity.
  - destruct (IH ltac:(lia)) as (c & E & P). pose proof (top_nonneg j) as T0. replace (2 * S j)%nat with (S (S (2 * j))) by lia.
    match goal with |- context [Nat.iter (S (S ?k)) ?f ?x] => change (Nat.iter (S (S k)) f x) with (f (f (Nat.iter k f x))) end. rewrite E.
    set (c1 := if 0 <? top N j e then multZ true N c c n else c).
    assert (S1 : simZ true N 1 (St (0 <? top N j e) false 1 ((e * 2 ^ Z.of_nat j) mod 2 ^ Z.of_nat N) c m n 0 0) = St (0 <? top N j e) true 1 ((e * 2 ^ Z.of_nat j) mod 2 ^ Z.of_nat N) c1 m n 0 0).
    { unfold simZ. cbn [sf sp ss se sc sm sn sx sz]. change (1 <? 1)%nat with false. change (Z.testbit 1 (Z.of_nat (1 - 1))) with true. cbn [andb negb Bool.eqb Z.b2z]. rewrite !andb_false_r, andb_true_r. cbn [orb]. f_equal.
      unfold c1. destruct (0 <? top N j e); reflexivity. }
    rewrite S1. set (b := bit_at_step j). set (c2 := if (0 <? top N j e) && b then multZ true N c1 m n else c1).
    assert (S2 : simZ true N 1 (St (0 <? top N j e) true 1 ((e * 2 ^ Z.of_nat j) mod 2 ^ Z.of_nat N) c1 m n 0 0) = St (if b then true else 0 <? top N j e) false 1 ((e * 2 ^ Z.of_nat (S j)) mod 2 ^ Z.of_nat N) c2 m n 0 0).
    { unfold simZ. cbn [sf sp ss se sc sm sn sx sz]. change (1 <? 1)%nat with false. change (Z.testbit 1 (Z.of_nat (1 - 1))) with true. rewrite shifted_bit by lia. fold b. cbn [andb negb Bool.eqb Z.b2z]. rewrite andb_false_r, !andb_true_r, orb_false_r. f_equal.
      - rewrite Z.mul_mod_idemp_r by (pose proof (pow2_pos N); lia). rewrite pow2_S. f_equal. ring.
      - unfold c2. destruct (0 <? top N j e), b; reflexivity. }
    rewrite S2. exists c2. assert (TS : top N (S j) e = 2 * top N j e + Z.b2z b) by (apply top_S; lia). rewrite TS. unfold c2, c1. destruct (Z.ltb_spec 0 (top N j e)) as [TP|TP].
    + pose proof (square_ok _ _ TP P) as Q. destruct b; cbn [andb Z.b2z].
      * split; [f_equal; symmetry; apply Z.ltb_lt; lia|]. apply times_ok; [lia|exact Q].
      * rewrite Z.add_0_r. split; [f_equal; symmetry; apply Z.ltb_lt; lia|exact Q].
    + replace (top N j e) with 0 in * by lia. cbn in P. subst c. cbn [andb]. destruct b; cbn [Z.b2z Z.mul Z.add]; (split; [reflexivity|]); [exact power_one|reflexivity].
Qed.
End Power.
Theorem modexp_2N_ok N g e c i o : modexp_2N true N 1 g e c i o -> (0 < N)%nat -> (2 * N <= c)%nat -> 0 < val N e -> val N g <= val N e ->
  if val N (part N e) =? 0 then val N (o (2 * N - 1)%nat) = val N g
  else val N (o (2 * N - 1)%nat) <= val N e /\ val N (o (2 * N - 1)%nat) mod val N e = val N g ^ val N (part N e) mod val N e.
Proof.
  intros H HN Hc H0 HG. rewrite (modexp_sim true N 1 g e c i o ltac:(lia) H) by lia. replace (S (2 * N - 1)) with (2 * N)%nat by lia. pose proof (val_bound N g). pose proof (val_bound N e). pose proof (val_bound N (part N e)).
  assert (SP : exists c, Nat.iter (2 * N) (simZ true N 1) (startZ 1 (val N g) (val N (part N e)) (val N e)) = St (0 <? top N N (val N (part N e))) false 1 ((val N (part N e) * 2 ^ Z.of_nat N) mod 2 ^ Z.of_nat N) c (val N g) (val N e) 0 0 /\ power (val N g) (val N e) (top N N (val N (part N e))) c) by (apply sim_power; lia).
  destruct SP as (c1 & -> & P). cbn [sc]. rewrite top_all in P. unfold power in P. destruct (_ =? 0); [exact P|]. split; [lia|apply P].
Qed.

(** Cases *)
Definition key (N : nat) (e n : Z) : vec := of_val (n + 2 ^ Z.of_nat N * e).
Lemma key_val N e n : 0 <= n < 2 ^ Z.of_nat N -> 0 <= e < 2 ^ Z.of_nat N -> val N (key N e n) = n /\ val N (part N (key N e n)) = e.
Proof.
  intros H1 H2. unfold key. pose proof (pow2_pos N). split.
  - rewrite val_of_val, Z.mul_comm, Z.mod_add by lia. apply Z.mod_small, H1.
  - rewrite val_part, val_of_val, pow2_add. rewrite Z.mod_small by nia. rewrite Z.mul_comm, Z.div_add, Z.div_small by lia. lia.
Qed.
(** n instead of 0: 6^2 modulo 9 *)
Theorem modexp_2N_zero c i o : modexp_2N true 8 1 (of_val 6) (key 8 2 9) c i o -> (16 <= c)%nat -> val 8 (o 15%nat) = 9.
Proof.
  intros H Hc. rewrite (modexp_sim true 8 1 _ _ c i o ltac:(lia) H) by lia. destruct (key_val 8 2 9 ltac:(cbn; lia) ltac:(cbn; lia)) as [-> ->]. vm_compute. reflexivity.
Qed.
(** As it is, and, for more than 2*N cycles, with exchanged inputs too: 1^1 modulo 2 gives an even number. *)
Theorem modexp_2N_refuted swap K c i o : In (swap, K) [(false, 1%nat); (false, 2%nat); (false, 4%nat); (false, 8%nat); (true, 2%nat); (true, 4%nat); (true, 8%nat)] ->
  modexp_2N swap 8 K (of_val 1) (key 8 1 2) c i o -> (2 * 8 * K <= c)%nat -> val 8 (o (2 * 8 * K - 1)%nat) mod 2 = 0.
Proof.
  intros I H Hc. assert (HK : (0 < K <= 8)%nat) by (cbn [In] in I; repeat destruct I as [I|I]; try (injection I as <- <-; lia); contradiction).
  rewrite (modexp_sim swap 8 K _ _ c i o HK H) by lia. destruct (key_val 8 1 2 ltac:(cbn; lia) ltac:(cbn; lia)) as [-> ->]. clear H Hc HK.
  cbn [In] in I. repeat destruct I as [I|I]; try (injection I as <- <-; vm_compute; reflexivity); contradiction.
Qed.
