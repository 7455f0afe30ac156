(** The circuits for RSA in Verilog: modexp_1_N, and the runs of all of them. *)
From Coq Require Import ZArith List Bool Lia.
From Verif Require Import RtlBase RtlLib RtlArith RtlSeq RtlSelect RtlRsa RtlRsaSeq.
Import ListNotations.
Open Scope Z_scope.

(** * modexp_1_N: nothing is said about the output *)
Theorem modexp_1_undriven swap N CC c i o o' : modexp_1 swap N CC c i o -> modexp_1 swap N CC c i o'.
Proof.
  intros (s & I & ST). exists s. split; [exact I|]. intros t Ht. specialize (ST t Ht). unfold modexp_1_step in *. destruct (i t) as [g e]. exact ST.
Qed.
(** * The register creg holds the power, if the multiplexers' inputs are exchanged *)
Lemma any_top N ein j : (j <= N)%nat -> existsb (fun b => ein (N - 1 - b)%nat) (seq 0 j) = (0 <? top N j (val N ein)).
Proof.
  pose proof (val_bound N ein) as B. induction j as [|j IH]; intros H; [rewrite top_0 by exact B; reflexivity|]. rewrite seq_S, existsb_app, IH by lia. rewrite top_S by lia. rewrite val_testbit by lia. cbn [existsb Nat.add]. rewrite orb_false_r.
  assert (0 <= top N j (val N ein)) by (apply Z.div_pos; [lia|apply pow2_pos]). destruct (ein (N - 1 - j)%nat); cbn [Z.b2z].
  - rewrite orb_true_r. symmetry. apply Z.ltb_lt. lia.
  - rewrite orb_false_r. destruct (Z.ltb_spec 0 (top N j (val N ein))); symmetry; [apply Z.ltb_lt|apply Z.ltb_ge]; lia.
Qed.
Theorem modexp_1_register N CC k c s g ne : (CC * k = N)%nat -> (0 < N)%nat -> 0 < val N (part N ne) -> val N g <= val N (part N ne) ->
  modexp_1_init N (s 0%nat) -> (forall t, (t < c)%nat -> exists o, modexp_1_step true N CC (g, ne) (s t) o (s (S t))) -> (CC <= c)%nat ->
  if val N ne =? 0 then val N (creg1 (s CC)) = val N g
  else val N (creg1 (s CC)) <= val N (part N ne) /\ val N (creg1 (s CC)) mod val N (part N ne) = val N g ^ val N ne mod val N (part N ne).
Proof.
  intros HC HN H0 HG I0 ST Hc. set (m := val N g) in *. set (e := val N ne) in *. set (n := val N (part N ne)) in *.
  assert (KP : (0 < k)%nat) by nia. assert (CP : (0 < CC)%nat) by nia. assert (KE : (N / CC)%nat = k) by (symmetry; apply (Nat.div_unique _ _ _ 0); lia).
  pose proof (val_bound N g) as BM. pose proof (val_bound N ne) as BE. pose proof (val_bound N (part N ne)) as BN. fold m in BM. fold e in BE. fold n in BN.
  assert (TN : forall j, 0 <= top N j e) by (intros; apply Z.div_pos; [lia|apply pow2_pos]).
  assert (PW : forall p x, power m n p x -> 0 < p -> 0 <= x <= n). { unfold power. intros p x P Hp. destruct (Z.eqb_spec p 0); [lia|apply P]. }
  assert (I : forall t, (t <= CC)%nat -> first_one1 (s t) = (0 <? top N (k * t) e) /\ (forall ein, veq N ein (if init1 (s t) then ereg1 (s t) else ne) -> val N ein = (e * 2 ^ Z.of_nat (k * t)) mod 2 ^ Z.of_nat N) /\ ((0 < t)%nat -> power m n (top N (k * t) e) (val N (creg1 (s t))))).
  { induction t as [|t IH]; intros Ht.
    - destruct I0 as (A1 & A2 & A3 & A4). rewrite Nat.mul_0_r, top_0 by exact BE. split; [exact A4|]. split; [|lia]. intros ein E. rewrite A1 in E. rewrite (val_ext _ _ _ E). fold e. cbn [Z.of_nat]. rewrite Z.pow_0_r, Z.mul_1_r, Z.mod_small by exact BE. reflexivity.
    - destruct (IH ltac:(lia)) as (F & EIN & P). destruct (ST t ltac:(lia)) as (o & e0 & n0 & ein & cin & cout1 & cout2 & k1 & k2 & E0 & N0 & C0 & EI & K1 & K2 & IN & FO & CR & ER & CI & M1 & M2). rewrite KE in *.
      assert (EV : val N ein = (e * 2 ^ Z.of_nat (k * t)) mod 2 ^ Z.of_nat N). { apply EIN. intros b Hb. rewrite (EI b Hb). destruct (init1 (s t)); [reflexivity|apply E0, Hb]. }
      assert (NV : val N n0 = n) by (apply val_ext; exact N0).
      assert (TJ : forall j, (j <= k)%nat -> top N (k * t + j) e = top N (k * t) e * 2 ^ Z.of_nat j + top N j (val N ein)). { intros j Hj. rewrite EV. apply top_add; [nia|lia]. }
      assert (TE : forall j, 0 <= top N j (val N ein)) by (intros; apply Z.div_pos; [apply val_bound|apply pow2_pos]).
      assert (KV : forall j, (j <= k)%nat -> first_one1 (s t) || existsb (fun b => ein (N - 1 - b)%nat) (seq 0 j) = (0 <? top N (k * t + j) e)).
      { intros j Hj. rewrite F, any_top, TJ by nia. pose proof (pow2_pos j). specialize (TN (k * t)%nat). specialize (TE j). destruct (Z.ltb_spec 0 (top N (k * t) e)), (Z.ltb_spec 0 (top N j (val N ein))); cbn [orb]; symmetry; (apply Z.ltb_lt || apply Z.ltb_ge); nia. }
      set (r := fun j => if k2 j then cout2 j else if k1 j then cout1 j else g).
      assert (BITS : forall j, (j < k)%nat -> top N (k * t + S j) e = 2 * top N (k * t + j) e + Z.b2z (ein (N - 1 - j)%nat)).
      { intros j Hj. replace (k * t + S j)%nat with (S (k * t + j)) by lia. rewrite top_S by nia. f_equal. f_equal. rewrite <- (val_testbit N ein) by lia. rewrite EV, Z.mod_pow2_bits_low, Z.mul_pow2_bits by lia. f_equal. nia. }
      assert (R : forall j, (j < k)%nat -> power m n (top N (k * t + S j) e) (val N (r j))).
      { assert (STEP : forall j, (j < k)%nat -> (0 < top N (k * t + j) e -> power m n (top N (k * t + j) e) (val N (cin j))) -> power m n (top N (k * t + S j) e) (val N (r j))).
        { intros j Hj Q. unfold r. rewrite (K1 j Hj), (K2 j Hj), (KV j) by lia. rewrite BITS by exact Hj. specialize (TN (k * t + j)%nat). destruct (Z.ltb_spec 0 (top N (k * t + j) e)) as [T|T].
          - specialize (Q T). pose proof (comb_val _ _ _ _ _ _ HN (M1 j Hj)) as V1. pose proof (comb_val _ _ _ _ _ _ HN (M2 j Hj)) as V2. rewrite NV in V1, V2.
            assert (SQ : power m n (2 * top N (k * t + j) e) (val N (cout1 j))) by (rewrite V1; apply square_ok; (exact T || exact Q || lia)).
            destruct (ein (N - 1 - j)%nat); cbn [andb Z.b2z].
            + rewrite V2. fold m. apply times_ok; (exact SQ || lia).
            + rewrite Z.add_0_r. exact SQ.
          - replace (top N (k * t + j) e) with 0 by lia. cbn [andb]. destruct (ein (N - 1 - j)%nat); cbn [Z.b2z Z.mul Z.add]; [fold m; apply power_one; lia|reflexivity]. }
        induction j as [|j IHj]; intros Hj; apply STEP; try exact Hj; intros T.
        - rewrite Nat.add_0_r in *. rewrite (val_ext _ _ _ C0). destruct t as [|t]; [rewrite Nat.mul_0_r, top_0 in T by exact BE; lia|]. apply P. lia.
        - specialize (IHj ltac:(lia)). rewrite (val_ext _ _ _ (CI (S j) ltac:(lia) Hj)). replace (S j - 1)%nat with j by lia. exact IHj. }
      split; [|split].
      + rewrite FO. replace (k * S t)%nat with (k * t + k)%nat by lia. rewrite <- KV by lia. destruct (existsb _ _), (first_one1 (s t)); reflexivity.
      + intros ein' E'. rewrite IN in E'. rewrite (val_ext _ _ _ E'), (val_ext _ _ _ ER), val_shift, EV, shift_shift. do 3 f_equal. lia.
      + intros _. rewrite (val_ext _ _ _ CR). specialize (R (k - 1)%nat ltac:(lia)). replace (k * t + S (k - 1))%nat with (k * S t)%nat in R by lia. exact R. }
  destruct (I CC (le_n CC)) as (_ & _ & P). specialize (P CP). replace (k * CC)%nat with N in P by lia. rewrite top_all in P. unfold power in P. destruct (e =? 0); [exact P|]. split; [lia|apply P].
Qed.

(** * Runs *)
Lemma mux_total swap N A B S : exists O, mux swap N A B S O.
Proof. unfold mux. destruct swap; [exists (if S then A else B)|exists (if S then B else A)]; apply MUX_ok; intros b _; reflexivity. Qed.
Lemma step_total swap N xb y n zin : exists zout, modmult_step swap N xb y n zin zout.
Proof.
  set (ye := cat (rep false) N y). set (ne := cat (rep false) N n). set (z1 := cat zin 1 (bit false)).
  destruct (mux_total swap (N + 2) ye (rep false) xb) as (w1 & W1). destruct (ADD_total (N + 2) (N + 2) z1 w1 false) as (co1 & z2 & A). destruct (COMP_total (N + 2) (N + 2) z2 ne) as (c1 & C1).
  destruct (mux_total swap (N + 2) ne (rep false) c1) as (w2 & W2). destruct (SUB_total (N + 2) (N + 2) z2 w2) as (co2 & z3 & S1). destruct (COMP_total (N + 2) (N + 2) ne z3) as (c2 & C2).
  destruct (mux_total swap (N + 2) ne (rep false) (negb c2)) as (w3 & W3). destruct (SUB_total (N + 2) (N + 2) z3 w3) as (co3 & zo & S2).
  exists zo, ye, ne, z1, z2, z3, w1, w2, w3, c1, c2, (negb c2), co1, co2, co3. repeat (split; [first [assumption|reflexivity|intros b _; reflexivity]|]). exact S2.
Qed.
Lemma chain_total swap N k xin y n z : exists res, modmult_chain swap N k xin y n z res.
Proof.
  destruct (iterate z (fun g a b => modmult_step swap N (xin (N - 1 - g)%nat) y n a b)) with (n := k) as (w & W0 & W); [intros g a; apply step_total|].
  exists (w (S (k - 1))), w, (fun g => w (S g)). rewrite W0. split; [intros b _; reflexivity|]. split; [intros b _; reflexivity|]. split; [|exact W]. intros g G1 _. replace (S (g - 1)) with g by lia. intros b _. reflexivity.
Qed.
Lemma comb_total swap N x y n : exists o, modmult_comb swap N x y n o.
Proof. destruct (chain_total swap N (N / 1) x y n (rep false)) as (z & C). exists z, z. split; [exact C|]. intros b _. reflexivity. Qed.
Lemma clock_total swap N CC i r : exists o r', modmult_clock swap N CC i r o r'.
Proof.
  destruct i as [[[st x] y] n]. destruct r as [xr zr]. destruct (chain_total swap N (N / CC) xr y n zr) as (z & C). exists z, (if st then x else cat xr (N / CC) (rep false), if st then rep false else z), z. split; [exact C|]. split; [intros b _; reflexivity|]. destruct st; split; intros b _; reflexivity.
Qed.
Theorem modmult_total swap N CC c i : exists o, modmult swap N CC c i o.
Proof. apply clocked_total; [exists (rep false, rep false); split; intros b _; reflexivity|]. intros i0 r. apply clock_total. Qed.
Theorem modexp_2N_total swap N K g e c i : exists o, modexp_2N swap N K g e c i o.
Proof.
  apply clocked_total; [exists (Regs2 false false (cat (rep false) 1 (bit true)) (part N e) g g e (rep false, rep false)); repeat (split; [first [reflexivity|intros b _; reflexivity]|]); intros b _; reflexivity|].
  intros u r. destruct (mux_total swap N (mreg r) (creg r) (mul_pow r)) as (y & Y).
  assert (MM : exists mo mr, if (1 <? K)%nat then modmult_clock swap N K (start_reg r 0%nat, creg r, y, nreg r) (mult_regs r) mo mr else modmult_comb swap N (creg r) y (nreg r) mo).
  { destruct (1 <? K)%nat; [apply clock_total|]. destruct (comb_total swap N (creg r) y (nreg r)) as (mo & M). exists mo, (mult_regs r). exact M. }
  destruct MM as (mo & mr & MM). destruct (mux_total swap N mo (creg r) (first_one r && ereg r (N - 1)%nat && mul_pow r || first_one r && negb (mul_pow r))) as (cn & CN). destruct (mux_total swap N (cat (ereg r) 1 (bit false)) (ereg r) (mul_pow r)) as (en & EN).
  exists cn, (Regs2 (if start_reg r (K - 1)%nat && (ereg r (N - 1)%nat && mul_pow r) then true else first_one r) (if start_reg r (K - 1)%nat then negb (mul_pow r) else mul_pow r)
    (if (1 <? K)%nat then cat (start_reg r) 1 (bit (start_reg r (K - 1)%nat)) else bit (start_reg r (K - 1)%nat)) en cn (mreg r) (nreg r) mr), y, mo, cn, en.
  repeat (split; [first [assumption|reflexivity|intros b _; reflexivity]|]). reflexivity.
Qed.
Theorem modexp_1_total swap N CC c i : exists o, modexp_1 swap N CC c i o.
Proof.
  apply clocked_total; [exists (Regs1 false false (rep false) (rep false)); repeat (split; [first [reflexivity|intros b _; reflexivity]|]); reflexivity|].
  intros [g ne] r. set (k := (N / CC)%nat). set (ein := if init1 r then ereg1 r else ne).
  set (k1 := fun j => first_one1 r || existsb (fun b => ein (N - 1 - b)%nat) (seq 0 j)). set (k2 := fun j => (first_one1 r || existsb (fun b => ein (N - 1 - b)%nat) (seq 0 j)) && ein (N - 1 - j)%nat).
  destruct (iterate (creg1 r, rep false, rep false) (fun j a b => exists c1 c2, modmult_comb swap N (fst (fst a)) (fst (fst a)) (part N ne) c1 /\ modmult_comb swap N c1 g (part N ne) c2 /\ b = ((if k2 j then c2 else if k1 j then c1 else g), c1, c2))) with (n := k) as (w & W0 & W).
  { intros j a. destruct (comb_total swap N (fst (fst a)) (fst (fst a)) (part N ne)) as (c1 & C1). destruct (comb_total swap N c1 g (part N ne)) as (c2 & C2). eexists. exists c1, c2. split; [exact C1|]. split; [exact C2|]. reflexivity. }
  exists (rep false), (Regs1 true (if existsb (fun b => ein (N - 1 - b)%nat) (seq 0 k) then true else first_one1 r) (cat ein k (rep false)) (if k2 (k - 1)%nat then snd (w (S (k - 1))) else if k1 (k - 1)%nat then snd (fst (w (S (k - 1)))) else g)).
  exists ne, (part N ne), ein, (fun j => fst (fst (w j))), (fun j => snd (fst (w (S j)))), (fun j => snd (w (S j))), k1, k2. fold k. rewrite W0.
  split; [intros b _; reflexivity|]. split; [intros b _; reflexivity|]. split; [intros b _; reflexivity|]. split; [intros b _; reflexivity|]. split; [reflexivity|]. split; [reflexivity|]. split; [reflexivity|]. split; [reflexivity|]. split; [intros b _; reflexivity|]. split; [intros b _; reflexivity|]. split; [|split].
  - intros j J1 J2. destruct (W (j - 1)%nat ltac:(lia)) as (c1 & c2 & _ & _ & E). replace (S (j - 1)) with j in * by lia. rewrite E. cbn [fst snd]. intros b _. reflexivity.
  - intros j J. destruct (W j J) as (c1 & c2 & C1 & C2 & E). rewrite E. cbn [fst snd]. exact C1.
  - intros j J. destruct (W j J) as (c1 & c2 & C1 & C2 & E). rewrite E. cbn [fst snd]. exact C2.
Qed.

(** * Cases *)
Example modmult_case : exists o, modmult_comb true 8 (of_val 100) (of_val 77) (of_val 101) o /\ val 8 o = (100 * 77) mod 101.
Proof. destruct (comb_total true 8 (of_val 100) (of_val 77) (of_val 101)) as (o & H). exists o. split; [exact H|]. apply comb_val in H; [|lia]. rewrite H. vm_compute. reflexivity. Qed.
Example modmult_zero_case : exists o, modmult_comb true 4 (of_val 3) (of_val 6) (of_val 9) o /\ val 4 o = 9.
Proof. destruct (comb_total true 4 (of_val 3) (of_val 6) (of_val 9)) as (o & H). exists o. split; [exact H|]. apply comb_val in H; [|lia]. rewrite H. vm_compute. reflexivity. Qed.
Example modexp_case : exists o, modexp_2N true 8 1 (of_val 5) (key 8 13 187) 16 (fun _ => tt) o /\ val 8 (o 15%nat) = 5 ^ 13 mod 187.
Proof.
  destruct (modexp_2N_total true 8 1 (of_val 5) (key 8 13 187) 16 (fun _ => tt)) as (o & H). exists o. split; [exact H|]. rewrite (modexp_sim true 8 1 _ _ 16 _ o ltac:(lia) H) by lia. destruct (key_val 8 13 187 ltac:(cbn; lia) ltac:(cbn; lia)) as [-> ->]. vm_compute. reflexivity.
Qed.
