(** RSA keys invert: Fermat's little theorem and the textbook argument. *)
From Coq Require Import ZArith Znumtheory Zpow_facts List Lia Permutation.
From Verif Require Import OT.
Import ListNotations.
Open Scope Z_scope.

Definition zprod (l : list Z) : Z := fold_right Z.mul 1 l.

Lemma zprod_perm l l' : Permutation l l' -> zprod l = zprod l'.
Proof.
  induction 1 as [|a l l' H IH|a b l|l l' l'' H1 I1 H2 I2]; [auto| | |congruence].
  - change (a * zprod l = a * zprod l'). congruence.
  - change (b * (a * zprod l) = a * (b * zprod l)). ring.
Qed.

Lemma zprod_map_mod p a l : 0 < p ->
  zprod (map (fun i => a * i mod p) l) mod p = (a ^ Z.of_nat (length l) * zprod l) mod p.
Proof.
  intros Hp. induction l as [|i l IH]; [reflexivity|]. cbn [map zprod fold_right length].
  change (fold_right Z.mul 1 ?x) with (zprod x).
  rewrite Zmult_mod_idemp_l, <- Zmult_mod_idemp_r, IH, Zmult_mod_idemp_r.
  rewrite Nat2Z.inj_succ, Z.pow_succ_r by lia. f_equal. ring.
Qed.

Definition residues (p : Z) : list Z := map Z.of_nat (seq 1 (Z.to_nat (p - 1))).
Lemma residues_in p i : In i (residues p) <-> 1 <= i < p.
Proof.
  unfold residues. rewrite in_map_iff. split.
  - intros (j & <- & H). apply in_seq in H. lia.
  - intros H. exists (Z.to_nat i). split; [lia|]. apply in_seq. lia.
Qed.
Lemma residues_nodup p : NoDup (residues p).
Proof. apply FinFun.Injective_map_NoDup; [intros a b H; lia|apply seq_NoDup]. Qed.
Lemma residues_length p : 1 <= p -> Z.of_nat (length (residues p)) = p - 1.
Proof. intros H. unfold residues. rewrite map_length, seq_length. lia. Qed.

Lemma zprod_rel_prime p l : (forall i, In i l -> rel_prime p i) -> rel_prime p (zprod l).
Proof.
  induction l as [|i l IH]; intros H; cbn.
  - apply rel_prime_sym, rel_prime_1.
  - apply rel_prime_mult; [apply H; left; auto|]. apply IH. intros; apply H; right; auto.
Qed.

Lemma prime_mul_cancel p a i j : prime p -> ~ (p | a) -> 0 <= i < p -> 0 <= j < p ->
  a * i mod p = a * j mod p -> i = j.
Proof.
  intros P NA Hi Hj E. pose proof (prime_ge_2 p P).
  assert (D : (p | a * (i - j))).
  { apply Zmod_divide; [lia|]. replace (a * (i - j)) with (a * i - a * j) by ring.
    rewrite Zminus_mod, E, Z.sub_diag. apply Z.mod_0_l. lia. }
  apply prime_mult in D; [|auto]. destruct D as [D|D]; [contradiction|].
  destruct (Z.eq_dec i j); auto. apply Zdivide_bounds in D; [|lia]. lia.
Qed.

Theorem fermat p a : prime p -> ~ (p | a) -> a ^ (p - 1) mod p = 1.
Proof.
  intros P NA. pose proof (prime_ge_2 p P) as P2.
  set (l := residues p).
  assert (PERM : Permutation (map (fun i => a * i mod p) l) l).
  { apply NoDup_Permutation_bis.
    - unfold l, residues. rewrite map_map.
      assert (G : forall s, (forall j, In j s -> (1 <= j < Z.to_nat p)%nat) -> NoDup s -> NoDup (map (fun x => a * Z.of_nat x mod p) s)).
      { induction s as [|u s IH]; intros HB HN; [constructor|]. inversion HN as [|? ? H1 H2]; subst. cbn [map]. constructor.
        - rewrite in_map_iff. intros (w & E & Hw). apply (prime_mul_cancel p a) in E; auto.
          + apply Nat2Z.inj in E. subst. auto.
          + pose proof (HB w (or_intror Hw)). lia.
          + pose proof (HB u (or_introl eq_refl)). lia.
        - apply IH; auto. intros j Hj. apply HB. right; auto. }
      apply G; [|apply seq_NoDup]. intros j Hj. apply in_seq in Hj. lia.
    - rewrite map_length. lia.
    - intros z Hz. apply in_map_iff in Hz. destruct Hz as (i & <- & Hi). apply residues_in in Hi. apply residues_in.
      pose proof (Z.mod_pos_bound (a * i) p). destruct (Z.eq_dec (a * i mod p) 0) as [E|]; [|lia].
      exfalso. apply Zmod_divide in E; [|lia]. apply prime_mult in E; [|auto]. destruct E as [E|E]; [contradiction|].
      apply Zdivide_bounds in E; lia. }
  apply zprod_perm in PERM.
  pose proof (zprod_map_mod p a l ltac:(lia)) as M. rewrite PERM in M.
  unfold l in M at 2. rewrite residues_length in M by lia.
  assert (RP : rel_prime p (zprod l)).
  { apply zprod_rel_prime. intros i Hi. apply residues_in in Hi. apply rel_prime_le_prime in Hi; auto.
    apply rel_prime_sym; auto. }
  assert (D : (p | zprod l * (a ^ (p - 1) - 1))).
  { apply Zmod_divide; [lia|]. replace (zprod l * (a ^ (p - 1) - 1)) with (a ^ (p - 1) * zprod l - zprod l) by ring.
    rewrite Zminus_mod, <- M, Z.sub_diag. apply Z.mod_0_l. lia. }
  apply Gauss in D; [|auto]. destruct D as (q & D).
  replace (a ^ (p - 1)) with (1 + q * p) by lia. rewrite Z.mod_add by lia. apply Z.mod_1_l. lia.
Qed.

(** [e d = 1] modulo [p - 1]: raising to [e d] is the identity modulo [p]. *)
Lemma pow_ed p k c : prime p -> 0 <= c -> (k ^ (1 + (p - 1) * c) - k) mod p = 0.
Proof.
  intros P C. pose proof (prime_ge_2 p P) as P2.
  rewrite Z.pow_add_r, Z.pow_1_r, Z.pow_mul_r by nia.
  destruct (Zdivide_dec p k) as [D|D].
  - destruct D as (q & ->). replace (q * p * ((q * p) ^ (p - 1)) ^ c - q * p) with ((q * ((q * p) ^ (p - 1)) ^ c - q) * p) by ring.
    apply Z.mod_mul. lia.
  - rewrite Zminus_mod. rewrite <- Zmult_mod_idemp_r. rewrite Zpower_mod by lia. rewrite (fermat p k P D).
    rewrite Z.pow_1_l by lia. rewrite Z.mod_1_l by lia. rewrite Z.mul_1_r, Z.sub_diag. apply Z.mod_0_l. lia.
Qed.

Theorem rsa_key_ok p q e d : prime p -> prime q -> p <> q -> 0 <= e -> 0 <= d ->
  (e * d) mod (p - 1) = 1 mod (p - 1) -> (e * d) mod (q - 1) = 1 mod (q - 1) -> 1 <= e * d ->
  key_ok (mkKey (p * q) e d).
Proof.
  intros P Q NE He Hd Ep Eq ED. pose proof (prime_ge_2 p P) as P2. pose proof (prime_ge_2 q Q) as Q2.
  unfold key_ok. cbn [rsa_n rsa_e rsa_d]. split; [nia|]. split; [auto|]. split; [auto|].
  intros k Hk. rewrite <- Zpower_mod by nia. rewrite <- Z.pow_mul_r by auto.
  assert (RP : rel_prime p q).
  { destruct (rel_prime_dec p q) as [|N]; [auto|]. exfalso. apply N. apply prime_rel_prime; auto.
    intros D. apply prime_div_prime in D; auto. }
  assert (DIV : forall r, prime r -> (e * d) mod (r - 1) = 1 mod (r - 1) -> (r | k ^ (e * d) - k)).
  { intros r R E. pose proof (prime_ge_2 r R) as R2. apply Zmod_divide; [lia|].
    assert (X : exists c, 0 <= c /\ e * d = 1 + (r - 1) * c).
    { destruct (Z.eq_dec r 2) as [->|].
      - exists (e * d - 1). lia.
      - exists ((e * d) / (r - 1)). split; [apply Z.div_pos; lia|].
        rewrite (Z.mod_1_l (r - 1)) in E by lia. pose proof (Z.div_mod (e * d) (r - 1)). lia. }
    destruct X as (c & C & ->). apply pow_ed; auto. }
  pose proof (DIV p P Ep) as Dp. pose proof (DIV q Q Eq) as Dq.
  assert (D : (p * q | k ^ (e * d) - k)).
  { destruct Dp as (u & U). rewrite U in Dq. rewrite Z.mul_comm in Dq. apply Gauss in Dq; [|apply rel_prime_sym; auto].
    destruct Dq as (w & ->). exists w. rewrite U. ring. }
  destruct D as (w & D). replace (k ^ (e * d)) with (k + w * (p * q)) by lia. rewrite Z.mod_add by nia. apply Z.mod_small. auto.
Qed.

(** A small key. *)
Lemma prime_11 : prime 11.
Proof.
  apply prime_intro; [lia|]. intros n Hn.
  assert (n = 1 \/ n = 2 \/ n = 3 \/ n = 4 \/ n = 5 \/ n = 6 \/ n = 7 \/ n = 8 \/ n = 9 \/ n = 10) as C by lia.
  repeat destruct C as [->|C]; try subst n; apply Zgcd_1_rel_prime; reflexivity.
Qed.
Definition key33 : rsa_key := mkKey (11 * 3) 3 7.
Lemma key33_ok : key_ok key33.
Proof. apply rsa_key_ok; try lia; try reflexivity; [apply prime_11|apply prime_3]. Qed.
