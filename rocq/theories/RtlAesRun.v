(** The circuits of RtlAes.v have a run for every input; an example. *)
From Coq Require Import Arith ZArith NArith List Bool Lia.
From Verif Require Import RtlBase RtlLib RtlArith RtlSeq RtlAes.
From Verif Require AesSpec.
Import ListNotations.
Open Scope Z_scope.

(** * Every input has a run *)
Definition sub_f (x : vec) : vec := fun b => sbox_f (part (8 * (b / 8)) x) (b mod 8)%nat.
Lemma sub_total x z : veq 128 z (sub_f x) -> SubBytes x z.
Proof.
  intros E i Hi. apply sbox_total. intros b Hb. unfold part at 1. rewrite E by lia. unfold sub_f. replace (8 * i + b)%nat with (b + i * 8)%nat by lia. rewrite Nat.div_add, Nat.mod_add, Nat.div_small, Nat.mod_small by lia. reflexivity.
Qed.
Lemma shift_total x : exists z, ShiftRows x z.
Proof.
  exists (fun k => x (nth k shift_list 0%nat)), (fun k => x (127 - k)%nat), (fun k => x (nth (127 - k) shift_list 0%nat)), x. split; [|split].
  - intros i Hi. replace (127 - (127 - i))%nat with i by lia. auto.
  - intros k Hk. f_equal. lia.
  - intros k Hk. f_equal. f_equal. lia.
Qed.
Definition xtime_f (x : vec) : vec := if x 7%nat then vxor (shl1 x) (of_val 0x1B) else shl1 x.
Lemma xtime_total x : xtime (xtime_f x) x.
Proof. exists (shl1 x). split; intros b _; [reflexivity|]. unfold xtime_f. destruct (x 7%nat); reflexivity. Qed.
Lemma mix_total x : exists z, MixColumns x z.
Proof.
  set (a := fun i k => part (8 * (4 * i + k)) x). set (temp := fun i => vxor (vxor (vxor (a i 0%nat) (a i 1%nat)) (a i 2%nat)) (a i 3%nat)).
  set (b := fun i k => vxor (vxor (a i k) (temp i)) (xtime_f (vxor (a i k) (a i ((k + 1) mod 4)%nat)))).
  exists (fun p => b (p / 8 / 4)%nat (p / 8 mod 4)%nat (p mod 8)%nat). intros i Hi.
  exists (a i 0%nat), (a i 1%nat), (a i 2%nat), (a i 3%nat), (temp i), (b i 0%nat), (b i 1%nat), (b i 2%nat), (b i 3%nat).
  do 4 eexists. do 5 (split; [intros j _; reflexivity|]). do 4 (split; [apply xtime_total|]). do 4 (split; [intros j _; reflexivity|]).
  assert (Z : forall k, (k < 4)%nat -> veq 8 (part (8 * (4 * i + k)) (fun p => b (p / 8 / 4)%nat (p / 8 mod 4)%nat (p mod 8)%nat)) (b i k)).
  { intros k Hk j Hj. unfold part.
    assert (E8 : ((8 * (4 * i + k) + j) / 8 = 4 * i + k)%nat) by (symmetry; apply (Nat.div_unique _ 8 _ j); lia).
    assert (M8 : ((8 * (4 * i + k) + j) mod 8 = j)%nat) by (symmetry; apply (Nat.mod_unique _ 8 (4 * i + k)); lia).
    assert (E4 : ((4 * i + k) / 4 = i)%nat) by (symmetry; apply (Nat.div_unique _ 4 _ k); lia).
    assert (M4 : ((4 * i + k) mod 4 = k)%nat) by (symmetry; apply (Nat.mod_unique _ 4 i); lia).
    rewrite E8, M8, E4, M4. reflexivity. }
  split; [apply Z; lia|]. split; [apply Z; lia|]. split; apply Z; lia.
Qed.
Definition core_q (w : vec) : vec := part 96 (sub_f (cat (cat w 24 (part 8 w)) 96 (rep false))).
Definition core_f (w rc : vec) : vec := cat (part 8 (core_q w)) 8 (vxor rc (core_q w)).
Lemma core_total w : exists unused, SubBytes (cat (cat w 24 (part 8 w)) 96 (rep false)) (cat (core_q w) 96 unused).
Proof. exists (sub_f (cat (cat w 24 (part 8 w)) 96 (rep false))). apply sub_total. intros b Hb. unfold cat at 1. destruct (Nat.ltb_spec b 96); [reflexivity|]. unfold core_q, part. f_equal. lia. Qed.
(** the words of the next round key *)
Fixpoint next_f (w : nat -> vec) (t : vec) (q : nat) : vec := match q with O => vxor (w 0%nat) t | S p => vxor (w q) (next_f w t p) end.
Fixpoint keys_f (key : vec) (round : nat) : nat -> vec :=
  match round with O => fun q => part (32 * q) key | S r => next_f (keys_f key r) (core_f (keys_f key r 3%nat) (of_val (nth r RCon 0))) end.
Lemma choose {B} (R : nat -> B -> Prop) n (b0 : B) : (forall i, exists b, R i b) -> exists g : nat -> B, forall i, (i < n)%nat -> R i (g i).
Proof.
  intros T. induction n as [|n (g & G)]; [exists (fun _ => b0); intros; lia|]. destruct (T n) as (b & RB). exists (fun i => if (i <? n)%nat then g i else b). intros i Hi. destruct (Nat.ltb_spec i n); [apply G; lia|]. replace i with n by lia. exact RB.
Qed.
Lemma KeyExpansion_total key : exists ek, KeyExpansion key ek.
Proof.
  set (w := fun i => keys_f key (i / 4) (i mod 4)). destruct (joined_exists 32 44 w) as (ek & J). exists ek.
  set (l := fun i => w (4 + 4 * i - 1)%nat).
  destruct (choose (fun i un => SubBytes (cat (cat (l i) 24 (part 8 (l i))) 96 (rep false)) (cat (core_q (l i)) 96 un)) 10 (rep false)) as (un & UN); [intros i; apply core_total|].
  exists w, (fun i => core_f (l i) (of_val (nth i RCon 0))), (fun i => cat (l i) 24 (part 8 (l i))), (fun i => core_q (l i)), un. split; [|split].
  - intros i Hi. rewrite Nat.mul_comm. apply J, Hi.
  - intros i Hi. pose proof (Nat.div_mod i 4 ltac:(lia)) as D. pose proof (Nat.mod_upper_bound i 4 ltac:(lia)) as M. destruct (Nat.ltb_spec i 4) as [C|C].
    + unfold w. rewrite Nat.div_small, Nat.mod_small by exact C. intros b _. reflexivity.
    + set (r := (i / 4 - 1)%nat). assert (R : (i / 4 = S r)%nat) by lia.
      assert (W4 : forall k, (k < 4)%nat -> w (4 * r + k)%nat = keys_f key r k). { intros k Hk. unfold w. replace (4 * r + k)%nat with (k + r * 4)%nat by lia. rewrite Nat.div_add, Nat.mod_add, Nat.div_small, Nat.mod_small by lia. reflexivity. }
      assert (WI : w i = next_f (keys_f key r) (core_f (keys_f key r 3%nat) (of_val (nth r RCon 0))) (i mod 4)) by (unfold w; rewrite R; reflexivity).
      destruct (Nat.eqb_spec (i mod 4) 0) as [Z0|Z0].
      * rewrite WI, Z0. cbn [next_f]. unfold l. replace (4 + 4 * r - 1)%nat with (4 * r + 3)%nat by lia. replace (i - 4)%nat with (4 * r + 0)%nat by lia. rewrite !W4 by lia. intros b _. reflexivity.
      * destruct (i mod 4)%nat as [|p] eqn:MP; [lia|]. rewrite WI. cbn [next_f]. replace (i - 4)%nat with (4 * r + S p)%nat by lia. rewrite W4 by lia. 
        assert (WP : w (i - 1)%nat = next_f (keys_f key r) (core_f (keys_f key r 3%nat) (of_val (nth r RCon 0))) p). { unfold w. replace (i - 1)%nat with (p + (S r) * 4)%nat by lia. rewrite Nat.div_add, Nat.mod_add, Nat.div_small, Nat.mod_small by lia. reflexivity. }
        rewrite WP. intros b _. unfold vxor. apply xorb_comm.
  - intros i Hi. replace (4 + i * 4 - 1)%nat with (4 + 4 * i - 1)%nat by lia. split; [intros b _; reflexivity|]. split; [apply UN, Hi|]. intros b _. reflexivity.
Qed.
Lemma KeyExpansionSeq_total key counter : exists next, KeyExpansionSeq key counter next.
Proof.
  set (w := fun i => if val 4 counter <? 10 then part (32 * i) key else rep false). set (rc := of_val (nth (Z.to_nat (val 4 counter)) RCon 0)). set (t := core_f (w 3%nat) rc).
  destruct (joined_exists 32 4 (next_f w t)) as (nk & J). destruct (core_total (w 3%nat)) as (un & UN). exists nk, w, (next_f w t), t, (cat (w 3%nat) 24 (part 8 (w 3%nat))), (core_q (w 3%nat)), un, rc.
  split; [intros i Hi; split; [intros b _; reflexivity|rewrite Nat.mul_comm; apply J, Hi]|]. split; [|split; [intros b _; reflexivity|split; [exact UN|split; intros; intros b _; reflexivity]]].
  intros i Hi. destruct i as [|i]; cbn [Nat.eqb]; [intros b _; reflexivity|]. replace (S i - 1)%nat with i by lia. intros b _. reflexivity.
Qed.
Theorem aes_1cc_total g e : exists o, aes_1cc g e o.
Proof.
  destruct (KeyExpansion_total g) as (ek & KE). set (eki := fun i => part (128 * i) ek).
  destruct (iterate (vxor e (eki 0%nat)) (fun k x y => exists b c d, SubBytes x b /\ ShiftRows b c /\ MixColumns c d /\ y = vxor d (eki (k + 1)%nat))) with (n := 10%nat) as (x1 & X0 & X).
  { intros k x. destruct (shift_total (sub_f x)) as (c & SR). destruct (mix_total c) as (d & MC). exists (vxor d (eki (k + 1)%nat)), (sub_f x), c, d. split; [apply sub_total; intros b _; reflexivity|]. auto. }
  assert (P : exists q : nat -> vec * vec * vec, forall k, (k < 10)%nat -> let '(b, c, d) := q k in SubBytes (x1 k) b /\ ShiftRows b c /\ MixColumns c d /\ x1 (S k) = vxor d (eki (k + 1)%nat)).
  { assert (G : forall n, (n <= 10)%nat -> exists q : nat -> vec * vec * vec, forall k, (k < n)%nat -> let '(b, c, d) := q k in SubBytes (x1 k) b /\ ShiftRows b c /\ MixColumns c d /\ x1 (S k) = vxor d (eki (k + 1)%nat)).
    { induction n as [|n IH]; intros Hn; [exists (fun _ => (g, g, g)); intros; lia|]. destruct (IH ltac:(lia)) as (q & Q). destruct (X n ltac:(lia)) as (b & c & d & H). exists (fun k => if (k <? n)%nat then q k else (b, c, d)). intros k Hk. destruct (Nat.ltb_spec k n); [apply Q; lia|]. replace k with n by lia. exact H. }
    apply G. lia. }
  destruct P as (q & Q). exists (vxor (snd (fst (q 9%nat))) (eki 10%nat)), ek, eki, x1, (fun k => fst (fst (q k))), (fun k => snd (fst (q k))), (fun k => snd (q k)).
  split; [exact KE|]. split; [intros i _ b _; reflexivity|]. split; [rewrite X0; intros b _; reflexivity|].
  assert (QQ : forall k, (k < 10)%nat -> SubBytes (x1 k) (fst (fst (q k))) /\ ShiftRows (fst (fst (q k))) (snd (fst (q k))) /\ MixColumns (snd (fst (q k))) (snd (q k)) /\ x1 (S k) = vxor (snd (q k)) (eki (k + 1)%nat)). { intros k Hk. specialize (Q k Hk). destruct (q k) as [[b c] d]. exact Q. }
  split; [intros i Hi; apply QQ, Hi|]. split; [intros i Hi; apply QQ, Hi|]. split; [intros i Hi; apply QQ; lia|].
  intros i Hi. destruct (Nat.eqb_spec i 9) as [->|]; [intros b _; reflexivity|]. destruct (QQ i Hi) as (_ & _ & _ & E). rewrite Nat.add_1_r in *. rewrite E. intros b _. reflexivity.
Qed.
Theorem aes_11cc_total g e n i : exists o, aes_11cc g e n i o.
Proof.
  apply clocked_total; [exists (g, e, rep false); repeat split; intros b _; reflexivity|]. intros u [[key msg] counter]. destruct (KeyExpansionSeq_total key counter) as (nk & KS). destruct (shift_total (sub_f msg)) as (c & SR). destruct (mix_total c) as (d & MC).
  set (ai := if val 4 counter =? 0 then msg else if val 4 counter <? 10 then d else c). exists (vxor ai key), (nk, vxor ai key, of_val (val 4 counter + 1)), nk, ai, (vxor ai key), (sub_f msg), c, d.
  split; [exact KS|]. do 4 (split; [intros b _; reflexivity|]). split; [apply sub_total; intros b _; reflexivity|]. split; [exact SR|]. split; [exact MC|]. split; intros b _; reflexivity.
Qed.

(** * The example of FIPS-197, appendix C.1 *)
Definition from_bytes (l : list N) : vec := of_val (fold_right (fun b z => Z.of_N b + 256 * z) 0 l).
Definition fips_key : list N := [0;1;2;3;4;5;6;7;8;9;10;11;12;13;14;15]%N.
Definition fips_in : list N := [0x00;0x11;0x22;0x33;0x44;0x55;0x66;0x77;0x88;0x99;0xaa;0xbb;0xcc;0xdd;0xee;0xff]%N.
Definition fips_out : list N := [0x69;0xc4;0xe0;0xd8;0x6a;0x7b;0x04;0x30;0xd8;0xcd;0xb7;0x80;0x70;0xb4;0xc5;0x5a]%N.
Lemma aes_case : (exists o, aes_1cc (from_bytes fips_key) (from_bytes fips_in) o /\ bytes 16 o = fips_out) /\
  (exists o, aes_11cc (from_bytes fips_key) (from_bytes fips_in) 11 (fun _ => tt) o /\ bytes 16 (o 10%nat) = fips_out).
Proof.
  assert (R : AesSpec.AES 4 (bytes 16 (from_bytes fips_key)) (bytes 16 (from_bytes fips_in)) = fips_out) by (vm_compute; reflexivity). split.
  - destruct (aes_1cc_total (from_bytes fips_key) (from_bytes fips_in)) as (o & H). exists o. split; [exact H|]. rewrite (aes_1cc_ok _ _ _ H). exact R.
  - destruct (aes_11cc_total (from_bytes fips_key) (from_bytes fips_in) 11 (fun _ => tt)) as (o & H). exists o. split; [exact H|]. rewrite (aes_11cc_ok _ _ _ _ _ H (le_n _)). exact R.
Qed.
