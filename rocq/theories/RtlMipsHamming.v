(** The program hamming.s for Lite_MIPS. *)
From Coq Require Import ZArith List Bool Lia.
From Verif Require Import RtlBase RtlLib RtlArith RtlSeq RtlMips MipsSpec RtlMipsOk RtlMipsStep RtlMipsRun.
Import ListNotations.
Open Scope Z_scope.
Local Opaque val.

(** * Model

    The program mips/test/benchmarks/hamming.s:15-37, assembled.  Branches hold the distance to
    their target in instructions: [d] = 0 counts it from the branch, [d] = 1 from the
    instruction after it as the architecture has it. *)
Definition hamming_code (d : Z) : list instr :=
  [Load Word false 9 0 0; Shift Sll 9 9 2; ArithI Add 2 0 8; Arith Add 3 2 9; ArithI Add 9 9 8;
   Branch Eq false 2 9 (9 - d); Load Word false 4 2 0; Load Word false 5 3 0; Arith Xor 6 4 5; Branch Eq false 6 0 (2 - d); ArithI Add 10 10 1;
   ArithI Add 2 2 4; ArithI Add 3 3 4; Jump false 5; Store Word 10 0 4; Jump false 15].
Definition hamming_words (d : Z) : list Z :=
  [0x8c090000; 0x00094880; 0x20020008; 0x00491820; 0x21290008;
   0x10490009 - d; 0x8c440000; 0x8c650000; 0x00853026; 0x10c00002 - d; 0x214a0001;
   0x20420004; 0x20630004; 0x08000005; 0xac0a0004; 0x0800000f].
Lemma hamming_decode : map decode (hamming_words 0) = hamming_code 0 /\ map decode (hamming_words 1) = hamming_code 1.
Proof. split; vm_compute; reflexivity. Qed.

(** * Specification: the number of positions in which two lists differ *)
Fixpoint distance (a b : list Z) : Z := match a, b with x :: a', y :: b' => (if x =? y then 0 else 1) + distance a' b' | _, _ => 0 end.
(** The words from address [a] *)
Definition array (m : Z -> Z) (a : Z) (k : nat) : list Z := map (fun j => load m Word (a + 4 * Z.of_nat j)) (seq 0 k).

Lemma array_S m a k : array m a (S k) = array m a k ++ [load m Word (a + 4 * Z.of_nat k)].
Proof. unfold array. rewrite seq_S, map_app. reflexivity. Qed.
Lemma distance_snoc a b x y : length a = length b -> distance (a ++ [x]) (b ++ [y]) = distance a b + (if x =? y then 0 else 1).
Proof. revert b. induction a as [|u a IH]; intros [|v b] H; try discriminate H; cbn; [lia|]. rewrite IH by (cbn in H; lia). lia. Qed.
Lemma distance_bound a b : 0 <= distance a b <= Z.of_nat (length a).
Proof. revert b. induction a as [|u a IH]; intros [|v b]; cbn [distance length]; try lia. specialize (IH b). destruct (u =? v); lia. Qed.
Lemma array_length m a k : length (array m a k) = k.
Proof. unfold array. rewrite map_length, seq_length. reflexivity. Qed.

Lemma run_add lite n prog j k z y : run lite n prog j z = Some y -> run lite n prog (j + k) z = run lite n prog k y.
Proof. revert z. induction j as [|j IH]; intros z H; [injection H as ->; reflexivity|]. cbn [run Nat.add] in *. destruct (step lite n prog z); [apply IH, H|discriminate H]. Qed.
Lemma word_id x : 0 <= x < 2 ^ 32 -> word x = x.
Proof. intros H. unfold word. apply Z.mod_small, H. Qed.

Section Hamming.
  Variables (n : Z) (prog : Z -> Z) (m : Z -> Z) (l : nat).
  Hypothesis HP : forall i, (i < 16)%nat -> prog (Z.of_nat i) = nth i (hamming_words 0) 0.
  Hypothesis HM : forall a, 0 <= m a < 2 ^ 8.
  Hypothesis HL : load m Word 0 = Z.of_nat l.
  Hypothesis HN : 8 + 8 * Z.of_nat l <= n.
  Hypothesis HN2 : 64 <= n <= 2 ^ 30.
  Lemma at_pc i rg mm h lw : (i < 16)%nat -> step true n prog (State (4 * Z.of_nat i) rg mm h lw) = exec true n (nth i (hamming_code 0) Other) (State (4 * Z.of_nat i) rg mm h lw).
  Proof.
    intros Hi. unfold step. cbn [pc]. destruct (Z.ltb_spec (4 * Z.of_nat i) n); [|lia]. rewrite Z.mul_comm, Z.div_mul by lia. rewrite HP by exact Hi.
    rewrite <- (proj1 hamming_decode). change Other with (decode (Z.ones 32)) at 1. rewrite (nth_indep _ _ (decode 0)) by exact Hi. rewrite map_nth. reflexivity.
  Qed.
  Definition cnt (k : nat) : Z := distance (array m 8 k) (array m (8 + 4 * Z.of_nat l) k).
  Record head (k : nat) (z : state) : Prop := {
    h_pc : pc z = 20; h_0 : reg z 0 = 0; h_2 : reg z 2 = 8 + 4 * Z.of_nat k; h_3 : reg z 3 = 8 + 4 * Z.of_nat l + 4 * Z.of_nat k;
    h_9 : reg z 9 = 8 + 4 * Z.of_nat l; h_10 : reg z 10 = cnt k; h_mem : mem z = m }.
  Lemma cnt_S k : cnt (S k) = cnt k + (if load m Word (8 + 4 * Z.of_nat k) =? load m Word (8 + 4 * Z.of_nat l + 4 * Z.of_nat k) then 0 else 1).
  Proof. unfold cnt. rewrite !array_S, distance_snoc by (rewrite !array_length; reflexivity). reflexivity. Qed.
  Lemma cnt_bound k : 0 <= cnt k <= Z.of_nat k.
  Proof. unfold cnt. pose proof (distance_bound (array m 8 k) (array m (8 + 4 * Z.of_nat l) k)). rewrite array_length in H. exact H. Qed.
  Lemma valid_word a : 0 <= a -> a mod 4 = 0 -> a < n -> valid n Word a = true.
  Proof. intros. unfold valid. cbn [size]. rewrite H0. destruct (Z.ltb_spec a n); [reflexivity|lia]. Qed.
  Lemma run_S1 k z : run true n prog (S k) z = match step true n prog z with Some y => run true n prog k y | None => None end.
  Proof. reflexivity. Qed.
  Ltac sets := unfold set; cbn [Z.eqb Pos.eqb andb negb].
  Ltac at_ i p := rewrite run_S1; change (State p) with (State (4 * Z.of_nat i)); rewrite at_pc by (apply Nat.ltb_lt; reflexivity); cbn [nth hamming_code Z.sub]; change (4 * Z.of_nat i) with p.
  Lemma simm x : 0 <= x < 2 ^ 15 -> signed 16 x = x.
  Proof. intros H. unfold signed. change (16 - 1) with 15. destruct (Z.ltb_spec x (2 ^ 15)); [reflexivity|lia]. Qed.
  Lemma entry : exists z, run true n prog 5 (start m) = Some z /\ head 0 z.
  Proof.
    unfold start. at_ 0%nat 0. cbn [exec reg pc mem hi lo]. change (word (0 + signed 16 0)) with 0. rewrite valid_word by (reflexivity || lia). cbv zeta. rewrite HL. change (word (0 + 4)) with 4.
    at_ 1%nat 4. cbn [exec reg pc mem hi lo]. change (word (4 + 4)) with 8. at_ 2%nat 8. cbn [exec reg pc mem hi lo do_arith orb]. change (word (8 + 4)) with 12. at_ 3%nat 12. cbn [exec reg pc mem hi lo do_arith orb]. change (word (12 + 4)) with 16.
    at_ 4%nat 16. cbn [exec reg pc mem hi lo do_arith orb run]. change (word (16 + 4)) with 20. eexists. split; [reflexivity|]. cbn [do_shift immediate].
    assert (S2 : word (Z.of_nat l * 2 ^ 2) = 4 * Z.of_nat l) by (rewrite word_id; change (2 ^ 2) with 4; lia).
    split; cbn [pc reg mem]; sets; rewrite ?S2; try reflexivity.
    - change (word (0 + word (signed 16 8))) with 8. rewrite word_id; lia.
    - change (word (signed 16 8)) with 8. rewrite (word_id (4 * Z.of_nat l + 8)) by lia. lia.
  Qed.
  Lemma body k z : (k < l)%nat -> head k z -> exists d z', (d <= 9)%nat /\ run true n prog d z = Some z' /\ head (S k) z'.
  Proof.
    intros Hk [H1 H2 H3 H4 H5 H6 H7]. destruct z as [p rg mm h lw]. cbn [pc reg mem] in *. subst p mm. pose proof (cnt_bound k) as CB.
    set (A := load m Word (8 + 4 * Z.of_nat k)). set (B := load m Word (8 + 4 * Z.of_nat l + 4 * Z.of_nat k)).
    assert (VA : valid n Word (8 + 4 * Z.of_nat k) = true) by (apply valid_word; [lia| |lia]; replace (8 + 4 * Z.of_nat k) with ((2 + Z.of_nat k) * 4) by lia; apply Z.mod_mul; lia).
    assert (VB : valid n Word (8 + 4 * Z.of_nat l + 4 * Z.of_nat k) = true) by (apply valid_word; [lia| |lia]; replace (8 + 4 * Z.of_nat l + 4 * Z.of_nat k) with ((2 + Z.of_nat l + Z.of_nat k) * 4) by lia; apply Z.mod_mul; lia).
    assert (FIVE : forall j, run true n prog (5 + j) (State 20 rg m h lw) = run true n prog j (State (if A =? B then 44 else 40) (set 6 (Z.lxor A B) (set 5 B (set 4 A rg))) m h lw)).
    { intros j. cbn [Nat.add]. at_ 5%nat 20. cbn [exec reg pc mem hi lo taken]. rewrite H3, H5. destruct (Z.eqb_spec (8 + 4 * Z.of_nat k) (8 + 4 * Z.of_nat l)) as [Q|_]; [lia|]. change (word (20 + 4)) with 24.
      at_ 6%nat 24. cbn [exec reg pc mem hi lo]. rewrite H3. change (signed 16 0) with 0. rewrite Z.add_0_r, word_id by lia. cbv zeta. rewrite VA. change (word (24 + 4)) with 28. fold A.
      at_ 7%nat 28. cbn [exec reg pc mem hi lo]. change (set 4 A rg 3) with (rg 3). rewrite H4. change (signed 16 0) with 0. rewrite Z.add_0_r, word_id by lia. cbv zeta. rewrite VB. change (word (28 + 4)) with 32. fold B.
      at_ 8%nat 32. cbn [exec reg pc mem hi lo do_arith]. change (set 5 B (set 4 A rg) 4) with A. change (set 5 B (set 4 A rg) 5) with B. change (word (32 + 4)) with 36.
      at_ 9%nat 36. cbn [exec reg pc mem hi lo taken]. change (set 6 (Z.lxor A B) (set 5 B (set 4 A rg)) 6) with (Z.lxor A B). change (set 6 (Z.lxor A B) (set 5 B (set 4 A rg)) 0) with (rg 0). rewrite H2.
      change (word (36 + 4 * signed 16 2)) with 44. change (word (36 + 4)) with 40. destruct (Z.eqb_spec A B) as [Q|Q].
      - rewrite Q, Z.lxor_nilpotent. reflexivity.
      - destruct (Z.eqb_spec (Z.lxor A B) 0) as [Q'|_]; [|reflexivity]. apply Z.lxor_eq in Q'. contradiction. }
    pose proof (cnt_S k) as CS. fold A B in CS.
    assert (TAIL : forall rg', rg' 0 = 0 -> rg' 2 = 8 + 4 * Z.of_nat k -> rg' 3 = 8 + 4 * Z.of_nat l + 4 * Z.of_nat k -> rg' 9 = 8 + 4 * Z.of_nat l -> rg' 10 = cnt (S k) ->
       exists z', run true n prog 3 (State 44 rg' m h lw) = Some z' /\ head (S k) z').
    { intros rg' G0 G2 G3 G9 G10. at_ 11%nat 44. cbn [exec reg pc mem hi lo do_arith orb immediate]. change (word (signed 16 4)) with 4. rewrite G2. change (word (44 + 4)) with 48.
      at_ 12%nat 48. cbn [exec reg pc mem hi lo do_arith orb immediate]. change (word (signed 16 4)) with 4. change (word (48 + 4)) with 52. at_ 13%nat 52. cbn [exec reg pc mem hi lo run]. change (52 / 2 ^ 28 * 2 ^ 28 + 4 * 5) with 20.
      eexists. split; [reflexivity|]. split; cbn [pc reg mem]; sets; try assumption; try reflexivity; rewrite ?G3, word_id; lia. }
    destruct (Z.eqb_spec A B) as [Q|Q].
    - destruct (TAIL (set 6 (Z.lxor A B) (set 5 B (set 4 A rg)))) as (z' & R & Hd); sets; try assumption; [lia|]. exists 8%nat, z'. split; [lia|]. split; [|exact Hd]. change 8%nat with (5 + 3)%nat. rewrite FIVE. exact R.
    - destruct (TAIL (set 10 (cnt (S k)) (set 6 (Z.lxor A B) (set 5 B (set 4 A rg))))) as (z' & R & Hd); sets; try assumption; [reflexivity|]. exists 9%nat, z'. split; [lia|]. split; [|exact Hd]. change 9%nat with (5 + 4)%nat. rewrite FIVE.
      at_ 10%nat 40. cbn [exec reg pc mem hi lo do_arith orb immediate]. change (set 6 (Z.lxor A B) (set 5 B (set 4 A rg)) 10) with (rg 10). rewrite H6. change (word (signed 16 1)) with 1. change (word (40 + 4)) with 44. rewrite word_id, <- CS by lia. exact R.
  Qed.
  Lemma loops k : (k <= l)%nat -> exists d z', (d <= 5 + 9 * k)%nat /\ run true n prog d (start m) = Some z' /\ head k z'.
  Proof.
    induction k as [|k IH]; intros Hk.
    - destruct entry as (z & R & Hd). exists 5%nat, z. split; [lia|]. split; assumption.
    - destruct (IH ltac:(lia)) as (d & z & B & R & Hd). destruct (body k z Hk Hd) as (d' & z' & B' & R' & Hd'). exists (d + d')%nat, z'. split; [lia|]. split; [|exact Hd']. rewrite (run_add _ _ _ _ _ _ _ R). exact R'.
  Qed.
  Lemma stays j rg mm h lw : run true n prog j (State 60 rg mm h lw) = Some (State 60 rg mm h lw).
  Proof. induction j as [|j IH]; [reflexivity|]. at_ 15%nat 60. cbn [exec reg pc mem hi lo]. change (60 / 2 ^ 28 * 2 ^ 28 + 4 * 15) with 60. exact IH. Qed.
  Theorem hamming_run t : (7 + 9 * l <= t)%nat -> exists z, run true n prog t (start m) = Some z /\ mem z = store m Word 4 (distance (array m 8 l) (array m (8 + 4 * Z.of_nat l) l)).
  Proof.
    intros Ht. destruct (loops l (le_n l)) as (d & z & B & R & [H1 H2 H3 H4 H5 H6 H7]). destruct z as [p rg mm h lw]. cbn [pc reg mem] in *. subst p mm.
    eexists. replace t with (d + (2 + (t - d - 2)))%nat by lia. rewrite (run_add _ _ _ _ _ _ _ R). cbn [Nat.add].
    at_ 5%nat 20. cbn [exec reg pc mem hi lo taken]. rewrite H3, H5, Z.eqb_refl. change (word (20 + 4 * signed 16 (9 - 0))) with 56.
    at_ 14%nat 56. cbn [exec reg pc mem hi lo]. rewrite H2. change (word (0 + signed 16 4)) with 4. rewrite valid_word by (reflexivity || lia). cbv zeta. change (word (56 + 4)) with 60. rewrite stays. split; [reflexivity|]. cbn [mem]. rewrite H6. reflexivity.
  Qed.
End Hamming.

(** * The circuit *)
Lemma word_bytes v : 0 <= v < 2 ^ 32 -> v mod 2 ^ 8 + 2 ^ 8 * (v / 2 ^ 8 mod 2 ^ 8) + 2 ^ 16 * (v / 2 ^ 16 mod 2 ^ 8) + 2 ^ 24 * (v / 2 ^ 24 mod 2 ^ 8) = v.
Proof. intros H. change (2 ^ 32) with 4294967296 in H. change (2 ^ 8) with 256. change (2 ^ 16) with 65536. change (2 ^ 24) with 16777216. Z.to_euclidean_division_equations. lia. Qed.
Lemma load_store m a v : 0 <= v < 2 ^ 32 -> load (store m Word a v) Word a = v.
Proof.
  intros H. cbn [load]. unfold store. cbn [size].
  destruct (Z.leb_spec a a), (Z.ltb_spec a (a + 4)), (Z.leb_spec a (a + 1)), (Z.ltb_spec (a + 1) (a + 4)), (Z.leb_spec a (a + 2)), (Z.ltb_spec (a + 2) (a + 4)), (Z.leb_spec a (a + 3)), (Z.ltb_spec (a + 3) (a + 4)); try lia. cbn [andb].
  replace (a - a) with 0 by lia. replace (a + 1 - a) with 1 by lia. replace (a + 2 - a) with 2 by lia. replace (a + 3 - a) with 3 by lia. change (8 * 0) with 0. change (8 * 1) with 8. change (8 * 2) with 16. change (8 * 3) with 24. change (2 ^ 0) with 1. rewrite Z.div_1_r. apply word_bytes, H.
Qed.
Lemma words_bytes v i : 0 <= i -> words_of v i = load (bytes_of v) Word (4 * i).
Proof.
  intros Hi. unfold words_of, bytes_of. set (k := Z.to_nat i).
  cbn [load]. unfold bytes_of. replace (Z.to_nat (4 * i)) with (4 * k)%nat by lia. replace (Z.to_nat (4 * i + 1)) with (4 * k + 1)%nat by lia. replace (Z.to_nat (4 * i + 2)) with (4 * k + 2)%nat by lia. replace (Z.to_nat (4 * i + 3)) with (4 * k + 3)%nat by lia.
  change 32%nat with (8 + (8 + (8 + 8)))%nat at 1. rewrite !val_split, !part_part. change (Z.of_nat 8) with 8.
  replace (8 * (4 * k))%nat with (32 * k)%nat by lia. replace (8 * (4 * k + 1))%nat with (32 * k + 8)%nat by lia. replace (8 * (4 * k + 2))%nat with (32 * k + (8 + 8))%nat by lia. replace (8 * (4 * k + 3))%nat with (32 * k + (8 + (8 + 8)))%nat by lia. change (2 ^ 24) with 16777216. change (2 ^ 16) with 65536. change (2 ^ 8) with 256. lia.
Qed.
(** Words 0, 2 to l+1 and l+2 to 2l+1 of the data are l, A and B. *)
Definition hamming_input (e : vec) (l : nat) : list Z * list Z :=
  (map (fun j => words_of e (2 + Z.of_nat j)) (seq 0 l), map (fun j => words_of e (2 + Z.of_nat l + Z.of_nat j)) (seq 0 l)).
Theorem hamming_ok L g e c i o l t : Lite_MIPS L g e c i o -> (4 <= L <= 28)%nat -> (forall j, (j < 16)%nat -> words_of g (Z.of_nat j) = nth j (hamming_words 0) 0) ->
  words_of e 0 = Z.of_nat l -> 2 + 2 * Z.of_nat l <= 2 ^ Z.of_nat L -> (7 + 9 * l <= t < c)%nat ->
  words_of (o t) 1 = distance (fst (hamming_input e l)) (snd (hamming_input e l)) /\ forall j, 0 <= j < 2 ^ Z.of_nat L -> j <> 1 -> words_of (o t) j = words_of e j.
Proof.
  intros C HL HG HE HS Ht. assert (P4 : 2 ^ 4 <= 2 ^ Z.of_nat L <= 2 ^ 28) by (split; apply Z.pow_le_mono_r; lia). change (2 ^ 4) with 16 in P4. change (2 ^ 28) with 268435456 in P4. set (N := 2 ^ Z.of_nat L) in *.
  assert (BB : forall a, 0 <= bytes_of e a < 2 ^ 8) by (intros a; exact (val_bound 8 (part (8 * Z.to_nat a) e))).
  destruct (hamming_run (4 * N) (words_of g) (bytes_of e) l HG) with (t := t) as (z & R & M); [rewrite <- HE, (words_bytes e 0) by lia; reflexivity|lia|change (2 ^ 30) with 1073741824; lia|lia|].
  pose proof (mips_ok L g e c i o z t C ltac:(lia) ltac:(lia) R) as OUT. fold N in OUT.
  assert (LD : forall j, 0 <= j < N -> words_of (o t) j = load (mem z) Word (4 * j)).
  { intros j Hj. rewrite words_bytes by lia. cbn [load]. rewrite !OUT by lia. reflexivity. }
  assert (IN1 : array (bytes_of e) 8 l = fst (hamming_input e l)).
  { unfold array, hamming_input. cbn [fst]. apply map_ext_in. intros j _. rewrite words_bytes by lia. f_equal. lia. }
  assert (IN2 : array (bytes_of e) (8 + 4 * Z.of_nat l) l = snd (hamming_input e l)).
  { unfold array, hamming_input. cbn [snd]. apply map_ext_in. intros j _. rewrite words_bytes by lia. f_equal. lia. }
  rewrite IN1, IN2 in M. split.
  - rewrite LD by lia. rewrite M. change (4 * 1) with 4. apply load_store. pose proof (distance_bound (fst (hamming_input e l)) (snd (hamming_input e l))) as DB. assert (LI : length (fst (hamming_input e l)) = l) by (unfold hamming_input; cbn [fst]; rewrite map_length, seq_length; reflexivity). rewrite LI in DB. change (2 ^ 32) with 4294967296. lia.
  - intros j Hj J1. rewrite LD, words_bytes by lia. rewrite M. cbn [load]. unfold store. cbn [size].
    assert (O : forall b, 0 <= b < 4 -> (4 <=? 4 * j + b) && (4 * j + b <? 4 + 4) = false) by (intros b Hb; destruct (Z.leb_spec 4 (4 * j + b)), (Z.ltb_spec (4 * j + b) (4 + 4)); try reflexivity; lia).
    rewrite !O by lia. replace (4 * j) with (4 * j + 0) at 1 2 by lia. rewrite O by lia. reflexivity.
Qed.
(** Three words, of which two differ *)
Definition hamming_data : Z := image [3; 0; 5; 6; 7; 5; 1; 2].
Example hamming_case : exists c i o, Lite_MIPS 4 (of_val (image (hamming_words 0))) (of_val hamming_data) c i o /\ (34 < c)%nat /\ words_of (o 34%nat) 1 = 2.
Proof.
  destruct (mips_total 4 (of_val (image (hamming_words 0))) (of_val hamming_data) 35 (fun _ => tt)) as (o & C). exists 35%nat, (fun _ => tt), o. split; [exact C|]. split; [lia|].
  destruct (hamming_ok 4 _ _ _ _ _ 3 34 C) as (A & _); [lia| |vm_compute; reflexivity|vm_compute; discriminate|lia|rewrite A; vm_compute; reflexivity].
  intros j Hj. do 16 (destruct j as [|j]; [vm_compute; reflexivity|]). lia.
Qed.
(** Assembled as the architecture has it, the branch out of the loop leads back into it: for one
    word, which differs, the answer should be there after 16 instructions; it never is. *)
Definition wrong_words : Z -> Z := words_of (of_val (image (hamming_words 1))).
Lemma wrong_loop rg m h l j : rg 2 = rg 9 -> exists z, run true 64 wrong_words j (State 20 rg m h l) = Some z /\ mem z = m.
Proof.
  intros E. assert (W5 : wrong_words 5 = 0x10490008) by (vm_compute; reflexivity). assert (W13 : wrong_words 13 = 0x08000005) by (vm_compute; reflexivity).
  assert (S1 : step true 64 wrong_words (State 20 rg m h l) = Some (State 52 rg m h l)).
  { unfold step. cbn [pc]. change (20 <? 64) with true. change (20 / 4) with 5. rewrite W5. change (decode 0x10490008) with (Branch Eq false 2 9 8). cbn [exec reg pc mem hi lo taken]. rewrite E, Z.eqb_refl. reflexivity. }
  assert (S2 : step true 64 wrong_words (State 52 rg m h l) = Some (State 20 rg m h l)).
  { unfold step. cbn [pc]. change (52 <? 64) with true. change (52 / 4) with 13. rewrite W13. reflexivity. }
  enough (H : forall j, (exists z, run true 64 wrong_words j (State 20 rg m h l) = Some z /\ mem z = m) /\ (exists z, run true 64 wrong_words j (State 52 rg m h l) = Some z /\ mem z = m)) by apply H.
  clear j. intros j. induction j as [|j (IH1 & IH2)]; [split; eexists; (split; [reflexivity|reflexivity])|]. split.
  - change (exists z, match step true 64 wrong_words (State 20 rg m h l) with Some y => run true 64 wrong_words j y | None => None end = Some z /\ mem z = m). rewrite S1. exact IH2.
  - change (exists z, match step true 64 wrong_words (State 52 rg m h l) with Some y => run true 64 wrong_words j y | None => None end = Some z /\ mem z = m). rewrite S2. exact IH1.
Qed.
Theorem hamming_standard_wrong : should_show (image (hamming_words 1)) (image [1; 0; 5; 6]) 16 4 1 /\ forall k, (14 <= k)%nat -> shows (image (hamming_words 1)) (image [1; 0; 5; 6]) k 4 0.
Proof.
  split; [apply should_intro; vm_compute; reflexivity|]. intros k Hk o C. fold wrong_words in *.
  set (e := image [1; 0; 5; 6]) in *. assert (Q : option_map (fun z => (pc z, reg z 2, reg z 9, mem z 4)) (run true 64 wrong_words 14 (start (bytes_of (of_val e)))) = Some (20, 12, 12, 0)) by (vm_compute; reflexivity).
  generalize dependent (run_add true 64 wrong_words 14 (k - 14) (start (bytes_of (of_val e)))). destruct (run true 64 wrong_words 14 (start (bytes_of (of_val e)))) as [[p rg m h l]|]; [|discriminate Q]. intros RA. specialize (RA _ eq_refl).
  cbn [option_map pc reg mem] in Q. apply some_inj in Q. injection Q as -> E1 E2 E3.
  destruct (wrong_loop rg m h l (k - 14) ltac:(congruence)) as (z & R' & M). rewrite <- E3, <- M.
  apply (mips_ok 4 _ _ _ _ _ z k C); [lia|lia| |lia]. change (4 * 2 ^ Z.of_nat 4) with 64. fold wrong_words. replace k with (14 + (k - 14))%nat by lia. etransitivity; [exact RA|exact R'].
Qed.
