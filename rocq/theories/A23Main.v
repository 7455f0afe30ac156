(** The functional test of the programs for the garbled processor,
    a23/lib/a23_main_testing.cpp, and two small programs: a23/temp/temp.c and
    a23/mem-test/mem-test.c. *)
From Coq Require Import ZArith NArith List Bool Lia Ascii String.
From Verif Require Import Base Codec Tcp Proc BN Text Hex CmdText Programs SchedSort Scd AesKey A23Int A23Sort A23Arith A23Aes A23Demo.
Import ListNotations.
Open Scope list_scope.
Open Scope Z_scope.
Notation length := List.length.

(** * Model *)
(** a23_main_testing.cpp:37-52; [v]: what the array holds before *)
Definition BNtoByteLittleEndian (bn : BIGNUM) (v : bytes) : option bytes :=
  let temp_len := Z.of_nat (BN_num_bytes bn) in
  let temp_byte := BN_bn2bin bn in
  for_ (length v) (fun i v =>
    if 0 <=? temp_len - Z.of_nat i - 1
    then do b <- rd temp_byte (temp_len - Z.of_nat i - 1); wr v (Z.of_nat i) b
    else wr v (Z.of_nat i) 0%N) v.
(** a23_main_testing.cpp:54-66; [temp_byte]: the new array, uninitialised *)
Definition ByteLittleEndiantoBN (v temp_byte : bytes) : option BIGNUM :=
  do temp_byte <- for_ (length v) (fun i temp_byte =>
    do b <- rd v (Z.of_nat (length v) - Z.of_nat i - 1); wr temp_byte (Z.of_nat i) b) temp_byte;
  Some (BN_bin2bn temp_byte).
(** a23_main_testing.cpp:18-20 *)
Definition TEST_SIZE : nat := 64.
Inductive test_outcome := TestFailure | TestPrints (t : text).
(** a23_main_testing.cpp:106-109 *)
Definition test_path (dir test_name : text) (file : string) : text :=
  (dir ++ list_ascii_of_string "/a23/" ++ test_name ++ list_ascii_of_string file)%list.
(** a23_main_testing.cpp:68-151, from the parsed options on.  [gc_main]: the program
    under test; [dir]: TINYGARBLE_SOURCE_DIR; [jg], [je], [jt]: uninitialised memory.
    An [int] has four bytes, the least significant one first. *)
Definition testing_main (gc_main : list Z -> list Z -> list Z -> option (list Z)) (fs : text -> option text)
    (dir test_name : text) (jg je jt : bytes) : option test_outcome :=
  match test_name with [] => Some TestFailure | _ =>
    let g_str := ReadFileOrPassHex fs (test_path dir test_name "/test/g.txt") in
    let e_str := ReadFileOrPassHex fs (test_path dir test_name "/test/e.txt") in
    do g <- BNtoByteLittleEndian (BN_hex2bn 0 g_str) jg;
    do e <- BNtoByteLittleEndian (BN_hex2bn 0 e_str) je;
    do o <- gc_main (bytes_to_ints g) (bytes_to_ints e) (repeat 0 TEST_SIZE);
    do o_bn <- ByteLittleEndiantoBN (ints_to_bytes o) jt;
    Some (TestPrints (BN_bn2hex o_bn))
  end.
(** A program for arrays of [ng], [ne] and [no] words that stays inside them, run on
    longer arrays *)
Definition on_longer (ng ne no : nat) (gc : list Z -> list Z -> list Z -> option (list Z)) (g e o : list Z) : option (list Z) :=
  do o1 <- gc (firstn ng g) (firstn ne e) (firstn no o); Some (o1 ++ skipn no o).

(** temp.c:9-11; on [unsigned int] *)
Definition hasCarry (a b s : Z) : Z :=
  let a := Z.shiftr a 31 in let b := Z.shiftr b 31 in let s := Z.shiftr s 31 in
  Z.lxor (Z.lxor (Z.lxor (Z.land (Z.lxor a s) (Z.lxor b s)) a) b) s.
(** temp.c:14-24 *)
Definition temp_main (n : nat) (g e o : list Z) : option (list Z) :=
  do s <- for_ n (fun i s =>
    let '(o, carry) := s in
    do a <- rd g (Z.of_nat i); do b <- rd e (Z.of_nat i);
    let r := to_uint (a + b + carry) in
    do o <- wr o (Z.of_nat i) r;
    Some (o, hasCarry a b r)) (o, 0);
  Some (fst s).
(** mem-test.c:6-14 *)
Definition mem_test_main (n : nat) (o : list Z) : option (list Z) :=
  for_ n (fun j o => wr o (Z.of_nat j) (Z.of_nat j)) o.

(** * Arrays that are filled from the start *)
Lemma fill_ok {A} (f : nat -> A) n (body : nat -> list A -> option (list A)) (v : list A) : length v = n ->
  (forall i t, (i < n)%nat -> length t = n -> body i t = wr t (Z.of_nat i) (f i)) ->
  for_ n body v = Some (map f (seq 0 n)).
Proof.
  intros L B.
  destruct (for_inv (fun k t => length t = n /\ forall j, (j < k)%nat -> nth_error t j = Some (f j)) n body v) as (r & F & LR & R).
  - split; [exact L|]. intros j J. lia.
  - intros k t K (LT & T). rewrite B by assumption. destruct (wr_ok t (Z.of_nat k) (f k) ltac:(lia)) as (t' & W).
    exists t'. split; [exact W|]. split; [rewrite (wr_length _ _ _ _ W); exact LT|]. intros j J. rewrite <- rd_nat.
    destruct (Nat.eq_dec j k) as [-> | NE]; [apply (rd_wr_same _ _ _ _ W)|]. rewrite (rd_wr_other _ _ _ _ _ W) by lia. rewrite rd_nat. apply T. lia.
  - rewrite F. f_equal. apply nth_ext with (d := f O) (d' := f O); [rewrite map_length, seq_length; exact LR|].
    intros i I. rewrite LR in I. rewrite map_nth, seq_nth by exact I. cbn. apply nth_error_nth, R, I.
Qed.

Lemma bn_bytes bn v : BNtoByteLittleEndian bn v = Some (le (length v) (mag bn)).
Proof.
  unfold BNtoByteLittleEndian. rewrite (fill_ok (fun i => (mag bn / 256 ^ N.of_nat i mod 256)%N)); [rewrite le_map; reflexivity|reflexivity|].
  intros i t I L. set (n := BN_num_bytes bn). destruct (Z.leb_spec 0 (Z.of_nat n - Z.of_nat i - 1)) as [H|H].
  - replace (Z.of_nat n - Z.of_nat i - 1) with (Z.of_nat (n - S i)) by lia. rewrite rd_nat. unfold BN_bn2bin. fold n.
    rewrite (nth_error_nth' _ 0%N) by (rewrite rev_length, le_length; lia). rewrite rev_nth by (rewrite le_length; lia). rewrite le_length.
    replace (n - S (n - S i))%nat with i by lia. rewrite le_nth by lia. reflexivity.
  - rewrite N.div_small; [reflexivity|]. eapply N.lt_le_trans; [apply num_bytes_bound|]. apply N.pow_le_mono_r; lia.
Qed.
Lemma bytes_bn v t : length t = length v -> ByteLittleEndiantoBN v t = Some (Z.of_N (of_le v)).
Proof.
  intros L. unfold ByteLittleEndiantoBN. rewrite (fill_ok (fun i => nth (length v - S i) v 0%N)); [|exact L|].
  - cbn [obind]. unfold BN_bin2bn. do 3 f_equal. rewrite <- map_rev.
    apply nth_ext with (d := 0%N) (d' := 0%N); [rewrite map_length, rev_length, seq_length; reflexivity|].
    rewrite map_length, rev_length, seq_length. intros i I.
    rewrite (nth_indep _ 0%N (nth (length v - 1) v 0%N)) by (rewrite map_length, rev_length, seq_length; exact I).
    rewrite (map_nth (fun i => nth (length v - S i) v 0%N) _ O). rewrite rev_nth by (rewrite seq_length; exact I). rewrite seq_length, seq_nth by lia.
    cbn [Nat.add]. f_equal. lia.
  - intros i t' I _. replace (Z.of_nat (length v) - Z.of_nat i - 1) with (Z.of_nat (length v - S i)) by lia. rewrite rd_nat.
    rewrite (nth_error_nth' _ 0%N) by lia. reflexivity.
Qed.

(** * Numbers and bytes *)
Lemma number_range l : 0 <= number l < 2 ^ (32 * Z.of_nat (length l)).
Proof.
  induction l as [|x l IH]; [cbn; lia|]. cbn [number List.length]. pose proof (Z.mod_pos_bound x (2 ^ 32) ltac:(lia)).
  replace (32 * Z.of_nat (S (length l))) with (32 + 32 * Z.of_nat (length l)) by lia. rewrite Z.pow_add_r by lia. nia.
Qed.
Lemma number_app a b : number (a ++ b) = number a + 2 ^ (32 * Z.of_nat (length a)) * number b.
Proof.
  induction a as [|x a IH]; [cbn [app number List.length]; change (2 ^ (32 * Z.of_nat 0)) with 1; lia|]. cbn [app number List.length]. rewrite IH.
  replace (32 * Z.of_nat (S (length a))) with (32 + 32 * Z.of_nat (length a)) by lia. rewrite Z.pow_add_r by lia. ring.
Qed.
Lemma number_zeros n : number (repeat 0 n) = 0.
Proof. induction n as [|n IH]; [reflexivity|]. cbn [repeat number]. rewrite IH. reflexivity. Qed.
Lemma number_firstn n l : (n <= length l)%nat -> number (firstn n l) = number l mod 2 ^ (32 * Z.of_nat n).
Proof.
  intros H. rewrite <- (firstn_skipn n l) at 2. rewrite number_app, firstn_length_le, Z.mul_comm, Z.mod_add by lia.
  symmetry. apply Z.mod_small. pose proof (number_range (firstn n l)) as R. rewrite firstn_length_le in R by exact H. exact R.
Qed.
Lemma number_of_bytes k : forall m, number (bytes_to_ints (le (4 * k) m)) = Z.of_N m mod 2 ^ (32 * Z.of_nat k) /\
  length (bytes_to_ints (le (4 * k) m)) = k /\ Forall is_int (bytes_to_ints (le (4 * k) m)).
Proof.
  induction k as [|k IH]; intros m; [split; [symmetry; apply Z.mod_1_r|split; [reflexivity|constructor]]|].
  replace (4 * S k)%nat with (S (S (S (S (4 * k)))))%nat by lia. cbn [le bytes_to_ints number List.length].
  rewrite !N.div_div by lia. set (m' := (m / (256 * 256 * 256 * 256))%N). destruct (IH m') as (N' & L & F). rewrite N', L. split; [|split; [reflexivity|constructor; [apply to_int_range|exact F]]].
  change (to_int ?x mod 2 ^ 32) with (to_uint (to_int x)). rewrite to_uint_to_int. unfold to_uint.
  subst m'. rewrite !N2Z.inj_mod, !N2Z.inj_div. change (Z.of_N (256 * 256 * 256 * 256)) with (2 ^ 32). change (Z.of_N (256 * 256 * 256)) with (2 ^ 24).
  change (Z.of_N (256 * 256)) with (2 ^ 16). change (Z.of_N 256) with (2 ^ 8). set (x := Z.of_N m).
  assert (X : x mod 2 ^ 8 + 2 ^ 8 * (x / 2 ^ 8 mod 2 ^ 8) + 2 ^ 16 * (x / 2 ^ 16 mod 2 ^ 8) + 2 ^ 24 * (x / 2 ^ 24 mod 2 ^ 8) = x mod 2 ^ 32).
  { change (2 ^ 32) with (2 ^ 8 * 2 ^ 24). rewrite (Z.rem_mul_r x (2 ^ 8)) by lia. change (2 ^ 24) with (2 ^ 8 * 2 ^ 16) at 3.
    rewrite (Z.rem_mul_r (x / 2 ^ 8) (2 ^ 8)) by lia. rewrite Z.div_div by lia. change (2 ^ 8 * 2 ^ 8) with (2 ^ 16).
    change (2 ^ 16) with (2 ^ 8 * 2 ^ 8) at 4. rewrite (Z.rem_mul_r (x / 2 ^ 16) (2 ^ 8)) by lia. rewrite Z.div_div by lia. change (2 ^ 16 * 2 ^ 8) with (2 ^ 24).
    ring. }
  rewrite X, Z.mod_mod by lia. replace (32 * Z.of_nat (S k)) with (32 + 32 * Z.of_nat k) by lia. rewrite Z.pow_add_r by lia.
  rewrite (Z.rem_mul_r x (2 ^ 32)) by lia. reflexivity.
Qed.
Lemma bytes_of_number l : Z.of_N (of_le (ints_to_bytes l)) = number l.
Proof.
  induction l as [|w l IH]; [reflexivity|]. cbn [number]. rewrite <- IH. unfold ints_to_bytes. cbn [flat_map]. unfold int_to_bytes at 1. cbn [map app of_le].
  set (r := of_le _). change (w mod 2 ^ 32) with (to_uint w). pose proof (to_uint_range w) as B. set (x := to_uint w) in *. clearbody x.
  rewrite !Z.shiftr_div_pow2 by lia. change (8 * 0) with 0. change (8 * 1) with 8. change (8 * 2) with 16. change (8 * 3) with 24. rewrite Z.pow_0_r, Z.div_1_r.
  repeat rewrite ?N2Z.inj_add, ?N2Z.inj_mul. rewrite !Z2N.id by (apply Z.mod_pos_bound; lia). change (Z.of_N 256) with 256.
  assert (X : x mod 256 + 256 * (x / 2 ^ 8 mod 256) + 2 ^ 16 * (x / 2 ^ 16 mod 256) + 2 ^ 24 * (x / 2 ^ 24 mod 256) = x).
  { pose proof (Z.div_mod x 256 ltac:(lia)). pose proof (Z.div_mod (x / 2 ^ 8) 256 ltac:(lia)) as D1. pose proof (Z.div_mod (x / 2 ^ 16) 256 ltac:(lia)) as D2.
    rewrite Z.div_div in D1, D2 by lia. change (2 ^ 8 * 256) with (2 ^ 16) in D1. change (2 ^ 16 * 256) with (2 ^ 24) in D2. change 256 with (2 ^ 8) in H at 1 2.
    rewrite (Z.mod_small (x / 2 ^ 24)) by (split; [apply Z.div_pos; lia|apply Z.div_lt_upper_bound; lia]). change 256 with (2 ^ 8) in *. lia. }
  lia.
Qed.

(** * The functional test *)
Definition testing_result gc fs dir name jg je jt (vg ve : N) : Prop :=
  exists g e, length g = TEST_SIZE /\ length e = TEST_SIZE /\ Forall is_int g /\ Forall is_int e /\
    number g = Z.of_N vg mod 2 ^ 2048 /\ number e = Z.of_N ve mod 2 ^ 2048 /\
    match gc g e (repeat 0 TEST_SIZE) with
    | Some o => length o = TEST_SIZE -> exists t, testing_main gc fs dir name jg je jt = Some (TestPrints t) /\ hexnum t = Some (Z.to_N (number o))
    | None => testing_main gc fs dir name jg je jt = None
    end.
Lemma testing_parsed gc fs dir name jg je jt vg ve :
  name <> [] -> length jg = (4 * TEST_SIZE)%nat -> length je = (4 * TEST_SIZE)%nat -> length jt = (4 * TEST_SIZE)%nat ->
  parsed (ReadFileOrPassHex fs (test_path dir name "/test/g.txt")) = vg ->
  parsed (ReadFileOrPassHex fs (test_path dir name "/test/e.txt")) = ve ->
  testing_result gc fs dir name jg je jt vg ve.
Proof.
  intros NE LG LE LT WG WE.
  destruct (number_of_bytes TEST_SIZE vg) as (NG & LG' & FG). destruct (number_of_bytes TEST_SIZE ve) as (NE' & LE' & FE).
  exists (bytes_to_ints (le (4 * TEST_SIZE) vg)), (bytes_to_ints (le (4 * TEST_SIZE) ve)).
  change (32 * Z.of_nat TEST_SIZE) with 2048 in NG, NE'. do 6 (split; [assumption|]).
  assert (RUN : testing_main gc fs dir name jg je jt = (do o <- gc (bytes_to_ints (le (4 * TEST_SIZE) vg)) (bytes_to_ints (le (4 * TEST_SIZE) ve)) (repeat 0 TEST_SIZE);
    do o_bn <- ByteLittleEndiantoBN (ints_to_bytes o) jt; Some (TestPrints (BN_bn2hex o_bn)))).
  { unfold testing_main. destruct name as [|c name]; [congruence|]. rewrite !bn_bytes, LG, LE. cbn [obind].
    change (mag (BN_hex2bn 0 ?t)) with (parsed t). rewrite WG, WE. reflexivity. }
  rewrite RUN. destruct (gc _ _ _) as [o|]; [|reflexivity]. intros LO. cbn [obind].
  rewrite bytes_bn by (rewrite (proj1 (ints_bytes_ok o)), LO; exact LT). cbn [obind]. eexists. split; [reflexivity|].
  rewrite <- bytes_of_number, N2Z.id. apply bn2hex_ok.
Qed.
Theorem testing_ok : forall gc fs dir name jg je jt vg ve,
  name <> [] -> length jg = (4 * TEST_SIZE)%nat -> length je = (4 * TEST_SIZE)%nat -> length jt = (4 * TEST_SIZE)%nat ->
  writes (ReadFileOrPassHex fs (test_path dir name "/test/g.txt")) vg ->
  writes (ReadFileOrPassHex fs (test_path dir name "/test/e.txt")) ve ->
  exists g e, length g = TEST_SIZE /\ length e = TEST_SIZE /\ Forall is_int g /\ Forall is_int e /\
    number g = Z.of_N vg mod 2 ^ 2048 /\ number e = Z.of_N ve mod 2 ^ 2048 /\
    match gc g e (repeat 0 TEST_SIZE) with
    | Some o => length o = TEST_SIZE -> exists t, testing_main gc fs dir name jg je jt = Some (TestPrints t) /\ hexnum t = Some (Z.to_N (number o))
    | None => testing_main gc fs dir name jg je jt = None
    end.
Proof. intros gc fs dir name jg je jt vg ve NE LG LE LT WG WE. apply testing_parsed; auto using parsed_ok. Qed.

(** Programs for shorter arrays *)
Lemma firstn_all_of {A} (P : A -> Prop) n l : Forall P l -> Forall P (firstn n l).
Proof. rewrite !Forall_forall. intros H x I. apply H. rewrite <- (firstn_skipn n l). apply in_or_app. left. exact I. Qed.
Lemma skipn_ext {A} n : forall l l' : list A, length l = length l' -> (forall i, (n <= i)%nat -> nth_error l i = nth_error l' i) -> skipn n l = skipn n l'.
Proof.
  induction n as [|n IH]; intros [|x l] [|y l'] L H; try discriminate L; try reflexivity.
  - cbn [skipn]. apply nth_ext with (d := x) (d' := x); [exact L|]. intros i I. pose proof (H i ltac:(lia)) as HI.
    rewrite (nth_error_nth' _ x I) in HI. symmetry in HI. apply nth_error_nth with (d := x) in HI. symmetry. exact HI.
  - cbn [skipn]. apply IH; [cbn in L; lia|]. intros i I. apply (H (S i)). lia.
Qed.
Lemma testing_longer ng ne no gc fs dir name jg je jt vg ve :
  (ng <= TEST_SIZE)%nat -> (ne <= TEST_SIZE)%nat -> (no <= TEST_SIZE)%nat ->
  name <> [] -> length jg = (4 * TEST_SIZE)%nat -> length je = (4 * TEST_SIZE)%nat -> length jt = (4 * TEST_SIZE)%nat ->
  writes (ReadFileOrPassHex fs (test_path dir name "/test/g.txt")) vg ->
  writes (ReadFileOrPassHex fs (test_path dir name "/test/e.txt")) ve ->
  exists g e, length g = ng /\ length e = ne /\ Forall is_int g /\ Forall is_int e /\
    number g = Z.of_N vg mod 2 ^ (32 * Z.of_nat ng) /\ number e = Z.of_N ve mod 2 ^ (32 * Z.of_nat ne) /\
    match gc g e (repeat 0 no) with
    | Some o => length o = no -> exists t, testing_main (on_longer ng ne no gc) fs dir name jg je jt = Some (TestPrints t) /\ hexnum t = Some (Z.to_N (number o))
    | None => testing_main (on_longer ng ne no gc) fs dir name jg je jt = None
    end.
Proof.
  intros SG SE SO NE LG LE LT WG WE. destruct (testing_ok (on_longer ng ne no gc) fs dir name jg je jt vg ve NE LG LE LT WG WE) as (g & e & L1 & L2 & F1 & F2 & N1 & N2 & R).
  exists (firstn ng g), (firstn ne e). split; [apply firstn_length_le; lia|]. split; [apply firstn_length_le; lia|].
  split; [apply firstn_all_of, F1|]. split; [apply firstn_all_of, F2|].
  assert (MM : forall v k, (k <= TEST_SIZE)%nat -> (v mod 2 ^ 2048) mod 2 ^ (32 * Z.of_nat k) = v mod 2 ^ (32 * Z.of_nat k)).
  { intros v k K. replace (2 ^ 2048) with (2 ^ (32 * Z.of_nat k) * 2 ^ (2048 - 32 * Z.of_nat k)).
    - rewrite Z.rem_mul_r by (try apply Z.pow_nonzero; try apply Z.pow_pos_nonneg; unfold TEST_SIZE in K; lia). rewrite (Z.mul_comm (2 ^ (32 * Z.of_nat k))), Z.mod_add by (apply Z.pow_nonzero; lia). apply Z.mod_mod. apply Z.pow_nonzero; lia.
    - rewrite <- Z.pow_add_r by (unfold TEST_SIZE in K; lia). f_equal. lia. }
  split; [rewrite number_firstn, N1, MM by lia; reflexivity|]. split; [rewrite number_firstn, N2, MM by lia; reflexivity|].
  unfold on_longer in R at 1.
  assert (Z0 : firstn no (repeat 0 TEST_SIZE) = repeat 0 no /\ skipn no (repeat 0 TEST_SIZE) = repeat 0 (TEST_SIZE - no)).
  { replace (repeat 0 TEST_SIZE) with (repeat 0 no ++ repeat 0 (TEST_SIZE - no)) by (rewrite <- repeat_app; f_equal; lia).
    split; [rewrite firstn_app, repeat_length, Nat.sub_diag, firstn_O, app_nil_r; apply firstn_all2; rewrite repeat_length; lia|].
    rewrite skipn_app, repeat_length, Nat.sub_diag, skipn_O, skipn_all2 by (rewrite repeat_length; lia). reflexivity. }
  destruct Z0 as [Z1 Z2]. rewrite Z1, Z2 in R. destruct (gc _ _ _) as [o|]; [|exact R]. intros LO. cbn [obind] in R.
  destruct R as (t & R & H); [rewrite app_length, repeat_length; lia|]. exists t. split; [exact R|]. rewrite H, number_app, number_zeros. do 2 f_equal. lia.
Qed.
(** The test of sum.c, whose file asks for 32 words *)
Theorem testing_sum : forall n fs dir name jg je jt vg ve, (n <= TEST_SIZE)%nat ->
  name <> [] -> length jg = (4 * TEST_SIZE)%nat -> length je = (4 * TEST_SIZE)%nat -> length jt = (4 * TEST_SIZE)%nat ->
  writes (ReadFileOrPassHex fs (test_path dir name "/test/g.txt")) vg ->
  writes (ReadFileOrPassHex fs (test_path dir name "/test/e.txt")) ve ->
  exists t, testing_main (on_longer n n n (sum_array_c Wraps n)) fs dir name jg je jt = Some (TestPrints t) /\
    hexnum t = Some ((vg + ve) mod 2 ^ (32 * N.of_nat n))%N.
Proof.
  intros n fs dir name jg je jt vg ve SN NE LG LE LT WG WE.
  destruct (testing_longer n n n (sum_array_c Wraps n) fs dir name jg je jt vg ve SN SN SN NE LG LE LT WG WE) as (g & e & L1 & L2 & F1 & F2 & N1 & N2 & R).
  destruct (sum_c_ok n g e (repeat 0 n) L1 L2 (repeat_length _ _) Wraps) as (o & S1 & LO & NO); [intros; discriminate|].
  rewrite S1 in R. destruct (R LO) as (t & T & H). exists t. split; [exact T|]. rewrite H, NO, N1, N2, <- Zplus_mod. f_equal.
  apply N2Z.inj. rewrite Z2N.id by (apply Z.mod_pos_bound, Z.pow_pos_nonneg; lia). rewrite N2Z.inj_mod, N2Z.inj_add, N2Z.inj_pow, N2Z.inj_mul, nat_N_Z. reflexivity.
Qed.
(** The test of mul.c *)
Theorem testing_mul : forall fs dir name jg je jt vg ve,
  name <> [] -> length jg = (4 * TEST_SIZE)%nat -> length je = (4 * TEST_SIZE)%nat -> length jt = (4 * TEST_SIZE)%nat ->
  writes (ReadFileOrPassHex fs (test_path dir name "/test/g.txt")) vg ->
  writes (ReadFileOrPassHex fs (test_path dir name "/test/e.txt")) ve ->
  exists t, testing_main (on_longer 1 1 1 (fun g e o => do r <- mul_main Wraps g e; wr o 0 r)) fs dir name jg je jt = Some (TestPrints t) /\
    hexnum t = Some ((vg * ve) mod 2 ^ 32)%N.
Proof.
  intros fs dir name jg je jt vg ve NE LG LE LT WG WE.
  destruct (testing_longer 1 1 1 (fun g e o => do r <- mul_main Wraps g e; wr o 0 r) fs dir name jg je jt vg ve) as (g & e & L1 & L2 & F1 & F2 & N1 & N2 & R); auto; try (unfold TEST_SIZE; lia).
  destruct g as [|x [|? ?]]; try discriminate. destruct e as [|y [|? ?]]; try discriminate.
  destruct (mul_total Wraps x y [] [] (or_introl eq_refl)) as (r & M & IR & MR & _). rewrite M in R. cbn [obind repeat] in R.
  change (wr [0] 0 r) with (Some [r]) in R. cbv iota in R. destruct (R eq_refl) as (t & T & H). exists t. split; [exact T|]. rewrite H. f_equal. cbn [number] in *.
  rewrite Z.mul_0_r, Z.add_0_r in *. rewrite MR. change (32 * Z.of_nat 1) with 32 in *.
  rewrite Zmult_mod, N1, N2, <- Zmult_mod. apply N2Z.inj. rewrite Z2N.id by (apply Z.mod_pos_bound; lia). rewrite N2Z.inj_mod, N2Z.inj_mul. reflexivity.
Qed.
(** Files that cannot be opened: with an absolute path the test runs on zeros. *)
Theorem testing_missing : forall gc fs dir name jg je jt,
  name <> [] -> length jg = (4 * TEST_SIZE)%nat -> length je = (4 * TEST_SIZE)%nat -> length jt = (4 * TEST_SIZE)%nat ->
  hd_error dir = Some "/"%char ->
  fs (test_path dir name "/test/g.txt") = None -> fs (test_path dir name "/test/e.txt") = None ->
  match gc (repeat 0 TEST_SIZE) (repeat 0 TEST_SIZE) (repeat 0 TEST_SIZE) with
  | Some o => length o = TEST_SIZE -> exists t, testing_main gc fs dir name jg je jt = Some (TestPrints t) /\ hexnum t = Some (Z.to_N (number o))
  | None => testing_main gc fs dir name jg je jt = None
  end.
Proof.
  intros gc fs dir name jg je jt NE LG LE LT D M1 M2.
  assert (P : forall p, fs (test_path dir name p) = None -> parsed (ReadFileOrPassHex fs (test_path dir name p)) = 0%N).
  { intros p M. unfold ReadFileOrPassHex. rewrite M. destruct dir as [|c dir]; [discriminate|]. injection D as ->. reflexivity. }
  destruct (testing_parsed gc fs dir name jg je jt 0 0 NE LG LE LT (P _ M1) (P _ M2)) as (g & e & L1 & L2 & F1 & F2 & N1 & N2 & R).
  assert (Z0 : forall n l, length l = n -> Forall is_int l -> number l = 0 -> l = repeat 0 n).
  { intros n l <- F. induction F as [|x l IX F IH]; [reflexivity|]. cbn [number List.length repeat]. intros H. pose proof (number_range l) as B.
    pose proof (Z.mod_pos_bound x (2 ^ 32) ltac:(lia)) as BX. assert (number l = 0) by lia. rewrite <- IH by assumption. f_equal.
    assert (X : to_uint x = to_uint 0) by (unfold to_uint; change (0 mod 2 ^ 32) with 0; lia).
    rewrite <- (to_int_id x IX). unfold to_int. unfold to_uint in X. rewrite X. reflexivity. }
  rewrite (Z0 _ g L1 F1 N1), (Z0 _ e L2 F2 N2) in R. exact R.
Qed.

(** * temp.c and mem-test.c *)
Lemma carry_bits a b c : 0 <= a < 2 ^ 32 -> 0 <= b < 2 ^ 32 -> 0 <= c <= 1 ->
  0 <= hasCarry a b (to_uint (a + b + c)) <= 1 /\ to_uint (a + b + c) + 2 ^ 32 * hasCarry a b (to_uint (a + b + c)) = a + b + c.
Proof.
  intros A B C. unfold hasCarry, to_uint. set (s := a + b + c).
  assert (SH : forall x, 0 <= x < 2 ^ 32 -> Z.shiftr x 31 = if x <? 2 ^ 31 then 0 else 1).
  { intros x X. rewrite Z.shiftr_div_pow2 by lia. destruct (Z.ltb_spec x (2 ^ 31)); [apply Z.div_small; lia|].
    symmetry. apply (Z.div_unique x (2 ^ 31) 1 (x - 2 ^ 31)); lia. }
  rewrite !SH by (try assumption; apply Z.mod_pos_bound; lia).
  assert (M : s mod 2 ^ 32 = if s <? 2 ^ 32 then s else s - 2 ^ 32).
  { destruct (Z.ltb_spec s (2 ^ 32)); [apply Z.mod_small; unfold s; lia|]. rewrite <- (Z.mod_add _ (-1)) by lia. rewrite Z.mod_small; unfold s in *; lia. }
  rewrite M. unfold s in *.
  destruct (Z.ltb_spec (a + b + c) (2 ^ 32)), (Z.ltb_spec a (2 ^ 31)), (Z.ltb_spec b (2 ^ 31));
    match goal with |- context [?t <? 2 ^ 31] => destruct (Z.ltb_spec t (2 ^ 31)) end; cbn; lia.
Qed.
Definition is_uint (z : Z) : Prop := 0 <= z < 2 ^ 32.
Theorem temp_ok : forall n g e o, length g = n -> length e = n -> (n <= length o)%nat -> Forall is_uint g -> Forall is_uint e ->
  exists o', temp_main n g e o = Some o' /\ length o' = length o /\ skipn n o' = skipn n o /\
    number (firstn n o') = (number g + number e) mod 2 ^ (32 * Z.of_nat n).
Proof.
  intros n g e o G E O FG FE. unfold temp_main.
  match goal with |- context [for_ n ?b _] => destruct (for_inv (fun k s => length (fst s) = length o /\ skipn n (fst s) = skipn n o /\ 0 <= snd s <= 1 /\
    val (fst s) k + 2 ^ (32 * Z.of_nat k) * snd s = val g k + val e k) n b (o, 0)) as ([o' c] & F & L & SK & C & V) end.
  - cbn. repeat split; lia.
  - intros k [o1 c] K (L & SK & C & V). cbn [fst snd] in *. rewrite !rd_get by lia. cbn [obind].
    assert (UG : is_uint (get g (Z.of_nat k))) by (unfold get; rewrite Nat2Z.id; apply Forall_nth; [exact FG|lia]).
    assert (UE : is_uint (get e (Z.of_nat k))) by (unfold get; rewrite Nat2Z.id; apply Forall_nth; [exact FE|lia]).
    destruct (carry_bits _ _ c UG UE C) as [C1 C2]. set (r := to_uint _) in *. set (c' := hasCarry _ _ _) in *.
    destruct (wr_ok o1 (Z.of_nat k) r) as [o2 W]; [lia|]. rewrite W. cbn [obind]. eexists. split; [reflexivity|]. cbn [fst snd].
    split; [rewrite (wr_length _ _ _ _ W); exact L|]. split.
    { rewrite <- SK. apply skipn_ext; [apply (wr_length _ _ _ _ W)|]. intros i I. rewrite <- !rd_nat. apply (rd_wr_other _ _ _ _ _ W). lia. }
    split; [exact C1|]. cbn [val]. rewrite (val_ext o2 o1) by (intros i I; apply (wr_get_lt _ _ _ _ _ W I)).
    rewrite (get_wr _ _ _ _ _ W), Z.eqb_refl by lia. unfold to_uint at 1 2 3.
    assert (RR : 0 <= r < 2 ^ 32) by (apply to_uint_range). rewrite !Z.mod_small by assumption.
    replace (32 * Z.of_nat (S k)) with (32 * Z.of_nat k + 32) by lia. rewrite Z.pow_add_r by lia.
    set (P := 2 ^ (32 * Z.of_nat k)) in *. set (Q := 2 ^ 32) in *. nia.
  - cbn [fst snd] in *. exists o'. rewrite F. cbn [obind fst]. split; [reflexivity|]. split; [exact L|]. split; [exact SK|].
    rewrite !number_val, G, E, <- V, Z.mul_comm, Z.mod_add by (apply Z.pow_nonzero; lia).
    rewrite firstn_length_le by lia. rewrite (val_ext (firstn n o') o'); [symmetry; apply Z.mod_small, val_range|].
    intros i I. unfold get. rewrite Nat2Z.id. rewrite <- (firstn_skipn n o') at 2. rewrite app_nth1 by (rewrite firstn_length_le; lia). reflexivity.
Qed.
Theorem temp_outside : forall n g e o, length g = n -> length e = n -> (length o < n)%nat -> temp_main n g e o = None.
Proof.
  intros n g e o G E O. unfold temp_main. match goal with |- context [for_ n ?b _] => set (body := b) end.
  assert (H : for_ (S (length o)) body (o, 0) = None).
  { rewrite for_S. destruct (for_ (length o) body (o, 0)) as [[o1 c]|] eqn:F; [|reflexivity]. cbn [obind].
    assert (L : length (fst (o1, c)) = length o).
    { apply (for_inv_partial (fun _ s => length (fst s) = length o) (length o) body (o, 0)) in F; [exact F|reflexivity|].
      intros i [o2 c2] s' I L B. unfold body in B. destruct (rd g _); [|discriminate]. destruct (rd e _); [|discriminate]. cbn [obind] in B.
      destruct (wr o2 _ _) eqn:W; [|discriminate]. cbn [obind] in B. injection B as <-. cbn [fst] in *. rewrite (wr_length _ _ _ _ W). exact L. }
    unfold body. rewrite !rd_get by lia. cbn [obind fst] in *. destruct (wr o1 _ _) eqn:W; [|reflexivity]. apply wr_bound in W. lia. }
  assert (F : for_ n body (o, 0) = None); [|rewrite F; reflexivity].
  clear - H O. induction n as [|k IH]; [lia|]. destruct (Nat.eq_dec k (length o)) as [->|NE]; [exact H|]. rewrite for_S, IH by lia. reflexivity.
Qed.
Theorem mem_test_ok : forall n o, length o = n -> mem_test_main n o = Some (map Z.of_nat (seq 0 n)).
Proof. intros n o L. apply (fill_ok Z.of_nat); [exact L|reflexivity]. Qed.

(** * A test that is run *)
(** a23/sum/test/g.txt, a23/sum/test/e.txt *)
Definition sum_files (p : text) : option text :=
  let lines ls := Some (flat_map (fun l => list_ascii_of_string l ++ [nl]) ls) in
  if list_eq_dec ascii_dec p (list_ascii_of_string "/src/a23/sum/test/g.txt") then lines ["deadbeef"; "ffffffff"; "00000000"]%string
  else if list_eq_dec ascii_dec p (list_ascii_of_string "/src/a23/sum/test/e.txt") then lines ["10101010"; "deadbeef"; "00000000"]%string
  else None.
Lemma sum_run :
  writes (ReadFileOrPassHex sum_files (test_path (list_ascii_of_string "/src") (list_ascii_of_string "sum") "/test/g.txt")) 0xffffffffdeadbeef /\
  writes (ReadFileOrPassHex sum_files (test_path (list_ascii_of_string "/src") (list_ascii_of_string "sum") "/test/e.txt")) 0xdeadbeef10101010 /\
  testing_main (on_longer 32 32 32 (sum_array_c Wraps 32)) sum_files (list_ascii_of_string "/src") (list_ascii_of_string "sum") (repeat 7%N 256) (repeat 7%N 256) (repeat 7%N 256)
    = Some (TestPrints (list_ascii_of_string "01DEADBEEEEEBDCEFF")).
Proof. split; [split; vm_compute; reflexivity|]. split; [split; vm_compute; reflexivity|]. vm_compute. reflexivity. Qed.
Theorem missing_reported_refuted : ~ forall gc fs dir name jg je jt,
  fs (test_path dir name "/test/g.txt") = None -> fs (test_path dir name "/test/e.txt") = None ->
  length jg = (4 * TEST_SIZE)%nat -> length je = (4 * TEST_SIZE)%nat -> length jt = (4 * TEST_SIZE)%nat ->
  testing_main gc fs dir name jg je jt = Some TestFailure.
Proof.
  intros H. specialize (H (fun _ _ o => Some o) (fun _ => None) ["/"%char] ["x"%char] (repeat 0%N 256) (repeat 0%N 256) (repeat 0%N 256) eq_refl eq_refl eq_refl eq_refl eq_refl).
  vm_compute in H. discriminate.
Qed.
Lemma temp_test : temp_main 2 [0xdeadbeef; 0xffffffff] [0x10101010; 0xdeadbeef] [5; 5; 5] = Some [0xeebdceff; 0xdeadbeee; 5] /\
  temp_main 32 (repeat 1 32) (repeat 1 32) [0] = None.
Proof. split; vm_compute; reflexivity. Qed.
