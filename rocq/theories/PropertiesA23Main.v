(** Theorems about the functional test of the programs for the garbled processor,
    and about two small programs. *)
From Coq Require Import ZArith NArith List Bool Lia Ascii String.
From Verif Require Import Base Codec Tcp Proc BN Text Hex CmdText Programs A23Int A23Arith A23Aes A23Demo A23Main.
Import ListNotations.
Open Scope list_scope.
Open Scope Z_scope.

(** * C97 The functional test *)
Theorem C97_functional_test : forall gc fs dir name jg je jt vg ve,
  name <> [] -> length jg = (4 * TEST_SIZE)%nat -> length je = (4 * TEST_SIZE)%nat -> length jt = (4 * TEST_SIZE)%nat ->
  writes (ReadFileOrPassHex fs (test_path dir name "/test/g.txt")) vg ->
  writes (ReadFileOrPassHex fs (test_path dir name "/test/e.txt")) ve ->
  exists g e, length g = TEST_SIZE /\ length e = TEST_SIZE /\ Forall is_int g /\ Forall is_int e /\
    number g = Z.of_N vg mod 2 ^ 2048 /\ number e = Z.of_N ve mod 2 ^ 2048 /\
    match gc g e (repeat 0 TEST_SIZE) with
    | Some o => length o = TEST_SIZE -> exists t, testing_main gc fs dir name jg je jt = Some (TestPrints t) /\ hexnum t = Some (Z.to_N (number o))
    | None => testing_main gc fs dir name jg je jt = None
    end.
Proof. exact testing_ok. Qed.
Print Assumptions C97_functional_test.
Theorem C97_test_of_sum : forall n fs dir name jg je jt vg ve, (n <= TEST_SIZE)%nat ->
  name <> [] -> length jg = (4 * TEST_SIZE)%nat -> length je = (4 * TEST_SIZE)%nat -> length jt = (4 * TEST_SIZE)%nat ->
  writes (ReadFileOrPassHex fs (test_path dir name "/test/g.txt")) vg ->
  writes (ReadFileOrPassHex fs (test_path dir name "/test/e.txt")) ve ->
  exists t, testing_main (on_longer n n n (sum_array_c Wraps n)) fs dir name jg je jt = Some (TestPrints t) /\
    hexnum t = Some ((vg + ve) mod 2 ^ (32 * N.of_nat n))%N.
Proof. exact testing_sum. Qed.
Print Assumptions C97_test_of_sum.
Theorem C97_test_of_mul : forall fs dir name jg je jt vg ve,
  name <> [] -> length jg = (4 * TEST_SIZE)%nat -> length je = (4 * TEST_SIZE)%nat -> length jt = (4 * TEST_SIZE)%nat ->
  writes (ReadFileOrPassHex fs (test_path dir name "/test/g.txt")) vg ->
  writes (ReadFileOrPassHex fs (test_path dir name "/test/e.txt")) ve ->
  exists t, testing_main (on_longer 1 1 1 (fun g e o => do r <- mul_main Wraps g e; wr o 0 r)) fs dir name jg je jt = Some (TestPrints t) /\
    hexnum t = Some ((vg * ve) mod 2 ^ 32)%N.
Proof. exact testing_mul. Qed.
Print Assumptions C97_test_of_mul.
Theorem C97_missing_files : forall gc fs dir name jg je jt,
  name <> [] -> length jg = (4 * TEST_SIZE)%nat -> length je = (4 * TEST_SIZE)%nat -> length jt = (4 * TEST_SIZE)%nat ->
  hd_error dir = Some "/"%char ->
  fs (test_path dir name "/test/g.txt") = None -> fs (test_path dir name "/test/e.txt") = None ->
  match gc (repeat 0 TEST_SIZE) (repeat 0 TEST_SIZE) (repeat 0 TEST_SIZE) with
  | Some o => length o = TEST_SIZE -> exists t, testing_main gc fs dir name jg je jt = Some (TestPrints t) /\ hexnum t = Some (Z.to_N (number o))
  | None => testing_main gc fs dir name jg je jt = None
  end.
Proof. exact testing_missing. Qed.
Print Assumptions C97_missing_files.
Theorem C97_missing_reported_refuted : ~ forall gc fs dir name jg je jt,
  fs (test_path dir name "/test/g.txt") = None -> fs (test_path dir name "/test/e.txt") = None ->
  length jg = (4 * TEST_SIZE)%nat -> length je = (4 * TEST_SIZE)%nat -> length jt = (4 * TEST_SIZE)%nat ->
  testing_main gc fs dir name jg je jt = Some TestFailure.
Proof. exact missing_reported_refuted. Qed.
Print Assumptions C97_missing_reported_refuted.
Example C97_example :
  writes (ReadFileOrPassHex sum_files (test_path (list_ascii_of_string "/src") (list_ascii_of_string "sum") "/test/g.txt")) 0xffffffffdeadbeef /\
  writes (ReadFileOrPassHex sum_files (test_path (list_ascii_of_string "/src") (list_ascii_of_string "sum") "/test/e.txt")) 0xdeadbeef10101010 /\
  testing_main (on_longer 32 32 32 (sum_array_c Wraps 32)) sum_files (list_ascii_of_string "/src") (list_ascii_of_string "sum") (repeat 7%N 256) (repeat 7%N 256) (repeat 7%N 256)
    = Some (TestPrints (list_ascii_of_string "01DEADBEEEEEBDCEFF")).
Proof. exact sum_run. Qed.

(** * C98 Two small programs *)
Theorem C98_temp : forall n g e o, length g = n -> length e = n -> (n <= length o)%nat -> Forall is_uint g -> Forall is_uint e ->
  exists o', temp_main n g e o = Some o' /\ length o' = length o /\ skipn n o' = skipn n o /\
    number (firstn n o') = (number g + number e) mod 2 ^ (32 * Z.of_nat n).
Proof. exact temp_ok. Qed.
Print Assumptions C98_temp.
Theorem C98_temp_outside : forall n g e o, length g = n -> length e = n -> (length o < n)%nat -> temp_main n g e o = None.
Proof. exact temp_outside. Qed.
Print Assumptions C98_temp_outside.
Theorem C98_mem_test : forall n o, length o = n -> mem_test_main n o = Some (map Z.of_nat (seq 0 n)).
Proof. exact mem_test_ok. Qed.
Print Assumptions C98_mem_test.
Example C98_example : temp_main 2 [0xdeadbeef; 0xffffffff] [0x10101010; 0xdeadbeef] [5; 5; 5] = Some [0xeebdceff; 0xdeadbeee; 5] /\
  temp_main 32 (repeat 1 32) (repeat 1 32) [0] = None.
Proof. exact temp_test. Qed.
