(** Claims about the text the programs print and the packing helpers of
    util/util.cpp.  Each theorem is followed by its assumptions and an instance. *)
From Coq Require Import ZArith NArith List Bool Lia Ascii String.
From Verif Require Import Base Gate Circuit Proc Codec Tcp BN Text Hex Protocol Format FormatOk.
Import ListNotations.
Open Scope Z_scope.

(** * C37 Printing the outputs *)
Theorem C37_consecutive : forall low n T v,
  hexnum ((if low : bool then OutputBN2StrLowMem else OutputBN2StrHighMem) n (Z.of_N v) T consecutive) = Some v.
Proof. exact consecutive_ok. Qed.
Print Assumptions C37_consecutive.
Theorem C37_separated_clock : forall low n T v, Z.of_nat (T * n) < 2 ^ 31 -> Z.of_nat n < 2 ^ 31 -> exists ls,
  (if low : bool then OutputBN2StrLowMem else OutputBN2StrHighMem) n (Z.of_N v) T separated_clock = join ls /\
  List.length ls = T /\ forall i l, nth_error ls i = Some l -> shows l v (i * n) n.
Proof. exact separated_clock_ok. Qed.
Print Assumptions C37_separated_clock.
Theorem C37_last_clock : forall n T v, (0 < T)%nat -> Z.of_nat (T * n) < 2 ^ 31 -> Z.of_nat n < 2 ^ 31 ->
  shows (OutputBN2StrHighMem n (Z.of_N v) T last_clock) v ((T - 1) * n) n /\
  hexnum (OutputBN2StrLowMem n (Z.of_N v) T last_clock) = Some v.
Proof. exact last_clock_ok. Qed.
Print Assumptions C37_last_clock.
(** Three cycles of six outputs. *)
Example C37_example : let v := (0x3C * 2 ^ 12 + 0x05 * 2 ^ 6 + 0x3F)%N in
  OutputBN2StrHighMem 6 (Z.of_N v) 3 consecutive = list_ascii_of_string "03C17F" /\
  OutputBN2StrHighMem 6 (Z.of_N v) 3 separated_clock = join (map list_ascii_of_string ["3F"; "05"; "3C"]%string) /\
  OutputBN2StrHighMem 6 (Z.of_N v) 3 last_clock = list_ascii_of_string "3C".
Proof. repeat split; vm_compute; reflexivity. Qed.

(** * C38 Bits, hexadecimal digits and fields *)
Theorem C38_hex2bin : forall t v, hexnum t = Some v -> Z.of_nat (List.length t) < 2 ^ 16 ->
  binnum (hex2bin t) = Some v /\ List.length (hex2bin t) = (4 * List.length t)%nat.
Proof. exact hex2bin_ok. Qed.
Print Assumptions C38_hex2bin.
Theorem C38_bin2hex : forall s v, binnum s = Some v -> Z.of_nat (List.length s) < 2 ^ 16 - 4 ->
  hexnum (bin2hex s) = Some v /\ List.length (bin2hex s) = (List.length s / 4 + 1)%nat.
Proof. exact bin2hex_ok. Qed.
Print Assumptions C38_bin2hex.
Theorem C38_format : forall xs ws, List.length xs = List.length ws -> Forall (fun w => 0 <= w <= 64) ws -> sum ws < 2 ^ 16 - 4 ->
  exists t, formatGCInputString xs ws = Some t /\ hexnum t = Some (Z.to_N (pack xs ws)) /\ Z.of_nat (List.length t) = sum ws / 4 + 1.
Proof. exact format_ok. Qed.
Print Assumptions C38_format.
Theorem C38_parse : forall out t v ws off, hexnum t = Some v -> Z.of_nat (List.length t) < 2 ^ 16 ->
  List.length out = List.length ws -> (List.length ws < 256)%nat -> Forall (fun w => 0 <= w <= 64) ws -> 0 <= off -> off + sum ws < 2 ^ 16 ->
  ~ In (- 2 ^ 63) (fields ws off (Z.of_N v)) ->
  parseGCOutputString out t ws off = Some (fields ws off (Z.of_N v)).
Proof. exact parse_ok. Qed.
Print Assumptions C38_parse.
Theorem C38_round_trip : forall xs ws out, List.length xs = List.length ws -> List.length out = List.length ws -> (List.length ws < 256)%nat ->
  Forall (fun w => 0 < w <= 64) ws -> sum ws < 2 ^ 16 - 4 ->
  (forall x w, In (x, w) (combine xs ws) -> - 2 ^ (w - 1) <= x < 2 ^ (w - 1) /\ x <> - 2 ^ 63) ->
  exists t, formatGCInputString xs ws = Some t /\ parseGCOutputString out t ws 0 = Some xs.
Proof. exact fields_round_trip. Qed.
Print Assumptions C38_round_trip.
Theorem C38_mask : forall g e left, 0 <= g -> 0 <= e -> g + e < 2 ^ 16 - 4 -> exists m, hexnum (formatGCOutputMask g e left) = Some m /\
  forall i, 0 <= i < g + e -> N.testbit m (Z.to_N i) = (if left : bool then e <=? i else i <? g).
Proof. exact mask_ok. Qed.
Print Assumptions C38_mask.
(** A 5-bit, a 12-bit and a 3-bit field. *)
Example C38_example :
  formatGCInputString [-9; 1030; 3] [5; 12; 3] = Some (list_ascii_of_string "0BA033") /\
  parseGCOutputString [0; 0; 0] (list_ascii_of_string "0BA033") [5; 12; 3] 0 = Some [-9; 1030; 3] /\
  formatGCOutputMask 3 5 true = list_ascii_of_string "0E0".
Proof. repeat split; vm_compute; reflexivity. Qed.
(** Without the bound on the length the claim is false: lengths are kept in 16 bits,
    and every string of 65532 bits is converted to nothing. *)
Theorem C38_long_strings_refuted : ~ forall s v, binnum s = Some v -> hexnum (bin2hex s) = Some v.
Proof. exact bin2hex_long_refuted. Qed.
Print Assumptions C38_long_strings_refuted.
(** Nor does the claim hold for the least 64-bit number: its negation overflows. *)
Theorem C38_least_number_refuted : ~ forall xs ws out, List.length xs = List.length ws -> List.length out = List.length ws ->
  (List.length ws < 256)%nat -> Forall (fun w => 0 < w <= 64) ws -> sum ws < 2 ^ 16 - 4 ->
  (forall x w, In (x, w) (combine xs ws) -> - 2 ^ (w - 1) <= x < 2 ^ (w - 1)) ->
  exists t, formatGCInputString xs ws = Some t /\ parseGCOutputString out t ws 0 = Some xs.
Proof. exact least_number_refuted. Qed.
Print Assumptions C38_least_number_refuted.
