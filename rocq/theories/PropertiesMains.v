(** Theorems about the main programs and the texts they are given. *)
From Coq Require Import String ZArith NArith List Bool Lia Ascii.
From Verif Require Import Base Gate Circuit CycleModel Spec Plain Run Demo Results
  Proc Codec Tcp BN OT Rsa Rand Bounded Tables Protocol Transfer OutTransfer ProtocolOk ProtocolRun EndToEnd ProtocolDemo ProtocolResults
  Text Scd MapFile Trace Hex Format Programs ProgramsOk ProgramsDemo CmdText Mains MainsDemo.
Import ListNotations.
Open Scope Z_scope.

(** * C66 Inputs in a file, one line per cycle *)
Theorem C66_input_file : forall fs name f d ls v, fs name = Some f -> file_of ls f -> lines_write d ls v ->
  (N.of_nat (List.length ls * d) < 2 ^ 29)%N ->
  exists w, writes (ReadFileOrPassHex fs name) w /\
  forall cy i, (i < 4 * d)%nat -> N.testbit w (N.of_nat (cy * (4 * d) + i)) =
    if (cy <? List.length ls)%nat then N.testbit (v cy) (N.of_nat i) else false.
Proof. exact input_file_ok. Qed.
Print Assumptions C66_input_file.
Theorem C66_circuit_inputs : forall fs name f d ls v, fs name = Some f -> file_of ls f -> lines_write d ls v ->
  (N.of_nat (List.length ls * d) < 2 ^ 29)%N ->
  forall c x, (g_input x = parsed (ReadFileOrPassHex fs name) -> g_input_size c = (4 * d)%nat ->
    forall cy i, (cy < List.length ls)%nat -> (i < g_input_size c)%nat ->
      input_value c x cy (p_input_size c + i) = N.testbit (v cy) (N.of_nat i)) /\
  (e_input x = parsed (ReadFileOrPassHex fs name) -> e_input_size c = (4 * d)%nat ->
    forall cy i, (cy < List.length ls)%nat -> (i < e_input_size c)%nat ->
      input_value c x cy (p_input_size c + g_input_size c + i) = N.testbit (v cy) (N.of_nat i)).
Proof. exact file_inputs. Qed.
Print Assumptions C66_circuit_inputs.
Example C66_example : file_of [str "a5"; str "0F"] two_lines /\ lines_write 2 [str "a5"; str "0F"] (fun cy => nth cy [165; 15]%N 0%N) /\
  parsed (ReadFileOrPassHex (fun _ => Some two_lines) (str "in")) = 4005%N.
Proof. split; [exact two_lines_file|]. split; [exact two_lines_write|]. vm_compute. reflexivity. Qed.
Theorem C66_direct_value : forall fs t, fs t = None -> ReadFileOrPassHex fs t = t.
Proof. exact pass_hex. Qed.
Print Assumptions C66_direct_value.
Example C66_direct_example : parsed (ReadFileOrPassHex (fun _ => None) (str "a5")) = 165%N.
Proof. vm_compute. reflexivity. Qed.
(** A number given directly is replaced when a file has that name, and of a file with
    CR LF only the last line counts. *)
Theorem C66_direct_value_refuted : ~ forall fs t v, writes t v -> writes (ReadFileOrPassHex fs t) v.
Proof. exact shadowed_refuted. Qed.
Print Assumptions C66_direct_value_refuted.
Example C66_crlf : parsed (ReadFileOrPassHex (fun _ => Some dos_lines) (str "in")) = 15%N.
Proof. exact dos_read. Qed.

(** * C67 The main programs *)
Theorem C67_mains : forall usage ja jb log fsA fsB ca cb mode u V T,
  output_mode_of (cl_mode ca) = Some mode -> output_mode_of (cl_mode cb) = Some mode ->
  started (arguments_of fsA ca mode) (arguments_of fsB cb mode) u -> good_run (cl_low_mem_foot ca) u V T ->
  Z.of_nat (u_n u * output_size (u_c u)) < 2 ^ 31 ->
  (forall cy i, (cy < T)%nat -> ~ hidden (sess (cl_low_mem_foot ca) u) u V cy i) ->
  exists ta tb, always_finish
      (main_alice (u_AES u) (u_sha u) (u_coins u) log usage fsA ja ca (u_ra u) (u_junkA u) (gmem_of (u_m u)))
      (main_bob (u_AES u) (u_sha u) (u_coins u) log usage fsB jb cb (u_rnd u) (u_junkB u) (emem_of (u_m u)))
      ((ta ++ [nl])%list, SUCCESS) ((tb ++ [nl])%list, SUCCESS) /\
    displays mode (output_size (u_c u)) T ta (fun cy i => V cy (nth i (outputs (u_c u)) 0) && to_garbler u i) /\
    displays mode (output_size (u_c u)) T tb (fun cy i => V cy (nth i (outputs (u_c u)) 0) && negb (to_garbler u i)).
Proof. exact mains_ok. Qed.
Print Assumptions C67_mains.
(** The evaluator's inputs come from a file; the output mode is given by name and by number. *)
Example C67_example : forall foot,
  output_mode_of (cl_mode (acc_cmd "1" "1b" "3" 3 "separated_clock" foot)) = Some separated_clock /\
  output_mode_of (cl_mode (acc_cmd "0" "e.txt" "03" 3 "1" foot)) = Some separated_clock /\
  started (arguments_of acc_fs (acc_cmd "1" "1b" "3" 3 "separated_clock" foot) separated_clock)
          (arguments_of acc_fs (acc_cmd "0" "e.txt" "03" 3 "1" foot) separated_clock) (acc_u 3 separated_clock) /\
  good_run foot (acc_u 3 separated_clock) acc_plain 3 /\
  (forall cy i, (cy < 3)%nat -> ~ hidden (sess foot (acc_u 3 separated_clock)) (acc_u 3 separated_clock) acc_plain cy i).
Proof.
  intros foot. split; [reflexivity|]. split; [reflexivity|]. split; [apply acc_cmd_started|]. split; [apply acc_good|].
  intros cy i H. apply acc_visible. exact H.
Qed.

Theorem C67_plain_main : forall usage fs jf wl0 ll0 scd p_init g_init e_init p_input g_input e_input cycles period om mode u V T,
  scd <> [] -> output_mode_of om = Some mode ->
  let r := ReadFileOrPassHex fs in
  plain_started (mkPlain (fs scd) (r p_init) (r g_init) (r e_init) (r p_input) (r g_input) (r e_input) cycles period mode) u ->
  ready u -> consistent (u_c u) (u_x u) V -> executes u V T -> Z.of_nat (u_n u * output_size (u_c u)) < 2 ^ 31 ->
  List.length wl0 = get_wire_size (u_c u) -> List.length ll0 = dff_size (u_c u) ->
  exists t, main_plain usage fs jf true wl0 ll0 scd p_init g_init e_init p_input g_input e_input cycles period om = Some ((t ++ [nl])%list, SUCCESS) /\
    displays (output_mode (u_opt u)) (output_size (u_c u)) T t (fun cy i => V cy (nth i (outputs (u_c u)) 0)).
Proof. exact plain_main_ok. Qed.
Print Assumptions C67_plain_main.
(** The evaluator's inputs again from the file. *)
Example C67_plain_example : forall jf,
  plain_started (let r := ReadFileOrPassHex acc_fs in mkPlain (acc_fs (str "acc.scd")) (r (str "0")) (r (str "1")) (r (str "0")) (r (str "0")) (r (str "1b")) (r (str "e.txt")) 3 0 consecutive) (acc_u 0 consecutive) /\
  main_plain [] acc_fs jf true (repeat true 24) (repeat false 3) (str "acc.scd") (str "0") (str "1") (str "0") (str "0") (str "1b") (str "e.txt") 3 0 None
  = Some (str "0119" ++ [nl], SUCCESS)%list.
Proof.
  intros jf. split; [exact acc_plain_cmd|]. unfold main_plain. cbv beta iota zeta.
  change (acc_fs (str "acc.scd")) with (Some acc_file). unfold EvalauatePlaintextStr. cbn [pl_file]. rewrite acc_reads. vm_compute. reflexivity.
Qed.

(** * C68 The exit status *)
Theorem C68_status_with_log : forall AESk sha coins usage fs jf cl ra junk m mode i o r, output_mode_of (cl_mode cl) = Some mode ->
  does (GarbleStr AESk sha coins jf (arguments_of fs cl mode) ra junk m) i o r ->
  exists out st, does (main_alice AESk sha coins true usage fs jf cl ra junk m) i o (out, st) /\ (st = SUCCESS <-> r <> None).
Proof. exact status_with_log. Qed.
Print Assumptions C68_status_with_log.
Theorem C68_status_without_log : forall AESk sha coins usage fs jf cl ra junk m mode i o out st, output_mode_of (cl_mode cl) = Some mode ->
  does (main_alice AESk sha coins false usage fs jf cl ra junk m) i o (out, st) -> st = SUCCESS.
Proof. exact status_without_log. Qed.
Print Assumptions C68_status_without_log.
Theorem C68_status_refuted : ~ forall AESk sha coins usage fs jf cl ra junk m mode i o,
  output_mode_of (cl_mode cl) = Some mode ->
  does (GarbleStr AESk sha coins jf (arguments_of fs cl mode) ra junk m) i o None ->
  exists out st, does (main_alice AESk sha coins false usage fs jf cl ra junk m) i o (out, st) /\ st <> SUCCESS.
Proof. exact status_refuted. Qed.
Print Assumptions C68_status_refuted.
Theorem C68_plain_status_refuted : ~ forall usage fs jf files wl0 ll0 scd p_init g_init e_init p_input g_input e_input cycles period om out,
  main_plain usage fs jf files wl0 ll0 scd p_init g_init e_init p_input g_input e_input cycles period om = Some (out, SUCCESS) ->
  fs scd <> None.
Proof. exact plain_status_refuted. Qed.
Print Assumptions C68_plain_status_refuted.
(** A circuit file that does not exist. *)
Example C68_example : forall AESk sha coins ra junk m,
  let cl := mkCmd (str "missing.scd") (str "0") (str "0") (str "0") (str "0") 1 (str "0") 0 None false false in
  does (main_alice AESk sha coins true [] acc_fs (fun _ _ => 0) cl ra junk m) [] [] ([], FAILURE) /\
  does (main_alice AESk sha coins false [] acc_fs (fun _ _ => 0) cl ra junk m) [] [] ([nl], SUCCESS).
Proof. intros. split; constructor. Qed.

(** * C69 The exchange of options *)
Theorem C69_check : forall after1 after2 a b, proper a -> starts_with_nul after1 -> starts_with_nul after2 ->
  exists s, always_finish (CheckOptionsAlice a) (CheckOptionsBob after1 after2 b) s s /\ (s = SUCCESS <-> a = b) /\ (s = SUCCESS \/ s = FAILURE).
Proof. exact check_ok. Qed.
Print Assumptions C69_check.
Theorem C69_reads_beyond_buffer : forall a b after2, proper a -> of_scd a <> [] ->
  exists k d, reach k (start_cfg (CheckOptionsAlice a) (CheckOptionsBob [] after2 b)) d /\ pB d = Crash.
Proof. exact check_overruns. Qed.
Print Assumptions C69_reads_beyond_buffer.
Theorem C69_check_refuted : ~ forall after1 after2 a b s, proper a -> proper b ->
  runs (CheckOptionsAlice a) (CheckOptionsBob after1 after2 b) s s -> (s = SUCCESS <-> a = b).
Proof. exact check_refuted. Qed.
Print Assumptions C69_check_refuted.
Example C69_example : proper (mkOffer (str "a.scd") 3 (str "7f") true false) /\ starts_with_nul ["000"%char; "a"%char].
Proof.
  split; [|exists ["a"%char]; reflexivity].
  split; [intros H; cbn in H; intuition discriminate|]. split; [intros H; cbn in H; intuition discriminate|]. repeat split; reflexivity.
Qed.

(** * C70 Options that do not fit *)
Theorem C70_mismatch_noticed_refuted : ~ forall AESk sha coins log usage fs jf ca cb ra junk m rnd junk' m',
  cl_mask ca <> cl_mask cb -> parsed (cl_mask ca) <> parsed (cl_mask cb) ->
  forall k d, reach k (start_cfg (main_alice AESk sha coins log usage fs jf ca ra junk m) (main_bob AESk sha coins log usage fs jf cb rnd junk' m')) d ->
  forall ta sa tb sb, pA d = Ret (ta, sa) -> pB d = Ret (tb, sb) -> sa <> SUCCESS \/ sb <> SUCCESS.
Proof. exact mismatch_refuted. Qed.
Print Assumptions C70_mismatch_noticed_refuted.
(** One output: if neither mask claims it, it is lost; if both do, nothing happens any more. *)
Theorem C70_output_lost : forall ma mb off i ya yb bna bnb, secret_value (snd ya) -> secret_value (snd yb) ->
  N.testbit ma (N.of_nat i) = false -> N.testbit mb (N.of_nat i) = true ->
  exists n ab ba, reach n (start_cfg (garble_output ma off i ya bna) (evaluate_output mb off i yb bnb))
    (mkCfg (Ret (fst (BN_clear_bit bna (N.of_nat (off + i))))) (Ret (fst (BN_clear_bit bnb (N.of_nat (off + i))))) ab ba) /\
    List.length ab = 2%nat /\ List.length ba = 2%nat.
Proof. exact output_lost. Qed.
Print Assumptions C70_output_lost.
Theorem C70_output_stuck : forall ma mb off i ya yb bna bnb, secret_value (snd ya) -> secret_value (snd yb) ->
  N.testbit ma (N.of_nat i) = true -> N.testbit mb (N.of_nat i) = false ->
  stuck (start_cfg (garble_output ma off i ya bna) (evaluate_output mb off i yb bnb)).
Proof. exact output_stuck. Qed.
Print Assumptions C70_output_stuck.
Example C70_example :
  (forall log, exists k d,
    reach k (start_cfg (acc_alice log (acc_cmd "1" "1b" "0" 3 "0" false)) (acc_bob log (acc_cmd "0" "1F4" "7" 3 "0" false))) d /\
    pA d = Ret (str "0" ++ [nl], SUCCESS)%list /\ pB d = Ret (str "0" ++ [nl], SUCCESS)%list) /\
  acc_plain 0 (nth 0 (outputs acc) 0) = true /\
  (forall log foot, exists k d,
    reach k (start_cfg (acc_alice log (acc_cmd "1" "1b" "3" 3 "0" foot)) (acc_bob log (acc_cmd "0" "1F4" "0" 3 "0" foot))) d /\
    stuck d /\ (forall a, pA d <> Ret a) /\ (forall b, pB d <> Ret b)) /\
  secret_value SECRET.
Proof.
  split; [exact masks_undetected|]. split; [exact acc_nonzero|]. split; [exact masks_deadlock|]. split; discriminate.
Qed.

(** * C71 Blocks as text *)
Theorem C71_block_text : forall s v, block_text s v -> Str2Block s = Some v.
Proof. exact Str2Block_ok. Qed.
Print Assumptions C71_block_text.
Theorem C71_round_trip : forall hi lo gap, (hi < 2 ^ 64)%N -> (lo < 2 ^ 64)%N -> forallb is_pad gap = true ->
  Str2Block (to_string_hex hi 16 ++ gap ++ to_string_hex lo 16)%list = Some (MakeBlock hi lo).
Proof. exact block_round_trip. Qed.
Print Assumptions C71_round_trip.
Theorem C71_only_numerals_refuted : ~ forall s b, Str2Block s = Some b -> exists v, block_text s v.
Proof. exact block_accepts_refuted. Qed.
Print Assumptions C71_only_numerals_refuted.
Example C71_example : block_text (str "15141312_11100908 07060504_0302010f") 0x15141312111009080706050403_02010f /\
  to_string_hex 2748 4 = str "0abc" /\
  Str2Block (str "-000000000000001") = Some (2 ^ 64 - 1)%N /\ Str2Block (str "-1") = Some 0%N /\ Str2Block (str "zz") = Some 0%N.
Proof. split; [split; [cbn; lia|vm_compute; reflexivity]|]. split; [vm_compute; reflexivity|]. exact block_signs. Qed.

(** * C72 Comparing results *)
Theorem C72_icompare : forall a b v w, hexnum a = Some v -> hexnum b = Some w -> List.length a = List.length b ->
  icompare a b = true <-> v = w.
Proof. exact icompare_ok. Qed.
Print Assumptions C72_icompare.
Theorem C72_icompare_text : forall a b, icompare a b = true <-> Forall2 same_letter a b.
Proof. exact icompare_text. Qed.
Print Assumptions C72_icompare_text.
Example C72_example : icompare (str "00fF") (str "00Ff") = true /\ icompare (str "0A") (str "0b") = false /\ icompare (str "0A") (str "a") = false /\
  icompare (str "aZ[`z") (str "Az[`Z") = true /\ icompare (str "@") (str "`") = false.
Proof. repeat split; reflexivity. Qed.

(** * C73 The oblivious transfer program *)
Theorem C73_ot_main : forall key x k s0 s1 m0 m1 t, key_ok key -> key_sized key -> draws_sized x ->
  block_text s0 m0 -> block_text s1 m1 -> Z.of_N t < 2 ^ 31 ->
  runs (ot_main_alice key x s0 s1) (ot_main_bob k (dec t)) SUCCESS (Some (if (t =? 1)%N then m1 else m0), SUCCESS).
Proof. exact ot_main_ok. Qed.
Print Assumptions C73_ot_main.
(** The messages that are the defaults, a key of toy size. *)
Example C73_example : key_ok key33 /\ key_sized key33 /\ draws_sized (fun i b => if b : bool then 5 else 6) /\
  block_text (str "15141312_11100908_07060504_03020100") 0x15141312111009080706050403020100 /\
  block_text (str "00010203_04050607_08091011_12131415") 0x00010203040506070809101112131415 /\ dec 1 = str "1".
Proof.
  split; [exact key33_ok|]. split; [split; reflexivity|]. split; [intros i []; split; reflexivity || discriminate|].
  split; [split; [cbn; lia|vm_compute; reflexivity]|]. split; [split; [cbn; lia|vm_compute; reflexivity]|]. reflexivity.
Qed.
