(** The accumulator run by the main programs, with inputs in files and with options
    that do not fit. *)
From Coq Require Import String ZArith NArith List Bool Lia Ascii.
From Verif Require Import Base Gate Circuit CycleModel Spec Plain Run Demo Results
  Proc Codec Tcp BN OT Rsa Rand Bounded Tables Protocol Transfer OutTransfer ProtocolOk ProtocolRun EndToEnd ProtocolDemo ProtocolResults
  Text Scd MapFile Trace Hex Format Programs ProgramsOk ProgramsDemo CmdText Mains.
Import ListNotations.
Open Scope Z_scope.

(** Two files: the circuit and the evaluator's inputs, a single line. *)
Definition acc_fs : text -> option text := fun t =>
  if named "acc.scd" t then Some acc_file else if named "e.txt" t then Some (str "1F4" ++ [nl])%list else None.
Definition acc_cmd (init input mask : string) (n : nat) (mode : string) (foot : bool) : cmdline :=
  mkCmd (str "acc.scd") (str "0") (str "0") (str init) (str input) n (str mask) 0 (Some (str mode)) false foot.
Definition acc_alice log (ca : cmdline) : proc (text * Z) :=
  let u := acc_u 0 consecutive in main_alice (u_AES u) (u_sha u) (u_coins u) log [] acc_fs (fun _ _ => 0) ca (u_ra u) (u_junkA u) (gmem_of (u_m u)).
Definition acc_bob log (cb : cmdline) : proc (text * Z) :=
  let u := acc_u 0 consecutive in main_bob (u_AES u) (u_sha u) (u_coins u) log [] acc_fs (fun _ _ => 0) cb (u_rnd u) (u_junkB u) (emem_of (u_m u)).

Lemma acc_cmd_started foot :
  started (arguments_of acc_fs (acc_cmd "1" "1b" "3" 3 "separated_clock" foot) separated_clock)
          (arguments_of acc_fs (acc_cmd "0" "e.txt" "03" 3 "1" foot) separated_clock) (acc_u 3 separated_clock).
Proof.
  split; [exists acc_file; split; [reflexivity|]; split; [reflexivity|]; apply acc_reads|..]; try (split; reflexivity); try reflexivity;
    repeat (split; [split; reflexivity|]); split; reflexivity.
Qed.

(** The masks 0 and 7: each party leaves all outputs to the other; both print 0 and
    end with SUCCESS. *)
Definition returned {A B} (c : config A B) : option (A * B) :=
  match pA c, pB c with Ret a, Ret b => Some (a, b) | _, _ => None end.
Lemma returned_is {A B} (c : config A B) a b : returned c = Some (a, b) -> pA c = Ret a /\ pB c = Ret b.
Proof. unfold returned. destruct (pA c); try discriminate. destruct (pB c); try discriminate. intros [= -> ->]. auto. Qed.
Lemma masks_undetected log : exists k d,
  reach k (start_cfg (acc_alice log (acc_cmd "1" "1b" "0" 3 "0" false)) (acc_bob log (acc_cmd "0" "1F4" "7" 3 "0" false))) d /\
  pA d = Ret (str "0" ++ [nl], SUCCESS)%list /\ pB d = Ret (str "0" ++ [nl], SUCCESS)%list.
Proof.
  destruct (exec_reach (N.to_nat 30000) (start_cfg (acc_alice log (acc_cmd "1" "1b" "0" 3 "0" false)) (acc_bob log (acc_cmd "0" "1F4" "7" 3 "0" false)))) as [k R].
  eexists. eexists. split; [exact R|]. apply returned_is. destruct log; vm_compute; reflexivity.
Qed.
(** Outputs that are not all 0. *)
Lemma acc_nonzero : acc_plain 0 (nth 0 (outputs acc) 0) = true.
Proof. vm_compute. reflexivity. Qed.
(** The masks 3 and 0: a deadlock. *)
Definition blocked {A B} (c : config A B) : bool :=
  match pA c, pB c, qAB c, qBA c with Recv (S _) _, Recv (S _) _, [], [] => true | _, _, _, _ => false end.
Lemma blocked_stuck {A B} (c : config A B) : blocked c = true -> stuck c /\ (forall a, pA c <> Ret a) /\ (forall b, pB c <> Ret b).
Proof.
  unfold blocked, stuck, Proc.stepA, Proc.stepB. destruct c as [p q ab ba]; cbn. destruct p as [| |[|n] k|]; try discriminate. destruct q as [| |[|n'] k'|]; try discriminate.
  destruct ab; [|discriminate]. destruct ba; [|discriminate]. intros _. repeat split; intros; discriminate.
Qed.
Lemma masks_deadlock log foot : exists k d,
  reach k (start_cfg (acc_alice log (acc_cmd "1" "1b" "3" 3 "0" foot)) (acc_bob log (acc_cmd "0" "1F4" "0" 3 "0" foot))) d /\
  stuck d /\ (forall a, pA d <> Ret a) /\ (forall b, pB d <> Ret b).
Proof.
  destruct (exec_reach (N.to_nat 30000) (start_cfg (acc_alice log (acc_cmd "1" "1b" "3" 3 "0" foot)) (acc_bob log (acc_cmd "0" "1F4" "0" 3 "0" foot)))) as [k R].
  eexists. eexists. split; [exact R|]. apply blocked_stuck. destruct log, foot; vm_compute; reflexivity.
Qed.
Theorem mismatch_refuted : ~ forall AESk sha coins log usage fs jf ca cb ra junk m rnd junk' m',
  cl_mask ca <> cl_mask cb -> parsed (cl_mask ca) <> parsed (cl_mask cb) ->
  forall k d, reach k (start_cfg (main_alice AESk sha coins log usage fs jf ca ra junk m) (main_bob AESk sha coins log usage fs jf cb rnd junk' m')) d ->
  forall ta sa tb sb, pA d = Ret (ta, sa) -> pB d = Ret (tb, sb) -> sa <> SUCCESS \/ sb <> SUCCESS.
Proof.
  intros H. destruct (masks_undetected true) as (k & d & R & HA & HB).
  unfold acc_alice, acc_bob in R.
  assert (E : SUCCESS <> SUCCESS \/ SUCCESS <> SUCCESS); [|destruct E as [N|N]; apply N; reflexivity].
  eapply H; [| |exact R|exact HA|exact HB]; [discriminate|vm_compute; discriminate].
Qed.

(** ** Files *)
(** Two lines of two digits; the first line belongs to cycle 0. *)
Definition two_lines : text := (str "a5" ++ [nl] ++ str "0F" ++ [nl])%list.
Lemma two_lines_file : file_of [str "a5"; str "0F"] two_lines.
Proof. left. reflexivity. Qed.
Lemma two_lines_write : lines_write 2 [str "a5"; str "0F"] (fun cy => nth cy [165; 15] 0)%N.
Proof. intros [|[|cy]] l E; cbn in E; [injection E as <-; split; reflexivity|injection E as <-; split; reflexivity|destruct cy; discriminate]. Qed.
(** A value that happens to be the name of a file. *)
Theorem shadowed_refuted : ~ forall fs t v, writes t v -> writes (ReadFileOrPassHex fs t) v.
Proof.
  intros H. specialize (H (fun t => if named "0" t then Some (str "a5" ++ [nl])%list else None) (str "0") 0%N ltac:(split; reflexivity)).
  destruct H as [H _]. vm_compute in H. discriminate.
Qed.
(** Lines ended by CR LF: only the last line is read. *)
Definition dos_lines : text := (str "a5" ++ ["013"%char; nl] ++ str "0F" ++ ["013"%char; nl])%list.
Lemma dos_read : parsed (ReadFileOrPassHex (fun _ => Some dos_lines) (str "in")) = 15%N.
Proof. vm_compute. reflexivity. Qed.

(** ** Texts of blocks *)
Theorem block_accepts_refuted : ~ forall s b, Str2Block s = Some b -> exists v, block_text s v.
Proof.
  intros H. destruct (H (str "12xyz") 18%N ltac:(vm_compute; reflexivity)) as (v & _ & E). vm_compute in E. discriminate.
Qed.
Lemma block_signs : Str2Block (str "-000000000000001") = Some (2 ^ 64 - 1)%N /\ Str2Block (str "-1") = Some 0%N /\ Str2Block (str "zz") = Some 0%N.
Proof. vm_compute. repeat split; reflexivity. Qed.

(** The plaintext program on the same files. *)
Lemma acc_plain_cmd : plain_started (let r := ReadFileOrPassHex acc_fs in
  mkPlain (acc_fs (str "acc.scd")) (r (str "0")) (r (str "1")) (r (str "0")) (r (str "0")) (r (str "1b")) (r (str "e.txt")) 3 0 consecutive) (acc_u 0 consecutive).
Proof.
  split; [exists acc_file; split; [reflexivity|]; apply acc_reads|..]; try (repeat (split; [split; reflexivity|]); split; reflexivity).
Qed.
