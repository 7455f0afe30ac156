(** The accumulator of FrontDemo tested the way the processor is. *)
From Coq Require Import String ZArith NArith List Bool Lia Ascii.
From Verif Require Import Base Gate Circuit CycleModel Spec Plain Run Demo Results
  Proc Codec Tcp BN Rand Bounded Tables Protocol Transfer OutTransfer ProtocolOk ProtocolRun EndToEnd ProtocolDemo ProtocolResults
  Text Scd Parse VerilogFront FrontDemo Trace Hex Format Programs ProgramsOk ProgramsDemo CmdText Mains TestRun.
Import ListNotations.
Open Scope Z_scope.

(** The files: register initialised by the garbler with 1; no inputs. *)
Definition test_fs (t : text) : option text :=
  if text_eqb t (str "acc.scd") then Some acc_file
  else if text_eqb t (str "/src/a23/acc/p.txt") then Some (str "0")
  else if text_eqb t (str "/src/a23/acc/test/g.txt") then Some (str "1")
  else if text_eqb t (str "/src/a23/acc/test/e.txt") then Some (str "0")
  else None.
Definition test_in : inputs := mkInputs 0 1 0 0 0 0.
Definition test_u : setup := example acc (mkOptions 3 0 0 last_clock false) test_in.
Definition test_V : nat -> Z -> bool := plain acc test_in.
Lemma test_good : good_run true test_u test_V 3.
Proof.
  constructor; [apply example_ready; cbn; auto using acc_wf; try lia; try reflexivity|apply plain_ok; apply acc_wf| | |].
  - unfold sess. replace (is_low true test_u) with true by reflexivity. apply free_upto_ok. vm_compute. reflexivity.
  - split; [cbn; lia|]. split; [|left; reflexivity]. intros cy _ [[H _] _]. apply H. reflexivity.
  - intros cy _ [H _]. exfalso. apply H. reflexivity.
Qed.
Lemma test_started out : started (gt_args (a23_alice test_fs (str "/src") (str "acc.scd") (str "acc") 3 0))
  (gt_args (a23_bob test_fs (str "/src") (str "acc.scd") (str "acc") 3 0 out)) test_u.
Proof.
  split; [exists acc_file; split; [reflexivity|]; split; [reflexivity|]; apply acc_reads|..]; try (split; reflexivity); try reflexivity;
    repeat (split; [split; reflexivity|]); split; reflexivity.
Qed.
Lemma test_plain_started : plain_started (a23_plain test_fs (str "/src") (str "acc.scd") (str "acc") 3 0) test_u.
Proof.
  split; [exists acc_file; split; [reflexivity|]; apply acc_reads|..]; try (repeat (split; [split; reflexivity|]); split; reflexivity).
Qed.
(** The evaluator is expected to print 01, and the test succeeds; were it expected to
    print 02, it would not. *)
Definition fine_os : os := mkOs (fun i => (2 <=? i)%nat) true true true true true false.
Lemma fine_works : all_works fine_os.
Proof. split; [exists 2%nat; split; [lia|reflexivity]|]. repeat split. Qed.
Lemma test_runs ja jb expected : exists server client,
  always_finish
    (Alice (u_AES test_u) (u_sha test_u) (u_coins test_u) ja (a23_alice test_fs (str "/src") (str "acc.scd") (str "acc") 3 0)
       (u_ra test_u) (u_junkA test_u) (gmem_of (u_m test_u)))
    (Bob (u_AES test_u) (u_sha test_u) (u_coins test_u) jb (a23_bob test_fs (str "/src") (str "acc.scd") (str "acc") 3 0 expected)
       (u_rnd test_u) (u_junkB test_u) (emem_of (u_m test_u))) server client /\
  (TcpipTestRun fine_os server client = SUCCESS <-> expected = str "01").
Proof.
  destruct (mask_zero_texts ja jb (fun _ _ => 0) _ _ _ test_u test_V 3 (repeat true (get_wire_size acc)) (repeat true (dff_size acc))
    (test_started expected) test_plain_started test_good eq_refl eq_refl ltac:(reflexivity) (repeat_length _ _) (repeat_length _ _)) as (t & AF & E).
  assert (X : t = str "01") by (vm_compute in E; injection E as <-; reflexivity). subst t.
  destruct (test_iff _ _ _ _ _ (a23_alice test_fs (str "/src") (str "acc.scd") (str "acc") 3 0)
    (a23_bob test_fs (str "/src") (str "acc.scd") (str "acc") 3 0 expected) _ _ _ _ _ _ _ _ fine_os AF fine_works) as (sv & cl & F & I).
  exists sv, cl. split; [exact F|]. rewrite I. cbn [a23_bob a23_data gt_output]. split; [intros [_ [= H]]; symmetry; exact H|intros ->; split; reflexivity].
Qed.
