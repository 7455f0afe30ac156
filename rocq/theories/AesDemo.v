(** A whole run of both programs with the AES of crypto/aes.h. *)
From Coq Require Import ZArith NArith List Bool Lia.
From Verif Require Import Base Gate Circuit CycleModel Spec Run Plain Demo Results
  Proc Codec BN OT Rsa Rand Bounded Tables Protocol Transfer OutTransfer ProtocolOk ProtocolRun EndToEnd Modes ProtocolDemo ProtocolResults ProgramsDemo
  AesSpec AesBlock.
From Verif Require Aes.
Import ListNotations.
Open Scope N_scope.

(** The same function through the code of crypto/aes.h, which is quicker to evaluate. *)
Definition code_aes (g b : block) : block :=
  match set_key g [] (Aes.mkKey [] 0) with
  | Some k => match encrypt_blocks [b] k with Some [o] => o | _ => 0 end
  | None => 0
  end.
Lemma code_aes_ok g b : code_aes g b = aes128 g b.
Proof.
  unfold code_aes. destruct (blocks_ok g [] (Aes.mkKey [] 0)) as (k & E & F & _); [constructor|]. rewrite E, F. reflexivity.
Qed.
Definition real_u (mask : N) (mode : OutputMode) : setup :=
  let u := acc_u mask mode in
  mkSetup (u_c u) (u_opt u) (u_x u) code_aes (u_sha u) (u_coins u) (u_ra u) (u_rnd u) (u_junkA u) (u_junkB u) (u_m u).
Lemma real_ready mask mode : ready (real_u mask mode).
Proof.
  destruct (acc_ready mask mode). constructor; try assumption. intros k x _ _. cbn [real_u u_AES]. rewrite code_aes_ok. apply aes128_w128.
Qed.
Lemma real_free0 foot : no_collisions (session_of foot (real_u 0 consecutive)) 3.
Proof. destruct foot; apply free_upto_ok; vm_compute; reflexivity. Qed.
Local Opaque code_aes.
Lemma real_free mask mode foot : no_collisions (sess foot (real_u mask mode)) 3.
Proof.
  assert (E : no_collisions (session_of foot (real_u 0 consecutive)) 3) by apply real_free0.
  unfold sess. replace (is_low foot (real_u mask mode)) with foot by (destruct foot; reflexivity). exact E.
Qed.
Lemma real_good mask mode foot : good_run foot (real_u mask mode) acc_plain 3.
Proof.
  constructor; [apply real_ready|apply plain_ok; apply acc_wf|apply real_free| |].
  - split; [cbn; lia|]. split; [|left; reflexivity]. intros cy _ [[H _] _]. apply H. reflexivity.
  - intros cy _ [H _]. exfalso. apply H. reflexivity.
Qed.
