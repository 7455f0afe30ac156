(** Programs over real sockets: SendData and RecvData with fragmentation below
    the byte streams of [Proc]; and the check macros of util/log.h. *)
From Coq Require Import ZArith NArith List Bool Lia.
From Verif Require Import Base Gate Proc Codec Tcp BN.
Import ListNotations.
Open Scope Z_scope.

Inductive exec_result (A : Type) :=
| Done (a : A) (rest out : bytes) (env : list os_choice)
| Failed                               (* SendData / RecvData returned FAILURE *)
| Waiting                              (* blocked in a system call *)
| Crashed.
Arguments Done {A}. Arguments Failed {A}. Arguments Waiting {A}. Arguments Crashed {A}.

(** One party alone: [inp] is what arrives from the peer, [out] what was sent. *)
Fixpoint exec {A} (env : list os_choice) (p : proc A) (inp out : bytes) : exec_result A :=
  match p with
  | Ret a => Done a inp out env
  | Crash => Crashed
  | Send bs k =>
    match SendData env bs (Z.of_nat (length bs)) with
    | Finished true o env' => exec env' k inp (out ++ o)
    | Finished false _ _ => Failed
    | Blocked _ => Waiting
    end
  | Recv n k =>
    match RecvData env inp (Z.of_nat n) with
    | Finished true (got, rest) env' => exec env' (k got) rest out
    | Finished false _ _ => Failed
    | Blocked _ => Waiting
    end
  end.

Lemma send_loop_uses data len : forall env remain out, 0 <= remain < len ->
  forall o env', send_loop env data len remain out = Finished true o env' ->
  exists pre, env = pre ++ env' /\ ((forall r, In r pre -> 0 < r) -> Z.of_nat (length pre) <= len - remain).
Proof.
  induction env as [|r env IH]; intros remain out H o env' E; cbn [send_loop] in E; [discriminate|].
  destruct (Z.leb_spec r 0); [discriminate|].
  destruct (Z.ltb_spec (remain + Z.min r (len - remain)) len).
  - apply IH in E; [|lia]. destruct E as (pre & -> & L). exists (r :: pre). split; [auto|]. intros HP. cbn [length].
    specialize (L ltac:(intros; apply HP; right; auto)). lia.
  - injection E as <- <-. exists [r]. split; [auto|]. intros _. cbn. lia.
Qed.
Lemma recv_loop_uses len : forall env inp remain got, 0 <= remain < len ->
  forall o env', recv_loop env inp len remain got = Finished true o env' ->
  exists pre, env = pre ++ env' /\ ((forall r, In r pre -> 0 < r) -> Z.of_nat (length pre) <= len - remain).
Proof.
  induction env as [|r env IH]; intros inp remain got H o env' E; cbn [recv_loop] in E; [discriminate|].
  destruct (Z.leb_spec r 0); [discriminate|]. destruct inp as [|z t] eqn:EI; [discriminate|]. rewrite <- EI in *.
  assert (LI : 1 <= Z.of_nat (length inp)) by (rewrite EI; cbn [length]; lia).
  destruct (Z.ltb_spec (remain + Z.min (Z.min r (len - remain)) (Z.of_nat (length inp))) len).
  - apply IH in E; [|lia]. destruct E as (pre & -> & L). exists (r :: pre). split; [auto|]. intros HP. cbn [length].
    specialize (L ltac:(intros; apply HP; right; auto)). lia.
  - injection E as <- <-. exists [r]. split; [auto|]. intros _. cbn. lia.
Qed.

Lemma positive_app pre env : positive (pre ++ env) -> positive pre /\ positive env.
Proof. intros H. split; intros r Hr; apply H, in_app_iff; auto. Qed.

(** A byte-stream exchange goes through whatever the fragmentation. *)
Theorem exec_does {A} (p : proc A) i o a : does p i o a -> forall env rest out,
  positive env -> (length i + length o <= length env)%nat ->
  exists env', exec env p (i ++ rest) out = Done a rest (out ++ o) env'.
Proof.
  induction 1 as [a|bs k i o a H IH|bs n k i o a E H IH]; intros env rest out HP HL.
  - cbn. rewrite app_nil_r. eauto.
  - cbn [exec]. rewrite app_length in HL. destruct (send_data_ok env bs HP ltac:(lia)) as (env' & ES). rewrite ES.
    assert (U : exists pre, env = pre ++ env' /\ (positive pre -> (length pre <= length bs)%nat)).
    { unfold SendData in ES. destruct (Z.leb_spec (Z.of_nat (length bs)) 0).
      - injection ES as _ <-. exists []. split; [auto|]. cbn. lia.
      - apply send_loop_uses in ES; [|lia]. destruct ES as (pre & -> & L). exists pre. split; [auto|]. intros P. specialize (L P). lia. }
    destruct U as (pre & -> & L). apply positive_app in HP. destruct HP as [P1 P2]. specialize (L P1).
    rewrite app_length in HL. rewrite app_assoc. apply IH; [auto|lia].
  - cbn [exec]. rewrite app_length in HL. subst n. rewrite <- app_assoc.
    destruct (recv_data_ok env bs (i ++ rest) HP ltac:(lia)) as (env' & ES). rewrite ES.
    assert (U : exists pre, env = pre ++ env' /\ (positive pre -> (length pre <= length bs)%nat)).
    { unfold RecvData in ES. destruct (Z.leb_spec (Z.of_nat (length bs)) 0).
      - injection ES as _ _ <-. exists []. split; [auto|]. cbn. lia.
      - apply recv_loop_uses in ES; [|lia]. destruct ES as (pre & -> & L). exists pre. split; [auto|]. intros P. specialize (L P). lia. }
    destruct U as (pre & -> & L). apply positive_app in HP. destruct HP as [P1 P2]. specialize (L P1).
    rewrite app_length in HL. apply IH; [auto|lia].
Qed.

(** Whatever the environment, a program that completes has seen the byte stream
    and sent what the stream semantics says. *)
Theorem exec_sound {A} (p : proc A) : forall env inp out a rest out' env',
  exec env p inp out = Done a rest out' env' ->
  exists i o, inp = i ++ rest /\ out' = out ++ o /\ does p i o a.
Proof.
  induction p as [a0|bs k IH|n k IH|]; intros env inp out a rest out' env' E; cbn [exec] in E.
  - injection E as <- <- <- <-. exists [], []. rewrite app_nil_r. repeat split; auto. constructor.
  - destruct (SendData env bs (Z.of_nat (length bs))) as [[] o e|] eqn:ES; try discriminate.
    apply send_data_exact in ES. subst o. apply IH in E. destruct E as (i & o & -> & -> & D).
    exists i, (bs ++ o). rewrite app_assoc. repeat split; auto. constructor; auto.
  - destruct (RecvData env inp (Z.of_nat n)) as [[] [got r] e|] eqn:ES; try discriminate.
    apply recv_data_exact in ES; [|lia]. destruct ES as [-> L]. apply IH in E. destruct E as (i & o & -> & -> & D).
    exists (got ++ i), o. rewrite app_assoc. repeat split; auto. constructor; [lia|auto].
  - discriminate.
Qed.

(** * util/log.h:59-82: the check macros
    With ENABLE_LOG the macro returns FAILURE from the enclosing function,
    without it the result of the call is dropped. *)
Definition CHECK (log ok : bool) : bool := (negb log || ok)%bool.   (* [false]: return FAILURE *)

(** RecvBN (BN.cpp:117-135) over the socket calls.  [jsize], [jarr]: previous
    contents of the variable [size] and of the allocated buffer. *)
Definition RecvBN_env (log : bool) (env : list os_choice) (inp : bytes) (jsize : bytes) (jarr : nat -> bytes)
  : io_result (option BIGNUM * bytes) :=
  match RecvData env inp 4 with
  | Blocked (_, r) => Blocked (None, r)
  | Finished ok (got, r) env' =>
    if CHECK log ok then
      let size := to_int (Z.of_N (of_le (got ++ skipn (length got) jsize))) in
      if size <? 0 then Finished false (None, r) env'        (* bad_array_new_length *)
      else match RecvData env' r size with
      | Blocked (_, r') => Blocked (None, r')
      | Finished ok' (got', r') env'' =>
        if CHECK log ok' then
          Finished true (Some (BN_bin2bn (got' ++ skipn (length got') (jarr (Z.to_nat size)))), r') env''
        else Finished false (None, r') env''
      end
    else Finished false (None, r) env'
  end.

(** With logging a SUCCESS means that a length and that many bytes arrived. *)
Theorem recv_bn_logged env inp jsize jarr v rest env' :
  length jsize = 4%nat -> (forall n, length (jarr n) = n) ->
  RecvBN_env true env inp jsize jarr = Finished true (v, rest) env' ->
  exists b bs, inp = b ++ bs ++ rest /\ length b = 4%nat /\
    Z.of_nat (length bs) = to_int (Z.of_N (of_le b)) /\ v = Some (BN_bin2bn bs).
Proof.
  intros HJ HA. unfold RecvBN_env. destruct (RecvData env inp 4) as [ok [got r] e|[g r]] eqn:E1; [|discriminate].
  destruct ok; cbn [CHECK negb orb]; [|discriminate]. apply recv_data_exact in E1; [|lia]. destruct E1 as [-> L1].
  assert (G4 : length got = 4%nat) by lia. rewrite G4, skipn_all2, app_nil_r by lia.
  destruct (Z.ltb_spec (to_int (Z.of_N (of_le got))) 0) as [|P]; [discriminate|].
  destruct (RecvData e r _) as [ok [got' r'] e'|[g' r']] eqn:E2; [|discriminate].
  destruct ok; cbn [CHECK negb orb]; [|discriminate]. intros [= <- <- <-].
  apply recv_data_exact in E2; [|auto]. destruct E2 as [-> L2].
  exists got, got'. repeat split; auto. rewrite skipn_all2, app_nil_r; [auto|]. rewrite HA. lia.
Qed.

(** Without logging, when the connection fails at once the call still succeeds
    and the value is made of previous memory contents. *)
Theorem recv_bn_unlogged r1 r2 env inp jsize jarr :
  r1 <= 0 -> r2 <= 0 -> length jsize = 4%nat -> (forall n, length (jarr n) = n) ->
  0 < to_int (Z.of_N (of_le jsize)) ->
  RecvBN_env false (r1 :: r2 :: env) inp jsize jarr =
    Finished true (Some (BN_bin2bn (jarr (Z.to_nat (to_int (Z.of_N (of_le jsize)))))), inp) env.
Proof.
  intros H1 H2 HJ HA HP. unfold RecvBN_env, RecvData. cbn [recv_loop Z.leb Z.compare].
  destruct (Z.leb_spec r1 0); [|lia]. cbn [CHECK negb orb length skipn app].
  destruct (Z.ltb_spec (to_int (Z.of_N (of_le jsize))) 0); [lia|].
  destruct (Z.leb_spec (to_int (Z.of_N (of_le jsize))) 0); [lia|]. cbn [recv_loop].
  destruct (Z.leb_spec r2 0); [|lia]. reflexivity.
Qed.
