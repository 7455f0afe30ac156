(** tcpip/tcpip.cpp: SendData and RecvData over a socket whose [write] and
    [read] transfer an arbitrary part of what is asked. *)
From Coq Require Import ZArith NArith List Bool Lia.
From Verif Require Import Base Proc.
Import ListNotations.
Open Scope Z_scope.

(** What the operating system decides for one call: 0 or a negative value is
    returned as it is (closed connection, error); a positive value is the number
    of bytes it is willing to move, the call moves at most what was asked. *)
Notation os_choice := Z (only parsing).

Inductive io_result (A : Type) :=
| Finished (ok : bool) (a : A) (env : list os_choice)   (* returned SUCCESS / FAILURE *)
| Blocked (a : A).                                      (* waits inside read or write *)
Arguments Finished {A}. Arguments Blocked {A}.

(** The part [from..from+n) of a buffer. *)
Definition slice (data : bytes) (from n : Z) : bytes := firstn (Z.to_nat n) (skipn (Z.to_nat from) data).

(** tcpip.cpp:143-155.  [remain]: remain_len (bytes already written), [out]:
    bytes handed to the network so far. *)
Fixpoint send_loop (env : list os_choice) (data : bytes) (len remain : Z) (out : bytes) : io_result bytes :=
  match env with
  | [] => Blocked out
  | r :: env' =>
    if r <=? 0 then Finished false out env'
    else
      let len_ret := Z.min r (len - remain) in
      let out' := out ++ slice data remain len_ret in
      if remain + len_ret <? len then send_loop env' data len (remain + len_ret) out'
      else Finished true out' env'
  end.
(** tcpip.cpp:139-158; [len] is an [int]. *)
Definition SendData (env : list os_choice) (data : bytes) (len : Z) : io_result bytes :=
  if len <=? 0 then Finished true [] env else send_loop env data len 0 [].

(** tcpip.cpp:165-177.  [inp]: bytes that have arrived or will arrive; a read
    waits while there is none.  [got]: bytes stored in the buffer. *)
Fixpoint recv_loop (env : list os_choice) (inp : bytes) (len remain : Z) (got : bytes) : io_result (bytes * bytes) :=
  match env with
  | [] => Blocked (got, inp)
  | r :: env' =>
    if r <=? 0 then Finished false (got, inp) env'
    else match inp with
    | [] => Blocked (got, inp)
    | _ :: _ =>
      let len_ret := Z.min (Z.min r (len - remain)) (Z.of_nat (length inp)) in
      let got' := got ++ slice inp 0 len_ret in
      let inp' := skipn (Z.to_nat len_ret) inp in
      if remain + len_ret <? len then recv_loop env' inp' len (remain + len_ret) got'
      else Finished true (got', inp') env'
    end
  end.
(** tcpip.cpp:160-179 *)
Definition RecvData (env : list os_choice) (inp : bytes) (len : Z) : io_result (bytes * bytes) :=
  if len <=? 0 then Finished true ([], inp) env else recv_loop env inp len 0 [].

(** The conversion of a byte count to the [int] parameter. *)
Definition to_int (n : Z) : Z :=
  let m := n mod 2 ^ 32 in if m <? 2 ^ 31 then m else m - 2 ^ 32.

(** * Facts *)
Lemma firstn_add {A} n m (l : list A) : firstn (n + m) l = firstn n l ++ firstn m (skipn n l).
Proof. revert l; induction n; intros [|x l]; cbn; rewrite ?firstn_nil; auto. f_equal. auto. Qed.

Lemma firstn_slice data from n : 0 <= from -> 0 <= n ->
  firstn (Z.to_nat from) data ++ slice data from n = firstn (Z.to_nat (from + n)) data.
Proof.
  intros H1 H2. unfold slice. rewrite Z2Nat.inj_add by auto. symmetry. apply firstn_add.
Qed.

Lemma send_loop_prefix data len : forall env remain out, 0 <= remain <= len ->
  out = firstn (Z.to_nat remain) data ->
  match send_loop env data len remain out with
  | Finished true o _ => o = firstn (Z.to_nat len) data
  | Finished false o _ => exists n, o = firstn n data
  | Blocked o => exists n, o = firstn n data
  end.
Proof.
  induction env as [|r env IH]; intros remain out H HO; cbn [send_loop]; [eauto|].
  destruct (Z.leb_spec r 0); [eauto|].
  set (k := Z.min r (len - remain)).
  assert (E : out ++ slice data remain k = firstn (Z.to_nat (remain + k)) data)
    by (rewrite HO; apply firstn_slice; unfold k; lia).
  destruct (Z.ltb_spec (remain + k) len).
  - apply IH; [unfold k; lia|auto].
  - rewrite E. f_equal. f_equal. unfold k in *. lia.
Qed.
Lemma send_loop_live data len : forall env remain out, 0 <= remain < len ->
  (forall r, In r env -> 0 < r) -> len - remain <= Z.of_nat (length env) ->
  exists o env', send_loop env data len remain out = Finished true o env'.
Proof.
  induction env as [|r env IH]; intros remain out H HP HL; cbn [send_loop length] in *; [lia|].
  pose proof (HP r (or_introl eq_refl)). destruct (Z.leb_spec r 0); [lia|].
  destruct (Z.ltb_spec (remain + Z.min r (len - remain)) len).
  - apply IH; [lia| |lia]. intros r' Hr. apply HP. right; auto.
  - eauto.
Qed.
Definition total (l : list Z) : Z := fold_right Z.add 0 l.
Lemma total_nonneg l : (forall r, In r l -> 0 < r) -> 0 <= total l.
Proof.
  induction l as [|a l IH]; intros H; cbn; [lia|].
  pose proof (H a (or_introl eq_refl)). specialize (IH ltac:(intros; apply H; right; auto)). unfold total in *. lia.
Qed.
Lemma send_loop_fail data len r rest : r <= 0 -> forall pos remain out, 0 <= remain < len ->
  (forall r, In r pos -> 0 < r) -> total pos < len - remain ->
  exists o, send_loop (pos ++ r :: rest) data len remain out = Finished false o rest.
Proof.
  intros HR. induction pos as [|a pos IH]; intros remain out H HP HT; cbn [send_loop app].
  - destruct (Z.leb_spec r 0); [eauto|lia].
  - pose proof (HP a (or_introl eq_refl)). destruct (Z.leb_spec a 0); [lia|].
    assert (HP' : forall r, In r pos -> 0 < r) by (intros; apply HP; right; auto).
    pose proof (total_nonneg pos HP'). change (total (a :: pos)) with (a + total pos) in HT.
    destruct (Z.ltb_spec (remain + Z.min a (len - remain)) len); [|lia].
    apply IH; [lia|auto|lia].
Qed.

Lemma skipn_skipn' {A} n m (l : list A) : skipn n (skipn m l) = skipn (m + n) l.
Proof. revert l; induction m; intros l; cbn; [auto|]. destruct l; [apply skipn_nil|auto]. Qed.

Lemma recv_loop_prefix inp len : forall env remain got inp', 0 <= remain <= len ->
  Z.of_nat (length got) = remain -> inp = got ++ inp' ->
  match recv_loop env inp' len remain got with
  | Finished true (g, i) _ => inp = g ++ i /\ Z.of_nat (length g) = len
  | Finished false (g, i) _ => inp = g ++ i
  | Blocked (g, i) => inp = g ++ i
  end.
Proof.
  induction env as [|r env IH]; intros remain got inp' H HL HO; cbn [recv_loop]; [auto|].
  destruct (Z.leb_spec r 0); [auto|]. destruct inp' as [|x t] eqn:EI; [auto|]. rewrite <- EI in *.
  set (k := Z.min (Z.min r (len - remain)) (Z.of_nat (length inp'))).
  assert (HK : 0 <= k <= Z.of_nat (length inp')) by (unfold k; lia).
  assert (E : inp = (got ++ slice inp' 0 k) ++ skipn (Z.to_nat k) inp').
  { unfold slice. cbn [Z.to_nat skipn]. rewrite <- app_assoc, firstn_skipn. auto. }
  assert (E2 : Z.of_nat (length (got ++ slice inp' 0 k)) = remain + k).
  { rewrite app_length. unfold slice. cbn [Z.to_nat skipn]. rewrite firstn_length. lia. }
  destruct (Z.ltb_spec (remain + k) len).
  - apply IH; [unfold k; lia|auto|auto].
  - split; [auto|]. unfold k in *. lia.
Qed.
Lemma recv_loop_live len : forall env remain got inp', 0 <= remain < len ->
  (forall r, In r env -> 0 < r) -> len - remain <= Z.of_nat (length env) ->
  len - remain <= Z.of_nat (length inp') ->
  exists o env', recv_loop env inp' len remain got = Finished true o env'.
Proof.
  induction env as [|r env IH]; intros remain got inp' H HP HL HI; cbn [recv_loop length] in *; [lia|].
  pose proof (HP r (or_introl eq_refl)). destruct (Z.leb_spec r 0); [lia|].
  destruct inp' as [|x t] eqn:EI; [cbn in HI; lia|]. rewrite <- EI in *.
  assert (LI : 1 <= Z.of_nat (length inp')) by (rewrite EI; cbn [length]; lia).
  destruct (Z.ltb_spec (remain + Z.min (Z.min r (len - remain)) (Z.of_nat (length inp'))) len).
  - apply IH; [lia| |lia|]. { intros r' Hr. apply HP. right; auto. }
    rewrite skipn_length. lia.
  - eauto.
Qed.
Lemma recv_loop_fail len r rest : r <= 0 -> forall pos remain got inp', 0 <= remain < len ->
  (forall r, In r pos -> 0 < r) -> total pos < len - remain -> total pos <= Z.of_nat (length inp') ->
  exists o, recv_loop (pos ++ r :: rest) inp' len remain got = Finished false o rest \/
    exists p, recv_loop (pos ++ r :: rest) inp' len remain got = Blocked p.
Proof.
  intros HR. induction pos as [|a pos IH]; intros remain got inp' H HP HT HI; cbn [recv_loop app].
  - destruct (Z.leb_spec r 0); [eauto|lia].
  - pose proof (HP a (or_introl eq_refl)). destruct (Z.leb_spec a 0); [lia|].
    assert (HP' : forall r, In r pos -> 0 < r) by (intros; apply HP; right; auto).
    pose proof (total_nonneg pos HP'). change (total (a :: pos)) with (a + total pos) in HT, HI.
    destruct inp' as [|x t] eqn:EI; [cbn in HI; lia|]. rewrite <- EI in *.
    destruct (Z.ltb_spec (remain + Z.min (Z.min a (len - remain)) (Z.of_nat (length inp'))) len); [|lia].
    apply IH; [lia|auto|lia|rewrite skipn_length; lia].
Qed.

(** * Statements *)
Definition positive (env : list os_choice) : Prop := forall r, In r env -> 0 < r.

Theorem send_data_ok env data : positive env -> (length data <= length env)%nat ->
  exists env', SendData env data (Z.of_nat (length data)) = Finished true data env'.
Proof.
  intros HP HL. unfold SendData. destruct (Z.leb_spec (Z.of_nat (length data)) 0).
  - destruct data; [eauto|cbn in *; lia].
  - destruct (send_loop_live data (Z.of_nat (length data)) env 0 [] ltac:(lia) HP ltac:(lia)) as (o & env' & E).
    pose proof (send_loop_prefix data (Z.of_nat (length data)) env 0 [] ltac:(lia) eq_refl) as P.
    rewrite E in *. rewrite Nat2Z.id, firstn_all in P. subst. eauto.
Qed.
(** Whatever the environment does, SUCCESS means that exactly the data went out. *)
Theorem send_data_exact env data out env' :
  SendData env data (Z.of_nat (length data)) = Finished true out env' -> out = data.
Proof.
  unfold SendData. destruct (Z.leb_spec (Z.of_nat (length data)) 0).
  - intros [= <- <-]. destruct data; [auto|cbn in *; lia].
  - intros E. pose proof (send_loop_prefix data (Z.of_nat (length data)) env 0 [] ltac:(lia) eq_refl) as P.
    rewrite E, Nat2Z.id, firstn_all in P. auto.
Qed.
Theorem send_data_fail pos r rest data :
  positive pos -> total pos < Z.of_nat (length data) -> r <= 0 ->
  exists out, SendData (pos ++ r :: rest) data (Z.of_nat (length data)) = Finished false out rest.
Proof.
  intros HP HT HR. pose proof (total_nonneg pos HP). unfold SendData. destruct (Z.leb_spec (Z.of_nat (length data)) 0); [lia|].
  apply send_loop_fail; auto; lia.
Qed.

Theorem recv_data_ok env data rest : positive env -> (length data <= length env)%nat ->
  exists env', RecvData env (data ++ rest) (Z.of_nat (length data)) = Finished true (data, rest) env'.
Proof.
  intros HP HL. unfold RecvData. destruct (Z.leb_spec (Z.of_nat (length data)) 0).
  - destruct data; [eauto|cbn in *; lia].
  - destruct (recv_loop_live (Z.of_nat (length data)) env 0 [] (data ++ rest) ltac:(lia) HP ltac:(lia)) as ([g i] & env' & E).
    { rewrite app_length. lia. }
    pose proof (recv_loop_prefix (data ++ rest) (Z.of_nat (length data)) env 0 [] (data ++ rest) ltac:(lia) eq_refl eq_refl) as P.
    rewrite E in *. destruct P as [P1 P2]. exists env'.
    apply app_eq_app in P1. destruct P1 as (l & [[-> ->]|[-> ->]]).
    + rewrite app_length in P2. destruct l; [rewrite !app_nil_r; auto|cbn in P2; lia].
    + rewrite app_length in P2. destruct l; [rewrite !app_nil_r; auto|cbn in P2; lia].
Qed.
Theorem recv_data_exact env inp len got rest env' : 0 <= len ->
  RecvData env inp len = Finished true (got, rest) env' ->
  inp = got ++ rest /\ Z.of_nat (length got) = len.
Proof.
  intros H. unfold RecvData. destruct (Z.leb_spec len 0).
  - intros [= <- <- <-]. split; [auto|cbn; lia].
  - intros E. pose proof (recv_loop_prefix inp len env 0 [] inp ltac:(lia) eq_refl eq_refl) as P. rewrite E in P. auto.
Qed.
(** A failing call before the data is complete is reported. *)
Theorem recv_data_fail pos r rest inp len :
  positive pos -> total pos < len -> total pos <= Z.of_nat (length inp) -> r <= 0 ->
  forall g env', RecvData (pos ++ r :: rest) inp len <> Finished true g env'.
Proof.
  intros HP HT HI HR g env'. pose proof (total_nonneg pos HP). unfold RecvData. destruct (Z.leb_spec len 0); [lia|].
  destruct (recv_loop_fail len r rest HR pos 0 [] inp ltac:(lia) HP ltac:(lia) HI) as (o & [E|(p & E)]); rewrite E; discriminate.
Qed.

(** A message of more than 2^31 - 1 bytes is dropped without an error. *)
Theorem long_message_dropped env data n : 2 ^ 31 <= n < 2 ^ 32 ->
  SendData env data (to_int n) = Finished true [] env.
Proof.
  intros H. unfold SendData, to_int. rewrite Z.mod_small by lia.
  destruct (Z.ltb_spec n (2 ^ 31)); [lia|]. destruct (Z.leb_spec (n - 2 ^ 32) 0); [auto|lia].
Qed.
