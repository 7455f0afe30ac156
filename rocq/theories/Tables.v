(** The garbled tables on the wire. *)
From Coq Require Import ZArith NArith List Bool Lia.
From Verif Require Import Base Gate Circuit CycleModel Proc Codec Tcp Bounded.
Import ListNotations.
Open Scope Z_scope.

(** garbled_circuit_util.h:65-68, GarbledTable in memory: two 16-byte rows, a
    4-byte gate number and 12 bytes of padding (a block is 16-byte aligned).
    The padding is shown as zeros; nothing reads it. *)
Notation sizeof_table := 48%nat (only parsing).
Definition enc_table (t : GarbledTable) : bytes :=
  le 16 (row0 t) ++ le 16 (row1 t) ++ le 4 (gid t) ++ repeat 0%N 12.
Definition dec_table (b : bytes) : GarbledTable :=
  {| row0 := of_le (firstn 16 b); row1 := of_le (firstn 16 (skipn 16 b));
     gid := of_le (firstn 4 (skipn 32 b)) |}.
(** An array of [n] tables read from memory. *)
Fixpoint dec_tables (n : nat) (b : bytes) : list GarbledTable :=
  match n with
  | O => []
  | S k => dec_table (firstn 48 b) :: dec_tables k (skipn 48 b)
  end.

(** The byte count [n * sizeof(GarbledTable)], a uint64_t, as the [int] argument
    of SendData and RecvData. *)
Definition table_len (n : N) : Z := to_int (48 * Z.of_N n).

(** low_mem.cpp:136-139, high_mem.cpp:391-394: the number of tables (8 bytes) and
    the tables. *)
Definition SendTables (tabs : list GarbledTable) (ind : Z) : proc unit :=
  let! _ := send (le 8 (Z.to_N ind)) in
  send (firstn (Z.to_nat (table_len (Z.to_N ind))) (concat (map enc_table tabs))).

(** low_mem.cpp:273-276, high_mem.cpp:495-498: the received bytes overwrite the
    beginning of the array [et]; more bytes than the array has are written past
    its end. *)
Definition RecvTables (et : list GarbledTable) : proc (N * list GarbledTable) :=
  let! c := recv 8 in
  let len := Z.to_nat (table_len (of_le c)) in
  let! b := recv len in
  if (sizeof_table * length et <? len)%nat then Crash
  else Ret (of_le c, dec_tables (length et) (b ++ skipn len (concat (map enc_table et)))).

(** * Facts *)
Lemma enc_table_length t : length (enc_table t) = 48%nat.
Proof. unfold enc_table. rewrite !app_length, !le_length. reflexivity. Qed.
Lemma enc_tables_length l : length (concat (map enc_table l)) = (48 * length l)%nat.
Proof. induction l as [|t l IH]; [reflexivity|]. cbn [map concat length]. rewrite app_length, enc_table_length, IH. lia. Qed.

Lemma firstn_app_exact {A} n (a b : list A) : length a = n -> firstn n (a ++ b) = a.
Proof. intros <-. rewrite firstn_app, Nat.sub_diag, firstn_O, app_nil_r, firstn_all. auto. Qed.
Lemma skipn_app_exact {A} n (a b : list A) : length a = n -> skipn n (a ++ b) = b.
Proof. intros <-. rewrite skipn_app, Nat.sub_diag, skipn_all. auto. Qed.

Lemma dec_enc_table t : table_ok t -> dec_table (enc_table t) = t.
Proof.
  intros (A & B & C). unfold dec_table, enc_table.
  rewrite firstn_app_exact by apply le_length. rewrite of_le_small by exact A.
  rewrite skipn_app_exact by apply le_length. rewrite firstn_app_exact by apply le_length. rewrite of_le_small by exact B.
  change 32%nat with (16 + 16)%nat. rewrite <- skipn_skipn'.
  rewrite skipn_app_exact by apply le_length. rewrite skipn_app_exact by apply le_length.
  rewrite firstn_app_exact by apply le_length. rewrite of_le_small by exact C. destruct t; reflexivity.
Qed.
Lemma dec_enc_tables l : Forall table_ok l -> dec_tables (length l) (concat (map enc_table l)) = l.
Proof.
  induction 1 as [|t l H F IH]; [reflexivity|]. cbn [map concat length dec_tables].
  rewrite firstn_app_exact, skipn_app_exact by apply enc_table_length. rewrite dec_enc_table by auto. f_equal. auto.
Qed.
Lemma firstn_tables n l : firstn (48 * n) (concat (map enc_table l)) = concat (map enc_table (firstn n l)).
Proof.
  revert l. induction n as [|n IH]; intros [|t l]; try reflexivity.
  - replace (48 * S n)%nat with (48 + 48 * n)%nat by lia. cbn [map concat firstn].
    rewrite firstn_add, firstn_app_exact, skipn_app_exact by apply enc_table_length. rewrite IH. reflexivity.
Qed.
Lemma skipn_tables n l : skipn (48 * n) (concat (map enc_table l)) = concat (map enc_table (skipn n l)).
Proof.
  revert l. induction n as [|n IH]; intros [|t l]; try reflexivity.
  - replace (48 * S n)%nat with (48 + 48 * n)%nat by lia. cbn [map concat skipn].
    rewrite <- skipn_skipn'. rewrite skipn_app_exact by apply enc_table_length. apply IH.
Qed.

Lemma table_len_ok n : 48 * Z.of_nat n < 2 ^ 31 -> Z.to_nat (table_len (N.of_nat n)) = (48 * n)%nat.
Proof.
  intros H. unfold table_len, to_int. rewrite Z.mod_small by lia.
  destruct (Z.ltb_spec (48 * Z.of_N (N.of_nat n)) (2 ^ 31)); lia.
Qed.

(** The tables arrive as they were sent, the rest of the array is unchanged. *)
Theorem tables_ok tabs n et et' :
  (n <= length tabs)%nat -> 48 * Z.of_nat n < 2 ^ 31 ->
  Forall table_ok tabs -> Forall table_ok et -> recv_tables (firstn n tabs) et = Some et' ->
  runs (SendTables tabs (Z.of_nat n)) (RecvTables et) tt (N.of_nat n, et').
Proof.
  intros HN HL FT FE HR. unfold recv_tables in HR. rewrite firstn_length_le in HR by auto.
  destruct (Nat.leb_spec n (length et)) as [HB|]; [|discriminate]. injection HR as <-.
  unfold SendTables, RecvTables. replace (Z.to_N (Z.of_nat n)) with (N.of_nat n) by lia.
  eapply runs_bind; [eapply runs_AB; [apply does_send1|apply does_recv1; rewrite le_length; reflexivity]|].
  cbv beta zeta. rewrite of_le_small by lia.
  rewrite table_len_ok by auto. rewrite firstn_tables.
  eapply (runs_map_B _ _ tt (concat (map enc_table (firstn n tabs)))).
  - eapply runs_AB; [apply does_send1|apply does_recv1]. rewrite enc_tables_length, firstn_length_le by auto. reflexivity.
  - destruct (Nat.ltb_spec (48 * length et) (48 * n)); [lia|]. do 2 f_equal.
    rewrite skipn_tables, <- concat_app, <- map_app.
    assert (E : length et = length (firstn n tabs ++ skipn n et)).
    { rewrite app_length, firstn_length_le, skipn_length by auto. lia. }
    rewrite E. apply dec_enc_tables. apply Forall_app. split.
    + rewrite <- (firstn_skipn n tabs) in FT. apply Forall_app in FT as [FT _]. auto.
    + rewrite <- (firstn_skipn n et) in FE. apply Forall_app in FE as [_ FE]. auto.
Qed.

(** A count above the capacity makes the receiver write past its buffer. *)
Theorem oversized_count et n body :
  (N.of_nat (length et) < n)%N -> 48 * Z.of_N n < 2 ^ 31 -> length body = Z.to_nat (48 * Z.of_N n) ->
  exists m, reach m (mkCfg (Send (le 8 n ++ body) (Ret tt)) (RecvTables et) [] []) (mkCfg (Ret tt) Crash [] []).
Proof.
  intros HN HL HB. unfold RecvTables.
  pose proof (send_steps (le 8 n ++ body) (@Ret unit tt) (RecvTables et) [] []) as S1. cbn [app] in S1.
  eexists. eapply reach_trans; [exact S1|]. unfold RecvTables, recv. cbn [bind].
  eapply reach_trans.
  { pose proof (recv_steps (le 8 n) (fun l => Recv (Z.to_nat (table_len (of_le l))) (fun b => 
      if (48 * length et <? Z.to_nat (table_len (of_le l)))%nat then Crash
      else Ret (of_le l, dec_tables (length et) (b ++ skipn (Z.to_nat (table_len (of_le l))) (concat (map enc_table et)))))) 
      (@Ret unit tt) body []) as S2. rewrite le_length in S2. exact S2. }
  assert (E : Z.to_nat (table_len n) = length body).
  { rewrite HB. rewrite <- (N2Nat.id n) at 1. rewrite table_len_ok by lia. lia. }
  rewrite of_le_small by lia. rewrite E.
  destruct (Nat.ltb_spec (48 * length et) (length body)); [|lia].
  pose proof (recv_steps body (fun _ => @Crash (N * list GarbledTable)) (@Ret unit tt) [] []) as S3. rewrite app_nil_r in S3.
  exact S3.
Qed.
