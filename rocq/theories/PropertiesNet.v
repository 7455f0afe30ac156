(** Theorems about transport, big-number messages and oblivious transfer; each
    is followed by a concrete case that meets its hypotheses. *)
From Coq Require Import ZArith NArith Znumtheory List Bool Lia.
From Verif Require Import Base Gate Proc Tcp Codec BN OT OTExt Rsa Net.
Import ListNotations.
Open Scope Z_scope.

(** * C16 Base oblivious transfer *)
Theorem C16_base_ot : forall key x m sel k,
  key_ok key -> key_sized key -> draws_sized x ->
  Z.of_nat (length m) < 2 ^ 32 -> length sel = length m ->
  Forall (fun p => is_block (fst p) /\ is_block (snd p)) m ->
  runs (OTSend key x m) (OTRecv sel k) tt (Some (chosen sel m)).
Proof. exact ot_correct. Qed.
Print Assumptions C16_base_ot.
(** [key_ok] holds of every RSA key. *)
Theorem C16_rsa_keys : forall p q e d, prime p -> prime q -> p <> q -> 0 <= e -> 0 <= d ->
  (e * d) mod (p - 1) = 1 mod (p - 1) -> (e * d) mod (q - 1) = 1 mod (q - 1) -> 1 <= e * d ->
  key_ok (mkKey (p * q) e d).
Proof. exact rsa_key_ok. Qed.
Print Assumptions C16_rsa_keys.
Example C16_example : runs (OTSend key33 (fun i b => if b then 17 else 900) [(5, 6); (7, 2 ^ 127 + 1)]%N)
  (OTRecv [true; false] (fun i => 12345678901234567890 + Z.of_nat i)) tt (Some [6; 7]%N).
Proof.
  apply (C16_base_ot key33 (fun i b => if b then 17 else 900) [(5, 6); (7, 2 ^ 127 + 1)]%N [true; false]
    (fun i => 12345678901234567890 + Z.of_nat i)).
  - apply key33_ok.
  - split; reflexivity.
  - intros i j. destruct j; split; try reflexivity; discriminate.
  - reflexivity.
  - reflexivity.
  - repeat constructor.
Qed.

(** * C17 The receiver's choice is hidden from the sender

    [ot_v n e x c k]: the message of the receiver with choice [c] and blinding
    draw [k]. *)
Theorem C17_choice_hidden : forall key x v (c : bool), key_ok key -> 0 <= v < rsa_n key ->
  exists r, 0 <= r < rsa_n key /\
    forall k, ot_v (rsa_n key) (rsa_e key) x c k = v <-> k mod rsa_n key = r.
Proof. exact ot_choice_hidden. Qed.
Print Assumptions C17_choice_hidden.
Example C17_example : ot_v 33 3 (20, 31) false 7 = 0 /\ ot_v 33 3 (20, 31) true 29 = 0.
Proof. split; reflexivity. Qed.

(** * C18 OT extension *)
Theorem C18_ot_extension : forall sha m sel S t k key x,
  (forall l, Forall is_byte (sha l)) ->
  key_ok key -> key_sized key -> draws_sized x ->
  0 <= S < 2 ^ 128 -> (forall i, 0 <= t i < 2 ^ 128) ->
  Z.of_nat (length m) < 2 ^ 32 -> length sel = length m ->
  Forall (fun p => is_block (fst p) /\ is_block (snd p)) m ->
  runs (OTExtSend sha m S k) (OTExtRecv sha sel t key x) (Some tt) (Some (chosen sel m)).
Proof. exact ext_correct. Qed.
Print Assumptions C18_ot_extension.
Example C18_example :
  let sha := fun l : bytes => map (fun i => N.lxor (nth i l 77) (N.of_nat i) mod 256)%N (seq 0 20) in
  runs (OTExtSend sha (map (fun i => (N.of_nat i, 2 ^ 100 + N.of_nat i)%N) (seq 0 200)) (2 ^ 127 + 12345) (fun i => Z.of_nat i))
       (OTExtRecv sha (map Nat.even (seq 0 200)) (fun i => 2 ^ 126 + Z.of_nat i mod 2 ^ 100) key33 (fun i b => if b then 5 else 6))
       (Some tt) (Some (map (fun i => if Nat.even i then 2 ^ 100 + N.of_nat i else N.of_nat i)%N (seq 0 200))).
Proof.
  intros sha.
  set (t := fun i : nat => 2 ^ 126 + Z.of_nat i mod 2 ^ 100). set (x := fun (i : nat) (b : bool) => if b then 5 else 6).
  eassert (E : _ = map (fun i => if Nat.even i then 2 ^ 100 + N.of_nat i else N.of_nat i)%N (seq 0 200)); cycle 1.
  rewrite <- E. apply C18_ot_extension.
  - intros l. apply Forall_forall. intros y Hy. apply in_map_iff in Hy. destruct Hy as (i & <- & _).
    apply N.mod_lt. discriminate.
  - apply key33_ok.
  - split; reflexivity.
  - intros i j. unfold x. destruct j; split; try reflexivity; discriminate.
  - split; [discriminate|reflexivity].
  - intros i. unfold t. pose proof (Z.mod_pos_bound (Z.of_nat i) (2 ^ 100) ltac:(reflexivity)).
    split; [|change (2 ^ 128) with (2 ^ 126 + (2 ^ 128 - 2 ^ 126)); assert (2 ^ 100 < 2 ^ 128 - 2 ^ 126) by reflexivity]; lia.
  - reflexivity.
  - reflexivity.
  - apply Forall_forall. intros [a b] H. apply in_map_iff in H. destruct H as (i & E0 & H). apply in_seq in H.
    pose proof (f_equal fst E0) as E1. pose proof (f_equal snd E0) as E2. cbn [fst snd] in E1, E2.
    assert (2 ^ 100 + N.of_nat 200 < 2 ^ 128)%N by reflexivity. unfold is_block. cbn [fst snd]. lia.
  - vm_compute. reflexivity.
Qed.

(** * C19 The bit-matrix transpose

    [transpose_of v w]: bit [k] of row [i] of [w] is bit [i] of row [k] of [v]. *)
Theorem C19_transpose : forall v bits, snd (SwitchRowColumnBN v bits) = true /\
  length (fst (SwitchRowColumnBN v bits)) = bits /\ transpose_of v (fst (SwitchRowColumnBN v bits)) /\
  Forall (fun w => 0 <= w) (fst (SwitchRowColumnBN v bits)).
Proof. exact switch_ok. Qed.
Print Assumptions C19_transpose.
Theorem C19_transpose_pairs : forall v bits,
  map fst (fst (SwitchRowColumnBNPair v bits)) = fst (SwitchRowColumnBN (map fst v) bits) /\
  map snd (fst (SwitchRowColumnBNPair v bits)) = fst (SwitchRowColumnBN (map snd v) bits) /\
  snd (SwitchRowColumnBNPair v bits) = true.
Proof. exact switch_pair_split. Qed.
Print Assumptions C19_transpose_pairs.
Example C19_example : fst (SwitchRowColumnBN [5; 0; 7] 4) = [5; 4; 5; 0] /\
  length (fst (SwitchRowColumnBN (repeat (2 ^ 127) 70) 128)) = 128%nat /\
  nth 127 (fst (SwitchRowColumnBN (repeat (2 ^ 127) 70) 128)) 0 = 2 ^ 70 - 1.
Proof. repeat split; vm_compute; reflexivity. Qed.

(** * C20 The digest input does not determine the number (claim refuted) *)
Theorem C20_hash_input_refuted : forall tw v, 0 < v -> 256 * v < 2 ^ 128 ->
  v <> 256 * v /\ hash_input tw v = hash_input tw (256 * v).
Proof. exact hash_input_not_injective. Qed.
Print Assumptions C20_hash_input_refuted.
Example C20_example : hash_input 9 0xAB = hash_input 9 0xAB00.
Proof. vm_compute. reflexivity. Qed.

(** * C21 Big-number messages *)
Theorem C21_send_recv_bn : forall a, bn_fits a -> runs (SendBN a) RecvBN tt (Z.abs a).
Proof. exact send_recv_bn. Qed.
Print Assumptions C21_send_recv_bn.
Example C21_example : bn_fits (2 ^ 1030 + 5) /\ runs (SendBN 0) RecvBN tt 0 /\ runs (SendBN (-6)) RecvBN tt 6.
Proof. split; [reflexivity|]. split; [apply (C21_send_recv_bn 0)|apply (C21_send_recv_bn (-6))]; reflexivity. Qed.

(** * C22 Labels as big numbers *)
Theorem C22_block_bn : forall w, (w < 2 ^ 128)%N ->
  BlockToBN w = Z.of_N w /\ BNToBlock (BlockToBN w) = w.
Proof. exact block_bn_block. Qed.
Print Assumptions C22_block_bn.
Theorem C22_bn_block : forall a, BNToBlock a = (Z.to_N (Z.abs a) mod 2 ^ 128)%N.
Proof. exact bn_to_block'. Qed.
Print Assumptions C22_bn_block.
Example C22_example : BNToBlock (BlockToBN (2 ^ 127 + 3)%N) = (2 ^ 127 + 3)%N /\ BNToBlock (2 ^ 128 + 7) = 7%N.
Proof. split; vm_compute; reflexivity. Qed.

(** * C23 SendData and RecvData under fragmentation and failure

    [env]: results of the successive system calls. *)
Theorem C23_send_ok : forall env data, positive env -> (length data <= length env)%nat ->
  exists env', SendData env data (Z.of_nat (length data)) = Finished true data env'.
Proof. exact send_data_ok. Qed.
Print Assumptions C23_send_ok.
Theorem C23_send_exact : forall env data out env',
  SendData env data (Z.of_nat (length data)) = Finished true out env' -> out = data.
Proof. exact send_data_exact. Qed.
Print Assumptions C23_send_exact.
Theorem C23_send_fail : forall pos r rest data,
  positive pos -> total pos < Z.of_nat (length data) -> r <= 0 ->
  exists out, SendData (pos ++ r :: rest) data (Z.of_nat (length data)) = Finished false out rest.
Proof. exact send_data_fail. Qed.
Print Assumptions C23_send_fail.
Theorem C23_recv_ok : forall env data rest, positive env -> (length data <= length env)%nat ->
  exists env', RecvData env (data ++ rest) (Z.of_nat (length data)) = Finished true (data, rest) env'.
Proof. exact recv_data_ok. Qed.
Print Assumptions C23_recv_ok.
Theorem C23_recv_exact : forall env inp len got rest env', 0 <= len ->
  RecvData env inp len = Finished true (got, rest) env' ->
  inp = got ++ rest /\ Z.of_nat (length got) = len.
Proof. exact recv_data_exact. Qed.
Print Assumptions C23_recv_exact.
Theorem C23_recv_fail : forall pos r rest inp len,
  positive pos -> total pos < len -> total pos <= Z.of_nat (length inp) -> r <= 0 ->
  forall g env', RecvData (pos ++ r :: rest) inp len <> Finished true g env'.
Proof. exact recv_data_fail. Qed.
Print Assumptions C23_recv_fail.
(** A whole program over fragmenting sockets behaves as over byte streams. *)
Theorem C23_programs : forall (A : Type) (p : proc A) i o a, does p i o a -> forall env rest out,
  positive env -> (length i + length o <= length env)%nat ->
  exists env', exec env p (i ++ rest) out = Done a rest (out ++ o) env'.
Proof. exact @exec_does. Qed.
Print Assumptions C23_programs.
Theorem C23_programs_sound : forall (A : Type) (p : proc A) env inp out a rest out' env',
  exec env p inp out = Done a rest out' env' ->
  exists i o, inp = i ++ rest /\ out' = out ++ o /\ does p i o a.
Proof. exact @exec_sound. Qed.
Print Assumptions C23_programs_sound.
Example C23_example :
  SendData [1; 7; 2] [1; 2; 3; 4]%N 4 = Finished true [1; 2; 3; 4]%N [2] /\
  SendData [1; 2; -1; 9] [1; 2; 3; 4]%N 4 = Finished false [1; 2; 3]%N [9] /\
  RecvData [3; 1; 1; 5] [1; 2; 3; 4; 5; 6]%N 4 = Finished true ([1; 2; 3; 4], [5; 6])%N [1; 5] /\
  exec [3; 2; 1; 9; 9; 9; 9; 9] RecvBN (enc_bn 0x1234 ++ [8]%N) [] = Done 0x1234 [8]%N [] [9; 9; 9; 9].
Proof. repeat split; vm_compute; reflexivity. Qed.

(** * C24 The result does not depend on the interleaving *)
Theorem C24_schedule_independent : forall (A B : Type) n (c d : config A B), stuck d -> reach n c d ->
  forall m e, reach m c e -> (m <= n)%nat /\ reach (n - m) e d.
Proof. exact @schedule_independent. Qed.
Print Assumptions C24_schedule_independent.
Theorem C24_outcome_unique : forall (A B : Type) n m (c d e : config A B), stuck d -> stuck e ->
  reach n c d -> reach m c e -> n = m /\ e = d.
Proof. exact @outcome_unique. Qed.
Print Assumptions C24_outcome_unique.
Example C24_example : exists n, reach n (start_cfg (SendBN 77) RecvBN) (done_cfg tt 77) /\
  stuck (done_cfg tt 77) /\
  reach 2 (start_cfg (SendBN 77) RecvBN) (mkCfg (Send [0; 0; 0]%N (Send [77]%N (Ret tt)))
    (Recv 3 (fun l => match RecvBN with Recv _ k => k (1%N :: l) | p => p end)) [] []).
Proof.
  destruct (C21_send_recv_bn 77 eq_refl) as (n & H). exists n. split; [exact H|]. split; [apply done_stuck|].
  eapply reach_A; [reflexivity|]. eapply reach_B; [reflexivity|]. apply reach_0.
Qed.

(** * C40 Results of failed socket calls without logging (claim refuted) *)
Theorem C40_logged_recv_bn : forall env inp jsize jarr v rest env',
  length jsize = 4%nat -> (forall n, length (jarr n) = n) ->
  RecvBN_env true env inp jsize jarr = Finished true (v, rest) env' ->
  exists b bs, inp = b ++ bs ++ rest /\ length b = 4%nat /\
    Z.of_nat (length bs) = to_int (Z.of_N (of_le b)) /\ v = Some (BN_bin2bn bs).
Proof. exact recv_bn_logged. Qed.
Print Assumptions C40_logged_recv_bn.
Theorem C40_unlogged_refuted : forall r1 r2 env inp jsize jarr,
  r1 <= 0 -> r2 <= 0 -> length jsize = 4%nat -> (forall n, length (jarr n) = n) ->
  0 < to_int (Z.of_N (of_le jsize)) ->
  RecvBN_env false (r1 :: r2 :: env) inp jsize jarr =
    Finished true (Some (BN_bin2bn (jarr (Z.to_nat (to_int (Z.of_N (of_le jsize)))))), inp) env.
Proof. exact recv_bn_unlogged. Qed.
Print Assumptions C40_unlogged_refuted.
Example C40_example : let env := [-1; 0] in let jarr := fun n => repeat 3%N n in
  RecvBN_env true env [] [2; 0; 0; 0]%N jarr = Finished false (None, []) [0] /\
  RecvBN_env false env [] [2; 0; 0; 0]%N jarr = Finished true (Some 0x303, []) [].
Proof. split; vm_compute; reflexivity. Qed.

(** * C43 A message of 2^31 bytes or more is lost without an error (claim refuted) *)
Theorem C43_long_message_refuted : forall env data n, 2 ^ 31 <= n < 2 ^ 32 ->
  SendData env data (to_int n) = Finished true [] env.
Proof. exact long_message_dropped. Qed.
Print Assumptions C43_long_message_refuted.
(** 48 bytes for each of 45 million tables *)
Example C43_example : 2 ^ 31 <= 45000000 * 48 < 2 ^ 32.
Proof. split; [discriminate|reflexivity]. Qed.

(** * C44 The extension reveals choice bits beyond RSA_BITS (claim refuted)

    [does p i o a]: reading [i], [p] sends [o]. The party that gets [a0] and [a1]
    knows the choice bits above position 1024 up to four candidates. *)
Theorem C44_extension_leak_refuted : forall sel n t key x j v,
  (forall i, 0 <= t i < 2 ^ 128) -> key_ok key -> key_sized key -> (j < SEC_K_BIT)%nat -> 0 <= v -> bn_fits v ->
  exists a0 a1,
    does (OTSend_answer key x (fst (SwitchRowColumnBNPair (ext_T sel n t) SEC_K_BIT)) j tt)
      (enc_bn v) (enc_bn a0 ++ enc_bn a1) tt /\
    In (mag sel mod 2 ^ N.of_nat n / 2 ^ 1024)%N (leak_candidates a0 a1).
Proof. exact ext_choice_leaks. Qed.
Print Assumptions C44_extension_leak_refuted.
Example C44_example : let sel := 2 ^ 1100 + 2 ^ 1050 + 77 in let x := fun (i : nat) (b : bool) => if b then 3 else 4 in
  key_ok key33 /\ key_sized key33 /\ bn_fits 20 /\
  exists a0 a1, does (OTSend_answer key33 x (fst (SwitchRowColumnBNPair (ext_T sel 1101 (fun i => Z.of_nat i)) SEC_K_BIT)) 5%nat tt)
      (enc_bn 20) (enc_bn a0 ++ enc_bn a1) tt /\ In (2 ^ 76 + 2 ^ 26)%N (leak_candidates a0 a1).
Proof.
  cbv zeta. split; [apply key33_ok|]. split; [split; reflexivity|]. split; [reflexivity|].
  assert (T : exists t, (forall i, 0 <= t i < 2 ^ 128) /\ forall i, (i < 1101)%nat -> t i = Z.of_nat i).
  { exists (fun i => Z.of_nat i mod 2 ^ 128). split; [intros; apply Z.mod_pos_bound; reflexivity|].
    intros i Hi. apply Z.mod_small. assert (Z.of_nat 1101 < 2 ^ 128) by reflexivity. lia. }
  destruct T as (t & T & TE).
  replace (ext_T (2 ^ 1100 + 2 ^ 1050 + 77) 1101 (fun i => Z.of_nat i)) with (ext_T (2 ^ 1100 + 2 ^ 1050 + 77) 1101 t).
  2:{ unfold ext_T. apply map_ext_in. intros i Hi. apply in_seq in Hi. rewrite TE by lia. reflexivity. }
  destruct (C44_extension_leak_refuted (2 ^ 1100 + 2 ^ 1050 + 77) 1101 t key33 (fun (i : nat) (b : bool) => if b then 3 else 4) 5%nat 20)
    as (a0 & a1 & H1 & H2); auto using key33_ok; try lia.
  - split; reflexivity.
  - reflexivity.
  - exists a0, a1. split; [exact H1|].
    assert (E : (mag (2 ^ 1100 + 2 ^ 1050 + 77) mod 2 ^ N.of_nat 1101 / 2 ^ 1024 = 2 ^ 76 + 2 ^ 26)%N) by (vm_compute; reflexivity).
    rewrite <- E.
    exact H2.
Qed.

(** * C45 The receiver's message is not uniform (claim refuted)

    The draw has [bits] bits, as many as the modulus ([bits = 1024] in the code). *)
Theorem C45_choice_biased_refuted : forall key bits, key_ok key -> rsa_n key < 2 ^ bits < 2 * rsa_n key ->
  exists x v k0 k0' k1, 0 <= fst x < rsa_n key /\ 0 <= snd x < rsa_n key /\ k0 <> k0' /\
    (forall k, 0 <= k < 2 ^ bits -> (ot_v (rsa_n key) (rsa_e key) x false k = v <-> k = k0 \/ k = k0')) /\
    (forall k, 0 <= k < 2 ^ bits -> (ot_v (rsa_n key) (rsa_e key) x true k = v <-> k = k1)) /\
    0 <= k0 < 2 ^ bits /\ 0 <= k0' < 2 ^ bits /\ 0 <= k1 < 2 ^ bits.
Proof. exact ot_choice_biased. Qed.
Print Assumptions C45_choice_biased_refuted.
Example C45_example : key_ok key33 /\ rsa_n key33 < 2 ^ 6 < 2 * rsa_n key33.
Proof. split; [apply key33_ok|split; reflexivity]. Qed.
