(** circuit_synthesis/aes: AES-128 as a circuit, in one cycle and in eleven. *)
From Coq Require Import Arith ZArith NArith List Bool Lia.
From Verif Require Import RtlBase RtlLib RtlArith RtlSeq.
From Verif Require AesSpec.
Import ListNotations.
Open Scope Z_scope.

(** * Model *)
(** The wires of sbox, aes/SubBytes.v:6-13 *)
Inductive wire := WX (i : nat) | WY (i : nat) | WT (i : nat) | WZ (i : nat) | WS (i : nat).
(** a ^ b, ~a ^ b, a & b *)
Inductive op := Xor | Xnor | And.
Inductive assign := A (d : wire) (o : op) (a b : wire).
(** aes/SubBytes.v:15-133 *)
Definition sbox_assigns : list assign := [
  A (WY 14) Xor (WX 3) (WX 5); A (WY 13) Xor (WX 0) (WX 6); A (WY 9) Xor (WX 0) (WX 3); A (WY 8) Xor (WX 0) (WX 5);
  A (WT 0) Xor (WX 1) (WX 2); A (WY 1) Xor (WT 0) (WX 7); A (WY 4) Xor (WY 1) (WX 3); A (WY 12) Xor (WY 13) (WY 14);
  A (WY 2) Xor (WY 1) (WX 0); A (WY 5) Xor (WY 1) (WX 6); A (WY 3) Xor (WY 5) (WY 8); A (WT 1) Xor (WX 4) (WY 12);
  A (WY 15) Xor (WT 1) (WX 5); A (WY 20) Xor (WT 1) (WX 1); A (WY 6) Xor (WY 15) (WX 7); A (WY 10) Xor (WY 15) (WT 0);
  A (WY 11) Xor (WY 20) (WY 9); A (WY 7) Xor (WX 7) (WY 11); A (WY 17) Xor (WY 10) (WY 11); A (WY 19) Xor (WY 10) (WY 8);
  A (WY 16) Xor (WT 0) (WY 11); A (WY 21) Xor (WY 13) (WY 16); A (WY 18) Xor (WX 0) (WY 16); A (WT 2) And (WY 12) (WY 15);
  A (WT 3) And (WY 3) (WY 6); A (WT 4) Xor (WT 3) (WT 2); A (WT 5) And (WY 4) (WX 7); A (WT 6) Xor (WT 5) (WT 2);
  A (WT 7) And (WY 13) (WY 16); A (WT 8) And (WY 5) (WY 1); A (WT 9) Xor (WT 8) (WT 7); A (WT 10) And (WY 2) (WY 7);
  A (WT 11) Xor (WT 10) (WT 7); A (WT 12) And (WY 9) (WY 11); A (WT 13) And (WY 14) (WY 17); A (WT 14) Xor (WT 13) (WT 12);
  A (WT 15) And (WY 8) (WY 10); A (WT 16) Xor (WT 15) (WT 12); A (WT 17) Xor (WT 4) (WT 14); A (WT 18) Xor (WT 6) (WT 16);
  A (WT 19) Xor (WT 9) (WT 14); A (WT 20) Xor (WT 11) (WT 16); A (WT 21) Xor (WT 17) (WY 20); A (WT 22) Xor (WT 18) (WY 19);
  A (WT 23) Xor (WT 19) (WY 21); A (WT 24) Xor (WT 20) (WY 18); A (WT 25) Xor (WT 21) (WT 22); A (WT 26) And (WT 21) (WT 23);
  A (WT 27) Xor (WT 24) (WT 26); A (WT 28) And (WT 25) (WT 27); A (WT 29) Xor (WT 28) (WT 22); A (WT 30) Xor (WT 23) (WT 24);
  A (WT 31) Xor (WT 22) (WT 26); A (WT 32) And (WT 31) (WT 30); A (WT 33) Xor (WT 32) (WT 24); A (WT 34) Xor (WT 23) (WT 33);
  A (WT 35) Xor (WT 27) (WT 33); A (WT 36) And (WT 24) (WT 35); A (WT 37) Xor (WT 36) (WT 34); A (WT 38) Xor (WT 27) (WT 36);
  A (WT 39) And (WT 29) (WT 38); A (WT 40) Xor (WT 25) (WT 39); A (WT 41) Xor (WT 40) (WT 37); A (WT 42) Xor (WT 29) (WT 33);
  A (WT 43) Xor (WT 29) (WT 40); A (WT 44) Xor (WT 33) (WT 37); A (WT 45) Xor (WT 42) (WT 41); A (WZ 0) And (WT 44) (WY 15);
  A (WZ 1) And (WT 37) (WY 6); A (WZ 2) And (WT 33) (WX 7); A (WZ 3) And (WT 43) (WY 16); A (WZ 4) And (WT 40) (WY 1);
  A (WZ 5) And (WT 29) (WY 7); A (WZ 6) And (WT 42) (WY 11); A (WZ 7) And (WT 45) (WY 17); A (WZ 8) And (WT 41) (WY 10);
  A (WZ 9) And (WT 44) (WY 12); A (WZ 10) And (WT 37) (WY 3); A (WZ 11) And (WT 33) (WY 4); A (WZ 12) And (WT 43) (WY 13);
  A (WZ 13) And (WT 40) (WY 5); A (WZ 14) And (WT 29) (WY 2); A (WZ 15) And (WT 42) (WY 9); A (WZ 16) And (WT 45) (WY 14);
  A (WZ 17) And (WT 41) (WY 8); A (WT 46) Xor (WZ 15) (WZ 16); A (WT 47) Xor (WZ 10) (WZ 11); A (WT 48) Xor (WZ 5) (WZ 13);
  A (WT 49) Xor (WZ 9) (WZ 10); A (WT 50) Xor (WZ 2) (WZ 12); A (WT 51) Xor (WZ 2) (WZ 5); A (WT 52) Xor (WZ 7) (WZ 8);
  A (WT 53) Xor (WZ 0) (WZ 3); A (WT 54) Xor (WZ 6) (WZ 7); A (WT 55) Xor (WZ 16) (WZ 17); A (WT 56) Xor (WZ 12) (WT 48);
  A (WT 57) Xor (WT 50) (WT 53); A (WT 58) Xor (WZ 4) (WT 46); A (WT 59) Xor (WZ 3) (WT 54); A (WT 60) Xor (WT 46) (WT 57);
  A (WT 61) Xor (WZ 14) (WT 57); A (WT 62) Xor (WT 52) (WT 58); A (WT 63) Xor (WT 49) (WT 58); A (WT 64) Xor (WZ 4) (WT 59);
  A (WT 65) Xor (WT 61) (WT 62); A (WT 66) Xor (WZ 1) (WT 63); A (WS 0) Xor (WT 59) (WT 63); A (WS 6) Xnor (WT 56) (WT 62);
  A (WS 7) Xnor (WT 48) (WT 60); A (WT 67) Xor (WT 64) (WT 65); A (WS 3) Xor (WT 53) (WT 66); A (WS 4) Xor (WT 51) (WT 66);
  A (WS 5) Xor (WT 47) (WT 65); A (WS 1) Xnor (WT 64) (WS 3); A (WS 2) Xnor (WT 55) (WT 67)].
Definition op_val (o : op) (a b : bool) : bool := match o with Xor => xorb a b | Xnor => xorb (negb a) b | And => a && b end.
Definition holds (e : wire -> bool) (s : assign) : Prop := let 'A d o a b := s in e d = op_val o (e a) (e b).
(** sbox, aes/SubBytes.v:1-135: the indices of s and x ascend, those of the ports descend *)
Definition sbox (SubByte num : vec) : Prop :=
  exists e : wire -> bool, (forall i, (i < 8)%nat -> e (WX i) = num (7 - i)%nat) /\
    (forall i, (i < 8)%nat -> SubByte (7 - i)%nat = e (WS i)) /\ Forall (holds e) sbox_assigns.
(** SubBytes, aes/SubBytes.v:137-152 *)
Definition SubBytes (x z : vec) : Prop := forall i, (i < 16)%nat -> sbox (part (8 * i) z) (part (8 * i) x).

(** The list on the right of line 23 of aes/ShiftRows.v *)
Definition shift_list : list nat := [
  0; 1; 2; 3; 4; 5; 6; 7; 40; 41; 42; 43; 44; 45; 46; 47; 80; 81; 82; 83; 84; 85; 86; 87; 120; 121; 122; 123; 124; 125; 126; 127;
  32; 33; 34; 35; 36; 37; 38; 39; 72; 73; 74; 75; 76; 77; 78; 79; 112; 113; 114; 115; 116; 117; 118; 119; 24; 25; 26; 27; 28; 29; 30; 31;
  64; 65; 66; 67; 68; 69; 70; 71; 104; 105; 106; 107; 108; 109; 110; 111; 16; 17; 18; 19; 20; 21; 22; 23; 56; 57; 58; 59; 60; 61; 62; 63;
  96; 97; 98; 99; 100; 101; 102; 103; 8; 9; 10; 11; 12; 13; 14; 15; 48; 49; 50; 51; 52; 53; 54; 55; 88; 89; 90; 91; 92; 93; 94; 95]%nat.
(** ShiftRows, aes/ShiftRows.v:1-25 *)
Definition ShiftRows (x z : vec) : Prop :=
  exists xr zr w : vec, (forall i, (i < 128)%nat -> xr (127 - i)%nat = x i /\ z i = zr (127 - i)%nat) /\
    (forall k, (k < 128)%nat -> w k = xr (127 - k)%nat) /\ (forall k, (k < 128)%nat -> zr (127 - k)%nat = w (nth k shift_list 0%nat)).

(** xtime, aes/MixColumns.v:1-23 *)
Definition shl1 (x : vec) : vec := fun i => match i with O => false | S j => x j end.
Definition xtime (y x : vec) : Prop := exists w, veq 8 w (shl1 x) /\ veq 8 y (if x 7%nat then vxor w (of_val 0x1B) else w).
(** MixColumns, aes/MixColumns.v:26-74 *)
Definition MixColumns (x z : vec) : Prop := forall i, (i < 4)%nat ->
  exists a0 a1 a2 a3 temp b0 b1 b2 b3 c0 c1 c2 c3,
    veq 8 a0 (part (8 * (4 * i + 0)) x) /\ veq 8 a1 (part (8 * (4 * i + 1)) x) /\ veq 8 a2 (part (8 * (4 * i + 2)) x) /\ veq 8 a3 (part (8 * (4 * i + 3)) x) /\
    veq 8 temp (vxor (vxor (vxor a0 a1) a2) a3) /\
    xtime c0 (vxor a0 a1) /\ xtime c1 (vxor a1 a2) /\ xtime c2 (vxor a2 a3) /\ xtime c3 (vxor a3 a0) /\
    veq 8 b0 (vxor (vxor a0 temp) c0) /\ veq 8 b1 (vxor (vxor a1 temp) c1) /\ veq 8 b2 (vxor (vxor a2 temp) c2) /\ veq 8 b3 (vxor (vxor a3 temp) c3) /\
    veq 8 (part (8 * (4 * i + 0)) z) b0 /\ veq 8 (part (8 * (4 * i + 1)) z) b1 /\ veq 8 (part (8 * (4 * i + 2)) z) b2 /\ veq 8 (part (8 * (4 * i + 3)) z) b3.
(** AddRoundKey, aes/AddRoundKey.v:1-12 *)
Definition AddRoundKey (x y z : vec) : Prop := veq 128 z (vxor x y).

(** aes/KeyExpansion.v:21-30, aes/KeyExpansionSeq.v:25-35 *)
Definition RCon : list Z := [0x01; 0x02; 0x04; 0x08; 0x10; 0x20; 0x40; 0x80; 0x1b; 0x36; 0x00].
(** KeyExpansion, aes/KeyExpansion.v:1-67 *)
Definition KeyExpansion (key expandedKey : vec) : Prop :=
  exists w t rotWord Q unused : nat -> vec,
    (forall i, (i < 44)%nat -> veq 32 (part (32 * i) expandedKey) (w i)) /\
    (forall i, (i < 44)%nat ->
      if (i <? 4)%nat then veq 32 (w i) (part (32 * i) key)
      else if (i mod 4 =? 0)%nat then veq 32 (w i) (vxor (w (i - 4)%nat) (t (i / 4 - 1)%nat))
      else veq 32 (w i) (vxor (w (i - 1)%nat) (w (i - 4)%nat))) /\
    (forall i, (i < 10)%nat ->
      veq 32 (rotWord i) (cat (w (4 + 4 * i - 1)%nat) 24 (part 8 (w (4 + i * 4 - 1)%nat))) /\
      SubBytes (cat (rotWord i) 96 (rep false)) (cat (Q i) 96 (unused i)) /\
      veq 32 (t i) (cat (part 8 (Q i)) 8 (vxor (of_val (nth i RCon 0)) (Q i)))).
(** KeyExpansionSeq, aes/KeyExpansionSeq.v:1-65; RCon has no element above 10 *)
Definition KeyExpansionSeq (key counter nextKey : vec) : Prop :=
  exists (w wNext : nat -> vec) (t rotWord Q unused rc : vec),
    (forall i, (i < 4)%nat -> veq 32 (w i) (if val 4 counter <? 10 then part (32 * i) key else rep false) /\
      veq 32 (part (32 * i) nextKey) (wNext i)) /\
    (forall i, (i < 4)%nat -> if (i =? 0)%nat then veq 32 (wNext i) (vxor (w i) t) else veq 32 (wNext i) (vxor (w i) (wNext (i - 1)%nat))) /\
    veq 32 rotWord (cat (w 3%nat) 24 (part 8 (w 3%nat))) /\
    SubBytes (cat rotWord 96 (rep false)) (cat Q 96 unused) /\
    (val 4 counter <= 10 -> veq 8 rc (of_val (nth (Z.to_nat (val 4 counter)) RCon 0))) /\
    veq 32 t (cat (part 8 Q) 8 (vxor rc Q)).

(** aes_1cc, aes/aes_1cc.v:5-82 *)
Definition aes_1cc (g_input e_input o : vec) : Prop :=
  exists (expandedKey : vec) (expandedKeyi x1 x2 x3 x4 : nat -> vec),
    KeyExpansion g_input expandedKey /\
    (forall i, (i < 11)%nat -> veq 128 (expandedKeyi i) (part (128 * i) expandedKey)) /\
    AddRoundKey e_input (expandedKeyi 0%nat) (x1 0%nat) /\
    (forall i, (i < 10)%nat -> SubBytes (x1 i) (x2 i)) /\
    (forall i, (i < 10)%nat -> ShiftRows (x2 i) (x3 i)) /\
    (forall i, (i < 9)%nat -> MixColumns (x3 i) (x4 i)) /\
    (forall i, (i < 10)%nat -> if (i =? 9)%nat then AddRoundKey (x3 i) (expandedKeyi (i + 1)%nat) o
      else AddRoundKey (x4 i) (expandedKeyi (i + 1)%nat) (x1 (i + 1)%nat)).

(** aes_11cc, aes/aes_11cc.v:5-78: the registers key, msg, counter *)
Definition aes_step (_ : unit) (r : vec * vec * vec) (o : vec) (r' : vec * vec * vec) : Prop :=
  let '(key, msg, counter) := r in let '(key', msg', counter') := r' in
  exists nextKey add_round_key_input add_round_key_out sub_byte_out shift_row_out mix_col_out,
    KeyExpansionSeq key counter nextKey /\
    veq 128 msg' add_round_key_out /\ veq 4 counter' (of_val (val 4 counter + 1)) /\ veq 128 key' nextKey /\
    veq 128 add_round_key_input (if val 4 counter =? 0 then msg else if val 4 counter <? 10 then mix_col_out else shift_row_out) /\
    SubBytes msg sub_byte_out /\ ShiftRows sub_byte_out shift_row_out /\ MixColumns shift_row_out mix_col_out /\
    AddRoundKey add_round_key_input key add_round_key_out /\ veq 128 o add_round_key_out.
Definition aes_11cc (g_init e_init : vec) :=
  clocked (fun r => let '(key, msg, counter) := r in veq 128 key g_init /\ veq 128 msg e_init /\ veq 4 counter (rep false)) aes_step.

(** * Specification: the bytes of a vector, the lowest first; the rest is AesSpec.v *)
Definition byte (v : vec) : N := Z.to_N (val 8 v).
Definition bytes (n : nat) (v : vec) : list N := map (fun i => byte (part (8 * i) v)) (seq 0 n).

(** * Bytes *)
Lemma byte_bit v j : (j < 8)%nat -> N.testbit (byte v) (N.of_nat j) = v j.
Proof.
  intros H. unfold byte. pose proof (val_bound 8 v). rewrite <- (val_testbit 8 v j H). rewrite <- (Z2N.id (val 8 v)) at 2 by lia.
  rewrite <- nat_N_Z. symmetry. apply Z.testbit_of_N.
Qed.
Lemma byte_lt v : (byte v < 256)%N.
Proof. unfold byte. pose proof (val_bound 8 v) as B. change (2 ^ Z.of_nat 8) with 256 in B. lia. Qed.
Lemma byte_ext a b : veq 8 a b -> byte a = byte b.
Proof. intros H. unfold byte. rewrite (val_ext _ _ _ H). reflexivity. Qed.
Lemma bits8 (x y : N) : (x < 256)%N -> (y < 256)%N -> (forall j, (j < 8)%nat -> N.testbit x (N.of_nat j) = N.testbit y (N.of_nat j)) -> x = y.
Proof.
  intros X Y H. apply N.bits_inj. intros j. destruct (N.lt_ge_cases j 8) as [L|L].
  - specialize (H (N.to_nat j) ltac:(lia)). rewrite N2Nat.id in H. exact H.
  - assert (T : forall z, (z < 256)%N -> N.testbit z j = false).
    { intros z Z0. destruct (N.eq_dec z 0) as [->|]; [apply N.bits_0|]. apply N.bits_above_log2. apply N.lt_le_trans with 8%N; [|exact L]. apply N.log2_lt_pow2; [lia|exact Z0]. }
    rewrite !T by assumption. reflexivity.
Qed.
Lemma byte_of v b : (b < 256)%N -> (forall j, (j < 8)%nat -> v j = N.testbit b (N.of_nat j)) -> byte v = b.
Proof. intros B H. apply bits8; [apply byte_lt|exact B|]. intros j Hj. rewrite byte_bit by exact Hj. apply H, Hj. Qed.
Lemma lxor_lt a b : (a < 256)%N -> (b < 256)%N -> (N.lxor a b < 256)%N.
Proof.
  intros A B. change 256%N with (2 ^ 8)%N. destruct (N.eq_dec (N.lxor a b) 0) as [->|E]; [reflexivity|].
  apply N.log2_lt_pow2; [lia|]. eapply N.le_lt_trans; [apply N.log2_lxor|].
  assert (L : forall x, (x < 256)%N -> (N.log2 x < 8)%N). { intros x Hx. destruct (N.eq_dec x 0) as [->|]; [reflexivity|]. apply N.log2_lt_pow2; [lia|exact Hx]. }
  apply N.max_lub_lt; apply L; assumption.
Qed.
Lemma byte_xor a b : byte (vxor a b) = N.lxor (byte a) (byte b).
Proof.
  apply byte_of; [apply lxor_lt; apply byte_lt|]. intros j Hj. rewrite N.lxor_spec, !byte_bit by exact Hj. reflexivity.
Qed.
Lemma in_all_bytes b : (b < 256)%N -> In b AesSpec.all_bytes.
Proof. intros H. unfold AesSpec.all_bytes. apply in_map_iff. exists (N.to_nat b). split; [lia|]. apply in_seq. lia. Qed.
Lemma by_bytes (P : N -> bool) : forallb P AesSpec.all_bytes = true -> forall b, (b < 256)%N -> P b = true.
Proof. intros H b Hb. rewrite forallb_forall in H. apply H, in_all_bytes, Hb. Qed.

(** * The S-box *)
Definition wire_eqb (a b : wire) : bool :=
  match a, b with WX i, WX j | WY i, WY j | WT i, WT j | WZ i, WZ j | WS i, WS j => (i =? j)%nat | _, _ => false end.
Lemma wire_eqb_ok a b : wire_eqb a b = true <-> a = b.
Proof. destruct a, b; cbn; rewrite ?Nat.eqb_eq; split; intros H; try discriminate H; try (injection H as ->); subst; reflexivity. Qed.
Definition do1 (e : wire -> bool) (s : assign) : wire -> bool :=
  let 'A d o a b := s in let v := op_val o (e a) (e b) in fun w => if wire_eqb w d then v else e w.
Fixpoint known (l : list wire) (c : list assign) : bool :=
  match c with [] => true | A d o a b :: c => existsb (wire_eqb a) l && existsb (wire_eqb b) l && known (d :: l) c end.
Lemma in_existsb w l : existsb (wire_eqb w) l = true -> In w l.
Proof. intros H. apply existsb_exists in H as (x & I & E). apply wire_eqb_ok in E. subst. exact I. Qed.
Lemma runs_agree c : forall l e1 e2, known l c = true -> Forall (holds e1) c -> (forall w, In w l -> e1 w = e2 w) ->
  forall w, In w l \/ In w (map (fun s => let 'A d _ _ _ := s in d) c) -> e1 w = fold_left do1 c e2 w.
Proof.
  induction c as [|[d o a b] c IH]; intros l e1 e2 K F EQ w Hw; [destruct Hw as [Hw|[]]; apply EQ, Hw|].
  cbn [known] in K. apply andb_prop in K as [K K2]. apply andb_prop in K as [Ka Kb]. apply in_existsb in Ka, Kb. inversion F as [|? ? H1 H2]; subst. cbn [fold_left].
  apply (IH (d :: l) e1 (do1 e2 (A d o a b)) K2 H2).
  - intros u Hu. cbn [do1]. destruct (wire_eqb u d) eqn:E; [apply wire_eqb_ok in E; subst u; rewrite <- !EQ by assumption; exact H1|]. destruct Hu as [<-|Hu]; [exfalso; assert (T : wire_eqb d d = true) by (apply wire_eqb_ok; reflexivity); congruence|]. apply EQ, Hu.
  - cbn [map] in Hw. destruct Hw as [Hw|[Hw|Hw]]; cbn [In]; auto.
Qed.
Definition e0 (b : N) : wire -> bool := fun w => match w with WX i => N.testbit b (N.of_nat (7 - i)) | _ => false end.
Definition inputs : list wire := map WX (seq 0 8).
Definition sbox_run (b : N) : wire -> bool := fold_left do1 sbox_assigns (e0 b).
Definition holdsb (e : wire -> bool) (s : assign) : bool := let 'A d o a b := s in Bool.eqb (e d) (op_val o (e a) (e b)).
(** all of what is needed, for the 256 bytes *)
Lemma sbox_all b : (b < 256)%N ->
  (forall i, (i < 8)%nat -> sbox_run b (WS i) = N.testbit (AesSpec.SBox b) (N.of_nat (7 - i))) /\ (AesSpec.SBox b < 256)%N /\
  Forall (holds (sbox_run b)) sbox_assigns /\ forall i, (i < 8)%nat -> sbox_run b (WX i) = N.testbit b (N.of_nat (7 - i)).
Proof.
  intros B. assert (C : (let e := sbox_run b in let s := AesSpec.SBox b in forallb (fun i => Bool.eqb (e (WS i)) (N.testbit s (N.of_nat (7 - i)))) (seq 0 8) && N.ltb s 256 && forallb (holdsb e) sbox_assigns && forallb (fun i => Bool.eqb (e (WX i)) (N.testbit b (N.of_nat (7 - i)))) (seq 0 8)) = true).
  { revert b B. apply by_bytes. vm_compute. reflexivity. }
  cbv zeta in C. apply andb_prop in C as [C C4]. apply andb_prop in C as [C C3]. apply andb_prop in C as [C1 C2]. rewrite forallb_forall in C1, C3, C4.
  split; [intros i Hi; apply eqb_prop, C1, in_seq; lia|]. split; [apply N.ltb_lt, C2|]. split; [|intros i Hi; apply eqb_prop, C4, in_seq; lia].
  apply Forall_forall. intros [d o a c] Hs. apply C3 in Hs. cbn [holdsb] in Hs. apply eqb_prop in Hs. exact Hs.
Qed.
Theorem sbox_ok s x : sbox s x -> byte s = AesSpec.SBox (byte x).
Proof.
  intros (e & EX & ES & F). destruct (sbox_all (byte x) (byte_lt x)) as (R & L & _). apply byte_of; [exact L|]. intros j Hj.
  replace j with (7 - (7 - j))%nat by lia. rewrite ES, <- R by lia. apply (runs_agree sbox_assigns inputs e (e0 (byte x))).
  - vm_compute. reflexivity.
  - exact F.
  - intros w Hw. apply in_map_iff in Hw as (i & <- & Hi). apply in_seq in Hi. cbn [e0]. rewrite EX, byte_bit by lia. reflexivity.
  - right. assert (T : forallb (fun i => existsb (wire_eqb (WS i)) (map (fun s => let 'A d _ _ _ := s in d) sbox_assigns)) (seq 0 8) = true) by (vm_compute; reflexivity). rewrite forallb_forall in T. apply in_existsb, T, in_seq. lia.
Qed.
Definition sbox_f (x : vec) : vec := fun j => sbox_run (byte x) (WS (7 - j)).
Lemma sbox_total x s : veq 8 s (sbox_f x) -> sbox s x.
Proof.
  intros E. destruct (sbox_all (byte x) (byte_lt x)) as (_ & _ & F & X). exists (sbox_run (byte x)). split; [|split; [|exact F]].
  - intros i Hi. rewrite X, byte_bit by lia. reflexivity.
  - intros i Hi. rewrite E by lia. unfold sbox_f. f_equal. f_equal. lia.
Qed.

(** * States *)
Lemma bytes_at v r c : (r < 4)%nat -> (c < 4)%nat -> AesSpec.at_ (bytes 16 v) r c = byte (part (8 * (r + 4 * c)) v).
Proof.
  intros R C. unfold AesSpec.at_, bytes. rewrite (nth_indep _ _ (byte (part (8 * 0) v))) by (rewrite map_length, seq_length; lia). rewrite (map_nth (fun i => byte (part (8 * i) v))), seq_nth by lia. reflexivity.
Qed.
Lemma bytes_tab v f : (forall r c, (r < 4)%nat -> (c < 4)%nat -> byte (part (8 * (r + 4 * c)) v) = f r c) -> bytes 16 v = AesSpec.tabulate f.
Proof.
  intros H. unfold bytes, AesSpec.tabulate. apply map_ext_in. intros i Hi. apply in_seq in Hi. pose proof (Nat.div_mod i 4 ltac:(lia)). pose proof (Nat.mod_upper_bound i 4 ltac:(lia)).
  rewrite <- H by lia. do 3 f_equal. lia.
Qed.
Lemma part_veq n m k a b : veq n a b -> (m + k <= n)%nat -> veq k (part m a) (part m b).
Proof. intros H L i Hi. unfold part. apply H. lia. Qed.
Lemma bytes_ext n a b : veq (8 * n) a b -> bytes n a = bytes n b.
Proof. intros H. unfold bytes. apply map_ext_in. intros i Hi. apply in_seq in Hi. apply byte_ext. apply (part_veq (8 * n)); [exact H|lia]. Qed.
Lemma SubBytes_ok x z : SubBytes x z -> bytes 16 z = AesSpec.SubBytes (bytes 16 x).
Proof. intros H. apply bytes_tab. intros r c R C. rewrite bytes_at by assumption. apply sbox_ok, H. lia. Qed.
Lemma ShiftRows_bit x z : ShiftRows x z -> forall k, (k < 128)%nat -> z k = x (nth k shift_list 0%nat).
Proof.
  intros (xr & zr & w & H1 & H2 & H3) k Hk. destruct (H1 k Hk) as [_ ->]. rewrite H3 by exact Hk.
  assert (L : (nth k shift_list 0 < 128)%nat).
  { assert (T : forallb (fun k => (nth k shift_list 0 <? 128)%nat) (seq 0 128) = true) by (vm_compute; reflexivity). rewrite forallb_forall in T. apply Nat.ltb_lt, T, in_seq. lia. }
  rewrite H2 by exact L. apply H1, L.
Qed.
Lemma shift_index r c b : (r < 4)%nat -> (c < 4)%nat -> (b < 8)%nat -> nth (8 * (r + 4 * c) + b) shift_list 0%nat = (8 * (r + 4 * ((c + r) mod 4)) + b)%nat.
Proof.
  intros R C B. assert (T : forallb (fun r => forallb (fun c => forallb (fun b => (nth (8 * (r + 4 * c) + b) shift_list 0 =? 8 * (r + 4 * ((c + r) mod 4)) + b)%nat) (seq 0 8)) (seq 0 4)) (seq 0 4) = true) by (vm_compute; reflexivity).
  rewrite forallb_forall in T. specialize (T r). rewrite forallb_forall in T. specialize (T ltac:(apply in_seq; lia) c). rewrite forallb_forall in T. apply Nat.eqb_eq. apply T; apply in_seq; lia.
Qed.
Lemma ShiftRows_ok x z : ShiftRows x z -> bytes 16 z = AesSpec.ShiftRows (bytes 16 x).
Proof.
  intros H. apply bytes_tab. intros r c R C. pose proof (Nat.mod_upper_bound (c + r) 4 ltac:(lia)). rewrite bytes_at by assumption. apply byte_ext. intros b Hb. unfold part.
  rewrite (ShiftRows_bit _ _ H) by lia. rewrite shift_index by assumption. reflexivity.
Qed.
Lemma xtime_ok y x : xtime y x -> byte y = AesSpec.gf_mul 2 (byte x).
Proof.
  intros (w & W & Y). pose proof (byte_lt x) as BX. assert (T : forall b, (b < 256)%N -> ((AesSpec.gf_mul 2 b <? 256)%N && forallb (fun j => Bool.eqb (N.testbit (AesSpec.gf_mul 2 b) (N.of_nat j)) (xorb (match j with O => false | S j => N.testbit b (N.of_nat j) end) (N.testbit b 7 && N.testbit 0x1b (N.of_nat j)))) (seq 0 8)) = true).
  { apply by_bytes. vm_compute. reflexivity. }
  specialize (T _ BX). apply andb_prop in T as [T1 T2]. apply N.ltb_lt in T1. rewrite forallb_forall in T2. apply byte_of; [exact T1|]. intros j Hj. specialize (T2 j ltac:(apply in_seq; lia)). apply eqb_prop in T2. rewrite T2, Y by exact Hj.
  change 7%N with (N.of_nat 7). rewrite byte_bit by lia. assert (S1 : w j = match j with O => false | S j => N.testbit (byte x) (N.of_nat j) end). { rewrite W by exact Hj. destruct j as [|j]; [reflexivity|]. cbn [shl1]. rewrite byte_bit by lia. reflexivity. }
  rewrite <- S1. destruct (x 7%nat); [|rewrite andb_false_l, xorb_false_r; reflexivity]. unfold vxor. f_equal. cbn [andb]. unfold of_val. do 8 (destruct j as [|j]; [reflexivity|]). lia.
Qed.
Lemma gf2_xor a b : (a < 256)%N -> (b < 256)%N -> AesSpec.gf_mul 2 (N.lxor a b) = N.lxor (AesSpec.gf_mul 2 a) (AesSpec.gf_mul 2 b).
Proof.
  intros A B. assert (T : forallb (fun a => forallb (fun b => N.eqb (AesSpec.gf_mul 2 (N.lxor a b)) (N.lxor (AesSpec.gf_mul 2 a) (AesSpec.gf_mul 2 b))) AesSpec.all_bytes) AesSpec.all_bytes = true) by (vm_compute; reflexivity).
  rewrite forallb_forall in T. specialize (T a (in_all_bytes a A)). rewrite forallb_forall in T. apply N.eqb_eq, T, in_all_bytes, B.
Qed.
Lemma gf3 a : (a < 256)%N -> AesSpec.gf_mul 3 a = N.lxor (AesSpec.gf_mul 2 a) a.
Proof. intros A. apply N.eqb_eq. revert a A. apply by_bytes. vm_compute. reflexivity. Qed.
Lemma mix_byte a0 a1 a2 a3 temp c b : xtime c (vxor a0 a1) -> veq 8 b (vxor (vxor a0 temp) c) -> veq 8 temp (vxor (vxor (vxor a0 a1) a2) a3) \/ veq 8 temp (vxor (vxor (vxor a3 a0) a1) a2) \/ veq 8 temp (vxor (vxor (vxor a2 a3) a0) a1) \/ veq 8 temp (vxor (vxor (vxor a1 a2) a3) a0) ->
  byte b = N.lxor (N.lxor (N.lxor (AesSpec.gf_mul 2 (byte a0)) (AesSpec.gf_mul 3 (byte a1))) (byte a2)) (byte a3).
Proof.
  intros X B T. rewrite (byte_ext _ _ B), !byte_xor, (xtime_ok _ _ X), byte_xor, gf2_xor, gf3 by apply byte_lt.
  assert (TT : byte temp = N.lxor (N.lxor (N.lxor (byte a0) (byte a1)) (byte a2)) (byte a3)).
  { destruct T as [T|[T|[T|T]]]; rewrite (byte_ext _ _ T), !byte_xor; apply N.bits_inj; intros j; rewrite !N.lxor_spec; destruct (N.testbit (byte a0) j), (N.testbit (byte a1) j), (N.testbit (byte a2) j), (N.testbit (byte a3) j); reflexivity. }
  rewrite TT. apply N.bits_inj. intros j. rewrite !N.lxor_spec. destruct (N.testbit (byte a0) j), (N.testbit (byte a1) j), (N.testbit (byte a2) j), (N.testbit (byte a3) j), (N.testbit (AesSpec.gf_mul 2 (byte a0)) j), (N.testbit (AesSpec.gf_mul 2 (byte a1)) j); reflexivity.
Qed.
Lemma MixColumns_ok x z : MixColumns x z -> bytes 16 z = AesSpec.MixColumns (bytes 16 x).
Proof.
  intros H. apply bytes_tab. intros r c R C.
  cbv beta zeta. rewrite !bytes_at by (try exact C; apply Nat.mod_upper_bound; lia).
  destruct (H c C) as (a0 & a1 & a2 & a3 & temp & b0 & b1 & b2 & b3 & c0 & c1 & c2 & c3 & A0 & A1 & A2 & A3 & T & X0 & X1 & X2 & X3 & B0 & B1 & B2 & B3 & Z0 & Z1 & Z2 & Z3).
  rewrite (Nat.add_comm (4 * c) 0) in A0, Z0. rewrite (Nat.add_comm (4 * c) 1) in A1, Z1. rewrite (Nat.add_comm (4 * c) 2) in A2, Z2. rewrite (Nat.add_comm (4 * c) 3) in A3, Z3.
  destruct r as [|[|[|[|r]]]]; [| | | |lia].
  - change ((0 + 0) mod 4)%nat with 0%nat. change ((0 + 1) mod 4)%nat with 1%nat. change ((0 + 2) mod 4)%nat with 2%nat. change ((0 + 3) mod 4)%nat with 3%nat.
    rewrite (byte_ext _ _ Z0), <- (byte_ext _ _ A0), <- (byte_ext _ _ A1), <- (byte_ext _ _ A2), <- (byte_ext _ _ A3). apply (mix_byte _ _ _ _ temp c0); auto.
  - change ((1 + 0) mod 4)%nat with 1%nat. change ((1 + 1) mod 4)%nat with 2%nat. change ((1 + 2) mod 4)%nat with 3%nat. change ((1 + 3) mod 4)%nat with 0%nat.
    rewrite (byte_ext _ _ Z1), <- (byte_ext _ _ A0), <- (byte_ext _ _ A1), <- (byte_ext _ _ A2), <- (byte_ext _ _ A3). apply (mix_byte _ _ _ _ temp c1); auto.
  - change ((2 + 0) mod 4)%nat with 2%nat. change ((2 + 1) mod 4)%nat with 3%nat. change ((2 + 2) mod 4)%nat with 0%nat. change ((2 + 3) mod 4)%nat with 1%nat.
    rewrite (byte_ext _ _ Z2), <- (byte_ext _ _ A0), <- (byte_ext _ _ A1), <- (byte_ext _ _ A2), <- (byte_ext _ _ A3). apply (mix_byte _ _ _ _ temp c2); auto.
  - change ((3 + 0) mod 4)%nat with 3%nat. change ((3 + 1) mod 4)%nat with 0%nat. change ((3 + 2) mod 4)%nat with 1%nat. change ((3 + 3) mod 4)%nat with 2%nat.
    rewrite (byte_ext _ _ Z3), <- (byte_ext _ _ A0), <- (byte_ext _ _ A1), <- (byte_ext _ _ A2), <- (byte_ext _ _ A3). apply (mix_byte _ _ _ _ temp c3); auto.
Qed.
(** The vector [k] is the round key [round] of the schedule [w]. *)
Definition round_key (w : nat -> list N) (round : nat) (k : vec) : Prop := forall c, (c < 4)%nat -> bytes 4 (part (32 * c) k) = w (4 * round + c)%nat.
Lemma bytes4_nth v r : (r < 4)%nat -> nth r (bytes 4 v) 0%N = byte (part (8 * r) v).
Proof. intros R. unfold bytes. rewrite (nth_indep _ _ (byte (part (8 * 0) v))) by (rewrite map_length, seq_length; lia). rewrite (map_nth (fun i => byte (part (8 * i) v))), seq_nth by lia. reflexivity. Qed.
Lemma part_part n m v : forall i, part n (part m v) i = part (m + n) v i.
Proof. intros i. unfold part. f_equal. lia. Qed.
Lemma AddRoundKey_ok x k z w round : AddRoundKey x k z -> round_key w round k -> bytes 16 z = AesSpec.AddRoundKey w round (bytes 16 x).
Proof.
  intros H K. apply bytes_tab. intros r c R C. rewrite bytes_at by assumption. rewrite <- (K c C), bytes4_nth by exact R. rewrite <- byte_xor. apply byte_ext. intros b Hb. unfold part, vxor. rewrite H by lia. unfold vxor. f_equal. f_equal. lia.
Qed.

(** * The key schedule *)
Definition W (key : list N) (i : nat) : list N := nth i (AesSpec.KeyExpansion 4 key) [].
Lemma key_words_length Nk key n : length (AesSpec.key_words Nk key n) = n.
Proof. induction n as [|n IH]; [reflexivity|]. cbn [AesSpec.key_words]. rewrite app_length, IH. cbn [length]. lia. Qed.
Lemma key_words_prefix Nk key n m i : (i < n)%nat -> (n <= m)%nat -> nth i (AesSpec.key_words Nk key m) [] = nth i (AesSpec.key_words Nk key n) [].
Proof.
  intros I L. induction m as [|m IH]; [lia|]. destruct (Nat.eq_dec n (S m)) as [->|]; [reflexivity|]. cbn [AesSpec.key_words]. rewrite app_nth1 by (rewrite key_words_length; lia). apply IH. lia.
Qed.
Lemma W_next key i : (i < 44)%nat -> W key i = AesSpec.next_word 4 key i (AesSpec.key_words 4 key i).
Proof.
  intros I. unfold W, AesSpec.KeyExpansion. rewrite (key_words_prefix 4 key (S i)) by lia. cbn [AesSpec.key_words]. rewrite app_nth2 by (rewrite key_words_length; lia). rewrite key_words_length, Nat.sub_diag. reflexivity.
Qed.
Lemma W_first key i : (i < 4)%nat -> W key i = firstn 4 (skipn (4 * i) key).
Proof. intros I. rewrite W_next by lia. unfold AesSpec.next_word. destruct (Nat.ltb_spec i 4); [reflexivity|lia]. Qed.
Lemma W_rec key i : (4 <= i < 44)%nat -> W key i = AesSpec.xor_word (W key (i - 4)) (if (i mod 4 =? 0)%nat then AesSpec.xor_word (AesSpec.SubWord (AesSpec.RotWord (W key (i - 1)))) (AesSpec.Rcon (i / 4)) else W key (i - 1)).
Proof.
  intros I. rewrite W_next by lia. unfold AesSpec.next_word. destruct (Nat.ltb_spec i 4); [lia|]. unfold W, AesSpec.KeyExpansion. rewrite <- !(key_words_prefix 4 key i (4 * (4 + 7))) by lia. reflexivity.
Qed.
Lemma bytes4 v : bytes 4 v = [byte (part 0 v); byte (part 8 v); byte (part 16 v); byte (part 24 v)].
Proof. reflexivity. Qed.
Lemma bytes4_xor a b : bytes 4 (vxor a b) = AesSpec.xor_word (bytes 4 a) (bytes 4 b).
Proof. rewrite !bytes4. unfold AesSpec.xor_word. cbn [combine map fst snd]. rewrite <- !byte_xor. reflexivity. Qed.
Lemma xor_word_comm a b : AesSpec.xor_word a b = AesSpec.xor_word b a.
Proof. unfold AesSpec.xor_word. revert b. induction a as [|x a IH]; intros [|y b]; cbn [combine map]; try reflexivity. rewrite IH. cbn [fst snd]. rewrite N.lxor_comm. reflexivity. Qed.
Lemma byte_of_val z : 0 <= z < 256 -> byte (of_val z) = Z.to_N z.
Proof. intros H. unfold byte. rewrite val_of_val. change (2 ^ Z.of_nat 8) with 256. rewrite Z.mod_small by exact H. reflexivity. Qed.
(** The core of the schedule *)
Lemma core_ok w rotWord Q unused rc t j : veq 32 rotWord (cat w 24 (part 8 w)) -> SubBytes (cat rotWord 96 (rep false)) (cat Q 96 unused) ->
  veq 8 rc (of_val (nth j RCon 0)) -> veq 32 t (cat (part 8 Q) 8 (vxor rc Q)) -> (j < 10)%nat ->
  bytes 4 t = AesSpec.xor_word (AesSpec.SubWord (AesSpec.RotWord (bytes 4 w))) (AesSpec.Rcon (j + 1)).
Proof.
  intros R SB RC T J.
  assert (QB : forall i, (i < 4)%nat -> byte (part (8 * i) Q) = AesSpec.SBox (byte (part (8 * i) rotWord))).
  { intros i Hi. pose proof (sbox_ok _ _ (SB (12 + i)%nat ltac:(lia))) as E.
    assert (PP : forall u v, veq 8 (part (8 * (12 + i)) (cat u 96 v)) (part (8 * i) u)). { intros u v b Hb. unfold part, cat. destruct (Nat.ltb_spec (8 * (12 + i) + b) 96); [lia|]. f_equal. lia. }
    rewrite (byte_ext _ _ (PP Q unused)), (byte_ext _ _ (PP rotWord (rep false))) in E. exact E. }
  assert (RB : byte (part (8 * 0) rotWord) = byte (part 8 w) /\ byte (part (8 * 1) rotWord) = byte (part 16 w) /\ byte (part (8 * 2) rotWord) = byte (part 24 w) /\ byte (part (8 * 3) rotWord) = byte (part 0 w)).
  { repeat split; apply byte_ext; intros b Hb; unfold part; rewrite R by lia; unfold cat, part.
    - destruct (Nat.ltb_spec (8 * 0 + b) 24); [|lia]. f_equal.
    - destruct (Nat.ltb_spec (8 * 1 + b) 24); [|lia]. f_equal.
    - destruct (Nat.ltb_spec (8 * 2 + b) 24); [|lia]. f_equal.
    - destruct (Nat.ltb_spec (8 * 3 + b) 24); [lia|]. f_equal. lia. }
  destruct RB as (R0 & R1 & R2 & R3). pose proof (QB 0%nat ltac:(lia)) as Q0. pose proof (QB 1%nat ltac:(lia)) as Q1. pose proof (QB 2%nat ltac:(lia)) as Q2. pose proof (QB 3%nat ltac:(lia)) as Q3.
  assert (T0 : byte (part 0 t) = N.lxor (byte rc) (byte (part (8 * 0) Q))). { rewrite <- byte_xor. apply byte_ext. intros b Hb. unfold part. rewrite T by lia. unfold cat, vxor. cbn [Nat.add]. destruct (Nat.ltb_spec b 8); [reflexivity|lia]. }
  assert (TI : forall i, (1 <= i < 4)%nat -> byte (part (8 * i) t) = byte (part (8 * i) Q)). { intros i Hi. apply byte_ext. intros b Hb. unfold part. rewrite T by lia. unfold cat. destruct (Nat.ltb_spec (8 * i + b) 8); [lia|]. unfold part. f_equal. lia. }
  rewrite !bytes4. cbn [AesSpec.RotWord app AesSpec.SubWord map]. unfold AesSpec.xor_word, AesSpec.Rcon. cbn [combine map fst snd]. rewrite !N.lxor_0_r.
  pose proof (TI 1%nat ltac:(lia)) as T1. pose proof (TI 2%nat ltac:(lia)) as T2. pose proof (TI 3%nat ltac:(lia)) as T3. change (8 * 1)%nat with 8%nat in *. change (8 * 2)%nat with 16%nat in *. change (8 * 3)%nat with 24%nat in *. 
  rewrite T0, T1, T2, T3, Q0, Q1, Q2, Q3, R0, R1, R2, R3, (N.lxor_comm (byte rc)). f_equal. f_equal. replace (j + 1 - 1)%nat with j by lia. rewrite (byte_ext _ _ RC).
  clear - J. do 10 (destruct j as [|j]; [rewrite byte_of_val by (cbn; lia); vm_compute; reflexivity|]). lia.
Qed.
Lemma key_bytes key i : (i < 4)%nat -> bytes 4 (part (32 * i) key) = firstn 4 (skipn (4 * i) (bytes 16 key)).
Proof.
  intros I. assert (E : forall m v, bytes 4 (part (8 * m) v) = [byte (part (8 * m) v); byte (part (8 * (m + 1)) v); byte (part (8 * (m + 2)) v); byte (part (8 * (m + 3)) v)]).
  { intros m v. assert (B : forall k n, (k = 8 * n)%nat -> byte (part k (part (8 * m) v)) = byte (part (8 * (m + n)) v)) by (intros k n ->; apply byte_ext; intros b _; unfold part; f_equal; lia).
    rewrite bytes4, (B 0%nat 0%nat), (B 8%nat 1%nat), (B 16%nat 2%nat), (B 24%nat 3%nat), Nat.add_0_r by reflexivity. reflexivity. }
  replace (32 * i)%nat with (8 * (4 * i))%nat by lia. rewrite E. do 4 (destruct i as [|i]; [reflexivity|]). lia.
Qed.
Theorem KeyExpansion_ok key ek : KeyExpansion key ek -> forall i, (i < 44)%nat -> bytes 4 (part (32 * i) ek) = W (bytes 16 key) i.
Proof.
  intros (w & t & rot & Q & un & EK & WW & CO). assert (I : forall n i, (i < n)%nat -> (i < 44)%nat -> bytes 4 (w i) = W (bytes 16 key) i).
  { induction n as [|n IH]; intros i Hi H44; [lia|]. specialize (WW i H44). destruct (Nat.ltb_spec i 4) as [C|C].
    - rewrite (bytes_ext 4 _ _ WW), key_bytes, W_first by exact C. reflexivity.
    - rewrite W_rec by lia. destruct (Nat.eqb_spec (i mod 4) 0) as [M|M].
      + pose proof (Nat.div_mod i 4 ltac:(lia)) as D. rewrite (bytes_ext 4 _ _ WW), bytes4_xor, (IH (i - 4)%nat) by lia. f_equal.
        destruct (CO (i / 4 - 1)%nat ltac:(lia)) as (R & SB & T). replace (4 + 4 * (i / 4 - 1) - 1)%nat with (i - 1)%nat in R by lia. replace (4 + (i / 4 - 1) * 4 - 1)%nat with (i - 1)%nat in R by lia.
        rewrite (core_ok _ _ _ _ _ _ _ R SB (fun _ _ => eq_refl) T ltac:(lia)), IH by lia. f_equal. f_equal. lia.
      + rewrite (bytes_ext 4 _ _ WW), bytes4_xor, xor_word_comm, !IH by lia. reflexivity. }
  intros i Hi. rewrite (bytes_ext 4 _ _ (EK i Hi)). apply (I (S i)); [lia|exact Hi].
Qed.
Theorem KeyExpansionSeq_ok key counter next w round : KeyExpansionSeq key counter next -> val 4 counter = Z.of_nat round -> (round < 10)%nat ->
  round_key (W w) round key -> round_key (W w) (round + 1) next.
Proof.
  intros (wv & wn & t & rot & Q & un & rc & WE & WN & R & SB & RC & T) C HR K.
  assert (WV : forall i, (i < 4)%nat -> bytes 4 (wv i) = W w (4 * round + i)). { intros i Hi. destruct (WE i Hi) as [E _]. destruct (Z.ltb_spec (val 4 counter) 10); [|lia]. rewrite (bytes_ext 4 _ _ E). apply K, Hi. }
  assert (TT : bytes 4 t = AesSpec.xor_word (AesSpec.SubWord (AesSpec.RotWord (W w (4 * round + 3)))) (AesSpec.Rcon (round + 1))).
  { rewrite <- WV by lia. apply (core_ok _ _ _ _ _ _ _ R SB) with (2 := T); [|exact HR]. specialize (RC ltac:(lia)). rewrite C, Nat2Z.id in RC. exact RC. }
  assert (I : forall c, (c < 4)%nat -> bytes 4 (wn c) = W w (4 * (round + 1) + c)).
  { induction c as [|c IH]; intros Hc.
    - pose proof (WN 0%nat Hc) as E. cbn [Nat.eqb] in E. rewrite (bytes_ext 4 _ _ E), bytes4_xor, TT, WV by exact Hc. rewrite (W_rec w (4 * (round + 1) + 0)) by lia. replace ((4 * (round + 1) + 0) mod 4)%nat with 0%nat by (rewrite Nat.add_0_r, Nat.mul_comm, Nat.mod_mul; lia). cbn [Nat.eqb].
      f_equal; [f_equal; lia|]. replace ((4 * (round + 1) + 0) / 4)%nat with (round + 1)%nat by (rewrite Nat.add_0_r, Nat.mul_comm, Nat.div_mul; lia). replace (4 * (round + 1) + 0 - 1)%nat with (4 * round + 3)%nat by lia. reflexivity.
    - pose proof (WN (S c) Hc) as E. cbn [Nat.eqb] in E. replace (S c - 1)%nat with c in E by lia. rewrite (bytes_ext 4 _ _ E), bytes4_xor, IH, WV by lia. rewrite (W_rec w (4 * (round + 1) + S c)) by lia.
      assert (M : ((4 * (round + 1) + S c) mod 4)%nat = S c). { rewrite (Nat.mul_comm 4), Nat.add_comm, Nat.mod_add, Nat.mod_small by lia. reflexivity. } rewrite M. cbn [Nat.eqb].
      f_equal; f_equal; lia. }
  intros c Hc. destruct (WE c Hc) as [_ E]. rewrite (bytes_ext 4 _ _ E). apply I, Hc.
Qed.

(** * The cipher *)
Fixpoint state_after (w : nat -> list N) (n : nat) (s : AesSpec.state) : AesSpec.state :=
  match n with O => AesSpec.AddRoundKey w 0 s | S k => AesSpec.AddRoundKey w n (AesSpec.MixColumns (AesSpec.ShiftRows (AesSpec.SubBytes (state_after w k s)))) end.
Lemma state_S w n s : state_after w (S n) s = AesSpec.AddRoundKey w (S n) (AesSpec.MixColumns (AesSpec.ShiftRows (AesSpec.SubBytes (state_after w n s)))).
Proof. reflexivity. Qed.
Lemma state_0 w s : state_after w 0 s = AesSpec.AddRoundKey w 0 s.
Proof. reflexivity. Qed.
Lemma rounds_last w : forall n first s, AesSpec.rounds_from w first (S n) s = AesSpec.AddRoundKey w (first + n) (AesSpec.MixColumns (AesSpec.ShiftRows (AesSpec.SubBytes (AesSpec.rounds_from w first n s)))).
Proof.
  induction n as [|n IH]; intros first s; [cbn [AesSpec.rounds_from]; rewrite Nat.add_0_r; reflexivity|].
  change (AesSpec.rounds_from w first (S (S n)) s) with (AesSpec.rounds_from w (S first) (S n) (AesSpec.AddRoundKey w first (AesSpec.MixColumns (AesSpec.ShiftRows (AesSpec.SubBytes s))))). rewrite IH. replace (S first + n)%nat with (first + S n)%nat by lia. reflexivity.
Qed.
Lemma rounds_state w n s : AesSpec.rounds_from w 1 n (AesSpec.AddRoundKey w 0 s) = state_after w n s.
Proof. induction n as [|n IH]; [reflexivity|]. rewrite rounds_last, IH. reflexivity. Qed.
Local Opaque AesSpec.Cipher AesSpec.KeyExpansion.
Lemma AES_eq key s : AesSpec.AES 4 key s = AesSpec.Cipher (W key) 10 s.
Proof. reflexivity. Qed.
Local Transparent AesSpec.Cipher.
Lemma AES_state key s : AesSpec.AES 4 key s = AesSpec.AddRoundKey (W key) 10 (AesSpec.ShiftRows (AesSpec.SubBytes (state_after (W key) 9 s))).
Proof. rewrite AES_eq. generalize (W key). intros w. unfold AesSpec.Cipher. rewrite <- (rounds_state w 9 s). reflexivity. Qed.
Local Opaque state_after AesSpec.AddRoundKey AesSpec.MixColumns AesSpec.ShiftRows AesSpec.SubBytes.
Theorem aes_1cc_ok g e o : aes_1cc g e o -> bytes 16 o = AesSpec.AES 4 (bytes 16 g) (bytes 16 e).
Proof.
  intros (ek & eki & x1 & x2 & x3 & x4 & KE & KI & A0 & SB & SR & MC & AR).
  assert (RK : forall i, (i < 11)%nat -> round_key (W (bytes 16 g)) i (eki i)).
  { intros i Hi c Hc. rewrite <- (KeyExpansion_ok _ _ KE) by lia. apply bytes_ext. intros b Hb. unfold part. rewrite (KI i Hi) by lia. unfold part. f_equal. lia. }
  assert (I : forall i, (i < 10)%nat -> bytes 16 (x1 i) = state_after (W (bytes 16 g)) i (bytes 16 e)).
  { induction i as [|i IH]; intros Hi; [rewrite state_0; apply (AddRoundKey_ok _ _ _ _ 0 A0), RK; lia|]. rewrite state_S. pose proof (AR i ltac:(lia)) as X. destruct (Nat.eqb_spec i 9); [lia|]. rewrite Nat.add_1_r in X.
    rewrite (AddRoundKey_ok _ _ _ _ (S i) X (RK (S i) ltac:(lia))), (MixColumns_ok _ _ (MC i ltac:(lia))), (ShiftRows_ok _ _ (SR i ltac:(lia))), (SubBytes_ok _ _ (SB i ltac:(lia))), IH by lia. reflexivity. }
  rewrite AES_state, <- (I 9%nat) by lia. pose proof (AR 9%nat ltac:(lia)) as X. cbn [Nat.eqb Nat.add] in X.
  rewrite (AddRoundKey_ok _ _ _ _ 10 X (RK 10%nat ltac:(lia))), (ShiftRows_ok _ _ (SR 9%nat ltac:(lia))), (SubBytes_ok _ _ (SB 9%nat ltac:(lia))). reflexivity.
Qed.
Theorem aes_11cc_ok g e n i o : aes_11cc g e n i o -> (11 <= n)%nat -> bytes 16 (o 10%nat) = AesSpec.AES 4 (bytes 16 g) (bytes 16 e).
Proof.
  intros (s & S0 & ST) Hn. set (w := bytes 16 g).
  assert (I : forall t, (t <= 10)%nat -> let '(key, msg, counter) := s t in val 4 counter = Z.of_nat t /\ round_key (W w) t key /\ bytes 16 msg = match t with O => bytes 16 e | S k => state_after (W w) k (bytes 16 e) end).
  { induction t as [|t IH]; intros Ht.
    - destruct (s 0%nat) as [[key msg] counter]. destruct S0 as (K & M & C). split; [rewrite (val_ext _ _ _ C), val_rep_false; reflexivity|]. split; [|apply bytes_ext; exact M].
      intros c Hc. change (4 * 0 + c)%nat with c. unfold w. rewrite W_first, <- key_bytes by lia. apply bytes_ext. apply (part_veq 128); [exact K|lia].
    - specialize (IH ltac:(lia)). specialize (ST t ltac:(lia)). unfold aes_step in ST. destruct (s t) as [[key msg] counter]. destruct (s (S t)) as [[key' msg'] counter'].
      destruct IH as (C & K & M). destruct ST as (nk & ai & ao & sb & sr & mc & KS & ME & CE & KE & AI & SB & SR & MC & AR & _). split; [|split].
      + rewrite (val_ext _ _ _ CE), val_of_val, C. change (2 ^ Z.of_nat 4) with 16. rewrite Z.mod_small by lia. lia.
      + intros c Hc. rewrite (bytes_ext 4 _ (part (32 * c) nk)) by (apply (part_veq 128); [exact KE|lia]). replace (S t) with (t + 1)%nat by lia. apply (KeyExpansionSeq_ok _ _ _ _ t KS C ltac:(lia) K), Hc.
      + rewrite (bytes_ext 16 _ _ ME), (AddRoundKey_ok _ _ _ _ t AR K), (bytes_ext 16 _ _ AI). destruct (Z.eqb_spec (val 4 counter) 0) as [Z0|Z0].
        * replace t with 0%nat in * by lia. rewrite M, state_0. reflexivity.
        * destruct t as [|t]; [lia|]. destruct (Z.ltb_spec (val 4 counter) 10); [|lia]. rewrite (MixColumns_ok _ _ MC), (ShiftRows_ok _ _ SR), (SubBytes_ok _ _ SB), M, state_S. reflexivity. }
  specialize (I 10%nat ltac:(lia)). specialize (ST 10%nat ltac:(lia)). unfold aes_step in ST. destruct (s 10%nat) as [[key msg] counter]. destruct (s 11%nat) as [[key' msg'] counter'].
  destruct I as (C & K & M). destruct ST as (nk & ai & ao & sb & sr & mc & _ & _ & _ & _ & AI & SB & SR & _ & AR & OE).
  rewrite (bytes_ext 16 _ _ OE), (AddRoundKey_ok _ _ _ _ 10 AR K), (bytes_ext 16 _ _ AI). rewrite C. cbn [Z.of_nat Z.eqb Z.ltb Z.compare Pos.compare Pos.compare_cont Pos.of_succ_nat Pos.succ]. rewrite (ShiftRows_ok _ _ SR), (SubBytes_ok _ _ SB), M, AES_state. reflexivity.
Qed.
