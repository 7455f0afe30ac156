(** The arithmetic of [int] in the programs for the garbled processor (a23/). *)
From Coq Require Import ZArith List Bool Lia.
From Verif Require Import Base Tcp.
Import ListNotations.
Open Scope Z_scope.

(** C leaves an overflow of [int] undefined; the code that compilers make of
    it mostly wraps around (always with -fwrapv, which a23/include/common.mk
    does not ask for).  The model has both. *)
Inductive overflow := Wraps | Undefined.
Definition is_int (z : Z) : Prop := - 2 ^ 31 <= z < 2 ^ 31.
(** The result of an operation on [int] whose exact value is [z] *)
Definition int_result (m : overflow) (z : Z) : option Z :=
  match m with
  | Wraps => Some (to_int z)
  | Undefined => if (- 2 ^ 31 <=? z) && (z <? 2 ^ 31) then Some z else None
  end.
(** Conversion to [unsigned int], which always reduces. *)
Definition to_uint (z : Z) : Z := z mod 2 ^ 32.

Lemma to_int_id z : is_int z -> to_int z = z.
Proof.
  unfold is_int, to_int. intros H. destruct (Z.lt_ge_cases z 0).
  - replace (z mod 2 ^ 32) with (z + 2 ^ 32).
    + destruct (Z.ltb_spec (z + 2 ^ 32) (2 ^ 31)); lia.
    + rewrite <- (Z.mod_add z 1) by lia. rewrite Z.mul_1_l. symmetry. apply Z.mod_small. lia.
  - rewrite Z.mod_small by lia. destruct (Z.ltb_spec z (2 ^ 31)); lia.
Qed.
Lemma to_int_range z : is_int (to_int z).
Proof. unfold is_int, to_int. pose proof (Z.mod_pos_bound z (2 ^ 32) ltac:(lia)). destruct (Z.ltb_spec (z mod 2 ^ 32) (2 ^ 31)); lia. Qed.
Lemma int_result_id m z : is_int z -> int_result m z = Some z.
Proof.
  intros H. destruct m; cbn [int_result]; [rewrite to_int_id by exact H; reflexivity|].
  unfold is_int in H. destruct (Z.leb_spec (- 2 ^ 31) z); [|lia]. destruct (Z.ltb_spec z (2 ^ 31)); [reflexivity|lia].
Qed.
Lemma to_uint_to_int z : to_uint (to_int z) = to_uint z.
Proof.
  unfold to_uint, to_int. pose proof (Z.mod_pos_bound z (2 ^ 32) ltac:(lia)) as B. destruct (Z.ltb_spec (z mod 2 ^ 32) (2 ^ 31)).
  - apply Z.mod_small. lia.
  - rewrite Zminus_mod, Z.mod_same, Z.sub_0_r, !Z.mod_mod by lia. reflexivity.
Qed.
Lemma to_uint_range z : 0 <= to_uint z < 2 ^ 32.
Proof. apply Z.mod_pos_bound. lia. Qed.
