(** Theorems about sine and cosine for the garbled processor; [U] is 2^30. *)
From Coq Require Import Reals ZArith List.
From Verif Require Import Base Tcp A23Int A23Cordic.
Import ListNotations.
Open Scope R_scope.

(** * C95 Sine and cosine *)
Theorem C95_cordic : forall m theta, is_int theta -> exists s c, cordic m theta = Some (s, c) /\
  ((Z.abs theta <= 0x6487ED51)%Z -> Rabs (IZR s - U * sin (IZR theta / U)) <= 72 /\ Rabs (IZR c - U * cos (IZR theta / U)) <= 72).
Proof. exact cordic_ok. Qed.
Print Assumptions C95_cordic.
Theorem C95_cordic_main : forall m g e o g0 e0, rd g 0 = Some g0 -> rd e 0 = Some e0 -> length o = 2%nat -> is_int g0 -> is_int e0 ->
  exists s c, cordic_main m g e o = Some [s; c] /\
  let theta := Z.lxor g0 e0 in
  ((Z.abs theta <= 0x6487ED51)%Z -> Rabs (IZR s - U * sin (IZR theta / U)) <= 72 /\ Rabs (IZR c - U * cos (IZR theta / U)) <= 72).
Proof. exact cordic_main_ok. Qed.
Print Assumptions C95_cordic_main.
Theorem C95_outside_range_refuted : ~ forall m theta, is_int theta -> exists s c, cordic m theta = Some (s, c) /\
  Rabs (IZR s - U * sin (IZR theta / U)) <= 72 /\ Rabs (IZR c - U * cos (IZR theta / U)) <= 72.
Proof. exact cordic_range_refuted. Qed.
Print Assumptions C95_outside_range_refuted.
(** The angles 0 and PI / 6, and the largest [int], which is outside the range. *)
Example C95_example : cordic_main Undefined [0]%Z [0]%Z [0; 0]%Z = Some [-1; 1073741831]%Z /\
  cordic_main Undefined [562214468]%Z [0x1234]%Z [0; 0]%Z = Some [536870913; 929887701]%Z /\ (Z.abs (Z.lxor 562214468 0x1234) <= 0x6487ED51)%Z /\
  cordic Undefined (2 ^ 31 - 1) = Some (1057807908, -184292969)%Z.
Proof. split; [|split; [|split]]; vm_compute; try reflexivity; discriminate. Qed.
