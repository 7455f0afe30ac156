(** Theorems about what garbled tables show. *)
From Coq Require Import ZArith NArith List Bool Lia.
From Verif Require Import Base Gate Privacy.
Import ListNotations.
Open Scope N_scope.

(** * C48 No label is hashed twice with the same tweak *)
Theorem C48_tweaks_distinct : forall x h cid g h' cid' g', cid < 2 ^ 64 -> cid' < 2 ^ 64 -> g < 2 ^ 63 -> g' < 2 ^ 63 ->
  XorBlock x (tweak h cid g) = XorBlock x (tweak h' cid' g') -> h = h' /\ cid = cid' /\ g = g'.
Proof. exact tweaks_distinct. Qed.
Print Assumptions C48_tweaks_distinct.
Theorem C48_garbling_points : forall aes aes' in0 in1 t cid gid R,
  (forall p, In p (points in0 in1 cid gid) -> aes p = aes' p) ->
  HalfGates aes in0 in1 t cid gid R = HalfGates aes' in0 in1 t cid gid R.
Proof. exact garbling_points. Qed.
Print Assumptions C48_garbling_points.
Example C48_example : NoDup (map (fun k => XorBlock 77 (tweak (N.odd k) (k / 8) ((k / 2) mod 4))) (map N.of_nat (seq 0 64))).
Proof. vm_compute. repeat (constructor; [intros H; cbn in H; decompose [or] H; try discriminate; contradiction|]). constructor. Qed.

(** * C49 A table is an encryption under hash values the evaluator does not have *)
Theorem C49_table_hides : forall aes in0 in1 t cid gid R (a b : bool) T,
  NoDup (points in0 in1 cid gid) ->
  let p := XorBlock (if a then fst in0 else snd in0) (tweak false cid gid) in
  let q := XorBlock (if b then fst in1 else snd in1) (tweak true cid gid) in
  exists! uv, snd (HalfGates (with_two aes p (fst uv) q (snd uv)) in0 in1 t cid gid R) = T.
Proof. exact table_hides. Qed.
Print Assumptions C49_table_hides.
Example C49_example : NoDup (points (1000, N.lxor 1000 4097) (2000, N.lxor 2000 4097) 3 5).
Proof. vm_compute. repeat (constructor; [intros H; cbn in H; decompose [or] H; try discriminate; contradiction|]). constructor. Qed.
