(** Concrete runs of the circuits of RtlMatrix.v, RtlSelect.v and RtlKnns.v. *)
From Coq Require Import ZArith List Bool Lia Permutation Sorting.Sorted.
From Verif Require Import RtlBase RtlLib RtlArith RtlSeq RtlMatrix RtlSelect RtlKnns RtlStack.
Import ListNotations.
Open Scope Z_scope.

(** 8-bit mult *)
Lemma mult_circuit_case : exists o, mult 8 1 (of_val 25) (of_val 11) o /\ val 8 o = 275 - 256.
Proof. destruct (mult_circuit_total 8 1 (of_val 25) (of_val 11)) as (o & H). exists o. split; [exact H|]. apply mult_1cc in H; [|lia]. rewrite H. vm_compute. reflexivity. Qed.
(** Matrices of two rows and columns: (1 3; 5 7) and (9 1; 2 11) *)
Lemma matrix_case : exists o, matrix_mult_0 2 8 (of_val 0x07050301) (of_val 0x0b020109) o /\
  elem 2 8 o 0 0 = 15 /\ elem 2 8 o 0 1 = 34 /\ elem 2 8 o 1 0 = 59 /\ elem 2 8 o 1 1 = 82.
Proof.
  destruct (matrix_0_total 2 8 (of_val 0x07050301) (of_val 0x0b020109) ltac:(lia)) as (o & H). exists o. split; [exact H|]. pose proof (matrix_0_ok _ _ _ _ _ H) as E.
  rewrite !E by lia. vm_compute. auto.
Qed.
Lemma matrix_serial_case : exists o, matrix_mult_3 8 2 (fun k => (part (8 * (2 * 1 + k)) (of_val 0x07050301), part (8 * (2 * k + 0)) (of_val 0x0b020109))) o /\ val 8 (o 1%nat) = 59.
Proof.
  destruct (matrix_3_total 8 2 (fun k => (part (8 * (2 * 1 + k)) (of_val 0x07050301), part (8 * (2 * k + 0)) (of_val 0x0b020109)))) as (o & H). exists o. split; [exact H|].
  pose proof (matrix_3_element 2 8 _ _ 1 0 o ltac:(lia) H) as E. cbn [Nat.sub] in E. rewrite E. vm_compute. reflexivity.
Qed.
(** Of 3, 9, 1, 9 the last 9 is found. *)
Lemma argmax_case : exists max ind, argmax 4 8 (of_val 0x09010903) max ind /\ val 8 max = 9 /\ val (log2 4) ind = 3.
Proof.
  destruct (argmax_total 4 8 (of_val 0x09010903)) as (mx & ix & H). exists mx, ix. split; [exact H|].
  destruct (argmax_ok 4 8 _ _ _ ltac:(lia) ltac:(lia) H) as (i & Hi & EI & EM & LE & _). rewrite EI, EM. pose proof (LE 3%nat ltac:(lia)) as L3. rewrite EM in L3.
  destruct (argmax_ok 4 8 _ _ _ ltac:(lia) ltac:(lia) H) as (i' & Hi' & EI' & EM' & _ & LT). replace i' with i in * by lia.
  do 3 (destruct i as [|i]; [exfalso; specialize (LT 3%nat ltac:(lia) ltac:(lia)); rewrite EM in LT; vm_compute in LT; discriminate LT|]). destruct i as [|i]; [|lia]. split; vm_compute; reflexivity.
Qed.
Lemma encoder_case : exists o, encoder 4 (of_val 0) (of_val 0x20) o /\ val 4 o = 13.
Proof.
  destruct (encoder_total 4 (of_val 0) (of_val 0x20) ltac:(lia)) as (o & H). exists o. split; [exact H|]. apply (encoder_ok 4 _ _ _ 13 H); [cbn; lia|].
  intros i Hi. change (2 ^ 4)%nat with 16%nat in Hi. do 16 (destruct i as [|i]; [vm_compute; reflexivity|]). lia.
Qed.
Lemma taxicab_case : exists d, taxicab_distance 8 (of_val 10) (of_val 200) (of_val 250) (of_val 3) d /\ val 10 d = 437.
Proof. destruct (taxicab_total 8 (of_val 10) (of_val 200) (of_val 250) (of_val 3)) as (d & H). exists d. split; [exact H|]. apply taxicab_ok in H. cbn [Nat.add] in H. rewrite H. vm_compute. reflexivity. Qed.
(** The two nearest of 0xff, 0x01, 0x07, 0x00 to 0x03: 0x01 and 0x07, at distance 1 each, are kept;
    the registers hold both after the four cycles. *)
Lemma k_nns_case : exists o, k_nns_seq 8 2 4 (fun t => (of_val 3, of_val (nth t [0xff; 0x01; 0x07; 0x00] 0))) o /\
  forall x, x = 0x01 \/ x = 0x07 <-> x = val 8 (part (8 * 0) (o 3%nat)) \/ x = val 8 (part (8 * 1) (o 3%nat)).
Proof.
  destruct (k_nns_total 8 2 4 (fun t => (of_val 3, of_val (nth t [0xff; 0x01; 0x07; 0x00] 0))) ltac:(lia) ltac:(lia)) as (o & H). exists o. split; [exact H|].
  destruct (k_nns_ok 8 2 4 (fun _ => of_val 3) (fun t => of_val (nth t [0xff; 0x01; 0x07; 0x00] 0)) o ltac:(lia) ltac:(lia) H 3%nat ltac:(lia)) as (a & (LA & SO & rest & PE & LE) & OE).
  rewrite !OE by lia. clear H OE. assert (ML : map (fun u => (hdist 8 (of_val 3) (of_val (nth u [0xff; 0x01; 0x07; 0x00] 0)), val 8 (of_val (nth u [0xff; 0x01; 0x07; 0x00] 0)))) (seq 0 (3 + 1)) = [(6, 0xff); (1, 1); (1, 7); (2, 0)]) by (vm_compute; reflexivity). rewrite ML in *.
  cbn [length Nat.min] in LA. destruct a as [|x [|y [|]]]; try discriminate LA. clear LA SO.
  assert (LR : length rest = 2%nat) by (apply Permutation_length in PE; cbn in PE; lia). destruct rest as [|u [|v [|]]]; try discriminate LR. clear LR.
  assert (M1 : In (1, 1) [x; y]).
  { assert (Q : In (1, 1) ([x; y] ++ [u; v])) by (apply (Permutation_in _ (Permutation_sym PE)); cbn; auto). apply in_app_or in Q as [Q|Q]; [exact Q|]. exfalso.
    assert (AX : forall z, In z [x; y] -> z = (1, 7)). { intros z Hz. pose proof (LE z _ Hz Q) as L. assert (In z [(6, 0xff); (1, 1); (1, 7); (2, 0)]) as Z0 by (apply (Permutation_in _ PE), in_or_app; auto). cbn [In] in Z0. destruct Z0 as [<-|[<-|[<-|[<-|[]]]]]; cbn in L; try lia; [|reflexivity].
      exfalso. assert (ND : NoDup ([x; y] ++ [u; v])) by (apply (Permutation_NoDup (Permutation_sym PE)); repeat constructor; cbn; intuition congruence). apply in_split in Hz as (p & q & EQ). rewrite EQ in ND. rewrite <- app_assoc in ND. cbn [app] in ND. apply NoDup_remove_2 in ND. apply ND, in_or_app. right. apply in_or_app. right. exact Q. }
    assert (x = y) by (rewrite (AX x), (AX y) by (cbn; auto); reflexivity). subst y. assert (ND : NoDup ([x; x] ++ [u; v])) by (apply (Permutation_NoDup (Permutation_sym PE)); repeat constructor; cbn; intuition congruence). inversion ND as [|? ? NI _]. apply NI. cbn. auto. }
  assert (M7 : In (1, 7) [x; y]).
  { assert (Q : In (1, 7) ([x; y] ++ [u; v])) by (apply (Permutation_in _ (Permutation_sym PE)); cbn; auto). apply in_app_or in Q as [Q|Q]; [exact Q|]. exfalso.
    assert (AX : forall z, In z [x; y] -> z = (1, 1)). { intros z Hz. pose proof (LE z _ Hz Q) as L. assert (In z [(6, 0xff); (1, 1); (1, 7); (2, 0)]) as Z0 by (apply (Permutation_in _ PE), in_or_app; auto). cbn [In] in Z0. destruct Z0 as [<-|[<-|[<-|[<-|[]]]]]; cbn in L; try lia; [reflexivity|].
      exfalso. assert (ND : NoDup ([x; y] ++ [u; v])) by (apply (Permutation_NoDup (Permutation_sym PE)); repeat constructor; cbn; intuition congruence). apply in_split in Hz as (p & q & EQ). rewrite EQ in ND. rewrite <- app_assoc in ND. cbn [app] in ND. apply NoDup_remove_2 in ND. apply ND, in_or_app. right. apply in_or_app. right. exact Q. }
    assert (x = y) by (rewrite (AX x), (AX y) by (cbn; auto); reflexivity). subst y. assert (ND : NoDup ([x; x] ++ [u; v])) by (apply (Permutation_NoDup (Permutation_sym PE)); repeat constructor; cbn; intuition congruence). inversion ND as [|? ? NI _]. apply NI. cbn. auto. }
  cbn [In] in M1, M7. cbn [map nth]. intros z. destruct M1 as [->|[->|[]]], M7 as [M7|[M7|[]]]; try discriminate M7; subst; cbn [snd]; lia.
Qed.
(** The test circuits *)
Lemma non_secret_case : exists o, non_secret_test 8 2 (fun _ => (of_val 5, of_val 7)) o /\ val 8 (o 0%nat) = 12 /\ val 8 (o 1%nat) = 254.
Proof.
  destruct (non_secret_total 8 2 (fun _ => (of_val 5, of_val 7))) as (o & H). exists o. split; [exact H|]. pose proof (non_secret_ok 8 2 (fun _ => of_val 5) (fun _ => of_val 7) o H) as E. rewrite (E 0%nat), (E 1%nat) by lia. vm_compute. auto.
Qed.
Lemma public_case : exists o, public_test (of_val 1) (of_val 2) (of_val 4) 2 (fun t => (of_val 0x10000000, of_val 0x1000, of_val 0x10)) o /\ val 32 (o 0%nat) = 0x10001017 /\ val 32 (o 1%nat) = 7.
Proof.
  destruct (public_total (of_val 1) (of_val 2) (of_val 4) 2 (fun t => (of_val 0x10000000, of_val 0x1000, of_val 0x10))) as (o & H). exists o. split; [exact H|].
  pose proof (public_ok _ _ _ 2 (fun _ => of_val 0x10000000) (fun _ => of_val 0x1000) (fun _ => of_val 0x10) o H) as E. rewrite (val_ext _ _ _ (E 0%nat ltac:(lia))), (val_ext _ _ _ (E 1%nat ltac:(lia))). vm_compute. auto.
Qed.
(** A memory of eight words: two writes at once, the first port wins *)
Definition sel_in (t : nat) : vec * wport * wport * wport :=
  let off := Build_wport false (rep false) (rep false) in
  match t with
  | O => (of_val 5, Build_wport true (of_val 5) (of_val 77), Build_wport true (of_val 6) (of_val 99), off)
  | _ => (of_val (if (t =? 1)%nat then 5 else 6), off, off, off)
  end.
Lemma select_case : exists o, select 8 32 3 sel_in o /\ val 32 (o 0%nat) = 0 /\ val 32 (o 1%nat) = 77 /\ val 32 (o 2%nat) = 0.
Proof.
  destruct (select_total 8 32 3 sel_in) as (o & H). exists o. split; [exact H|]. pose proof (select_ok 8 32 3 sel_in o ltac:(lia) H) as E.
  pose proof (E 0%nat ltac:(lia)) as E0. pose proof (E 1%nat ltac:(lia)) as E1. pose proof (E 2%nat ltac:(lia)) as E2. cbn [sel_in Nat.eqb] in E0, E1, E2.
  rewrite E0, E1, E2 by (vm_compute; reflexivity). vm_compute. auto.
Qed.
(** No output of the sequential circuit for the first nearest neighbour is the element that is there. *)
Lemma first_seq_nearest : exists W n g e, forall o, first_nns_seq W n (fun t => (g, e t)) o -> exists t, (t < n)%nat /\
  ~ exists u, (u <= t)%nat /\ val W (o t) = val W (e u).
Proof.
  exists 15%nat, 1%nat, (of_val 3), (fun _ => of_val 3). intros o H. exists 0%nat. split; [lia|]. rewrite (first_seq_zero _ _ _ _ H 0%nat ltac:(lia)). intros (u & _ & E). vm_compute in E. discriminate E.
Qed.
Lemma first_seq_td_nearest : exists W n g e, forall o, first_nns_seq_td W n (fun t => (g, e t)) o -> exists t, (t < n)%nat /\
  ~ exists u, (u <= t)%nat /\ val (2 * W) (o t) = val (2 * W) (e u).
Proof.
  exists 15%nat, 1%nat, (of_val 3), (fun _ => of_val 3). intros o H. exists 0%nat. split; [lia|]. rewrite (first_seq_td_zero _ _ _ _ H 0%nat ltac:(lia)). intros (u & _ & E). vm_compute in E. discriminate E.
Qed.
Lemma first_comb_case : exists o, first_nns_comb 15 2 (of_val 0x1234) (of_val (0x1235 + 2 ^ 15 * 0x7fff)) o /\ val 15 o = 0x7fff.
Proof.
  destruct (first_comb_total 15 2 (of_val 0x1234) (of_val (0x1235 + 2 ^ 15 * 0x7fff)) ltac:(lia) ltac:(lia)) as (o & H). exists o. split; [exact H|].
  destruct (first_comb_ok 15 2 _ _ _ ltac:(lia) ltac:(lia) H) as (i & Hi & OE & LE). destruct i as [|[|i]]; [|rewrite (val_ext _ _ _ OE); vm_compute; reflexivity|lia]. exfalso. specialize (LE 1%nat ltac:(lia)). vm_compute in LE. apply LE. reflexivity.
Qed.
