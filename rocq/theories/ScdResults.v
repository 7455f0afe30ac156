(** Results about files read by the SCD reader. *)
From Coq Require Import ZArith NArith List Bool Ascii String Lia.
From Verif Require Import Base Gate Circuit Spec Plain Sort SortOk Text Scd
  Proc BN Protocol ProtocolOk ProtocolRun EndToEnd Demo ProtocolDemo.
Import ListNotations.
Open Scope Z_scope.

(** Run the two programs, the first whenever it can move. *)
Fixpoint drive {A B} (fuel : nat) (d : config A B) : config A B :=
  match fuel with
  | O => d
  | S fuel => match Proc.stepA d with
              | Some d' => drive fuel d'
              | None => match Proc.stepB d with Some d' => drive fuel d' | None => d end
              end
  end.
Lemma drive_reach {A B} : forall fuel (d : config A B), exists n, reach n d (drive fuel d).
Proof.
  induction fuel as [|fuel IH]; intros d; cbn [drive]; [exists O; constructor|].
  destruct (Proc.stepA d) as [d'|] eqn:EA; [destruct (IH d') as [n R]; exists (S n); eapply reach_A; eauto|].
  destruct (Proc.stepB d) as [d'|] eqn:EB; [destruct (IH d') as [n R]; exists (S n); eapply reach_B; eauto|].
  exists O. constructor.
Qed.
Definition crashed {A} (p : proc A) : bool := match p with Crash => true | _ => false end.

(** ** C09: files the reader accepts *)
(** One public input bit, no gates; the only output is the constant marker -2. *)
Definition bad_scd : text := list_ascii_of_string
"0 0 0 1 0 0 0 1 0 0



-2 


"%string.
Definition bad_circuit : GarbledCircuit := mkCircuit 0 0 0 1 0 0 [] [-2] [] [] 0.
Lemma bad_read junk : ReadSCD junk bad_scd = bad_circuit.
Proof. vm_compute. reflexivity. Qed.
Definition bad_u : setup := example bad_circuit (mkOptions 2 0 0 consecutive true) (mkInputs 0 0 0 1 0 0).

Theorem malformed_refuted : exists file u, (forall junk, ReadSCD junk file = u_c u) /\
  (forall foot, exists n d, reach n (start_cfg (garbler foot u) (evaluator foot u)) d /\ pA d = Crash) /\
  (forall wl ll, EvalauatePlaintext (u_c u) (u_x u) true 1 0 wl ll = None).
Proof.
  exists bad_scd, bad_u. split; [exact bad_read|]. split.
  - intros foot. destruct (drive_reach 1000 (start_cfg (garbler foot bad_u) (evaluator foot bad_u))) as [n R]. exists n. eexists. split; [exact R|].
    assert (E : crashed (pA (drive 1000 (start_cfg (garbler foot bad_u) (evaluator foot bad_u)))) = true) by (destruct foot; vm_compute; reflexivity).
    destruct (pA (drive 1000 (start_cfg (garbler foot bad_u) (evaluator foot bad_u)))); try discriminate. reflexivity.
  - intros wl ll. destruct wl; reflexivity.
Qed.
