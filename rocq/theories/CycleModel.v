(** One clock cycle on each side, and the sequence of cycles. *)
From Coq Require Import ZArith NArith List Bool Lia.
From Verif Require Import Base Gate Circuit.
Import ListNotations.
Open Scope Z_scope.

Definition zeroPair : BlockPair := (ZeroBlock, ZeroBlock).

(** low_mem.cpp:531-541, high_mem.cpp:366-376 "table select": tables of gates
    whose fan-out is still positive are copied to the array that is sent. *)
Definition select_body (fan : list Z) (tmp : list GarbledTable) (i : nat)
    (st : list GarbledTable * Z) : option (list GarbledTable * Z) :=
  let (tabs, ind) := st in
  do tb <- rd tmp (Z.of_nat i);
  do f <- rd fan (Z.of_N (gid tb));
  if 0 <? f then do tabs' <- wr tabs ind tb; Some (tabs', ind + 1)
  else Some st.

Section Cycle.
Variable aes : block -> block.        (* AES under the global key *)
Variable c : GarbledCircuit.
Variable fan0 : list Z.               (* fan-outs computed by FillFanout *)

(** GarbleLowMem, low_mem.cpp:346-561, and the body of the cycle loop of
    GarbleHighMem, high_mem.cpp:190-376.  [reset] is [true] in low-memory mode
    (low_mem.cpp:423 writes SECRET to the input wires, high_mem does not).  The
    label arrays hold pairs: entry [k] is [labels[2k], labels[2k+1]]. *)
Definition GarbleCycle (R : block) (reset : bool) (p_init p_input : N)
    (getinit : Z -> option BlockPair) (getinput : nat -> option BlockPair)
    (cid : nat) (st : cstate BlockPair) (tmp tabs : list GarbledTable)
  : option (cstate BlockPair * list GarbledTable * list GarbledTable * Z *
            list (BlockPair * Z) * option (BlockPair * Z)) :=
  do '(st', (tmp', ti), outs, term) <-
    run_cycle zeroPair c fan0
      (fun l0 v0 l1 v1 t g s => GarbleGate aes l0 v0 l1 v1 t (N.of_nat cid) (N.of_nat g) R s)
      reset cid p_init p_input getinit getinput st (tmp, 0);
  do '(tabs', ind) <- for_ (Z.to_nat ti) (select_body (fanout st') tmp') (tabs, 0);
  Some (st', tmp', tabs', ind, outs, term).

(** EvaluateLowMem, low_mem.cpp:563-750, and the body of the cycle loop of
    EvaluateHighMem, high_mem.cpp:502-678.  [rnd]/[dr]: RandomBlock() draws made
    for missing tables. *)
Definition EvaluateCycle (rnd : nat -> block) (p_init p_input : N)
    (getinit : Z -> option block) (getinput : nat -> option block)
    (cid : nat) (st : cstate block) (tabs : list GarbledTable) (dr : nat)
  : option (cstate block * list GarbledTable * Z * nat *
            list (block * Z) * option (block * Z)) :=
  do '(st', (tabs', ind, dr'), outs, term) <-
    run_cycle ZeroBlock c fan0
      (fun l0 v0 l1 v1 t g s => EvalGate aes rnd l0 v0 l1 v1 t (N.of_nat cid) (N.of_nat g) s)
      false cid p_init p_input getinit getinput st (tabs, 0, dr);
  Some (st', tabs', ind, dr', outs, term).
End Cycle.

(** low_mem.cpp:273-276: [RecvData(garbled_tables, n * sizeof(GarbledTable))]
    overwrites the first [n] entries; a larger count overruns the array. *)
Definition recv_tables (sent et : list GarbledTable) : option (list GarbledTable) :=
  if (length sent <=? length et)%nat then Some (sent ++ skipn (length sent) et) else None.

(** low_mem.cpp:291-293, high_mem.cpp:684-686: clear the consumed tables,
    [gid = (uint32_t)(-1)]. *)
Definition clear_gid (tb : GarbledTable) : GarbledTable :=
  {| row0 := row0 tb; row1 := row1 tb; gid := (2 ^ 32 - 1)%N |}.
Definition clear_tables (n : nat) (et : list GarbledTable) : list GarbledTable :=
  map clear_gid (firstn n et) ++ skipn n et.

(** Memory of both parties between two cycles. *)
Record machine := mkM {
  m_g : cstate BlockPair; m_tmp : list GarbledTable; m_tabs : list GarbledTable;
  m_e : cstate block; m_et : list GarbledTable; m_dr : nat }.

Record cycle_out := mkOut {
  o_gouts : list (BlockPair * Z); o_gterm : option (BlockPair * Z);
  o_eouts : list (block * Z); o_eterm : option (block * Z);
  o_sent : list GarbledTable;       (* tables sent by the garbler *)
  o_used : Z }.                     (* tables consumed by the evaluator *)

Section Machine.
Variable c : GarbledCircuit.
Variable fan0 : list Z.
Variable aes : block -> block.
Variable R : block.
Variable rnd : nat -> block.
Variable reset : bool.
Variables p_init p_input : N.
Variable ginit : Z -> option BlockPair.
Variable gin : nat -> nat -> option BlockPair.
Variable einit : Z -> option block.
Variable ein : nat -> nat -> option block.

(** One cycle of both parties, the garbler's tables being handed to the
    evaluator (low_mem.cpp:113-146 and 260-298). *)
Definition machine_step (cid : nat) (m : machine) : option (machine * cycle_out) :=
  do '(g', tmp', tabs', ind, gouts, gterm) <-
    GarbleCycle aes c fan0 R reset p_init p_input ginit (gin cid) cid (m_g m) (m_tmp m) (m_tabs m);
  let sent := firstn (Z.to_nat ind) tabs' in
  do et <- recv_tables sent (m_et m);
  do '(e', et', used, dr', eouts, eterm) <-
    EvaluateCycle aes c fan0 rnd p_init p_input einit (ein cid) cid (m_e m) et (m_dr m);
  Some (mkM g' tmp' tabs' e' (clear_tables (Z.to_nat used) et') dr',
        mkOut gouts gterm eouts eterm sent used).

Fixpoint machine_run (n : nat) (m0 : machine) : option (machine * list cycle_out) :=
  match n with
  | O => Some (m0, [])
  | S k => do '(m, os) <- machine_run k m0;
           do '(m', o) <- machine_step k m;
           Some (m', os ++ [o])
  end.
End Machine.
