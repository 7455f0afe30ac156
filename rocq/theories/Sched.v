(** The multi-core scheduler (scd/scheduling.cpp:26-329), which nothing calls. *)
From Coq Require Import ZArith NArith List Bool Lia.
From Verif Require Import Base Sort.
Import ListNotations.
Open Scope Z_scope.

(** * Sorting *)
(** scheduling.cpp:33-34 and 35-36; here and below [fuel] bounds the iterations and is
    proved to suffice. *)
Fixpoint scan_up (fuel : nat) (arr : list Z) (pivot i : Z) : option Z :=
  match fuel with
  | O => None
  | S fuel => do x <- rd arr i; if pivot <? x then scan_up fuel arr pivot (i + 1) else Some i
  end.
Fixpoint scan_down (fuel : nat) (arr : list Z) (pivot j : Z) : option Z :=
  match fuel with
  | O => None
  | S fuel => do x <- rd arr j; if x <? pivot then scan_down fuel arr pivot (j - 1) else Some j
  end.
(** scheduling.cpp:38-44 *)
Definition exchange (l : list Z) (i j : Z) : option (list Z) :=
  do tmp <- rd l i; do y <- rd l j; do l <- wr l i y; wr l j tmp.
(** scheduling.cpp:32-49 *)
Fixpoint partition_loop (fuel : nat) (arr index : list Z) (pivot i j : Z) : option (list Z * list Z * Z * Z) :=
  match fuel with
  | O => None
  | S fuel =>
    if i <=? j then
      do i <- scan_up (S (length arr)) arr pivot i;
      do j <- scan_down (S (length arr)) arr pivot j;
      if i <=? j then
        do arr <- exchange arr i j;
        do index <- exchange index i j;
        partition_loop fuel arr index pivot (i + 1) (j - 1)
      else partition_loop fuel arr index pivot i j
    else Some (arr, index, i, j)
  end.
(** scheduling.cpp:26-57 *)
Fixpoint QuickSort (fuel : nat) (arr index : list Z) (left right : Z) : option (list Z * list Z) :=
  match fuel with
  | O => None
  | S fuel =>
    do pivot <- rd arr (Z.quot (left + right) 2);
    do '(arr, index, i, j) <- partition_loop (S (S (length arr))) arr index pivot left right;
    do '(arr, index) <- (if left <? j then QuickSort fuel arr index left j else Some (arr, index));
    if i <? right then QuickSort fuel arr index i right else Some (arr, index)
  end.

(** * Levels *)
(** scheduling.cpp:70-75 *)
Definition level_step (G : list ReadGate) (out : Z) (sl : list Z) (j : nat) (max : Z) : option Z :=
  do g <- rd G (Z.of_nat j);
  do max <- (if rg_in0 g =? out then do s <- rd sl (Z.of_nat j); Some (if max <? s then s else max) else Some max);
  if rg_in1 g =? out then do s <- rd sl (Z.of_nat j); Some (if max <? s then s else max) else Some max.
(** scheduling.cpp:67-78; step [k] is i = no_task - 1 - k *)
Definition level_row (G : list ReadGate) (no_task : nat) (k : nat) (sl : list Z) : option (list Z) :=
  let i := (no_task - 1 - k)%nat in
  do g <- rd G (Z.of_nat i);
  do max <- for_from (level_step G (rg_out g) sl) (S i) (no_task - S i) 0;
  wr sl (Z.of_nat i) (1 + max).
(** scheduling.cpp:59-85; [sl] is the uninitialised array.  The result is index. *)
Definition TopSort (G : list ReadGate) (no_task : nat) (sl : list Z) : option (list Z) :=
  let index := map Z.of_nat (seq 0 no_task) in
  do sl <- for_ no_task (level_row G no_task) sl;
  do '(_, index) <- QuickSort (S (length sl)) sl index 0 (Z.of_nat no_task - 1);
  Some index.

(** * Looking for loops *)
(** scheduling.cpp:109-136 DFS: 0, 1, 2 are [UnMarked], [TempMarked], [PerMarked].  The
    list of gates on the loop, which is only printed, is not modelled. *)
Fixpoint DFS (fuel : nat) (gates : list ReadGate) (bias : Z) (status : list Mark) (wire_index : Z) : option (bool * list Mark) :=
  match fuel with
  | O => None
  | S fuel =>
    if wire_index <? 0 then Some (true, status) else
    do s <- rd status wire_index;
    match s with
    | PerMarked => Some (true, status)
    | TempMarked => Some (false, status)
    | UnMarked =>
      do status <- wr status wire_index TempMarked;
      do g <- rd gates (wire_index - bias);
      do '(ok, status) <- DFS fuel gates bias status (rg_in0 g);
      if negb (ok : bool) then Some (false, status) else
      do '(ok, status) <- DFS fuel gates bias status (rg_in1 g);
      if negb (ok : bool) then Some (false, status) else
      do status <- wr status wire_index PerMarked;
      Some (true, status)
    end
  end.
(** scheduling.cpp:154-163: the roots one after the other *)
Fixpoint DFS_all (gates : list ReadGate) (bias : Z) (roots : list Z) (status : list Mark) : option (bool * list Mark) :=
  match roots with
  | [] => Some (true, status)
  | w :: roots =>
    do '(ok, status) <- DFS (S (S (length status))) gates bias status w;
    if negb (ok : bool) then Some (false, status) else DFS_all gates bias roots status
  end.
(** scheduling.cpp:138-171 FindPath; the entries of output_list become int (those of
    constants become negative again). *)
Definition FindPath (rc : ReadCircuit) : option bool :=
  let b := init_input_dff_size rc in
  let status := repeat PerMarked b ++ repeat UnMarked (length (gate_list rc)) in
  do '(ok, status) <- DFS_all (gate_list rc) (Z.of_nat b) (map rg_in0 (dff_list rc) ++ output_list rc) status;
  if negb (ok : bool) then Some false
  else Some (forallb (fun s => match s with PerMarked => true | _ => false end) status).

(** * Scheduling *)
(** scheduling.cpp:87-97; [size] is at least 1 where arr[0] exists *)
Definition min_step (arr : list Z) (i : nat) (s : Z * Z) : option (Z * Z) :=
  let '(minimum, min_index) := s in
  do x <- rd arr (Z.of_nat i);
  Some (if x <? minimum then (x, Z.of_nat i) else (minimum, min_index)).
Definition GetMinIndex (arr : list Z) (size : nat) : option Z :=
  do m <- rd arr 0;
  do '(_, k) <- for_from (min_step arr) 1 (size - 1) (m, 0);
  Some k.
(** scheduling.cpp:99-107, called by nothing *)
Definition max_step (arr : list Z) (i : nat) (maximum : Z) : option Z :=
  do x <- rd arr (Z.of_nat i); Some (if maximum <? x then x else maximum).
Definition GetMax (arr : list Z) (size : nat) : option Z :=
  do m <- rd arr 0; for_from (max_step arr) 1 (size - 1) m.

Record plan := mkPlan { p1 : list Z; core : list (list Z); core_index : list Z; core_busy : list Z; no_scheduled : nat }.
(** scheduling.cpp:221-225 *)
Definition assign (no_core : nat) (t : Z) (s : plan) : option plan :=
  do c <- GetMinIndex (core_busy s) no_core;
  do p <- wr (p1 s) t c;
  do row <- rd (core s) c;
  do k <- rd (core_index s) c;
  do row <- wr row k t;
  do co <- wr (core s) c row;
  do ci <- wr (core_index s) c (k + 1);
  do x <- rd (core_busy s) c;
  do cb <- wr (core_busy s) c (x + 1);
  Some (mkPlan p co ci cb (S (no_scheduled s))).
(** scheduling.cpp:217-220: one input; [w] is its number less no_of_input_dff *)
Definition input_ready (p0 : list Z) (w : Z) : option bool :=
  if w <? 0 then Some true else do q <- rd p0 w; Some (negb (q =? -1)).
(** scheduling.cpp:215-229, for one i *)
Definition consider (G : list ReadGate) (bias : Z) (no_core : nat) (index p0 : list Z) (i : nat) (s : plan) : option plan :=
  do t <- rd index (Z.of_nat i);
  do q <- rd p0 t;
  if negb (q =? -1) then Some s else
  do g <- rd G t;
  do r0 <- input_ready p0 (rg_in0 g - bias);
  if negb (r0 : bool) then Some s else
  do r1 <- input_ready p0 (rg_in1 g - bias);
  if negb (r1 : bool) then Some s else assign no_core t s.
Inductive progress := Running (s : plan) | Done (s : plan).
(** scheduling.cpp:214-234; [fuel] is the number of rounds that is looked at.  The copy
    of p1 to p0 (231-233) is an assignment here. *)
Fixpoint schedule_rounds (fuel : nat) (G : list ReadGate) (bias : Z) (no_core : nat) (index p0 : list Z) (s : plan) : option progress :=
  if (no_scheduled s <? length G)%nat then
    match fuel with
    | O => Some (Running s)
    | S fuel => do s <- for_ (length G) (consider G bias no_core index p0) s;
                schedule_rounds fuel G bias no_core index (p1 s) s
    end
  else Some (Done s).
(** scheduling.cpp:173-243 Schedule.  What FindPath finds is printed, nothing else (the
    return is commented out, line 193). *)
Definition Schedule (fuel : nat) (sl : list Z) (rc : ReadCircuit) (no_core : nat) (core : list (list Z)) : option progress :=
  let n := length (gate_list rc) in
  do _ <- FindPath rc;
  do index <- TopSort (gate_list rc) n sl;
  schedule_rounds fuel (gate_list rc) (Z.of_nat (init_input_dff_size rc)) no_core index (repeat (-1) n)
    (mkPlan (repeat (-1) n) core (repeat 0 no_core) (repeat 0 no_core) 0).

(** * One core *)
(** scheduling.cpp:245-329 TopologicalSortMultiCore; [Some None]: still scheduling
    after [fuel] rounds.  [invert] makes the writes of lines 264-273, in the same order. *)
Definition TopologicalSortMultiCore (fuel : nat) (sl : list Z) (rc : ReadCircuit) : option (option ReadCircuit) :=
  let n := length (gate_list rc) in
  let b := init_input_dff_size rc in
  do r <- Schedule fuel sl rc 1 [repeat (-1) (n + 1)];
  match r with
  | Running _ => Some None
  | Done s =>
    do core0 <- rd (core s) 0;
    do sched <- omap (fun i => rd core0 (Z.of_nat i)) (seq 0 n);
    do ts_1 <- invert (map Z.of_nat (seq 0 b) ++ map (fun t => t + Z.of_nat b) sched);
    do dffs <- omap (sort_dff ts_1) (dff_list rc);
    do gs <- omap (sort_gate ts_1 b) (combine (seq 0 n) (gate_list rc));
    do outs <- omap (rd ts_1) (output_list rc);
    Some (Some (mkRC (rc_p_init rc) (rc_g_init rc) (rc_e_init rc) (rc_p_input rc) (rc_g_input rc) (rc_e_input rc)
                  outs gs dffs sched (rc_terminate_id rc)))
  end.
