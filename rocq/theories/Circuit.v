(** Circuits, fan-out bookkeeping and the body of one clock cycle. *)
From Coq Require Import ZArith NArith List Bool Lia.
From Verif Require Import Base Gate.
Import ListNotations.
Open Scope Z_scope.

(** garbled_circuit_util.h:74-80 GarbledGate.  The field [fanout] is kept in a
    separate list (result of FillFanout). *)
Record GarbledGate := mkGate { input0 : Z; input1 : Z; output : Z; type : Z }.

(** garbled_circuit_util.h:88-106 GarbledCircuit.  [gate_size], [output_size]
    and [dff_size] are the lengths of the arrays. *)
Record GarbledCircuit := mkCircuit {
  p_init_size : nat; g_init_size : nat; e_init_size : nat;
  p_input_size : nat; g_input_size : nat; e_input_size : nat;
  garbledGates : list GarbledGate;
  outputs : list Z;
  D : list Z;
  I : list Z;
  terminate_id : Z }.

Definition gate_size c := length (garbledGates c).
Definition output_size c := length (outputs c).
Definition dff_size c := length (D c).

(** garbled_circuit_util.h:107-213, sizes and index layout. *)
Definition get_init_size c := (p_init_size c + g_init_size c + e_init_size c)%nat.
Definition get_input_size c := (p_input_size c + g_input_size c + e_input_size c)%nat.
Definition get_wire_size c := (get_init_size c + get_input_size c + dff_size c + gate_size c)%nat.
Definition get_secret_init_size c := (g_init_size c + e_init_size c)%nat.
Definition get_secret_input_size c := (g_input_size c + e_input_size c)%nat.
Definition get_p_init_hi_index c := Z.of_nat (p_init_size c).
Definition get_p_input_lo_index c := Z.of_nat (get_init_size c).
Definition get_g_input_lo_index c := Z.of_nat (get_init_size c + p_input_size c).
Definition get_e_input_lo_index c := Z.of_nat (get_init_size c + p_input_size c + g_input_size c).
Definition get_dff_lo_index c := Z.of_nat (get_init_size c + get_input_size c).
Definition get_gate_lo_index c := Z.of_nat (get_init_size c + get_input_size c + dff_size c).

Definition wsz c := Z.of_nat (get_wire_size c).

(** BN_is_bit_set (OpenSSL).  The [int] truncation of the bit index is not
    modelled: indices are assumed below 2^31. *)
Definition BN_is_bit_set (a : N) (i : Z) : bool :=
  if i <? 0 then false else N.testbit a (Z.to_N i).

(** garbled_circuit_util.cpp:45-55 NumOfNonXor *)
Definition is_nonxor (g : GarbledGate) : bool :=
  negb (type g =? XORGATE) && negb (type g =? XNORGATE) && negb (type g =? NOTGATE).
Definition NumOfNonXor c : nat := length (filter is_nonxor (garbledGates c)).

(** [fan[i]++] *)
Definition incr (fan : list Z) (i : Z) : option (list Z) :=
  do f <- rd fan i; wr fan i (f + 1).

(** garbled_circuit_util.cpp:451-502 FillFanout.  [junk] is the content of the
    fan-out fields before the call.  The result is the fan-out list and whether
    SUCCESS was returned (callers ignore the return value,
    garbled_circuit.cpp:67,145). *)
Definition fill_use (bias : Z) (i : nat) (w : Z) (st : list Z * bool) : option (list Z * bool) :=
  let (fan, ok) := st in
  if ok then
    if bias <=? w then
      if w - bias <? Z.of_nat i then
        do fan' <- incr fan (w - bias); Some (fan', true)
      else Some (fan, false)
    else Some st
  else Some st.
Definition fill_gate (bias : Z) (gs : list GarbledGate) (i : nat) (st : list Z * bool)
  : option (list Z * bool) :=
  let (fan, ok) := st in
  if ok then
    do g <- rd gs (Z.of_nat i);
    do fan1 <- wr fan (Z.of_nat i) 0;
    do st1 <- fill_use bias i (input0 g) (fan1, true);
    fill_use bias i (input1 g) st1
  else Some st.
Definition fill_ext (bias : Z) (l : list Z) (i : nat) (fan : list Z) : option (list Z) :=
  do w <- rd l (Z.of_nat i);
  if 0 <=? w - bias then incr fan (w - bias) else Some fan.
Definition FillFanout (c : GarbledCircuit) (junk : list Z) : option (list Z * bool) :=
  let bias := get_gate_lo_index c in
  do '(fan, ok) <- for_ (gate_size c) (fill_gate bias (garbledGates c)) (junk, true);
  if ok then
    do fan1 <- for_ (dff_size c) (fill_ext bias (D c)) fan;
    do fan2 <- for_ (output_size c) (fill_ext bias (outputs c)) fan1;
    do fan3 <- (if terminate_id c >? 0 then
                  if 0 <=? terminate_id c - bias then incr fan2 (terminate_id c - bias)
                  else Some fan2
                else Some fan2);
    Some (fan3, forallb (fun f => 0 <? f) fan3)
  else Some (fan, false).

(** garbled_circuit_util.cpp:504-518 ReduceFanout.  The recursion is bounded by
    [fuel]; [None] also stands for running out of fuel, which is proved never to
    happen. *)
Fixpoint reduce_fanout (gs : list GarbledGate) (bias : Z) (fuel : nat)
    (fan : list Z) (wid : Z) : option (list Z) :=
  match fuel with
  | O => None
  | S fuel' =>
    let k := wid - bias in
    if (0 <=? k) && (k <? Z.of_nat (length gs)) then
      do f <- rd fan k;
      if 0 <? f then
        do fan1 <- wr fan k (f - 1);
        if f - 1 =? 0 then
          do g <- rd gs k;
          do fan2 <- reduce_fanout gs bias fuel' fan1 (input0 g);
          reduce_fanout gs bias fuel' fan2 (input1 g)
        else Some fan1
      else Some fan
    else Some fan
  end.
Definition posum (l : list Z) : Z := fold_right (fun f a => Z.max 0 f + a) 0 l.
Definition ReduceFanout (c : GarbledCircuit) (fan : list Z) (wid : Z) : option (list Z) :=
  reduce_fanout (garbledGates c) (get_gate_lo_index c) (S (Z.to_nat (posum fan))) fan wid.

Fixpoint mapM {A B} (f : A -> option B) (l : list A) : option (list B) :=
  match l with
  | [] => Some []
  | x :: t => do y <- f x; do r <- mapM f t; Some (y :: r)
  end.

(** * One clock cycle

    GarbleLowMem (garbled_circuit_low_mem.cpp:346-561), EvaluateLowMem
    (563-750) and the bodies of the cycle loops of GarbleHighMem
    (garbled_circuit_high_mem.cpp:190-425) and EvaluateHighMem (489-712) are the
    same text up to the type of a wire label, the gate function, and where the
    input and initial labels are stored.  They are modelled by one function that
    is parametric in those.  [L] is the label type, [S] the state threaded
    through the gate function (table array, index, random draws). *)
Section Skeleton.
Context {L S : Type}.
Variable zeroL : L.
Variable c : GarbledCircuit.
Variable fan0 : list Z.           (* fan-outs computed by FillFanout *)
(** GarbleGate or EvalGate *)
Variable gate_fn : L -> Z -> L -> Z -> Z -> nat -> S -> option (L * Z * S).

Record cstate := mkC {
  wires : list L; wires_val : list Z;
  dff_latch : list L; dff_latch_val : list Z;
  fanout : list Z }.

(** low_mem.cpp:363-387 (garbler), 579-603 (evaluator): registers, cycle 0. *)
Definition dff_init_body (p_init : N) (getinit : Z -> option L) (i : nat)
    (st : list L * list Z) : option (list L * list Z) :=
  let (wl, wv) := st in
  let w := get_dff_lo_index c + Z.of_nat i in
  do wi <- rd (I c) (Z.of_nat i);
  if wi =? CONST_ZERO then do wv' <- wr wv w 0; Some (wl, wv')
  else if wi =? CONST_ONE then do wv' <- wr wv w 1; Some (wl, wv')
  else if (0 <=? wi) && (wi <? Z.of_nat (get_init_size c)) then
    if wi <? get_p_init_hi_index c then
      do wv' <- wr wv w (b2z (BN_is_bit_set p_init wi)); Some (wl, wv')
    else
      do l <- getinit (wi - get_p_init_hi_index c);
      do wl' <- wr wl w l;
      do wv' <- wr wv w SECRET; Some (wl', wv')
  else do wv' <- wr wv w 0; Some (wl, wv').

(** low_mem.cpp:389-404, 605-619: latch the D inputs ... *)
Definition dff_latch_body (wl : list L) (wv : list Z) (i : nat)
    (st : list L * list Z) : option (list L * list Z) :=
  let (ll, lv) := st in
  do wi <- rd (D c) (Z.of_nat i);
  if wi =? CONST_ZERO then do lv' <- wr lv (Z.of_nat i) 0; Some (ll, lv')
  else if wi =? CONST_ONE then do lv' <- wr lv (Z.of_nat i) 1; Some (ll, lv')
  else if (0 <=? wi) && (wi <? wsz c) then
    do l <- rd wl wi; do v <- rd wv wi;
    do ll' <- wr ll (Z.of_nat i) l;
    do lv' <- wr lv (Z.of_nat i) v; Some (ll', lv')
  else do lv' <- wr lv (Z.of_nat i) 0; Some (ll, lv').
(** low_mem.cpp:405-409, 620-623: ... and copy them to the register outputs. *)
Definition dff_copy_body (ll : list L) (lv : list Z) (i : nat)
    (st : list L * list Z) : option (list L * list Z) :=
  let (wl, wv) := st in
  let w := get_dff_lo_index c + Z.of_nat i in
  do l <- rd ll (Z.of_nat i); do v <- rd lv (Z.of_nat i);
  do wl' <- wr wl w l; do wv' <- wr wv w v; Some (wl', wv').

(** low_mem.cpp:413-417, 627-631: public inputs. *)
Definition p_input_body (p_input : N) (cid : nat) (i : nat) (wv : list Z) : option (list Z) :=
  wr wv (get_p_input_lo_index c + Z.of_nat i)
     (b2z (BN_is_bit_set p_input (Z.of_nat (cid * p_input_size c + i)))).

(** low_mem.cpp:419-425 (garbler, [reset = true]), 632-636 (evaluator): secret
    input labels. *)
Definition s_input_body (reset : bool) (getinput : nat -> option L) (i : nat)
    (st : list L * list Z) : option (list L * list Z) :=
  let (wl, wv) := st in
  let w := get_g_input_lo_index c + Z.of_nat i in
  do l <- getinput i;
  do wl' <- wr wl w l;
  do wv' <- (if reset then wr wv w SECRET else Some wv);
  Some (wl', wv').

(** low_mem.cpp:436-460, 647-671: value of a gate input. *)
Definition val0 (wv : list Z) (idx : Z) : option Z :=
  if idx =? CONST_ZERO then Some 0
  else if idx =? CONST_ONE then Some 1
  else if (0 <=? idx) && (idx <? wsz c) then rd wv idx
  else Some 0.
Definition val1 (wv : list Z) (t idx : Z) : option Z :=
  if idx =? CONST_ZERO then Some 0
  else if idx =? CONST_ONE then Some 1
  else if (0 <=? idx) && (idx <? wsz c) then rd wv idx
  else if negb (t =? NOTGATE) then Some 0 else Some SECRET.
(** low_mem.cpp:494,509,702,717: label of a gate input. *)
Definition lab (wl : list L) (idx : Z) : option L :=
  if (0 <=? idx) && (idx <? wsz c) then rd wl idx else Some zeroL.

(** low_mem.cpp:464-472, 519-527, 675-683, 726-734: a gate whose output became
    public drops its uses of secret inputs. *)
Definition drop_uses (g : GarbledGate) (i : nat) (v0 v1 : Z) (fan : list Z)
  : option (list Z) :=
  do fan1 <- wr fan (Z.of_nat i) 0;
  do fan2 <- (if IsSecret v0 then ReduceFanout c fan1 (input0 g) else Some fan1);
  if IsSecret v1 then ReduceFanout c fan2 (input1 g) else Some fan2.

(** low_mem.cpp:427-473, 638-684: first pass, known values. *)
Definition known_body (i : nat) (st : list Z * list Z) : option (list Z * list Z) :=
  let (wv, fan) := st in
  do f <- rd fan0 (Z.of_nat i);
  do fan1 <- wr fan (Z.of_nat i) f;
  do g <- rd (garbledGates c) (Z.of_nat i);
  do v0 <- val0 wv (input0 g);
  do v1 <- val1 wv (type g) (input1 g);
  let v := GarbleEvalGateKnownValue v0 v1 (type g) in
  do wv' <- wr wv (output g) v;
  if negb (IsSecret v) then
    do fan2 <- drop_uses g i v0 v1 fan1; Some (wv', fan2)
  else Some (wv', fan1).

(** low_mem.cpp:477-529, 686-736: second pass, secret values. *)
Definition p2state : Type := list L * list Z * list Z * S.
Definition secret_body (i : nat) (st : p2state) : option p2state :=
  let '(wl, wv, fan, s) := st in
  do g <- rd (garbledGates c) (Z.of_nat i);
  do f <- rd fan (Z.of_nat i);
  if 0 <? f then
   do ov <- rd wv (output g);
   if IsSecret ov then
    do l0 <- lab wl (input0 g);
    do v0 <- val0 wv (input0 g);
    do l1 <- lab wl (input1 g);
    do v1 <- val1 wv (type g) (input1 g);
    do '(l, v, s') <- gate_fn l0 v0 l1 v1 (type g) i s;
    do wl' <- wr wl (output g) l;
    do wv' <- wr wv (output g) v;
    if negb (IsSecret v) then
      do fan' <- drop_uses g i v0 v1 fan; Some (wl', wv', fan', s')
    else Some (wl', wv', fan, s')
   else Some st
  else Some st.

(** low_mem.cpp:543-551, 738-746 *)
Definition read_wire (wl : list L) (wv : list Z) (w : Z) : option (L * Z) :=
  do l <- rd wl w; do v <- rd wv w; Some (l, v).

(** The part of the cycle before the second pass. *)
Definition cycle_prefix (reset : bool) (cid : nat) (p_init p_input : N)
    (getinit : Z -> option L) (getinput : nat -> option L) (st : cstate)
  : option (list L * list Z * list L * list Z * list Z) :=
  do '(wl1, wv1, ll, lv) <-
    (match cid with
     | O =>
       do '(wl1, wv1) <- for_ (dff_size c) (dff_init_body p_init getinit)
                              (wires st, wires_val st);
       Some (wl1, wv1, dff_latch st, dff_latch_val st)
     | Datatypes.S _ =>
       do '(ll, lv) <- for_ (dff_size c) (dff_latch_body (wires st) (wires_val st))
                            (dff_latch st, dff_latch_val st);
       do '(wl1, wv1) <- for_ (dff_size c) (dff_copy_body ll lv) (wires st, wires_val st);
       Some (wl1, wv1, ll, lv)
     end);
  do wv2 <- for_ (p_input_size c) (p_input_body p_input cid) wv1;
  do '(wl3, wv3) <- for_ (get_secret_input_size c) (s_input_body reset getinput) (wl1, wv2);
  do '(wv4, fan4) <- for_ (gate_size c) known_body (wv3, fanout st);
  Some (wl3, wv4, ll, lv, fan4).

Definition run_cycle (reset : bool) (cid : nat) (p_init p_input : N)
    (getinit : Z -> option L) (getinput : nat -> option L) (st : cstate) (s : S)
  : option (cstate * S * list (L * Z) * option (L * Z)) :=
  do '(wl3, wv4, ll, lv, fan4) <- cycle_prefix reset cid p_init p_input getinit getinput st;
  do '(wl5, wv5, fan5, s') <- for_ (gate_size c) secret_body (wl3, wv4, fan4, s);
  do outs <- mapM (read_wire wl5 wv5) (outputs c);
  do term <- (if terminate_id c >? 0
              then do lv' <- read_wire wl5 wv5 (terminate_id c); Some (Some lv')
              else Some None);
  Some (mkC wl5 wv5 ll lv fan5, s', outs, term).

End Skeleton.
Arguments cstate : clear implicits.
Arguments mkC {L}.
Arguments wires {L}.
Arguments wires_val {L}.
Arguments dff_latch {L}.
Arguments dff_latch_val {L}.
Arguments fanout {L}.
