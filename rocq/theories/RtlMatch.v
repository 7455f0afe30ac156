(** Stable matching, written in Verilog (circuit_synthesis/stable_match). *)
From Coq Require Import ZArith Arith List Bool Lia.
From Verif Require Import RtlBase RtlLib RtlArith RtlSeq RtlSelect.
Import ListNotations.
Open Scope nat_scope.

(** * Model

    Registers and wires that hold a number are represented by it. *)

(** stable_match_seq, stable_match/stable_match_seq.v:22-225.  The register sInMatch, which is
    never read, is left out.  The function log2 (41-49) is that of RtlArith, one less. *)
Definition clog2 (value : nat) : nat := log2 (value - 1).
Record sm := Sm { pc : nat -> nat; sIsMatch : nat -> bool; sIsRunning : nat -> bool; rIsMatch : nat -> bool; s_ : nat; matchListMatrix : nat -> nat }.
Definition matrix (w K : nat) (v : vec) (i j : nat) : nat := Z.to_nat (val w (part (w * K * i + w * j) v)).
Definition upd {A} (f : nat -> A) (i : nat) (v : A) : nat -> A := fun j => if j =? i then v else f j.
(** better, 116-134: [row] is rPrefMatrix[r] *)
Definition s_xor (row : nat -> nat) (s1 s2 i : nat) : bool := xorb (s1 =? row i) (s2 =? row i).
Fixpoint s_or (row : nat -> nat) (s1 s2 i : nat) : bool := match i with O => s_xor row s1 s2 0 | S j => s_xor row s1 s2 i || s_or row s1 s2 j end.
Definition s_and (row : nat -> nat) (s1 s2 i : nat) : bool := match i with O => s_or row s1 s2 0 | S j => negb (s_or row s1 s2 j) && s_xor row s1 s2 i end.
Definition better (Kr : nat) (row : nat -> nat) (s1 s2 : nat) : bool := some Kr (fun i => s_and row s1 s2 i && (s2 =? row i)).
(** who proposes next, 144-167 *)
Definition canPropose (S_ : nat) (q : sm) (i : nat) : bool := (i <? S_) && (negb (pc q i =? 0) && negb (sIsMatch q i) && negb (sIsRunning q i)).
Fixpoint encoderOR1 (can : nat -> bool) (i : nat) : bool := match i with O => can 0 | S j => encoderOR1 can j || can i end.
Definition encoderInput (can : nat -> bool) (i : nat) : bool := match i with O => encoderOR1 can 0 | S j => negb (encoderOR1 can j) && can i end.
(** A read with the index out of range gives anything; [o] is (matchList, finish, sIsMatchWire). *)
Definition stable_match_step (Kr Ks S_ R : nat) (i : vec * vec) (q : sm) (o : vec * bool * (nat -> bool)) (q' : sm) : Prop :=
  let '(rPref, sPref) := i in let logS := clog2 S_ in let logR := clog2 R in
  let s := s_ q in let pcS := pc q s in let propose := negb (pcS =? 0) && negb (sIsMatch q s) in let can := canPropose S_ q in
  exists (r s1 : nat) (rm : bool) (row : nat -> nat) (encoderOutput : vec),
    (s < S_ -> 0 < pcS <= Ks -> r = matrix logR Ks sPref s (Ks - pcS)) /\
    (r < R -> s1 = matchListMatrix q r) /\ (r < R -> rm = rIsMatch q r) /\ (r < R -> forall j, j < Kr -> row j = matrix logS Kr rPref r j) /\
    encoder_ logS (encoderInput can) encoderOutput /\
    let e := Z.to_nat (val logS encoderOutput) in
    let fresh := propose && negb rm in let swap := propose && rm && better Kr row s1 s in
    (forall k, k < S_ -> pc q' k = if propose && (k =? s) then pc q k - 1 else pc q k) /\
    (forall k, k < S_ -> sIsMatch q' k = if swap && (k =? s1) then false else if (fresh || swap) && (k =? s) then true else sIsMatch q k) /\
    (forall k, k < R -> rIsMatch q' k = if fresh && (k =? r) then true else rIsMatch q k) /\
    (forall k, k < R -> matchListMatrix q' k = if (fresh || swap) && (k =? r) then s else matchListMatrix q k) /\
    (forall k, k < S_ -> sIsRunning q' k = if encoderInput can e && (k =? e) then true else if k =? s then false else sIsRunning q k) /\
    s_ q' = (if encoderInput can e then e else s) /\
    (* finishAND starts from 0 *)
    (forall k, k < R -> veq logS (part (logS * k) (fst (fst o))) (of_val (Z.of_nat (matchListMatrix q k)))) /\
    snd (fst o) = fold_left (fun f k => f && (pc q k =? 0)) (seq 0 S_) false /\ (forall k, k < S_ -> snd o k = sIsMatch q k).
Definition stable_match_init (Ks S_ R : nat) (q : sm) : Prop :=
  s_ q = 0 /\ (forall k, k < S_ -> sIsRunning q k = (k =? 0)) /\ (forall k, k < R -> rIsMatch q k = false /\ matchListMatrix q k = 0) /\
  (forall k, k < S_ -> pc q k = Ks /\ sIsMatch q k = false).
Definition stable_match_seq (Kr Ks S_ R : nat) := clocked (stable_match_init Ks S_ R) (stable_match_step Kr Ks S_ R).

(** * Specification *)
(** The place of a person in a list of preferences, its length for somebody not in it *)
Fixpoint place (l : list nat) (x : nat) : nat := match l with [] => 0 | y :: r => if y =? x then 0 else S (place r x) end.
Section Market.
  (** [n] suitors and [n] reviewers, each with a list of all of the other kind, the best first *)
  Variables (n : nat) (sp rp : nat -> list nat).
  Definition complete : Prop := forall x, x < n -> (length (sp x) = n /\ NoDup (sp x) /\ forall y, In y (sp x) -> y < n) /\ (length (rp x) = n /\ NoDup (rp x) /\ forall y, In y (rp x) -> y < n).
  (** [m r] is the suitor of reviewer r *)
  Definition matching (m : nat -> nat) : Prop := (forall r, r < n -> m r < n) /\ (forall r r', r < n -> r' < n -> m r = m r' -> r = r') /\ (forall s, s < n -> exists r, r < n /\ m r = s).
  Definition stable (m : nat -> nat) : Prop :=
    matching m /\ forall r r', r < n -> r' < n -> ~ (place (sp (m r)) r' < place (sp (m r)) r /\ place (rp r') (m r) < place (rp r') (m r')).
  (** No suitor does better in another stable matching. *)
  Definition best (m : nat -> nat) : Prop := forall m' r r', stable m' -> r < n -> r' < n -> m r = m' r' -> place (sp (m r)) r <= place (sp (m r)) r'.
End Market.
