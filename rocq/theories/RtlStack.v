(** circuit_synthesis/stack_machine and select: a stack machine and a register file. *)
From Coq Require Import ZArith List Bool Lia.
From Verif Require Import RtlBase RtlLib RtlArith RtlSeq RtlMatrix.
Import ListNotations.
Open Scope Z_scope.

(** * Model *)
(** The case statement of stackMachine, stack_machine/stackMachine.v:29-80: alu, push, op1, op2.  The
    labels have three bits, so the last one, 3'd8, is 3'd0 again; the first match counts. *)
Definition decode (N : nat) (e_input : vec) (stack : nat -> vec) : vec * bool * bool * bool :=
  let a := stack 0%nat in let b := stack 1%nat in
  let c := val 3 e_input in
  if c =? 0 then (a, false, false, false)
  else if c =? 1 then (of_val (val N a + val N b), false, false, true)
  else if c =? 2 then (of_val (val N a - val N b), false, false, true)
  else if c =? 3 then (of_val (val N a * val N b), false, false, true)
  else if c =? 4 then (a, true, false, false)
  else if c =? 5 then (of_val (-1 * val N a), false, true, false)
  else if c =? 6 then ((fun i => a i && b i), false, false, true)
  else if c =? 7 then ((fun i => a i || b i), false, false, true)
  else if c =? 8 mod 2 ^ 3 then ((fun i => xorb (a i) (b i)), false, false, true)
  else (a, false, false, false).
(** stackMachine, stack_machine/stackMachine.v:3-129 *)
Definition stack_step (N S : nat) (i : vec * vec) (stack : nat -> vec) (o : vec) (stack' : nat -> vec) : Prop :=
  let '(g_input, e_input) := i in
  let '(alu, push, op1, op2) := decode N e_input stack in
  veq N o (if push then g_input else alu) /\
  (if push then veq N (stack' 0%nat) g_input /\ forall j, (1 <= j)%nat -> (j < S)%nat -> veq N (stack' j) (stack (j - 1)%nat)
   else if op1 then veq N (stack' 0%nat) alu /\ forall j, (1 <= j)%nat -> (j < S)%nat -> veq N (stack' j) (stack j)
   else if op2 then veq N (stack' 0%nat) alu /\ (forall j, (1 <= j)%nat -> (j < S - 1)%nat -> veq N (stack' j) (stack (j + 1)%nat)) /\
     forall j, (1 <= j)%nat -> (S - 1 <= j)%nat -> (j < S)%nat -> veq N (stack' j) (stack j)
   else forall j, (j < S)%nat -> veq N (stack' j) (stack j)).
Definition stackMachine (N S : nat) := clocked (fun stack => forall j, (j < S)%nat -> veq N (stack j) (rep false)) (stack_step N S).

(** select, select/select.v:3-70: [logM] is the log2 of lines 24-34 for [M].  An address outside the
    memory is not written, and reading there gives an arbitrary value. *)
Record wport := { en : bool; adr : vec; data : vec }.
Definition store (W M : nat) (a d : vec) (logM : nat) (m m' : nat -> vec) : Prop :=
  forall i, (i < M)%nat -> veq W (m' i) (if Z.of_nat i =? val logM a then d else m i).
Definition select_step (M W : nat) (i : vec * wport * wport * wport) (mem : nat -> vec) (read_data : vec) (mem' : nat -> vec) : Prop :=
  let '(read_adr, w1, w2, w3) := i in let logM := log2 (M - 1) in
  (if en w1 then store W M (adr w1) (data w1) logM mem mem'
   else if en w2 then store W M (adr w2) (data w2) logM mem mem'
   else if en w3 then store W M (adr w3) (data w3) logM mem mem'
   else forall j, (j < M)%nat -> veq W (mem' j) (mem j)) /\
  ((Z.to_nat (val logM read_adr) < M)%nat -> veq W read_data (mem (Z.to_nat (val logM read_adr)))).
Definition select (M W : nat) := clocked (fun mem => forall j, (j < M)%nat -> veq W (mem j) (rep false)) (select_step M W).

(** * Specification *)
(** Instructions and what they do to a stack of numbers below 2^N of any depth *)
Inductive instr := Nop | Add | Sub | Mul | Push (x : Z) | Neg | And | Or.
Definition code (i : instr) : Z := match i with Nop => 0 | Add => 1 | Sub => 2 | Mul => 3 | Push _ => 4 | Neg => 5 | And => 6 | Or => 7 end.
Definition exec (N : nat) (i : instr) (s : list Z) : option (list Z) :=
  let m := 2 ^ Z.of_nat N in
  match i, s with
  | Nop, _ => Some s
  | Push x, _ => Some (x :: s)
  | Neg, a :: s => Some ((- a) mod m :: s)
  | Add, a :: b :: s => Some ((a + b) mod m :: s)
  | Sub, a :: b :: s => Some ((a - b) mod m :: s)
  | Mul, a :: b :: s => Some ((a * b) mod m :: s)
  | And, a :: b :: s => Some (Z.land a b :: s)
  | Or, a :: b :: s => Some (Z.lor a b :: s)
  | _, _ => None
  end.
(** the inputs carry the instruction *)
Definition carries (N : nat) (i : vec * vec) (c : instr) : Prop :=
  val 3 (snd i) = code c /\ match c with Push x => val N (fst i) = x | _ => True end.
(** The stacks [s] of a program that runs within [S] places *)
Definition runs_within (N S n : nat) (p : nat -> instr) (s : nat -> list Z) : Prop :=
  s 0%nat = [] /\ forall t, (t < n)%nat -> exec N (p t) (s t) = Some (s (Datatypes.S t)) /\ (length (s (Datatypes.S t)) <= S)%nat.

(** Memories: what was last written *)
Definition wr (M : nat) (logM : nat) (m : Z -> Z) (w : wport) (W : nat) : Z -> Z :=
  fun a => if a =? val logM (adr w) then val W (data w) else m a.
Fixpoint contents (W M : nat) (p : nat -> wport * wport * wport) (t : nat) : Z -> Z :=
  match t with
  | O => fun _ => 0
  | S t => let '(w1, w2, w3) := p t in let m := contents W M p t in let logM := log2 (M - 1) in
      if en w1 then wr M logM m w1 W else if en w2 then wr M logM m w2 W else if en w3 then wr M logM m w3 W else m
  end.

(** * Stack machine *)
Lemma val_and n a b : val n (fun i => a i && b i) = Z.land (val n a) (val n b).
Proof.
  apply Z.bits_inj'. intros i Hi. rewrite Z.land_spec. destruct (Z.lt_ge_cases i (Z.of_nat n)) as [C|C].
  - rewrite <- (Z2Nat.id i Hi). rewrite !val_testbit by lia. reflexivity.
  - rewrite !val_testbit_high by exact C. reflexivity.
Qed.
Lemma val_or n a b : val n (fun i => a i || b i) = Z.lor (val n a) (val n b).
Proof.
  apply Z.bits_inj'. intros i Hi. rewrite Z.lor_spec. destruct (Z.lt_ge_cases i (Z.of_nat n)) as [C|C].
  - rewrite <- (Z2Nat.id i Hi). rewrite !val_testbit by lia. reflexivity.
  - rewrite !val_testbit_high by exact C. reflexivity.
Qed.
Definition shows (N : nat) (stack : nat -> vec) (s : list Z) : Prop := forall j x, nth_error s j = Some x -> val N (stack j) = x.
Lemma stack_step_ok N S i st o st' c s s' : stack_step N S i st o st' -> carries N i c -> shows N st s -> exec N c s = Some s' -> (length s <= S)%nat -> (length s' <= S)%nat ->
  shows N st' s' /\ (match s' with [] => True | x :: _ => val N o = x end).
Proof.
  destruct i as [g e]. intros H [CC CP] SH EX LS LS'. unfold stack_step, decode in H. cbn [snd fst] in *.
  assert (OP : forall f x s1, (veq N o f /\ veq N (st' 0%nat) f /\ (forall j, (1 <= j)%nat -> (j < S - 1)%nat -> veq N (st' j) (st (j + 1)%nat)) /\
     (forall j, (1 <= j)%nat -> (S - 1 <= j)%nat -> (j < S)%nat -> veq N (st' j) (st j))) -> (exists a b, s = a :: b :: s1) -> val N f = x -> shows N st' (x :: s1) /\ val N o = x).
  { intros f x s1 (OE & T0 & TJ & _) (a & b & ->) VF. split; [|rewrite (val_ext _ _ _ OE); exact VF]. intros j y HJ. destruct j as [|j]; cbn [nth_error] in HJ.
    - injection HJ as <-. rewrite (val_ext _ _ _ T0). exact VF.
    - assert (j < length s1)%nat by (apply nth_error_Some; rewrite HJ; discriminate). cbn [length] in LS. rewrite (val_ext _ _ _ (TJ (Datatypes.S j) ltac:(lia) ltac:(lia))). apply SH. rewrite Nat.add_1_r. exact HJ. }
  assert (NONE : veq N o (st 0%nat) /\ (forall j, (j < S)%nat -> veq N (st' j) (st j)) -> shows N st' s /\ (match s with [] => True | x :: _ => val N o = x end)).
  { intros [OE TE]. split.
    - intros j y HJ. assert (j < length s)%nat by (apply nth_error_Some; rewrite HJ; discriminate). rewrite (val_ext _ _ _ (TE j ltac:(lia))). apply SH, HJ.
    - destruct s as [|x s0]; [exact I|]. rewrite (val_ext _ _ _ OE). apply SH. reflexivity. }
  destruct c; cbn [code] in CC; rewrite CC in H; cbn [Z.eqb Pos.eqb] in H; cbn [exec] in EX.
  - injection EX as <-. apply NONE. exact H.
  - destruct s as [|a [|b s1]]; try discriminate EX. injection EX as <-. apply (OP _ _ _ H); [eauto|]. rewrite val_of_val, (SH 0%nat a eq_refl), (SH 1%nat b eq_refl). reflexivity.
  - destruct s as [|a [|b s1]]; try discriminate EX. injection EX as <-. apply (OP _ _ _ H); [eauto|]. rewrite val_of_val, (SH 0%nat a eq_refl), (SH 1%nat b eq_refl). reflexivity.
  - destruct s as [|a [|b s1]]; try discriminate EX. injection EX as <-. apply (OP _ _ _ H); [eauto|]. rewrite val_of_val, (SH 0%nat a eq_refl), (SH 1%nat b eq_refl). reflexivity.
  - injection EX as <-. destruct H as (OE & T0 & TJ). cbn [length] in LS'. split; [|rewrite (val_ext _ _ _ OE); exact CP]. intros j y HJ. destruct j as [|j]; cbn [nth_error] in HJ.
    + injection HJ as <-. rewrite (val_ext _ _ _ T0). exact CP.
    + assert (j < length s)%nat by (apply nth_error_Some; rewrite HJ; discriminate). rewrite (val_ext _ _ _ (TJ (Datatypes.S j) ltac:(lia) ltac:(lia))). replace (Datatypes.S j - 1)%nat with j by lia. apply SH, HJ.
  - destruct s as [|a s1]; try discriminate EX. injection EX as <-. destruct H as (OE & T0 & TJ). assert (V : val N (of_val (-1 * val N (st 0%nat))) = (- a) mod 2 ^ Z.of_nat N). { rewrite val_of_val, (SH 0%nat a eq_refl). f_equal. }
    split; [|rewrite (val_ext _ _ _ OE); exact V]. intros j y HJ. destruct j as [|j]; cbn [nth_error] in HJ.
    + injection HJ as <-. rewrite (val_ext _ _ _ T0). exact V.
    + assert (j < length s1)%nat by (apply nth_error_Some; rewrite HJ; discriminate). cbn [length] in LS. rewrite (val_ext _ _ _ (TJ (Datatypes.S j) ltac:(lia) ltac:(lia))). apply SH. exact HJ.
  - destruct s as [|a [|b s1]]; try discriminate EX. injection EX as <-. apply (OP _ _ _ H); [eauto|]. rewrite val_and, (SH 0%nat a eq_refl), (SH 1%nat b eq_refl). reflexivity.
  - destruct s as [|a [|b s1]]; try discriminate EX. injection EX as <-. apply (OP _ _ _ H); [eauto|]. rewrite val_or, (SH 0%nat a eq_refl), (SH 1%nat b eq_refl). reflexivity.
Qed.
Theorem stack_ok N S n i o p s : stackMachine N S n i o -> (forall t, (t < n)%nat -> carries N (i t) (p t)) -> runs_within N S n p s ->
  forall t x r, (t < n)%nat -> s (Datatypes.S t) = x :: r -> val N (o t) = x.
Proof.
  intros (st & _ & ST) CA [S0 RW]. assert (I : forall t, (t <= n)%nat -> shows N (st t) (s t) /\ (length (s t) <= S)%nat).
  { induction t as [|t IH]; intros Ht; [rewrite S0; split; [intros j x H; destruct j; discriminate H|cbn; lia]|]. destruct (IH ltac:(lia)) as [SH LS]. destruct (RW t ltac:(lia)) as [EX LE]. split; [|exact LE].
    apply (stack_step_ok _ _ _ _ _ _ _ _ _ (ST t ltac:(lia)) (CA t ltac:(lia)) SH EX LS LE). }
  intros t x r Ht E. destruct (I t ltac:(lia)) as [SH LS]. destruct (RW t Ht) as [EX LE]. destruct (stack_step_ok _ _ _ _ _ _ _ _ _ (ST t Ht) (CA t Ht) SH EX LS LE) as [_ T]. rewrite E in T. exact T.
Qed.
Theorem stack_total N S n i : exists o, stackMachine N S n i o.
Proof.
  apply clocked_total; [exists (fun _ => rep false); intros j _ b _; reflexivity|]. intros (g, e) st. unfold stack_step. destruct (decode N e st) as [[[alu push] op1] op2].
  exists (if push then g else alu).
  exists (fun j => if push then match j with O => g | Datatypes.S j => st j end else if op1 then match j with O => alu | _ => st j end else if op2 then match j with O => alu | _ => if (j <? S - 1)%nat then st (j + 1)%nat else st j end else st j).
  split; [intros b _; reflexivity|]. destruct push; [split; [intros b _; reflexivity|]; intros j H1 H2; destruct j; [lia|]; replace (Datatypes.S j - 1)%nat with j by lia; intros b _; reflexivity|].
  destruct op1; [split; [intros b _; reflexivity|]; intros j H1 H2; destruct j; [lia|]; intros b _; reflexivity|].
  destruct op2; [|intros j _ b _; reflexivity]. split; [intros b _; reflexivity|]. split; intros j H1 H2.
  - destruct j; [lia|]. destruct (Nat.ltb_spec (Datatypes.S j) (S - 1)); [intros b _; reflexivity|lia].
  - intros H3. destruct j; [lia|]. destruct (Nat.ltb_spec (Datatypes.S j) (S - 1)); [lia|intros b _; reflexivity].
Qed.
(** There is no instruction for the exclusive or. *)
Theorem stack_no_xor : exists N S g st, forall e o st', stack_step N S (g, e) st o st' -> val N o <> Z.lxor (val N (st 0%nat)) (val N (st 1%nat)).
Proof.
  exists 4%nat, 8%nat, (of_val 0), (fun j => if (j =? 0)%nat then of_val 3 else of_val 5). intros e o st' H. unfold stack_step, decode in H. cbn [Nat.eqb] in H.
  cbn [Nat.eqb].
  replace (Z.lxor (val 4 (of_val 3)) (val 4 (of_val 5))) with 6 by reflexivity.
  assert (X : exists f, veq 4 o f /\ val 4 f <> 6).
  { destruct (val 3 e =? 0) eqn:N0; [destruct H as [H _]; eexists; split; [exact H|vm_compute; discriminate]|].
    destruct (val 3 e =? 1) eqn:N1; [destruct H as [H _]; eexists; split; [exact H|vm_compute; discriminate]|].
    destruct (val 3 e =? 2) eqn:N2; [destruct H as [H _]; eexists; split; [exact H|vm_compute; discriminate]|].
    destruct (val 3 e =? 3) eqn:N3; [destruct H as [H _]; eexists; split; [exact H|vm_compute; discriminate]|].
    destruct (val 3 e =? 4) eqn:N4; [destruct H as [H _]; eexists; split; [exact H|vm_compute; discriminate]|].
    destruct (val 3 e =? 5) eqn:N5; [destruct H as [H _]; eexists; split; [exact H|vm_compute; discriminate]|].
    destruct (val 3 e =? 6) eqn:N6; [destruct H as [H _]; eexists; split; [exact H|vm_compute; discriminate]|].
    destruct (val 3 e =? 7) eqn:N7; [destruct H as [H _]; eexists; split; [exact H|vm_compute; discriminate]|].
    exfalso. pose proof (val_bound 3 e). change (2 ^ Z.of_nat 3) with 8 in *. apply Z.eqb_neq in N0, N1, N2, N3, N4, N5, N6, N7. lia. }
  destruct X as (f & E & F). rewrite (val_ext _ _ _ E). exact F.
Qed.

(** * Memory *)
Theorem select_ok M W n i o : Z.of_nat M < 2 ^ 32 -> select M W n i o -> forall t, (t < n)%nat ->
  let '(read_adr, _, _, _) := i t in val (log2 (M - 1)) read_adr < Z.of_nat M ->
  val W (o t) = contents W M (fun u => let '(_, w1, w2, w3) := i u in (w1, w2, w3)) t (val (log2 (M - 1)) read_adr).
Proof.
  intros BM (s & S0 & ST). set (p := fun u => let '(_, w1, w2, w3) := i u in (w1, w2, w3)).
  assert (I : forall t, (t <= n)%nat -> forall j, (j < M)%nat -> val W (s t j) = contents W M p t (Z.of_nat j)).
  { induction t as [|t IH]; intros Ht j Hj; [rewrite (val_ext _ _ _ (S0 j Hj)), val_rep_false; reflexivity|]. specialize (ST t ltac:(lia)). specialize (IH ltac:(lia)). unfold select_step in ST. cbn [contents]. unfold p at 1. destruct (i t) as [[[ra w1] w2] w3]. destruct ST as [ST _].
    assert (STO : forall w, store W M (adr w) (data w) (log2 (M - 1)) (s t) (s (S t)) -> val W (s (S t) j) = wr M (log2 (M - 1)) (contents W M p t) w W (Z.of_nat j)).
    { intros w SW. rewrite (val_ext _ _ _ (SW j Hj)). unfold wr. destruct (Z.of_nat j =? val (log2 (M - 1)) (adr w)); [reflexivity|]. apply IH, Hj. }
    destruct (en w1); [apply STO, ST|]. destruct (en w2); [apply STO, ST|]. destruct (en w3); [apply STO, ST|]. rewrite (val_ext _ _ _ (ST j Hj)). apply IH, Hj. }
  intros t Ht. specialize (ST t Ht). unfold select_step in ST. destruct (i t) as [[[ra w1] w2] w3]. destruct ST as [_ RD]. intros RA. pose proof (val_bound (log2 (M - 1)) ra).
  rewrite (val_ext _ _ _ (RD ltac:(lia))), (I t ltac:(lia)) by lia. rewrite Z2Nat.id by lia. reflexivity.
Qed.
(** Every word has an address. *)
Theorem select_addresses M : Z.of_nat M < 2 ^ 32 -> (0 < M)%nat -> Z.of_nat M <= 2 ^ Z.of_nat (log2 (M - 1)).
Proof.
  intros B H. destruct (Nat.eq_dec M 1) as [->|]; [vm_compute; discriminate|]. destruct (log2_ok (M - 1) ltac:(lia) ltac:(lia)) as [_ L]. rewrite <- pow2_nat. lia.
Qed.
Theorem select_total M W n i : exists o, select M W n i o.
Proof.
  apply clocked_total; [exists (fun _ => rep false); intros j _ b _; reflexivity|]. intros [[[ra w1] w2] w3] m. set (L := log2 (M - 1)).
  exists (m (Z.to_nat (val L ra))). set (st := fun (w : wport) j => if Z.of_nat j =? val L (adr w) then data w else m j).
  exists (if en w1 then st w1 else if en w2 then st w2 else if en w3 then st w3 else m). split; [|intros _ b _; reflexivity].
  destruct (en w1); [intros j _ b _; reflexivity|]. destruct (en w2); [intros j _ b _; reflexivity|]. destruct (en w3); [intros j _ b _; reflexivity|]. intros j _ b _. reflexivity.
Qed.

(** * A program: (5 - 3) * 7, negated *)
Definition demo : list instr := [Push 3; Push 5; Sub; Push 7; Mul; Neg].
Definition demo_in (t : nat) : vec * vec := let c := nth t demo Nop in (match c with Push x => of_val x | _ => rep false end, of_val (code c)).
Fixpoint demo_stack (t : nat) : list Z := match t with O => [] | S t => match exec 8 (nth t demo Nop) (demo_stack t) with Some s => s | None => [] end end.
Lemma stack_case : exists o, stackMachine 8 8 6 demo_in o /\ val 8 (o 5%nat) = 256 - 14.
Proof.
  destruct (stack_total 8 8 6 demo_in) as (o & H). exists o. split; [exact H|]. apply (stack_ok 8 8 6 demo_in o (fun t => nth t demo Nop) demo_stack H) with (r := []); [| |lia|vm_compute; reflexivity].
  - intros t Ht. do 6 (destruct t as [|t]; [vm_compute; auto|]). lia.
  - split; [reflexivity|]. intros t Ht. do 6 (destruct t as [|t]; [vm_compute; split; [reflexivity|lia]|]). lia.
Qed.
