(** Labels and table rows stay 128-bit words, gate numbers 32-bit words. *)
From Coq Require Import ZArith NArith List Bool Lia.
From Verif Require Import Base Gate Circuit CycleModel.
Import ListNotations.
Open Scope Z_scope.

Definition w128 (x : block) : Prop := (x < 2 ^ 128)%N.
Definition pair128 (p : BlockPair) : Prop := w128 (fst p) /\ w128 (snd p).
Definition table_ok (t : GarbledTable) : Prop := w128 (row0 t) /\ w128 (row1 t) /\ (gid t < 2 ^ 32)%N.

Lemma Forall_rd {A} (P : A -> Prop) l i x : Forall P l -> rd l i = Some x -> P x.
Proof.
  intros F H. pose proof (rd_bound _ _ _ H). rewrite Forall_forall in F. apply F.
  rewrite <- (Z2Nat.id i), rd_nat in H by lia. eapply nth_error_In; eauto.
Qed.
Lemma Forall_wr {A} (P : A -> Prop) l i x l' : Forall P l -> P x -> wr l i x = Some l' -> Forall P l'.
Proof.
  intros F HX H. apply Forall_forall. intros y Hy. apply In_nth_error in Hy as [n Hn].
  rewrite <- rd_nat in Hn. rewrite (rd_wr _ _ _ _ _ H) in Hn.
  destruct (Z.eqb_spec (Z.of_nat n) i).
  - injection Hn as <-. auto.
  - eapply Forall_rd; [|eassumption]; auto.
Qed.
Lemma mapM_Forall {A B} (P : B -> Prop) (f : A -> option B) l r :
  (forall x y, f x = Some y -> P y) -> mapM f l = Some r -> Forall P r.
Proof.
  intros H. revert r. induction l as [|x l IH]; intros r; cbn [mapM].
  - intros [= <-]. constructor.
  - unfold obind. destruct (f x) eqn:E; [|discriminate]. destruct (mapM f l); [|discriminate].
    intros [= <-]. constructor; eauto.
Qed.
Ltac ob H := unfold obind in H at 1; match type of H with
  | match ?e with _ => _ end = _ => let E := fresh "E" in destruct e eqn:E; [|discriminate H]
  end.

Lemma for_keeps {S} (P : S -> Prop) n (body : nat -> S -> option S) s s' :
  (forall i s s', (i < n)%nat -> P s -> body i s = Some s' -> P s') -> P s -> for_ n body s = Some s' -> P s'.
Proof. intros H H0. exact (for_inv_partial (fun _ => P) n body s s' H0 H). Qed.

Section Skel.
Context {L S : Type}.
Variable zeroL : L.
Variable c : GarbledCircuit.
Variable fan0 : list Z.
Variable gate_fn : L -> Z -> L -> Z -> Z -> nat -> S -> option (L * Z * S).
Variable P : L -> Prop.
Variable Q : S -> Prop.
Hypothesis P0 : P zeroL.
Hypothesis PG : forall l0 v0 l1 v1 t g s l v s', (g < gate_size c)%nat -> P l0 -> P l1 -> Q s ->
  gate_fn l0 v0 l1 v1 t g s = Some (l, v, s') -> P l /\ Q s'.

Lemma dff_init_inv p_init getinit i wl wv wl' wv' : (forall k l, getinit k = Some l -> P l) ->
  Forall P wl -> dff_init_body c p_init getinit i (wl, wv) = Some (wl', wv') -> Forall P wl'.
Proof.
  intros GI F H. unfold dff_init_body in H. ob H.
  repeat match type of H with (if ?b then _ else _) = _ => destruct b end; repeat ob H; inversion H; subst; auto.
  eapply Forall_wr; [| |eassumption]; eauto.
Qed.
Lemma dff_latch_inv wl wv i ll lv ll' lv' : Forall P wl -> Forall P ll ->
  dff_latch_body c wl wv i (ll, lv) = Some (ll', lv') -> Forall P ll'.
Proof.
  intros FW F H. unfold dff_latch_body in H. ob H.
  repeat match type of H with (if ?b then _ else _) = _ => destruct b end; repeat ob H; inversion H; subst; auto.
  eapply Forall_wr; [| |eassumption]; auto. eapply Forall_rd; [|eassumption]; auto.
Qed.
Lemma dff_copy_inv ll lv i wl wv wl' wv' : Forall P ll -> Forall P wl ->
  dff_copy_body c ll lv i (wl, wv) = Some (wl', wv') -> Forall P wl'.
Proof.
  intros FL F H. unfold dff_copy_body in H. repeat ob H. inversion H; subst.
  eapply Forall_wr; [| |eassumption]; auto. eapply Forall_rd; [|eassumption]; auto.
Qed.
Lemma s_input_inv reset getinput i wl wv wl' wv' : (forall k l, getinput k = Some l -> P l) -> Forall P wl ->
  s_input_body c reset getinput i (wl, wv) = Some (wl', wv') -> Forall P wl'.
Proof.
  intros GI F H. unfold s_input_body in H. repeat ob H. inversion H; subst. eapply Forall_wr; [| |eassumption]; eauto.
Qed.
Lemma lab_inv wl i l : Forall P wl -> lab zeroL c wl i = Some l -> P l.
Proof. intros F. unfold lab. destruct (_ && _); [apply Forall_rd; auto|]. intros [= <-]. auto. Qed.

Lemma cycle_prefix_inv reset cid p_init p_input getinit getinput st wl wv ll lv fan :
  (forall k l, getinit k = Some l -> P l) -> (forall k l, getinput k = Some l -> P l) ->
  Forall P (wires st) -> Forall P (dff_latch st) ->
  cycle_prefix c fan0 reset cid p_init p_input getinit getinput st = Some (wl, wv, ll, lv, fan) ->
  Forall P wl /\ Forall P ll.
Proof.
  intros GI GN FW FL E. unfold cycle_prefix in E. ob E. destruct p as [[[wl1 wv1] ll0] lv0].
  assert (A : Forall P wl1 /\ Forall P ll0).
  { destruct cid.
    - ob E0. destruct p as [a b]. inversion E0; subst. split; [|auto].
      apply (for_keeps (fun st : list L * list Z => Forall P (fst st))) in E1; [auto|intros i [] [] _; apply dff_init_inv; auto|auto].
    - ob E0. destruct p as [a b]. ob E0. destruct p as [d e]. inversion E0; subst.
      apply (for_keeps (fun st : list L * list Z => Forall P (fst st))) in E1; [|intros i [] [] _; apply dff_latch_inv; auto|auto].
      apply (for_keeps (fun st : list L * list Z => Forall P (fst st))) in E2; [|intros i [] [] _; apply dff_copy_inv; auto|auto]. auto. }
  destruct A as [A B]. ob E. ob E. destruct p as [wl3 wv3]. ob E. destruct p. inversion E; subst. split; [|auto].
  apply (for_keeps (fun st : list L * list Z => Forall P (fst st))) in E2; [|intros i [] [] _; apply s_input_inv; auto|auto]. auto.
Qed.

Lemma secret_body_inv i wl wv fan s wl' wv' fan' s' : (i < gate_size c)%nat -> Forall P wl -> Q s ->
  secret_body zeroL c gate_fn i (wl, wv, fan, s) = Some (wl', wv', fan', s') -> Forall P wl' /\ Q s'.
Proof.
  intros Hi F HQ H. unfold secret_body in H. ob H. ob H. destruct (0 <? z); [|inversion H; subst; auto].
  ob H. destruct (IsSecret z0); [|inversion H; subst; auto].
  ob H. ob H. ob H. ob H. ob H. destruct p as [[l2 v2] s2]. ob H. ob H.
  destruct (PG _ _ _ _ _ _ _ _ _ _ Hi (lab_inv _ _ _ F E2) (lab_inv _ _ _ F E4) HQ E6) as [A B].
  pose proof (Forall_wr _ _ _ _ _ F A E7) as C.
  destruct (negb (IsSecret v2)); [ob H|]; inversion H; subst; auto.
Qed.

Lemma run_cycle_inv reset cid p_init p_input getinit getinput st s st' s' outs term :
  (forall k l, getinit k = Some l -> P l) -> (forall k l, getinput k = Some l -> P l) ->
  Forall P (wires st) -> Forall P (dff_latch st) -> Q s ->
  run_cycle zeroL c fan0 gate_fn reset cid p_init p_input getinit getinput st s = Some (st', s', outs, term) ->
  Forall P (wires st') /\ Forall P (dff_latch st') /\ Q s' /\
  Forall (fun o => P (fst o)) outs /\ (forall o, term = Some o -> P (fst o)).
Proof.
  intros GI GN FW FL HQ H. unfold run_cycle in H. ob H. destruct p as [[[[wl3 wv4] ll] lv] fan4].
  destruct (cycle_prefix_inv _ _ _ _ _ _ _ _ _ _ _ _ GI GN FW FL E) as [A B].
  ob H. destruct p as [[[wl5 wv5] fan5] s2].
  assert (C : Forall P wl5 /\ Q s2).
  { apply (for_keeps (fun st : p2state => Forall P (fst (fst (fst st))) /\ Q (snd st))) in E0; [auto|intros i [[[] ?] ?] [[[] ?] ?] ? []; apply secret_body_inv; auto|auto]. }
  destruct C as [C C']. ob H. ob H. inversion H; subst. cbn [wires dff_latch].
  assert (RW : forall w y, read_wire wl5 wv5 w = Some y -> P (fst y)).
  { intros w y Hy. unfold read_wire in Hy. ob Hy. ob Hy. inversion Hy; subst. eapply Forall_rd; [|eassumption]; auto. }
  repeat split; auto.
  - eapply mapM_Forall; eauto.
  - intros y ->. destruct (terminate_id c >? 0); [|discriminate]. ob E2. inversion E2; subst. eauto.
Qed.
End Skel.

(** * The two gate functions *)
Lemma w128_0 : w128 ZeroBlock. Proof. reflexivity. Qed.
Lemma xor128 a b : w128 a -> w128 b -> w128 (XorBlock a b).
Proof.
  unfold w128, XorBlock. intros A B. destruct (N.eq_dec (N.lxor a b) 0) as [->|NZ]; [reflexivity|].
  apply N.log2_lt_pow2; [lia|]. pose proof (N.log2_lxor a b).
  assert (N.log2 a < 128)%N by (destruct (N.eq_dec a 0) as [->|]; [reflexivity|apply N.log2_lt_pow2; lia]).
  assert (N.log2 b < 128)%N by (destruct (N.eq_dec b 0) as [->|]; [reflexivity|apply N.log2_lt_pow2; lia]).
  lia.
Qed.

Section Gates.
Variable aes : block -> block.
Hypothesis AES : forall x, w128 x -> w128 (aes x).

Lemma hash128 x t : w128 x -> w128 t -> w128 (hash aes x t).
Proof. intros A B. unfold hash. auto using xor128. Qed.
Lemma tweak128 cid g : (cid < 2 ^ 64)%N -> (g < 2 ^ 32)%N -> w128 (tweak0 cid g) /\ w128 (tweak1 cid g).
Proof. unfold tweak0, tweak1, MakeBlock, w128. lia. Qed.

Lemma HalfGates128 in0 in1 t cid g R out T : (cid < 2 ^ 64)%N -> (g < 2 ^ 32)%N ->
  pair128 in0 -> pair128 in1 -> w128 R -> HalfGates aes in0 in1 t cid g R = (out, T) ->
  pair128 out /\ w128 (fst T) /\ w128 (snd T).
Proof.
  intros HC HG [A0 A1] [B0 B1] HR. destruct (tweak128 cid g HC HG) as [T0 T1].
  unfold HalfGates. destruct (Type2V t) as [[v0 v1] v2]. intros [= <- <-]. unfold pair128. cbn [fst snd].
  repeat match goal with |- context [if ?b then _ else _] => destruct b end; cbn [fst snd];
    repeat split; auto 12 using xor128, hash128.
Qed.

Definition tabs_ok (s : list GarbledTable * Z) : Prop := Forall table_ok (fst s).
Lemma GarbleGate128 in0 v0 in1 v1 t cid g R s l v s' : (cid < 2 ^ 64)%N -> (g < 2 ^ 32)%N ->
  w128 R -> pair128 in0 -> pair128 in1 -> tabs_ok s ->
  GarbleGate aes in0 v0 in1 v1 t cid g R s = Some (l, v, s') -> pair128 l /\ tabs_ok s'.
Proof.
  intros HC HG HR H0 H1 HS. assert (Z : pair128 (ZeroBlock, ZeroBlock)) by (split; apply w128_0).
  destruct H0 as [A0 A1], H1 as [B0 B1].
  unfold GarbleGate.
  destruct (_ && _); [intros [= <- <- <-]; auto|].
  destruct (negb (IsSecret v0)).
  { unfold HalfGarbleGate. destruct (half_x t true v0) as [x0 x1]. destruct (Bool.eqb x0 x1), (negb x0 && x1);
      intros [= <- <- <-]; split; auto; split; auto. }
  destruct (negb (IsSecret v1)).
  { unfold HalfGarbleGate. destruct (half_x t false v1) as [x0 x1]. destruct (Bool.eqb x0 x1), (negb x0 && x1);
      intros [= <- <- <-]; split; auto; split; auto. }
  destruct (_ && _).
  { destruct (equal_shortcut t) as [[]|]; intros [= <- <- <-]; split; auto; split; auto. }
  destruct (_ && _).
  { destruct (inverted_shortcut t) as [[]|]; intros [= <- <- <-]; split; auto; split; auto. }
  destruct (t =? XORGATE); [intros [= <- <- <-]; split; auto; split; cbn [fst snd]; auto using xor128|].
  destruct (t =? XNORGATE); [intros [= <- <- <-]; split; auto; split; cbn [fst snd]; auto using xor128|].
  destruct (t =? NOTGATE); [intros [= <- <- <-]; split; auto; split; auto|].
  destruct (HalfGates aes in0 in1 t cid g R) as [out [T0 T1]] eqn:EH.
  destruct (HalfGates128 _ _ _ _ _ _ _ _ HC HG (conj A0 A1) (conj B0 B1) HR EH) as (O & X0 & X1).
  unfold obind. destruct (wr (fst s) (snd s) _) as [tabs|] eqn:EW; [|discriminate].
  intros [= <- <- <-]. split; [auto|]. unfold tabs_ok. cbn [fst]. eapply Forall_wr; [exact HS| |exact EW].
  split; [auto|]. split; [auto|]. cbn [gid]. apply N.mod_lt. discriminate.
Qed.

Lemma EvalHalfGates128 A B T cid g : (cid < 2 ^ 64)%N -> (g < 2 ^ 32)%N -> w128 A -> w128 B ->
  w128 (fst T) -> w128 (snd T) -> w128 (EvalHalfGates aes A B T cid g).
Proof.
  intros HC HG HA HB H0 H1. destruct (tweak128 cid g HC HG) as [T0 T1]. unfold EvalHalfGates.
  destruct (get_LSB A), (get_LSB B); auto 10 using xor128, hash128.
Qed.
End Gates.

Section Cycle.
Variable aes : block -> block.
Hypothesis AES : forall x, w128 x -> w128 (aes x).
Variable c : GarbledCircuit.
Hypothesis GS : (N.of_nat (length (garbledGates c)) < 2 ^ 32)%N.

Lemma GarbleCycle128 fan0 R reset p_init p_input ginit gin cid st tmp tabs st' tmp' tabs' ind outs term :
  (N.of_nat cid < 2 ^ 64)%N -> w128 R ->
  (forall k l, ginit k = Some l -> pair128 l) -> (forall k l, gin k = Some l -> pair128 l) ->
  Forall pair128 (wires st) -> Forall pair128 (dff_latch st) -> Forall table_ok tmp -> Forall table_ok tabs ->
  GarbleCycle aes c fan0 R reset p_init p_input ginit gin cid st tmp tabs = Some (st', tmp', tabs', ind, outs, term) ->
  Forall pair128 (wires st') /\ Forall pair128 (dff_latch st') /\ Forall table_ok tmp' /\ Forall table_ok tabs' /\ 0 <= ind.
Proof.
  intros HC HR GI GN FW FL FT FS H. unfold GarbleCycle in H. ob H. destruct p as [[[st1 [tmp1 ti]] outs1] term1].
  ob H. destruct p as [tabs1 ind1]. inversion H; subst.
  apply (run_cycle_inv zeroPair c fan0 _ pair128 tabs_ok) in E; auto.
  - destruct E as (A & B & C & _). split; [auto|]. split; [auto|]. split; [exact C|].
    apply (for_keeps (fun st : list GarbledTable * Z => Forall table_ok (fst st) /\ 0 <= snd st)) in E0; [auto| |split; [auto|cbn; lia]].
    intros i [t1 i1] [t2 i2] _ [F1 F2] HS. unfold select_body in HS. ob HS. ob HS.
    destruct (0 <? z); [|inversion HS; subst; auto]. ob HS. inversion HS; subst. cbn [fst snd] in *. split; [|lia].
    eapply Forall_wr; [exact F1| |eassumption]. eapply Forall_rd; [exact C|eassumption].
  - split; apply w128_0.
  - intros l0 v0 l1 v1 t g s l v s' Hg P0 P1 HS HG. unfold gate_size in Hg. eapply GarbleGate128 in HG; eauto. lia.
Qed.
End Cycle.
