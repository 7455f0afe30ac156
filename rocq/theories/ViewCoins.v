(** Renaming the garbler's coins: the bijection behind the privacy theorem. *)
From Coq Require Import ZArith NArith List Bool Lia Permutation.
From Verif Require Import Base Gate Circuit Spec Fanout GateFacts GateSim Phase1 Phase2 Phase2E Prefix CycleModel Cycle Run
  Plain Safe Comm Demo Results Privacy View ViewCycle ViewRun.
Import ListNotations.
Open Scope Z_scope.

(** * Coins *)

(** What the garbler draws: the offset, the labels of the secret initial values
    and inputs (the label of 0 of each pair), and the cipher, seen as a function. *)
Record coins := mkCoins {
  co_aes : block -> block; co_R : block; co_init : nat -> block; co_in : nat -> nat -> block }.
Definition pair_of (R a : block) : BlockPair := (a, XorBlock a R).
Definition co_ginit (co : coins) (k : Z) : option BlockPair := Some (pair_of (co_R co) (co_init co (Z.to_nat k))).
Definition co_gin (co : coins) (cy i : nat) : option BlockPair := Some (pair_of (co_R co) (co_in co cy i)).
Definition same_coins (a b : coins) : Prop :=
  (forall p, co_aes a p = co_aes b p) /\ co_R a = co_R b /\ (forall k, co_init a k = co_init b k) /\
  (forall cy i, co_in a cy i = co_in b cy i).

(** The blocks encrypted for a table, split into the two that belong to the bits
    on the wires and the two others. *)
Definition ev_points (e : event) : list block := points (ev_p0 e) (ev_p1 e) (N.of_nat (ev_cid e)) (N.of_nat (ev_id e)).
Definition on0 (R : block) (V : nat -> Z -> bool) (e : event) : block :=
  XorBlock (XorBlock (fst (ev_p0 e)) (mulb (bit0 V e) R)) (tweak0 (N.of_nat (ev_cid e)) (N.of_nat (ev_id e))).
Definition on1 (R : block) (V : nat -> Z -> bool) (e : event) : block :=
  XorBlock (XorBlock (fst (ev_p1 e)) (mulb (bit1 V e) R)) (tweak1 (N.of_nat (ev_cid e)) (N.of_nat (ev_id e))).
Definition off0 (R : block) (V : nat -> Z -> bool) (e : event) : block :=
  XorBlock (XorBlock (fst (ev_p0 e)) (mulb (negb (bit0 V e)) R)) (tweak0 (N.of_nat (ev_cid e)) (N.of_nat (ev_id e))).
Definition off1 (R : block) (V : nat -> Z -> bool) (e : event) : block :=
  XorBlock (XorBlock (fst (ev_p1 e)) (mulb (negb (bit1 V e)) R)) (tweak1 (N.of_nat (ev_cid e)) (N.of_nat (ev_id e))).
Definition inactive (R : block) (V : nat -> Z -> bool) (evs : list event) : list block :=
  flat_map (fun e => [off0 R V e; off1 R V e]) evs.

(** The change of the cipher at the blocks the evaluator has no label for. *)
Definition delta (R : block) (V V' : nat -> Z -> bool) (evs : list event) (p : block) : block :=
  fold_right (fun e acc =>
    XorBlock (XorBlock (if N.eqb p (off0 R V e) then mulb (xorb (bit1 V e) (bit1 V' e)) R else 0%N)
                       (if N.eqb p (off1 R V e) then mulb (xorb (bit0 V e) (bit0 V' e)) R else 0%N)) acc) 0%N evs.

Section Recode.
Variable c : GarbledCircuit.
Variable fan0 : list Z.
Variable reset : bool.
Variable n : nat.
Variable m0 : gmem.

Definition co_events (x : inputs) (co : coins) : list event :=
  run_events c fan0 reset (p_init x) (p_input x) (co_R co) (co_aes co) (co_ginit co) (co_gin co) n m0.
Definition co_run (x : inputs) (co : coins) : option (gmem * list gout) :=
  garble_run c fan0 reset (p_init x) (p_input x) (co_R co) (co_aes co) (co_ginit co) (co_gin co) n m0.

(** The coins that garble [x'] as [co] garbles [x]. *)
Definition recode (x : inputs) (V : nat -> Z -> bool) (x' : inputs) (V' : nat -> Z -> bool) (co : coins) : coins :=
  let R := co_R co in
  let evs := co_events x co in
  mkCoins (fun p => XorBlock (co_aes co p) (delta R V V' evs p)) R
    (fun k => XorBlock (co_init co k) 
       (mulb (xorb (initial_value c x (Z.of_nat (p_init_size c + k))) (initial_value c x' (Z.of_nat (p_init_size c + k)))) R))
    (fun cy i => XorBlock (co_in co cy i)
       (mulb (xorb (input_value c x cy (p_input_size c + i)) (input_value c x' cy (p_input_size c + i))) R)).

(** Coins without accidents: the offset is odd, no two unrelated wires look alike
    to the garbler, and no block is encrypted twice.  The secret inputs do not
    occur here. *)
Record usable (x : inputs) (co : coins) : Prop := {
  us_R : get_LSB (co_R co) = true;
  us_free : garbler_free c fan0 reset (p_init x) (p_input x) (co_R co) (co_aes co) (co_ginit co) (co_gin co) n (sym0 c) m0;
  us_once : NoDup (flat_map ev_points (co_events x co)) }.

(** The labels the evaluator is given for the secret initial values and inputs. *)
Definition label_init (x : inputs) (co : coins) (k : nat) : block :=
  if initial_value c x (Z.of_nat (p_init_size c + k)) then snd (pair_of (co_R co) (co_init co k)) else fst (pair_of (co_R co) (co_init co k)).
Definition label_in (x : inputs) (co : coins) (cy i : nat) : block :=
  if input_value c x cy (p_input_size c + i) then snd (pair_of (co_R co) (co_in co cy i)) else fst (pair_of (co_R co) (co_in co cy i)).
End Recode.

(** * Lemmas *)
Lemma xor_mulb_twice a d R : XorBlock (XorBlock a (mulb d R)) (mulb d R) = a.
Proof. unfold XorBlock. rewrite N.lxor_assoc, N.lxor_nilpotent, N.lxor_0_r. reflexivity. Qed.
Lemma mulb_xorb a b R : mulb (xorb a b) R = XorBlock (mulb a R) (mulb b R).
Proof. destruct a, b; unfold XorBlock; cbn [mulb xorb]; rewrite ?N.lxor_nilpotent, ?N.lxor_0_r, ?N.lxor_0_l; reflexivity. Qed.

Lemma flip_off R a va va' t :
  XorBlock (XorBlock (XorBlock a (mulb (xorb va va') R)) (mulb (negb va') R)) t = XorBlock (XorBlock a (mulb (negb va) R)) t.
Proof. unfold XorBlock. f_equal. rewrite N.lxor_assoc. f_equal. fold (XorBlock (mulb (xorb va va') R) (mulb (negb va') R)).
  rewrite <- mulb_xorb. f_equal. destruct va, va'; reflexivity. Qed.

Lemma off_flip R V V' e e' : event_flip R V V' e e' ->
  off0 R V' e' = off0 R V e /\ off1 R V' e' = off1 R V e /\ bit0 V' e' = bit0 V' e /\ bit1 V' e' = bit1 V' e /\
  bit0 V e' = bit0 V e /\ bit1 V e' = bit1 V e.
Proof.
  intros [A B C D E F G]. unfold off0, off1, bit0, bit1 in *. rewrite A, B, C, F, G.
  cbn [flip fst]. rewrite !flip_off. auto 10.
Qed.

Lemma delta_flip R V V' evs evs' : Forall2 (event_flip R V V') evs evs' ->
  forall p, delta R V' V evs' p = delta R V V' evs p.
Proof.
  induction 1 as [|e e' l l' H _ IH]; intros p; [reflexivity|]. cbn [delta fold_right]. fold (delta R V' V l' p). fold (delta R V V' l p).
  destruct (off_flip _ _ _ _ _ H) as (A & B & C & D & E & F). rewrite A, B, C, D, E, F, IH.
  rewrite (xorb_comm (bit1 V' e)), (xorb_comm (bit0 V' e)). reflexivity.
Qed.

(** The four blocks of a table are those that are on and those that are off. *)
Lemma points_perm R V e : snd (ev_p0 e) = XorBlock (fst (ev_p0 e)) R -> snd (ev_p1 e) = XorBlock (fst (ev_p1 e)) R ->
  Permutation (ev_points e) [on0 R V e; off0 R V e; on1 R V e; off1 R V e].
Proof.
  intros H0 H1. unfold ev_points, points, on0, off0, on1, off1, tweak. rewrite H0, H1.
  destruct (bit0 V e), (bit1 V e); unfold XorBlock; cbn [mulb negb]; rewrite !N.lxor_0_r.
  - eapply perm_trans; [apply perm_swap|]. do 2 apply perm_skip. apply perm_swap.
  - apply perm_swap.
  - do 2 apply perm_skip. apply perm_swap.
  - apply Permutation_refl.
Qed.
Lemma flip_points R V V' e e' : event_flip R V V' e e' -> Permutation (ev_points e) (ev_points e').
Proof.
  intros [A B C D E F G]. unfold ev_points. rewrite A, B, F, G. unfold points. cbn [flip fst snd]. rewrite D, E.
  generalize (xorb (bit0 V e) (bit0 V' e)) as d, (xorb (bit1 V e) (bit1 V' e)) as d'. intros d d'.
  destruct d, d'; cbn [mulb]; unfold XorBlock; rewrite ?N.lxor_0_r, ?lxor_cancel.
  - eapply perm_trans; [apply perm_swap|]. do 2 apply perm_skip. apply perm_swap.
  - apply perm_swap.
  - do 2 apply perm_skip. apply perm_swap.
  - apply Permutation_refl.
Qed.
Lemma perm_flat {A B} (f g : A -> list B) (P : A -> A -> Prop) l l' :
  (forall a b, P a b -> Permutation (f a) (g b)) -> Forall2 P l l' -> Permutation (flat_map f l) (flat_map g l').
Proof.
  intros H. induction 1; cbn [flat_map]; [constructor|]. apply Permutation_app; auto.
Qed.

Lemma delta_cons R V V' e l p : delta R V V' (e :: l) p =
  XorBlock (XorBlock (if N.eqb p (off0 R V e) then mulb (xorb (bit1 V e) (bit1 V' e)) R else 0%N)
                     (if N.eqb p (off1 R V e) then mulb (xorb (bit0 V e) (bit0 V' e)) R else 0%N)) (delta R V V' l p).
Proof. reflexivity. Qed.

(** [delta] at the blocks of one table, when no block occurs twice. *)
Definition well_paired (R : block) (e : event) : Prop :=
  snd (ev_p0 e) = XorBlock (fst (ev_p0 e)) R /\ snd (ev_p1 e) = XorBlock (fst (ev_p1 e)) R.
Lemma delta_outside R V V' evs p : ~ In p (inactive R V evs) -> delta R V V' evs p = 0%N.
Proof.
  induction evs as [|e l IH]; intros H; [reflexivity|]. cbn [delta fold_right]. fold (delta R V V' l p).
  cbn [inactive flat_map app] in H. fold (inactive R V l) in H. cbn [In] in H.
  rewrite IH by tauto.
  destruct (N.eqb_spec p (off0 R V e)) as [->|]; [exfalso; apply H; auto|].
  destruct (N.eqb_spec p (off1 R V e)) as [->|]; [exfalso; apply H; auto|]. reflexivity.
Qed.
Lemma inactive_points R V evs p : (forall e, In e evs -> well_paired R e) -> In p (inactive R V evs) -> In p (flat_map ev_points evs).
Proof.
  intros WP H. apply in_flat_map in H as (e & He & Hp). apply in_flat_map. exists e. split; [exact He|].
  destruct (WP e He) as [A B]. eapply Permutation_in; [apply Permutation_sym, (points_perm R V e A B)|].
  cbn [In] in *. tauto.
Qed.
Lemma nodup_app_inv {A} (l l' : list A) : NoDup (l ++ l') -> NoDup l /\ NoDup l' /\ forall a, In a l -> ~ In a l'.
Proof.
  induction l as [|a l IH]; intros H; cbn [app] in H.
  - split; [constructor|]. split; [exact H|]. intros a [].
  - apply NoDup_cons_iff in H as [H1 H2]. destruct (IH H2) as (A1 & A2 & A3). split.
    + constructor; [intros E; apply H1, in_or_app; auto|exact A1].
    + split; [exact A2|]. intros b [<-|Hb] E; [apply H1, in_or_app; auto|apply (A3 b Hb E)].
Qed.
Lemma delta_points R V V' evs e :
  (forall e, In e evs -> well_paired R e) -> NoDup (flat_map ev_points evs) -> In e evs ->
  delta R V V' evs (on0 R V e) = 0%N /\ delta R V V' evs (on1 R V e) = 0%N /\
  delta R V V' evs (off0 R V e) = mulb (xorb (bit1 V e) (bit1 V' e)) R /\
  delta R V V' evs (off1 R V e) = mulb (xorb (bit0 V e) (bit0 V' e)) R.
Proof.
  induction evs as [|d l IH]; intros WP ND HIn; [contradiction|].
  cbn [flat_map] in ND. apply nodup_app_inv in ND as (N1 & N2 & N3).
  destruct (WP d (or_introl eq_refl)) as [W0 W1].
  pose proof (points_perm R V d W0 W1) as PP.
  pose proof (Permutation_NoDup PP N1) as ND4.
  assert (NL : forall p, In p (ev_points d) -> delta R V V' l p = 0%N).
  { intros p Hp. apply delta_outside. intros Q. apply (N3 p Hp).
    apply (inactive_points R V); auto. intros; apply WP; right; auto. }
  assert (IND : forall p, In p [on0 R V d; off0 R V d; on1 R V d; off1 R V d] -> In p (ev_points d)).
  { intros p Hp. eapply Permutation_in; [apply Permutation_sym, PP|exact Hp]. }
  rewrite !delta_cons.
  destruct HIn as [<-|HIn].
  - repeat (apply NoDup_cons_iff in ND4 as [? ND4]). cbn [In] in *.
    rewrite !NL by (apply IND; auto 10).
    assert (forall p q : block, p <> q -> N.eqb p q = false) as NQ by (intros; apply N.eqb_neq; auto).
    rewrite (NQ (on0 R V d) (off0 R V d)), (NQ (on0 R V d) (off1 R V d)), (NQ (on1 R V d) (off0 R V d)),
      (NQ (on1 R V d) (off1 R V d)), (NQ (off0 R V d) (off1 R V d)), (NQ (off1 R V d) (off0 R V d)), !N.eqb_refl
      by (intros E; rewrite E in *; tauto).
    unfold XorBlock. rewrite !N.lxor_0_r, N.lxor_0_l. auto.
  - destruct (IH) as (I1 & I2 & I3 & I4); auto. { intros; apply WP; right; auto. }
    assert (WPe : well_paired R e) by (apply WP; right; auto). destruct WPe as [V0 V1].
    assert (Z : forall p, In p [on0 R V e; off0 R V e; on1 R V e; off1 R V e] ->
       XorBlock (if N.eqb p (off0 R V d) then mulb (xorb (bit1 V d) (bit1 V' d)) R else 0%N)
         (if N.eqb p (off1 R V d) then mulb (xorb (bit0 V d) (bit0 V' d)) R else 0%N) = 0%N).
    { intros p Hp. assert (Q : In p (flat_map ev_points l)).
      { apply in_flat_map. exists e. split; [exact HIn|]. eapply Permutation_in; [apply Permutation_sym, (points_perm R V e V0 V1)|exact Hp]. }
      destruct (N.eqb_spec p (off0 R V d)) as [E|]; [exfalso; apply (N3 p); auto; apply IND; cbn [In]; auto|].
      destruct (N.eqb_spec p (off1 R V d)) as [E|]; [exfalso; apply (N3 p); auto; apply IND; cbn [In]; auto|]. reflexivity. }
    rewrite !Z by (cbn [In]; auto 10). unfold XorBlock. rewrite !N.lxor_0_l. auto.
Qed.
Lemma delta_keeps R V V' evs aes e :
  (forall e, In e evs -> well_paired R e) -> NoDup (flat_map ev_points evs) -> In e evs ->
  event_keeps aes (fun p => XorBlock (aes p) (delta R V V' evs p)) R V V' e.
Proof.
  intros WP ND H. destruct (delta_points R V V' evs e WP ND H) as (A & B & C & D).
  unfold event_keeps, keeps. fold (on0 R V e). fold (on1 R V e). fold (off0 R V e). fold (off1 R V e).
  rewrite A, B, C, D. unfold XorBlock. rewrite !N.lxor_0_r. auto.
Qed.

Lemma nbit_input c p_init p_input gi ei gn en cy i :
  nbit c p_init p_input gi ei gn en cy i = input_value c (mkInputs p_init gi ei p_input gn en) cy (p_input_size c + i).
Proof. reflexivity. Qed.

(** * The theorem *)

(** Every table is made from pairs with the right offset: by [run_two] of a run
    against itself. *)
Lemma keeps_self aes R cid gid p0 p1 va vb : keeps aes aes R cid gid p0 p1 va vb false false.
Proof. unfold keeps. cbn [mulb]. unfold XorBlock. rewrite !N.lxor_0_r. auto. Qed.

Section Main.
Variable c : GarbledCircuit.
Variable fan0 : list Z.
Variable reset : bool.
Hypothesis WF : well_formed c.
Hypothesis SZ : (N.of_nat (length (garbledGates c)) < 2 ^ 32)%N.
Hypothesis FF : exists junk ok, length junk = gate_size c /\ FillFanout c junk = Some (fan0, ok).
Variable n : nat.
Variable m0 : gmem.
Hypothesis FM : fresh_gmem c m0.

Lemma ff_len : length fan0 = length (garbledGates c) /\
  forall k, (k < length (garbledGates c))%nat -> fz fan0 k = total_uses c k.
Proof.
  destruct FF as (junk & ok & HL & HF).
  pose proof (wsz_last c) as WL. pose proof (first_input_nonneg c). pose proof (first_order c) as FO.
  destruct (FillFanout_ok c junk HL) as (fan & ok' & E & A & B & _).
  - intros w Hw. apply In_nth_error in Hw as [i Hi]. destruct (wf_D _ WF i w Hi) as [Q _]. lia.
  - intros w Hw. apply In_nth_error in Hw as [i Hi]. pose proof (wf_out _ WF i w Hi) as Q. lia.
  - intros HT. destruct (wf_term _ WF); lia.
  - rewrite HF in E. injection E as <- <-. split; [exact A|]. apply (B (wf_topo _ WF)).
Qed.

Lemma sym0_cwf : cwf c (sym0 c).
Proof. unfold cwf, sym0, wsz. cbn. rewrite !repeat_length. auto. Qed.

Lemma co_two x x' V V' co aes' co' :
  p_init x' = p_init x -> p_input x' = p_input x -> consistent c x V -> consistent c x' V' ->
  get_LSB (co_R co) = true ->
  garbler_free c fan0 reset (p_init x) (p_input x) (co_R co) (co_aes co) (co_ginit co) (co_gin co) n (sym0 c) m0 ->
  co_aes co' = aes' -> co_R co' = co_R co ->
  (forall k, (k < get_secret_init_size c)%nat -> co_init co' k = XorBlock (co_init co k)
     (mulb (xorb (initial_value c x (Z.of_nat (p_init_size c + k))) (initial_value c x' (Z.of_nat (p_init_size c + k)))) (co_R co))) ->
  (forall cy i, (i < get_secret_input_size c)%nat -> co_in co' cy i = XorBlock (co_in co cy i)
     (mulb (xorb (input_value c x cy (p_input_size c + i)) (input_value c x' cy (p_input_size c + i))) (co_R co))) ->
  (forall e, In e (co_events c fan0 reset n m0 x co) -> event_keeps (co_aes co) aes' (co_R co) V V' e) ->
  garbler_free c fan0 reset (p_init x') (p_input x') (co_R co') (co_aes co') (co_ginit co') (co_gin co') n (sym0 c) m0 /\
  Forall2 (event_flip (co_R co) V V') (co_events c fan0 reset n m0 x co) (co_events c fan0 reset n m0 x' co') /\
  exists mA mB osA osB, co_run c fan0 reset n m0 x co = Some (mA, osA) /\ co_run c fan0 reset n m0 x' co' = Some (mB, osB) /\
    length osA = n /\ length osB = n /\
    forall cid oA oB, nth_error osA cid = Some oA -> nth_error osB cid = Some oB -> cycle_same c (co_R co) V V' cid oA oB.
Proof.
  intros P1 P2 CV CV' HR GF EA ER EI EN EK.
  destruct ff_len as [FL F0].
  destruct x as [pi gi ei pn gn en], x' as [pi' gi' ei' pn' gn' en'].
  cbn [p_init p_input] in *. subst pi' pn'.
  unfold co_events, co_run in *. cbn [p_init p_input] in *. rewrite ER. subst aes'.
  apply (run_two c fan0 reset pi pn (co_R co) WF SZ HR FL F0 (co_aes co) (co_aes co') gi ei gn en gi' ei' gn' en' V V' CV CV'
    (co_ginit co) (co_ginit co') (co_gin co) (co_gin co')); auto.
  - intros k _. eexists. reflexivity.
  - intros cy i _. eexists. reflexivity.
  - intros k Hk. unfold co_ginit. rewrite Nat2Z.id, ER, EI by exact Hk. cbn [option_map].
    rewrite !initial_ibit by exact Hk. reflexivity.
  - intros cy i Hi. unfold co_gin. rewrite ER, EN by exact Hi. reflexivity.
  - apply sym0_cwf.
Qed.

Lemma co_paired x V co : consistent c x V -> get_LSB (co_R co) = true ->
  garbler_free c fan0 reset (p_init x) (p_input x) (co_R co) (co_aes co) (co_ginit co) (co_gin co) n (sym0 c) m0 ->
  forall e, In e (co_events c fan0 reset n m0 x co) -> well_paired (co_R co) e.
Proof.
  intros CV HR GF.
  destruct (co_two x x V V co (co_aes co) co) as (_ & F2 & _); auto.
  - intros k _. rewrite xorb_nilpotent. cbn [mulb]. unfold XorBlock. rewrite N.lxor_0_r. reflexivity.
  - intros cy i _. rewrite xorb_nilpotent. cbn [mulb]. unfold XorBlock. rewrite N.lxor_0_r. reflexivity.
  - intros e _. unfold event_keeps. rewrite !xorb_nilpotent. apply keeps_self.
  - intros e He. clear - F2 He. induction F2 as [|a b l l' H _ IH]; [contradiction|].
    destruct He as [->|He]; [unfold well_paired; destruct H as [_ _ _ _ _ -> ->]; split; reflexivity|auto].
Qed.

Theorem view_private x x' V V' co :
  p_init x' = p_init x -> p_input x' = p_input x -> consistent c x V -> consistent c x' V' ->
  usable c fan0 reset n m0 x co ->
  let co' := recode c fan0 reset n m0 x V x' V' co in
  usable c fan0 reset n m0 x' co' /\
  same_coins (recode c fan0 reset n m0 x' V' x V co') co /\
  co_R co' = co_R co /\
  (forall p, ~ In p (inactive (co_R co) V (co_events c fan0 reset n m0 x co)) -> co_aes co' p = co_aes co p) /\
  (forall k, label_init c x' co' k = label_init c x co k) /\
  (forall cy i, label_in c x' co' cy i = label_in c x co cy i) /\
  exists m m' os os',
    co_run c fan0 reset n m0 x co = Some (m, os) /\ co_run c fan0 reset n m0 x' co' = Some (m', os') /\
    length os = n /\ length os' = n /\
    forall cy o o', nth_error os cy = Some o -> nth_error os' cy = Some o' -> cycle_same c (co_R co) V V' cy o o'.
Proof.
  intros P1 P2 CV CV' [HR GF ND]. cbv zeta.
  set (evs := co_events c fan0 reset n m0 x co). fold evs in ND.
  set (co' := recode c fan0 reset n m0 x V x' V' co).
  pose proof (co_paired x V co CV HR GF) as WP. fold evs in WP.
  destruct (co_two x x' V V' co (co_aes co') co' P1 P2 CV CV' HR GF eq_refl eq_refl) as (GF' & F2 & RUN).
  { intros. reflexivity. }
  { intros. reflexivity. }
  { intros e He. apply (delta_keeps (co_R co) V V' evs (co_aes co) e WP ND He). }
  fold evs in F2.
  split.
  { constructor; [exact HR|exact GF'|].
    eapply Permutation_NoDup; [|exact ND]. eapply perm_flat; [|exact F2]. intros a b. apply flip_points. }
  split.
  { split; [|split; [reflexivity|split]].
    - intros p. cbn [recode co_aes co_R]. unfold co'. cbn [recode co_aes co_R]. fold co'. fold evs.
      change (co_R co') with (co_R co). rewrite (delta_flip _ _ _ _ _ F2 p).
      unfold XorBlock. rewrite N.lxor_assoc, N.lxor_nilpotent, N.lxor_0_r. reflexivity.
    - intros k. cbn [recode co_init co_R]. unfold co'. cbn [recode co_init co_R].
      rewrite (xorb_comm (initial_value c x' _)). apply xor_mulb_twice.
    - intros cy i. cbn [recode co_in co_R]. unfold co'. cbn [recode co_in co_R].
      rewrite (xorb_comm (input_value c x' _ _)). apply xor_mulb_twice. }
  split; [reflexivity|]. split.
  { intros p Hp. unfold co'. cbn [recode co_aes]. fold evs. rewrite delta_outside by exact Hp.
    unfold XorBlock. rewrite N.lxor_0_r. reflexivity. }
  assert (LAB : forall (b b' : bool) a R, (if b' then snd (pair_of R (XorBlock a (mulb (xorb b b') R))) else fst (pair_of R (XorBlock a (mulb (xorb b b') R)))) =
     (if b then snd (pair_of R a) else fst (pair_of R a))).
  { intros [] [] a R; unfold pair_of, XorBlock; cbn [xorb mulb fst snd]; rewrite ?N.lxor_0_r, ?lxor_cancel; reflexivity. }
  split; [intros k; apply LAB|]. split; [intros cy i; apply LAB|]. exact RUN.
Qed.
End Main.
