(** Label transfer delivers to the evaluator, for every position, the label of
    the bit at that position. *)
From Coq Require Import ZArith NArith List Bool Lia.
From Verif Require Import Base Gate Circuit CycleModel Spec Proc Codec Tcp BN OT OTExt Bounded Tables Protocol.
Import ListNotations.
Open Scope Z_scope.

(** * Composition when FAILURE is possible *)
Lemma runs_obind {A B A' B'} (p : proc (option A)) (q : proc (option B)) a b f g (a' : option A') (b' : option B') :
  runs p q (Some a) (Some b) -> runs (f a) (g b) a' b' -> runs (obindp p f) (obindp q g) a' b'.
Proof. intros H K. unfold obindp. eapply runs_bind; eauto. Qed.
Lemma runs_lift_l {A B A'} (o : option A) a (f : A -> proc A') (q : proc B) a' b' :
  o = Some a -> runs (f a) q a' b' -> runs (bind (lift o) f) q a' b'.
Proof. intros -> H. exact H. Qed.
Lemma runs_lift_r {A B B'} (o : option B) b (f : B -> proc B') (p : proc A) a' b' :
  o = Some b -> runs p (f b) a' b' -> runs p (bind (lift o) f) a' b'.
Proof. intros -> H. exact H. Qed.

(** * Picking labels *)
Definition picked (b : nat -> bool) (labels : list BlockPair) : list block :=
  chosen (map b (seq 0 (length labels))) labels.

Lemma chosen_nth {A} (sel : list bool) (m : list (A * A)) i s p :
  nth_error sel i = Some s -> nth_error m i = Some p ->
  nth_error (chosen sel m) i = Some (if s then snd p else fst p).
Proof.
  revert m i. induction sel as [|s' sel IH]; intros [|p' m] [|i] H1 H2; cbn in *; try discriminate.
  - injection H1 as ->. injection H2 as ->. reflexivity.
  - apply IH; auto.
Qed.
Lemma chosen_length {A} (sel : list bool) (m : list (A * A)) : length sel = length m -> length (chosen sel m) = length m.
Proof. intros H. unfold chosen. rewrite map_length, combine_length. lia. Qed.
Lemma chosen_app {A} s1 s2 (m1 m2 : list (A * A)) : length s1 = length m1 ->
  chosen (s1 ++ s2) (m1 ++ m2) = chosen s1 m1 ++ chosen s2 m2.
Proof.
  revert m1. induction s1 as [|s s1 IH]; intros [|p m1] H; cbn in *; try discriminate; auto.
  f_equal. apply IH. lia.
Qed.
Lemma seq_nth_error n i : (i < n)%nat -> nth_error (seq 0 n) i = Some i.
Proof. intros H. rewrite (nth_error_nth' _ O) by (rewrite seq_length; auto). rewrite seq_nth by auto. reflexivity. Qed.

Lemma picked_nth b labels i p : nth_error labels i = Some p ->
  nth_error (picked b labels) i = Some (if b i then snd p else fst p).
Proof.
  intros H. assert (i < length labels)%nat by (apply nth_error_Some; congruence).
  apply (chosen_nth _ _ i (b i)); auto. rewrite (map_nth_error b i (seq 0 (length labels)) (seq_nth_error _ _ H0)). reflexivity.
Qed.
Lemma picked_length b labels : length (picked b labels) = length labels.
Proof. apply chosen_length. rewrite map_length, seq_length. auto. Qed.
Lemma picked_ext b b' labels : (forall i, (i < length labels)%nat -> b i = b' i) -> picked b labels = picked b' labels.
Proof. intros H. unfold picked. f_equal. apply map_ext_in. intros i Hi. apply in_seq in Hi. apply H. lia. Qed.
Lemma picked_app b l1 l2 : picked b (l1 ++ l2) = picked b l1 ++ picked (fun i => b (length l1 + i)%nat) l2.
Proof.
  unfold picked. rewrite app_length, seq_app, map_app.
  etransitivity; [apply chosen_app; rewrite map_length, seq_length; auto|].
  f_equal. f_equal. rewrite Nat.add_0_l. clear. generalize (length l1) as k. intros k.
  rewrite <- (map_map (fun i => k + i)%nat b). f_equal.
  clear. revert k. induction (length l2) as [|n IH]; intros k; [reflexivity|].
  cbn [seq map]. f_equal; [lia|]. rewrite IH, <- seq_shift, map_map. rewrite IH. apply map_ext. lia.
Qed.

(** * Plain transfer *)
Lemma input_bit_spec a i : input_bit a i = bit a i.
Proof.
  unfold input_bit, bit, BN.BN_is_bit_set, BN_num_bits. rewrite mag_of_N.
  destruct (N.leb_spec (N.size a) (N.of_nat i)) as [H|H]; cbn [orb negb].
  - symmetry. apply size_testbit. auto.
  - apply negb_involutive.
Qed.
Lemma select_bit_spec a i : select_bit a i = bit a i.
Proof. unfold select_bit, bit, BN.BN_is_bit_set. rewrite mag_of_N. auto. Qed.

Lemma firstn_nth_snoc {A} (l : list A) i x : nth_error l i = Some x -> firstn (S i) l = firstn i l ++ [x].
Proof. revert i. induction l as [|y l IH]; intros [|i] H; cbn in *; try discriminate; [congruence|]. f_equal. auto. Qed.

Lemma labels_ok b labels n : n = length labels -> Forall pair128 labels ->
  runs (SendLabels b labels) (RecvLabels n) tt (picked b labels).
Proof.
  intros -> F. unfold SendLabels, RecvLabels.
  destruct (runs_pfor (fun i (_ : unit) => match nth_error labels i with None => Crash
      | Some p => send (le 16 (if b i then snd p else fst p)) end)
    (fun _ ls => let! x := recv 16 in Ret (ls ++ [of_le x]))
    (fun i _ ls => ls = firstn i (picked b labels)) (length labels) 0 tt []) as ([] & ls & R & E).
  - reflexivity.
  - intros j [] ls Hj ->.
    destruct (nth_error labels j) as [p|] eqn:Hp; [|apply nth_error_None in Hp; lia].
    pose proof (picked_nth b labels j p Hp) as Hq.
    exists tt, (firstn (S j) (picked b labels)). split; [|reflexivity].
    rewrite (firstn_nth_snoc _ _ _ Hq). eapply runs_map_B.
    + eapply runs_AB; [apply does_send1|]. apply does_recv1. rewrite le_length. reflexivity.
    + cbv beta. rewrite of_le_small; [reflexivity|].
      rewrite Forall_forall in F. destruct (F p (nth_error_In _ _ Hp)). destruct (b j); auto.
  - rewrite Nat.add_0_l in E. rewrite <- (picked_length b), firstn_all in E. subst ls. exact R.
Qed.

(** * Oblivious transfer *)
Record coins_ok (co : ot_coins) : Prop := {
  co_key : key_ok (oc_key co); co_size : key_sized (oc_key co); co_x : draws_sized (oc_x co);
  co_S : 0 <= oc_S co < 2 ^ 128; co_t : forall i, 0 <= oc_t co i < 2 ^ 128 }.

Section Transfer.
Variable sha : bytes -> bytes.
Hypothesis SHA : forall l, Forall is_byte (sha l).

Lemma ot_ok co labels sel : coins_ok co -> Z.of_nat (length labels) < 2 ^ 32 -> Forall pair128 labels ->
  length sel = length labels ->
  runs (GarbleOT sha co labels) (EvaluateOT sha co sel) (Some tt) (Some (chosen sel labels)).
Proof.
  intros [K1 K2 K3 K4 K5] L F E. unfold GarbleOT, EvaluateOT. rewrite E.
  assert (F' : Forall (fun p => is_block (fst p) /\ is_block (snd p)) labels) by exact F.
  destruct (128 <? length labels)%nat.
  - apply ext_correct; auto.
  - eapply runs_map_A; [apply ot_correct; auto|reflexivity].
Qed.

(** The evaluator's labels *)
Lemma transfer_e_ok dis co labels off e : (dis = false -> coins_ok co) -> Z.of_nat (length labels) < 2 ^ 32 ->
  Forall pair128 labels -> (dis = true -> bn_fits (Z.of_N e)) ->
  runs (GarbleTransferE sha dis co labels off) (EvaluateTransferE sha dis co e (length labels) off)
    (Some tt) (Some (picked (fun i => bit e (off + i)) labels)).
Proof.
  intros HC HL F HE. unfold GarbleTransferE, EvaluateTransferE. destruct dis.
  - specialize (HE eq_refl).
    eapply runs_bind; [apply runs_swap, send_recv_bn; auto|]. cbv beta.
    rewrite Z.abs_eq by lia. rewrite N2Z.id.
    eapply runs_bind; [apply (labels_ok (fun i => input_bit e (off + i))); auto|].
    rewrite (picked_ext _ (fun i => bit e (off + i))) by (intros; apply input_bit_spec). apply runs_ret.
  - destruct (Nat.eqb_spec (length labels) 0) as [Z|NZ].
    + destruct labels; [|discriminate]. apply runs_ret.
    + replace (picked (fun i => bit e (off + i)) labels)
        with (chosen (map (fun i => select_bit e (off + i)) (seq 0 (length labels))) labels).
      * apply ot_ok; auto. rewrite map_length, seq_length. auto.
      * unfold picked. f_equal. apply map_ext. intros. apply select_bit_spec.
Qed.

(** Which bit position [i] of the label array carries. *)
Definition both_bits (g e : N) (gn goff eoff i : nat) : bool :=
  if (i <? gn)%nat then bit g (goff + i) else bit e (eoff + (i - gn)).

Lemma transfer_ok dis co g e labels gn en goff eoff : (dis = false -> coins_ok co) -> Z.of_nat en < 2 ^ 32 ->
  Forall pair128 labels -> (dis = true -> bn_fits (Z.of_N e)) -> length labels = (gn + en)%nat ->
  runs (GarbleTransfer sha dis co g labels gn goff eoff) (EvaluateTransfer sha dis co e gn en eoff)
    (Some tt) (Some (picked (both_bits g e gn goff eoff) labels)).
Proof.
  intros HC HN F HE HL. unfold GarbleTransfer, EvaluateTransfer.
  assert (L1 : length (firstn gn labels) = gn) by (apply firstn_length_le; lia).
  assert (L2 : length (skipn gn labels) = en) by (rewrite skipn_length; lia).
  rewrite <- (firstn_skipn gn labels) in F. apply Forall_app in F as [F1 F2].
  eapply runs_bind; [apply (labels_ok (fun i => input_bit g (goff + i))); auto|]. cbv beta.
  unfold obindp. eapply runs_map_B.
  - rewrite <- L2 at 1. apply transfer_e_ok; auto. lia.
  - cbv beta iota. do 2 f_equal. rewrite <- (firstn_skipn gn labels) at 3. rewrite picked_app, L1. f_equal.
    + apply picked_ext. intros i Hi. rewrite L1 in Hi. unfold both_bits. destruct (Nat.ltb_spec i gn); [|lia].
      apply input_bit_spec.
    + apply picked_ext. intros i Hi. unfold both_bits. destruct (Nat.ltb_spec (gn + i) gn); [lia|].
      do 2 f_equal. lia.
Qed.

(** * All cycles at once *)
Lemma slice_length {A} (l : list A) from n : (from + n <= length l)%nat -> length (slice_of l from n) = n.
Proof. intros H. unfold slice_of. rewrite firstn_length_le; auto. rewrite skipn_length. lia. Qed.
Lemma slice_Forall {A} (P : A -> Prop) l from n : Forall P l -> Forall P (slice_of l from n).
Proof.
  intros H. unfold slice_of. rewrite <- (firstn_skipn from l) in H. apply Forall_app in H as [_ H].
  rewrite <- (firstn_skipn n (skipn from l)) in H. apply Forall_app in H as [H _]. exact H.
Qed.
Lemma slice_split {A} (l : list A) from n m : slice_of l from (n + m) = slice_of l from n ++ slice_of l (from + n) m.
Proof. unfold slice_of. rewrite firstn_add, skipn_skipn'. auto. Qed.
Lemma slice_nth {A} (l : list A) from n i : (i < n)%nat -> nth_error (slice_of l from n) i = nth_error l (from + i).
Proof.
  intros H. unfold slice_of. revert l. induction from as [|f IH]; intros l.
  - cbn [skipn Nat.add]. revert n l H. induction i as [|i IH]; intros [|n] [|x l] H; cbn; auto; try lia. apply IH. lia.
  - destruct l as [|x l]; [cbn; destruct n; destruct i; reflexivity|]. cbn [skipn Nat.add nth_error]. apply IH.
Qed.

Lemma loop_snoc_app {A} (f : nat -> A) k : forall i, map f (seq i (S k)) = map f (seq i k) ++ [f (i + k)%nat].
Proof. intros i. rewrite seq_S, map_app. reflexivity. Qed.

(** One list of labels per cycle. *)
Lemma label_lists_ok (b : nat -> nat -> bool) (ls : nat -> list BlockPair) n m :
  (forall cid, (cid < n)%nat -> length (ls cid) = m /\ Forall pair128 (ls cid)) ->
  runs (pfor (fun cid (_ : unit) => SendLabels (b cid) (ls cid)) 0 n tt)
       (pfor (fun _ r => let! l := RecvLabels m in Ret (r ++ [l])) 0 n [])
       tt (map (fun cid => picked (b cid) (ls cid)) (seq 0 n)).
Proof.
  intros H.
  destruct (runs_pfor (fun cid (_ : unit) => SendLabels (b cid) (ls cid))
    (fun _ r => let! l := RecvLabels m in Ret (r ++ [l]))
    (fun i _ r => r = map (fun cid => picked (b cid) (ls cid)) (seq 0 i)) n 0 tt []) as ([] & r & R & E).
  - reflexivity.
  - intros j [] r Hj ->. destruct (H j ltac:(lia)) as [HL HF]. exists tt. eexists. split; [|reflexivity].
    rewrite loop_snoc_app. eapply runs_map_B; [apply labels_ok; auto|]. reflexivity.
  - cbn [Nat.add] in E. subst r. exact R.
Qed.

Lemma flat_length {A} (f : nat -> list A) n m i : (forall c, (i <= c < i + n)%nat -> length (f c) = m) -> length (flat_map f (seq i n)) = (n * m)%nat.
Proof.
  revert i. induction n as [|n IH]; intros i H; [reflexivity|]. cbn [seq flat_map]. rewrite app_length, (IH (S i)).
  - rewrite (H i) by lia. reflexivity.
  - intros c Hc. apply H. lia.
Qed.
Lemma flat_slice {A} (f : nat -> list A) n m : forall i, (forall c, (i <= c < i + n)%nat -> length (f c) = m) ->
  forall k, (k < n)%nat -> slice_of (flat_map f (seq i n)) (k * m) m = f (i + k)%nat.
Proof.
  induction n as [|n IH]; intros i H k Hk; [lia|]. cbn [seq flat_map].
  assert (L : length (f i) = m) by (apply H; lia). destruct k as [|k].
  - unfold slice_of. cbn [Nat.mul skipn]. rewrite Nat.add_0_r. apply firstn_app_exact. auto.
  - unfold slice_of. cbn [Nat.mul]. rewrite <- skipn_skipn', skipn_app_exact by auto.
    replace (i + S k)%nat with (S i + k)%nat by lia. apply (IH (S i)); [|lia]. intros c Hc. apply H. lia.
Qed.
Lemma chosen_flat {A} (f : nat -> list bool) (g : nat -> list (A * A)) n : forall i,
  (forall c, (i <= c < i + n)%nat -> length (f c) = length (g c)) ->
  chosen (flat_map f (seq i n)) (flat_map g (seq i n)) = flat_map (fun c => chosen (f c) (g c)) (seq i n).
Proof.
  induction n as [|n IH]; intros i H; [reflexivity|]. cbn [seq flat_map]. rewrite chosen_app by (apply H; lia).
  f_equal. apply IH. intros c Hc. apply H. lia.
Qed.

Lemma combine_map_seq {A B} (f : nat -> A) (g : nat -> B) l :
  combine (map f l) (map g l) = map (fun i => (f i, g i)) l.
Proof. induction l; cbn; [auto|]. f_equal. auto. Qed.

Variable c : GarbledCircuit.
Variable opt : options.
Notation ssz := (get_secret_input_size c).

Lemma transfer_all_ok co g0 g1 e0 e1 init input :
  (disable_OT opt = false -> coins_ok co) ->
  Z.of_nat (e_init_size c + clock_cycles opt * e_input_size c) < 2 ^ 32 ->
  (disable_OT opt = true -> bn_fits (Z.of_N e0) /\ bn_fits (Z.of_N e1)) ->
  Forall pair128 init -> Forall pair128 input ->
  (get_secret_init_size c <= length init)%nat -> (clock_cycles opt * ssz <= length input)%nat ->
  runs (GarbleTransferLabels sha c opt co g0 g1 init input) (EvaluateTransferLabels sha c opt co e0 e1)
    (Some tt)
    (Some (picked (both_bits g0 e0 (g_init_size c) 0 0) (firstn (get_secret_init_size c) init),
           map (fun cid => picked (both_bits g1 e1 (g_input_size c) (cid * g_input_size c) (cid * e_input_size c))
                             (slice_of input (cid * ssz) ssz)) (seq 0 (clock_cycles opt)))).
Proof.
  intros HC HL HE F0 F1 L0 L1. unfold GarbleTransferLabels, EvaluateTransferLabels.
  set (n := clock_cycles opt) in *. set (gi := g_init_size c) in *. set (ei := e_init_size c) in *.
  set (gn := g_input_size c) in *. set (en := e_input_size c) in *.
  assert (ES : ssz = (gn + en)%nat) by reflexivity. assert (EI : get_secret_init_size c = (gi + ei)%nat) by reflexivity.
  assert (K : forall cid, (cid < n)%nat -> (cid * ssz + (gn + en) <= length input)%nat) by (intros; rewrite ES in *; nia).
  assert (LI : length (firstn gi init) = gi) by (apply firstn_length_le; lia).
  assert (FI : Forall pair128 (firstn gi init)) by (apply (slice_Forall _ _ O gi F0)).
  assert (LE : length (slice_of init gi ei) = ei) by (apply slice_length; lia).
  eapply runs_bind; [apply (labels_ok (input_bit g0)); auto|]. cbv beta.
  eapply runs_bind.
  { apply (label_lists_ok (fun cid i => input_bit g1 (cid * gn + i)) (fun cid => slice_of input (cid * ssz) gn) n gn).
    intros cid Hc. specialize (K cid Hc). split; [apply slice_length; lia|apply slice_Forall; auto]. }
  cbv beta.
  set (GI := picked (input_bit g0) (firstn gi init)).
  set (GL := fun cid => picked (fun i => input_bit g1 (cid * gn + i)) (slice_of input (cid * ssz) gn)).
  set (EI' := picked (bit e0) (slice_of init gi ei)).
  set (EL := fun cid => picked (fun i => bit e1 (cid * en + i)) (slice_of input (cid * ssz + gn) en)).
  assert (FIN : (GI ++ EI', map (fun p => fst p ++ snd p) (combine (map GL (seq 0 n)) (map EL (seq 0 n)))) =
    (picked (both_bits g0 e0 gi 0 0) (firstn (get_secret_init_size c) init),
     map (fun cid => picked (both_bits g1 e1 gn (cid * gn) (cid * en)) (slice_of input (cid * ssz) ssz)) (seq 0 n))).
  { f_equal.
    - rewrite EI. change (firstn (gi + ei) init) with (slice_of init 0 (gi + ei)). rewrite slice_split, picked_app.
      change (slice_of init 0 gi) with (firstn gi init). rewrite LI. f_equal.
      + apply picked_ext. intros i Hi. rewrite LI in Hi. unfold both_bits. destruct (Nat.ltb_spec i gi); [|lia]. apply input_bit_spec.
      + apply picked_ext. intros i Hi. unfold both_bits. destruct (Nat.ltb_spec (gi + i) gi); [lia|]. f_equal. lia.
    - rewrite combine_map_seq, map_map. apply map_ext_in. intros cid Hc. apply in_seq in Hc. specialize (K cid ltac:(lia)).
      cbn [fst snd]. change (slice_of input (cid * ssz) ssz) with (slice_of input (cid * ssz) (gn + en)). rewrite slice_split, picked_app. rewrite slice_length by lia. f_equal.
      + apply picked_ext. intros i Hi. rewrite slice_length in Hi by lia. unfold both_bits. destruct (Nat.ltb_spec i gn); [|lia]. apply input_bit_spec.
      + apply picked_ext. intros i Hi. unfold both_bits. destruct (Nat.ltb_spec (gn + i) gn); [lia|]. f_equal. lia. }
  rewrite <- FIN. clear FIN.
  unfold obindp. eapply runs_map_B with (b := Some (EI', map EL (seq 0 n))); [|reflexivity].
  destruct (disable_OT opt).
  - destruct (HE eq_refl) as [B0 B1].
    eapply runs_bind; [apply runs_swap, send_recv_bn; auto|]. cbv beta. rewrite Z.abs_eq, N2Z.id by lia.
    eapply runs_bind; [apply (labels_ok (fun i => input_bit e0 i)); [auto|apply slice_Forall; auto]|]. cbv beta.
    eapply runs_bind; [apply runs_swap, send_recv_bn; auto|]. cbv beta. rewrite Z.abs_eq, N2Z.id by lia.
    eapply runs_bind.
    { apply (label_lists_ok (fun cid i => input_bit e1 (cid * en + i)) (fun cid => slice_of input (cid * ssz + gn) en) n en).
      intros cid Hc. specialize (K cid Hc). split; [apply slice_length; lia|apply slice_Forall; auto]. }
    cbv beta.
    replace (picked (fun i => input_bit e0 i) (slice_of init gi ei)) with EI'
      by (apply picked_ext; intros; symmetry; apply input_bit_spec).
    replace (map (fun cid => picked (fun i => input_bit e1 (cid * en + i)) (slice_of input (cid * ssz + gn) en)) (seq 0 n)) with (map EL (seq 0 n)).
    { apply runs_ret. }
    apply map_ext. intros cid. apply picked_ext. intros. symmetry. apply input_bit_spec.
  - specialize (HC eq_refl).
    set (P := fun cid => slice_of input (cid * ssz + gn) en).
    set (Q := fun cid => map (fun i => select_bit e1 (cid * en + i)) (seq 0 en)).
    assert (LP : forall cid, (0 <= cid < 0 + n)%nat -> length (P cid) = en).
    { intros cid Hc. specialize (K cid ltac:(lia)). apply slice_length. lia. }
    assert (LQ : forall cid, length (Q cid) = en) by (intros; unfold Q; rewrite map_length, seq_length; auto).
    eapply runs_map_B.
    + apply ot_ok; auto.
      * rewrite app_length, LE, (flat_length P n en 0 LP). exact HL.
      * apply Forall_app. split; [apply slice_Forall; auto|]. apply Forall_flat_map. apply Forall_forall. intros cid _. apply slice_Forall; auto.
      * rewrite !app_length, map_length, seq_length, LE, (flat_length P n en 0 LP), (flat_length Q n en 0) by auto. reflexivity.
    + cbv beta iota. do 2 f_equal.
      assert (E0 : chosen (map (select_bit e0) (seq 0 ei)) (slice_of init gi ei) = EI').
      { unfold EI', picked. rewrite LE. f_equal. apply map_ext. intros; apply select_bit_spec. }
      assert (LEI : length EI' = ei) by (unfold EI'; rewrite picked_length; auto).
      assert (EC : forall cid, (cid < n)%nat -> chosen (Q cid) (P cid) = EL cid).
      { intros cid Hc. unfold EL, picked. fold (P cid). rewrite LP by lia. f_equal. apply map_ext. intros; apply select_bit_spec. }
      match goal with |- (firstn _ ?x, _) = _ => assert (EX : x = EI' ++ flat_map EL (seq 0 n)) end.
      { etransitivity; [apply (chosen_app (A := block)); rewrite map_length, seq_length; exact (eq_sym LE)|]. f_equal; [exact E0|].
        etransitivity; [apply (chosen_flat Q P n 0); intros; rewrite LQ, LP; auto|].
        rewrite !flat_map_concat_map. f_equal. apply map_ext_in. intros cid Hc. apply in_seq in Hc. apply EC. lia. }
      rewrite EX. f_equal.
      * rewrite firstn_app_exact by auto. reflexivity.
      * apply map_ext_in. intros cid Hc. apply in_seq in Hc.
        unfold slice_of at 1. rewrite <- skipn_skipn', skipn_app_exact by auto.
        change (slice_of (flat_map EL (seq 0 n)) (cid * en) en = EL cid).
        apply (flat_slice EL n en 0); [|lia]. intros k Hk. unfold EL. rewrite picked_length. apply LP. auto.
Qed.
End Transfer.
