(** k_nns_seq and k_nns_seq_td (definitions in RtlSelect.v): the k nearest neighbours. *)
From Coq Require Import ZArith List Bool Lia Permutation Sorted.
From Verif Require Import RtlBase RtlLib RtlArith RtlSeq RtlSelect.
Import ListNotations.
Open Scope Z_scope.

(** * The network as a function on lists *)
(** From the end of the list to the front, the new element and the old ones change places where
    needed: the element that leaves at the front, and the others. *)
Fixpoint pass (l : list (Z * Z)) (x : Z * Z) : (Z * Z) * list (Z * Z) :=
  match l with
  | [] => (x, [])
  | r :: l => let '(y, out) := pass l x in if fst y <=? fst r then (y, r :: out) else (r, y :: out)
  end.
Lemma pass_length l x : length (snd (pass l x)) = length l.
Proof. induction l as [|r l IH]; [reflexivity|]. cbn [pass]. destruct (pass l x) as [y out]. cbn [snd] in IH. destruct (fst y <=? fst r); cbn; lia. Qed.
Lemma pass_perm l x : Permutation (fst (pass l x) :: snd (pass l x)) (l ++ [x]).
Proof.
  induction l as [|r l IH]; [apply Permutation_refl|]. cbn [pass app]. destruct (pass l x) as [y out]. cbn [fst snd] in *. destruct (fst y <=? fst r); cbn [fst snd].
  - eapply Permutation_trans; [apply perm_swap|]. apply perm_skip, IH.
  - apply perm_skip, IH.
Qed.
Lemma pass_above l x b : Forall (fun y => b <= fst y) l -> Forall (fun y => b <= fst y) (snd (pass l x)).
Proof.
  induction l as [|r l IH]; intros H; [constructor|]. inversion H; subst. cbn [pass]. specialize (IH H3). destruct (pass l x) as [y out]. cbn [fst snd] in *. destruct (Z.leb_spec (fst y) (fst r)); cbn [snd]; constructor; auto. lia.
Qed.
Lemma pass_sorted l x : StronglySorted (fun a b => fst a <= fst b) l -> StronglySorted (fun a b => fst a <= fst b) (fst (pass l x) :: snd (pass l x)).
Proof.
  induction l as [|r l IH]; intros H; [repeat constructor|]. inversion H; subst. specialize (IH H2). pose proof (pass_above l x (fst r) H3) as A. cbn [pass]. destruct (pass l x) as [y out]. cbn [fst snd] in *. inversion IH; subst.
  destruct (Z.leb_spec (fst y) (fst r)) as [C|C]; cbn [fst snd].
  - constructor; [constructor; assumption|]. constructor; assumption.
  - constructor; [exact IH|]. constructor; [lia|exact A].
Qed.
(** elements that are at least as far as the new one are not moved past *)
Lemma pass_pads p n x : fst x <= fst p -> pass (repeat p n) x = (x, repeat p n).
Proof.
  intros H. induction n as [|n IH]; [reflexivity|]. cbn [repeat pass]. rewrite IH. destruct (Z.leb_spec (fst x) (fst p)); [reflexivity|lia].
Qed.
Lemma pass_app a l x : pass (a ++ l) x = (fst (pass a (fst (pass l x))), snd (pass a (fst (pass l x))) ++ snd (pass l x)).
Proof.
  induction a as [|r a IH]; [cbn; destruct (pass l x); reflexivity|]. cbn [app pass]. rewrite IH. destruct (pass a (fst (pass l x))) as [y out]. cbn [fst snd]. destruct (fst y <=? fst r); reflexivity.
Qed.
Lemma skipn_nth {A} (d : A) l i : (i < length l)%nat -> skipn i l = nth i l d :: skipn (S i) l.
Proof. revert i. induction l as [|a l IH]; intros i H; [cbn in H; lia|]. destruct i as [|i]; [reflexivity|]. cbn [skipn nth]. rewrite (IH i) by (cbn in H; lia). reflexivity. Qed.
Lemma pass_nth d l x i : (i < length l)%nat ->
  nth i (snd (pass l x)) d = (let y := fst (pass (skipn (S i) l) x) in if fst y <=? fst (nth i l d) then nth i l d else y).
Proof.
  revert i. induction l as [|r l IH]; intros i H; [cbn in H; lia|]. destruct i as [|i].
  - cbn [skipn nth pass]. destruct (pass l x) as [y out]. cbn [fst]. destruct (fst y <=? fst r); reflexivity.
  - cbn [skipn nth pass]. specialize (IH i ltac:(cbn in H; lia)). destruct (pass l x) as [y out]. cbn [snd] in IH. destruct (fst y <=? fst r); exact IH.
Qed.

(** * The circuit follows it *)
Definition holds (L W : nat) (d v : vec) (p : Z * Z) : Prop := val L d = fst p /\ val W v = snd p.
Definition regs (L W K : nat) (r : (nat -> vec) * (nat -> vec)) (l : list (Z * Z)) : Prop :=
  length l = K /\ forall i, (i < K)%nat -> holds L W (snd r i) (fst r i) (nth i l (0, 0)).
Lemma exchange L W da va db vb p q (c : bool) d v : holds L W da va p -> holds L W db vb q -> c = (fst q <=? fst p) ->
  MUX L da db c d -> MUX W va vb c v -> holds L W d v (if fst q <=? fst p then q else p).
Proof. intros [A1 A2] [B1 B2] -> M1 M2. apply MUX_val in M1. apply MUX_val in M2. split; [rewrite M1|rewrite M2]; destruct (fst q <=? fst p); assumption. Qed.
Lemma exchange' L W da va db vb p q (c : bool) d v : holds L W da va p -> holds L W db vb q -> c = (fst q <=? fst p) ->
  MUX L db da c d -> MUX W vb va c v -> holds L W d v (if fst q <=? fst p then p else q).
Proof. intros [A1 A2] [B1 B2] -> M1 M2. apply MUX_val in M1. apply MUX_val in M2. split; [rewrite M1|rewrite M2]; destruct (fst q <=? fst p); assumption. Qed.
Lemma k_step_ok L W K dist value r o r' l : k_step L W K dist value r o r' -> regs L W K r l ->
  let x := (val L dist, val W value) in let p := pass l x in
  regs L W K r' (firstn K (fst p :: snd p)) /\ forall i, (i < K)%nat -> val W (part (W * i) o) = snd (nth i (fst p :: snd p) (0, 0)).
Proof.
  destruct r as [vr dr]. intros (mv & md & lv & ld & g1 & g2 & OE & CP & MX & DK & VK & RE) [LL RG] x p. cbn [fst snd] in RG.
  assert (LO : forall j, (j <= K)%nat -> holds L W (ld (K - j)%nat) (lv (K - j)%nat) (fst (pass (skipn (K - j) l) x))).
  { induction j as [|j IH]; intros Hj.
    - rewrite Nat.sub_0_r, skipn_all2 by lia. cbn [pass fst]. split; [rewrite (val_ext _ _ _ DK)|rewrite (val_ext _ _ _ VK)]; reflexivity.
    - specialize (IH ltac:(lia)). set (i := (K - S j)%nat) in *. replace (K - j)%nat with (i + 1)%nat in IH by lia. assert (Hi : (i < K)%nat) by lia.
      destruct (CP i Hi) as [C1 _]. destruct (MX i Hi) as (M1 & _ & M3 & _). apply COMP_ok in C1; [|apply le_n]. rewrite (skipn_nth (0, 0)) by lia. cbn [pass]. rewrite Nat.add_1_r in *.
      pose proof (RG i Hi) as RI. destruct (pass (skipn (S i) l) x) as [y out] eqn:PE. cbn [fst] in IH. destruct RI as [RD RV] eqn:?. destruct IH as [ID IV] eqn:?.
      pose proof (exchange L W _ _ _ _ _ _ (g1 i) _ _ (RG i Hi) (conj ID IV) ltac:(rewrite C1, ID, RD; reflexivity) M1 M3) as E. destruct (fst y <=? fst (nth i l (0, 0))); exact E. }
  assert (LI : forall i, (i <= K)%nat -> holds L W (ld i) (lv i) (fst (pass (skipn i l) x))).
  { intros i Hi. specialize (LO (K - i)%nat ltac:(lia)). replace (K - (K - i))%nat with i in LO by lia. exact LO. }
  assert (NW : forall i, (i < K)%nat -> holds L W (md i) (mv i) (nth i (fst p :: snd p) (0, 0))).
  { intros i Hi. destruct (CP i Hi) as [_ C2]. destruct (MX i Hi) as (_ & M2 & _ & M4). destruct i as [|i].
    - cbn [Nat.ltb Nat.leb] in *. destruct (LI 0%nat ltac:(lia)) as [A B]. cbn [skipn] in A, B. fold p in A, B. cbn [nth]. split; [rewrite (val_ext _ _ _ M2)|rewrite (val_ext _ _ _ M4)]; assumption.
    - change (0 <? S i)%nat with true in *. cbv iota in *. replace (S i - 1)%nat with i in * by lia. apply COMP_ok in C2; [|apply le_n]. cbn [nth]. unfold p. rewrite (pass_nth (0, 0)) by lia. cbv zeta.
      destruct (LI (S i) ltac:(lia)) as [A B] eqn:?. destruct (RG i ltac:(lia)) as [RD RV] eqn:?.
      apply (exchange' L W _ _ _ _ _ _ (g2 (S i)) _ _ (RG i ltac:(lia)) (LI (S i) ltac:(lia))); [rewrite C2, A, RD; reflexivity|exact M2|exact M4]. }
  split.
  - pose proof (pass_length l x) as PLN; fold p in PLN. split; [rewrite firstn_length; cbn [length]; lia|]. intros i Hi. destruct (RE i Hi) as [EV ED]. destruct (NW i Hi) as [A B].
    assert (NF : nth i (firstn K (fst p :: snd p)) (0, 0) = nth i (fst p :: snd p) (0, 0)).
    { rewrite <- (firstn_skipn K (fst p :: snd p)) at 2. rewrite app_nth1; [reflexivity|]. rewrite firstn_length. cbn [length]. lia. }
    rewrite NF. split; [rewrite (val_ext _ _ _ ED)|rewrite (val_ext _ _ _ EV)]; assumption.
  - intros i Hi. rewrite (val_ext _ _ _ (OE i Hi)). apply NW, Hi.
Qed.

(** * Nearest neighbours *)
Lemma nearest_pass K l a x top : (0 < K)%nat -> nearest K l a -> (forall y, In y l -> fst y <= fst top) -> fst x <= fst top ->
  let p := pass (a ++ repeat top (K - length a)) x in
  exists a', nearest K (l ++ [x]) a' /\ firstn K (fst p :: snd p) = a' ++ repeat top (K - length a').
Proof.
  intros HK (LA & SA & rest & PM & LE) TL TX p. unfold p. rewrite pass_app, (pass_pads top _ x TX). cbn [fst snd]. set (q := pass a x).
  pose proof (pass_length a x) as PL. fold q in PL. pose proof (pass_perm a x) as PP. fold q in PP. pose proof (pass_sorted a x SA) as PS. fold q in PS.
  set (f := fst q :: snd q) in *. assert (LF : length f = S (length a)) by (unfold f; cbn [length]; lia).
  assert (LPM : length (a ++ rest) = length l) by (apply Permutation_length, PM). rewrite app_length in LPM.
  change (fst q :: snd q ++ repeat top (K - length a)) with (f ++ repeat top (K - length a)).
  assert (SP : forall n, StronglySorted (fun u v : Z * Z => fst u <= fst v) (firstn n f) /\ forall u v, In u (firstn n f) -> In v (skipn n f) -> fst u <= fst v).
  { intros n. assert (G : forall g, StronglySorted (fun u v : Z * Z => fst u <= fst v) g -> forall n, StronglySorted (fun u v : Z * Z => fst u <= fst v) (firstn n g) /\ forall u v, In u (firstn n g) -> In v (skipn n g) -> fst u <= fst v).
    { induction g as [|h g IHg]; intros SG m; [rewrite firstn_nil, skipn_nil; split; [constructor|intros u v []]|]. inversion SG as [|? ? SG' FG]; subst. destruct m as [|m]; [split; [constructor|intros u v []]|].
      destruct (IHg SG' m) as [I1 I2]. cbn [firstn skipn]. rewrite Forall_forall in FG. split.
      - constructor; [exact I1|]. apply Forall_forall. intros v Hv. apply FG. rewrite <- (firstn_skipn m g). apply in_or_app. left. exact Hv.
      - intros u v [<-|Hu] Hv; [apply FG; rewrite <- (firstn_skipn m g); apply in_or_app; right; exact Hv|apply I2; assumption]. }
    apply G, PS. }
  exists (firstn K f). split.
  - destruct (SP K) as [S1 S2]. split; [|split; [exact S1|]].
    + rewrite firstn_length, LF, app_length. cbn [length]. lia.
    + exists (skipn K f ++ rest). split.
      * rewrite app_assoc, firstn_skipn. unfold f. eapply Permutation_trans; [apply Permutation_app_tail, PP|]. rewrite <- app_assoc. eapply Permutation_trans; [apply Permutation_app_head, Permutation_app_comm|]. rewrite app_assoc. apply Permutation_app_tail, PM.
      * intros u v Hu Hv. apply in_app_or in Hv. destruct Hv as [Hv|Hv]; [apply S2; assumption|].
        (* rest is not empty, so a has K elements *)
        assert (NR : (0 < length rest)%nat) by (destruct rest; [destruct Hv|cbn; lia]). assert (LK : length a = K) by lia.
        destruct (Z.le_gt_cases (fst u) (fst v)) as [|C]; [assumption|exfalso].
        (* u is one of the first K of f, so one of a is not before u *)
        assert (IU : exists w, In w a /\ fst u <= fst w).
        { assert (FL : exists z, skipn K f = [z]). { assert (L1 : length (skipn K f) = 1%nat) by (rewrite skipn_length; lia). destruct (skipn K f) as [|z [|? ?]]; try discriminate L1. eauto. }
          destruct FL as (z & FZ). assert (UZ : fst u <= fst z) by (apply S2; [exact Hu|rewrite FZ; left; reflexivity]).
          assert (UF : In u (a ++ [x])). { apply (Permutation_in u PP). unfold f. change (In u f). rewrite <- (firstn_skipn K f). apply in_or_app. left. exact Hu. }
          apply in_app_or in UF. destruct UF as [UA|[UX|[]]]; [exists u; split; [exact UA|lia]|]. 
          assert (ZF : In z (a ++ [x])). { apply (Permutation_in z PP). change (In z f). rewrite <- (firstn_skipn K f), FZ. apply in_or_app. right. left. reflexivity. }
          apply in_app_or in ZF. destruct ZF as [ZA|[ZX|[]]]; [exists z; auto|].
          (* both are x: then all of a are at least x, or x occurs in a *)
          assert (PA : Permutation (firstn K f) a).
          { apply (Permutation_app_inv_r [x]). rewrite <- ZX in FZ. assert (E : firstn K f ++ [x] = f) by (rewrite <- FZ; apply firstn_skipn). rewrite E. exact PP. }
          exists u. split; [apply (Permutation_in u PA), Hu|lia]. }
        destruct IU as (w & WA & UW). specialize (LE w v WA Hv). lia.
  - rewrite firstn_app, LF. f_equal. assert (LR : length (firstn K f) = Nat.min K (S (length a))) by (rewrite firstn_length, LF; reflexivity). rewrite LR.
    assert (FR : forall n m, (n <= m)%nat -> firstn n (repeat top m) = repeat top n).
    { induction n as [|n IHn]; intros m Hm; [reflexivity|]. destruct m as [|m]; [lia|]. cbn [repeat firstn]. rewrite IHn by lia. reflexivity. }
    rewrite FR by lia. f_equal. lia.
Qed.
Theorem k_ok {I} L W K (step : I -> (nat -> vec) * (nat -> vec) -> vec -> (nat -> vec) * (nat -> vec) -> Prop) (D V : I -> Z) n i o : (0 < K)%nat ->
  (forall a r o r', step a r o r' -> exists dist value, val L dist = D a /\ val W value = V a /\ k_step L W K dist value r o r') ->
  clocked (k_init L W K) step n i o -> forall t, (t < n)%nat ->
  exists a, nearest K (map (fun u => (D (i u), V (i u))) (seq 0 (t + 1))) a /\
    forall j, (j < K)%nat -> val W (part (W * j) (o t)) = snd (nth j a (2 ^ Z.of_nat L - 1, 0)).
Proof.
  intros HK KS (s & S0 & ST). set (top := (2 ^ Z.of_nat L - 1, 0)). set (xs := fun t => map (fun u => (D (i u), V (i u))) (seq 0 t)).
  assert (XS : forall t, xs (S t) = xs t ++ [(D (i t), V (i t))]). { intros t. unfold xs. rewrite seq_S, map_app. reflexivity. }
  assert (STEP : forall t l, (t < n)%nat -> regs L W K (s t) l -> D (i t) <= fst top /\ let p := pass l (D (i t), V (i t)) in
     regs L W K (s (S t)) (firstn K (fst p :: snd p)) /\ forall j, (j < K)%nat -> val W (part (W * j) (o t)) = snd (nth j (fst p :: snd p) (0, 0))).
  { intros t l Ht RL. destruct (KS _ _ _ _ (ST t Ht)) as (dist & value & DE & VE & K1). pose proof (k_step_ok _ _ _ _ _ _ _ _ _ K1 RL) as E. rewrite DE, VE in E. split; [|exact E]. rewrite <- DE. cbn [fst top]. pose proof (val_bound L dist). unfold top. cbn [fst]. lia. }
  assert (BD : forall t, (t <= n)%nat -> (exists a, nearest K (xs t) a /\ regs L W K (s t) (a ++ repeat top (K - length a))) /\ forall y, In y (xs t) -> fst y <= fst top).
  { induction t as [|t IH]; intros Ht.
    - split; [|intros y []]. exists []. split; [split; [cbn; lia|]; split; [constructor|]; exists []; split; [apply Permutation_refl|intros ? ? []]|].
      cbn [app length]. rewrite Nat.sub_0_r. split; [apply repeat_length|]. intros j Hj. destruct (S0 j Hj) as [A B]. rewrite (nth_indep _ _ top) by (rewrite repeat_length; exact Hj). rewrite nth_repeat. split; [rewrite (val_ext _ _ _ B); apply val_rep_true|rewrite (val_ext _ _ _ A); apply val_rep_false].
    - destruct (IH ltac:(lia)) as ((a & NA & RA) & TL). destruct (STEP t _ ltac:(lia) RA) as (TX & R' & _). destruct (nearest_pass K (xs t) a (D (i t), V (i t)) top HK NA TL TX) as (a' & NA' & FE). split.
      + exists a'. rewrite XS. split; [exact NA'|]. rewrite <- FE. exact R'.
      + intros y Hy. rewrite XS in Hy. apply in_app_or in Hy. destruct Hy as [Hy|[<-|[]]]; [apply TL, Hy|exact TX]. }
  intros t Ht. destruct (BD t ltac:(lia)) as ((a & NA & RA) & TL). destruct (STEP t _ Ht RA) as (TX & [RL R'] & OE). destruct (nearest_pass K (xs t) a (D (i t), V (i t)) top HK NA TL TX) as (a' & NA' & FE).
  rewrite Nat.add_1_r. exists a'. split; [fold (xs (S t)); rewrite XS; exact NA'|]. intros j Hj. rewrite OE by exact Hj. set (f := fst _ :: snd _) in *.
  assert (NF : nth j f (0, 0) = nth j (firstn K f) (0, 0)). { rewrite <- (firstn_skipn K f) at 1. apply app_nth1. lia. }
  rewrite NF, FE. destruct (Nat.lt_ge_cases j (length a')) as [C|C].
  - rewrite app_nth1 by exact C. rewrite (nth_indep a' _ top) by exact C. reflexivity.
  - rewrite app_nth2 by exact C. rewrite (nth_overflow a') by exact C. rewrite FE, app_length, repeat_length in RL. rewrite (nth_indep _ _ top) by (rewrite repeat_length; lia). rewrite nth_repeat. reflexivity.
Qed.
(** Hamming distance *)
Theorem k_nns_ok W K n g e o : (0 < K)%nat -> Z.of_nat W < 2 ^ 32 -> k_nns_seq W K n (fun t => (g t, e t)) o -> forall t, (t < n)%nat ->
  exists a, nearest K (map (fun u => (hdist W (g u) (e u), val W (e u))) (seq 0 (t + 1))) a /\
    forall j, (j < K)%nat -> val W (part (W * j) (o t)) = nth j (map snd a) 0.
Proof.
  intros HK BW H t Ht. unfold k_nns_seq in H. destruct (k_ok (log2 W) W K (fun (i : vec * vec) r o r' => exists dist, COUNT W (vxor (fst i) (snd i)) dist /\ k_step (log2 W) W K dist (snd i) r o r') (fun a => hdist W (fst a) (snd a)) (fun a => val W (snd a)) n (fun t => (g t, e t)) o HK) with (2 := H) (t := t) as (a & NA & OE); [|exact Ht|].
  - intros a r o' r' (dist & CT & KS). exists dist, (snd a). split; [apply COUNT_ok; assumption|]. split; [reflexivity|exact KS].
  - exists a. split; [exact NA|]. intros j Hj. rewrite OE by exact Hj. rewrite <- (map_nth snd). reflexivity.
Qed.
(** Points in the plane *)
Theorem k_nns_td_ok W K n g e o : (0 < K)%nat -> k_nns_seq_td W K n (fun t => (g t, e t)) o -> forall t, (t < n)%nat ->
  exists a, nearest K (map (fun u => (tdist W (e u) (g u), val (2 * W) (g u))) (seq 0 (t + 1))) a /\
    forall j, (j < K)%nat -> val (2 * W) (part (2 * W * j) (o t)) = nth j (map snd a) 0.
Proof.
  intros HK H t Ht. unfold k_nns_seq_td in H. destruct (k_ok (W + 2) (2 * W) K (fun (i : vec * vec) r o r' => exists dist, taxicab_distance W (part W (snd i)) (snd i) (part W (fst i)) (fst i) dist /\ k_step (W + 2) (2 * W) K dist (fst i) r o r') (fun a => tdist W (snd a) (fst a)) (fun a => val (2 * W) (fst a)) n (fun t => (g t, e t)) o HK) with (2 := H) (t := t) as (a & NA & OE); [|exact Ht|].
  - intros a r o' r' (dist & CT & KS). exists dist, (fst a). split; [apply taxicab_ok in CT; exact CT|]. split; [reflexivity|exact KS].
  - exists a. split; [exact NA|]. intros j Hj. rewrite OE by exact Hj. rewrite <- (map_nth snd). reflexivity.
Qed.

(** * Consistency *)
Lemma k_step_total L W K dist value r : (0 < W)%nat -> exists o r', k_step L W K dist value r o r'.
Proof.
  intros HW. destruct r as [vr dr].
  destruct (iterate (dist, value, false) (fun j (x y : vec * vec * bool) => let i := (K - 1 - j)%nat in COMP L L (dr i) (fst (fst x)) (snd y) /\ MUX L (dr i) (fst (fst x)) (snd y) (fst (fst y)) /\ MUX W (vr i) (snd (fst x)) (snd y) (snd (fst y)))) with (n := K) as (w & W0 & WS).
  { intros k [[d v] c0]. cbn [fst snd]. destruct (COMP_total L L (dr (K - 1 - k)%nat) d) as (c & CP). destruct (MUX_total L (dr (K - 1 - k)%nat) d c) as (d' & M1). destruct (MUX_total W (vr (K - 1 - k)%nat) v c) as (v' & M2). exists (d', v', c). auto. }
  set (ld := fun i => fst (fst (w (K - i)%nat))). set (lv := fun i => snd (fst (w (K - i)%nat))).
  destruct (family (fun i p => if (0 <? i)%nat then COMP L L (dr (i - 1)%nat) (ld i) (snd p) /\ MUX L (ld i) (dr (i - 1)%nat) (snd p) (fst (fst p)) /\ MUX W (lv i) (vr (i - 1)%nat) (snd p) (snd (fst p)) else p = (ld i, lv i, false)) K (fun i => i) (rep false, rep false, false)) as (m & M).
  { intros i. destruct (0 <? i)%nat; [|eauto]. destruct (COMP_total L L (dr (i - 1)%nat) (ld i)) as (c & CP). destruct (MUX_total L (ld i) (dr (i - 1)%nat) c) as (d' & M1). destruct (MUX_total W (lv i) (vr (i - 1)%nat) c) as (v' & M2). exists (d', v', c). auto. }
  exists (fun p => snd (fst (m (p / W)%nat)) (p mod W)%nat), (fun i => snd (fst (m i)), fun i => fst (fst (m i))).
  exists (fun i => snd (fst (m i))), (fun i => fst (fst (m i))), lv, ld, (fun i => snd (w (K - i)%nat)), (fun i => snd (m i)).
  assert (WI : forall i, (i < K)%nat -> COMP L L (dr i) (ld (i + 1)%nat) (snd (w (K - i)%nat)) /\ MUX L (dr i) (ld (i + 1)%nat) (snd (w (K - i)%nat)) (ld i) /\ MUX W (vr i) (lv (i + 1)%nat) (snd (w (K - i)%nat)) (lv i)).
  { intros i Hi. specialize (WS (K - 1 - i)%nat ltac:(lia)). cbv zeta in WS. replace (K - 1 - (K - 1 - i))%nat with i in WS by lia. replace (S (K - 1 - i)) with (K - i)%nat in WS by lia. unfold ld, lv. replace (K - (i + 1))%nat with (K - 1 - i)%nat by lia. exact WS. }
  split.
  { intros i _ b Hb. unfold part. assert (W <> 0)%nat by lia. replace (W * i + b)%nat with (b + i * W)%nat by lia. rewrite Nat.div_add, Nat.mod_add, Nat.div_small, Nat.mod_small by lia. reflexivity. }
  split. { intros i Hi. split; [apply WI, Hi|]. specialize (M i Hi). cbn beta in M. destruct (0 <? i)%nat; [apply M|rewrite M; reflexivity]. }
  split. { intros i Hi. destruct (WI i Hi) as (_ & A & B). specialize (M i Hi). cbn beta in M. split; [exact A|]. destruct (0 <? i)%nat; [split; [apply M|]; split; [exact B|apply M]|]. rewrite M. cbn [fst snd]. split; [intros b _; reflexivity|]. split; [exact B|intros b _; reflexivity]. }
  unfold ld, lv. rewrite Nat.sub_diag, W0. cbn [fst snd]. split; [intros b _; reflexivity|]. split; [intros b _; reflexivity|]. intros j _. split; intros b _; reflexivity.
Qed.
Theorem k_nns_total W K n i : (0 < W)%nat -> Z.of_nat W < 2 ^ 32 -> exists o, k_nns_seq W K n i o.
Proof.
  intros HW BW. apply clocked_total; [exists (fun _ => rep false, fun _ => rep true); intros j _; split; intros b _; reflexivity|]. intros a r. destruct (COUNT_total W (vxor (fst a) (snd a)) HW BW) as (dist & C). destruct (k_step_total (log2 W) W K dist (snd a) r HW) as (o & r' & S). exists o, r', dist. auto.
Qed.
Theorem k_nns_td_total W K n i : (0 < W)%nat -> exists o, k_nns_seq_td W K n i o.
Proof.
  intros HW. apply clocked_total; [exists (fun _ => rep false, fun _ => rep true); intros j _; split; intros b _; reflexivity|]. intros a r. destruct (taxicab_total W (part W (snd a)) (snd a) (part W (fst a)) (fst a)) as (dist & C). destruct (k_step_total (W + 2) (2 * W) K dist (fst a) r ltac:(lia)) as (o & r' & S). exists o, r', dist. auto.
Qed.
