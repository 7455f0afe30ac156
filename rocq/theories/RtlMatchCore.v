(** The other circuit for stable matching, written in Verilog (circuit_synthesis/stable_match). *)
From Coq Require Import ZArith Arith List Bool Lia.
From Verif Require Import RtlBase RtlLib RtlArith RtlSeq RtlSelect RtlMatch RtlMatchOk RtlMatchRun.
Import ListNotations.
Open Scope nat_scope.
Local Opaque val.

(** * Model

    stable_match, stable_match/stable_match.v:3-236, with stable_match_core (238-423), MPrefMatrix
    (426-470), WPref_rev_Matrix (473-521), PC (523-576), MIsMatch (578-642), WIsMatch (644-697) and
    MatchListMatrix (699-762).  Registers and wires that hold a number are represented by it; a
    read with the index out of range gives anything. *)
Record mw := Mw { state : nat; mIndex : nat; wIndex : nat; m_ : nat; w_ : nat; pcs : nat -> nat; mIsMatch : nat -> bool; wIsMatch : nat -> bool; matches : nat -> nat }.
Definition match_step (Kw Km M W : nat) (i : vec * vec) (q : mw) (o : vec) (q' : mw) : Prop :=
  let '(g_input, e_input) := i in let logM := clog2 M in let logW := clog2 W in let logKm := clog2 Km in let logKw := clog2 Kw in
  let wPref_rev := vxor g_input e_input in let mPref := part (M * logKw) (vxor g_input e_input) in
  exists (pc_mIndex rdata m_assigned rdata1 rdata2 : nat) (mIsMatch_rdata wIsMatch_rdata : bool),
    let raddr := Z.to_nat ((Z.of_nat Km - Z.of_nat pc_mIndex) mod 2 ^ Z.of_nat logKm) in
    let better := rdata1 <? rdata2 in let can_propose := negb (pc_mIndex =? 0) && negb mIsMatch_rdata in
    let do_proposal := state q =? 4 in let wen := do_proposal && (negb wIsMatch_rdata || better) in let wen2 := do_proposal && (wIsMatch_rdata && better) in
    (mIndex q < M -> pc_mIndex = pcs q (mIndex q)) /\ (mIndex q < M -> mIsMatch_rdata = mIsMatch q (mIndex q)) /\
    (raddr < Km -> rdata = Z.to_nat (val logW (part (logW * raddr) mPref))) /\
    (w_ q < W -> wIsMatch_rdata = wIsMatch q (w_ q)) /\ (w_ q < W -> m_assigned = matches q (w_ q)) /\
    (m_ q < Kw -> rdata1 = Z.to_nat (val logM (part (logM * m_ q) wPref_rev) mod 2 ^ Z.of_nat logKw)) /\
    (m_assigned < Kw -> rdata2 = Z.to_nat (val logM (part (logM * m_assigned) wPref_rev) mod 2 ^ Z.of_nat logKw)) /\
    (* wIndex + 1 has the 32 bits of its second operand *)
    state q' = match state q with 0 => if can_propose then 3 else 0 | 3 => if wIndex q + 1 =? w_ q then 4 else 3 | _ => 0 end /\
    mIndex q' = (mIndex q + 1) mod 2 ^ logM /\ wIndex q' = (wIndex q + 1) mod 2 ^ logW /\
    m_ q' = (if state q =? 0 then mIndex q else m_ q) /\ w_ q' = (if state q =? 0 then rdata else w_ q) /\
    (forall k, k < M -> pcs q' k = if (state q =? 0) && can_propose && (k =? mIndex q) then pc_mIndex - 1 else pcs q k) /\
    (forall k, k < M -> mIsMatch q' k = if wen then (if k =? m_ q then true else mIsMatch q k) else if wen2 && (k =? m_assigned) then false else mIsMatch q k) /\
    (* written only where it is set already *)
    (forall k, k < W -> wIsMatch q' k = if do_proposal && wIsMatch_rdata && (k =? w_ q) then true else wIsMatch q k) /\
    (forall k, k < W -> matches q' k = if wen && (k =? w_ q) then m_ q mod 2 ^ logM else matches q k) /\
    (forall k, k < W -> veq logM (part (logM * k) o) (of_val (Z.of_nat (matches q k)))).
Definition match_init (Km M W : nat) (q : mw) : Prop :=
  state q = 0 /\ mIndex q = 0 /\ wIndex q = 0 /\ m_ q = 0 /\ w_ q = 0 /\ (forall k, k < M -> pcs q k = Km) /\ (forall k, k < M -> mIsMatch q k = false) /\ (forall k, k < W -> wIsMatch q k = false) /\
  (forall k, k < M -> matches q k = Km mod 2 ^ clog2 M).
Definition stable_match (Kw Km M W : nat) := clocked (match_init Km M W) (match_step Kw Km M W).

(** * What it computes: with 2^l men and as many women, only the woman first in the list of
    preferences, which is the same for all men, ever gets a partner. *)
Section Core.
  Variables (l : nat) (g e : vec).
  Hypothesis L1 : 1 <= l.
  Hypothesis L32 : l <= 31.
  Let n := 2 ^ l.
  Let first := Z.to_nat (val l (part (n * l) (vxor g e))).
  Lemma n_big : 2 <= n /\ (Z.of_nat n < 2 ^ 32)%Z.
  Proof.
    unfold n. split. { change 2 with (2 ^ 1) at 1. apply Nat.pow_le_mono_r; lia. }
    rewrite pow2_nat. apply Z.pow_lt_mono_r; lia.
  Qed.
  Lemma n_log : clog2 n = l.
  Proof.
    destruct n_big as (B1 & B2). unfold clog2. apply log2_unique; [lia|lia|]. unfold n in *. split; [|lia]. replace l with (S (l - 1)) at 2 by lia. cbn [Nat.pow]. pose proof (Nat.pow_nonzero 2 (l - 1) ltac:(lia)). lia.
  Qed.
  Lemma first_lt : first < n.
  Proof. unfold first, n. pose proof (val_bound l (part (2 ^ l * l) (vxor g e))). rewrite <- pow2_nat in H. unfold n. lia. Qed.
  Record minv (q : mw) : Prop := {
    v_state : state q = 0 \/ ((state q = 3 \/ state q = 4) /\ w_ q = first);
    v_m : mIndex q < n; v_m2 : m_ q < n;
    v_pc : forall k, k < n -> pcs q k = n \/ mIsMatch q k = true \/ (state q <> 0 /\ m_ q = k);
    v_w : forall k, k < n -> wIsMatch q k = false;
    v_match : forall k, k < n -> k <> first -> matches q k = 0;
    v_zero : first = 0 -> state q <> 4 /\ matches q first = 0 }.
  Lemma match_inv q o q' : minv q -> match_step n n n n (g, e) q o q' -> minv q'.
  Proof.
    intros [I1 I2 I2' I3 I4 I5 I6] (pcm & rd & ma & r1 & r2 & mr & wr & R1 & R2 & R3 & R4 & R5 & _ & _ & SN & MN & WN & M' & W' & P' & MM & WM & ML & _). rewrite n_log in *. specialize (R1 I2). specialize (R2 I2).
    assert (WR : state q <> 0 -> wr = false) by (intros NZ; destruct I1 as [I1|(_ & I1)]; [contradiction|]; rewrite R4; [apply I4|]; rewrite I1; apply first_lt).
    assert (MI : mIndex q' < n) by (rewrite MN; apply Nat.mod_upper_bound, Nat.pow_nonzero; lia).
    destruct I1 as [S0|([S3|S4] & WF)].
    - (* a man is selected *)
      rewrite S0 in *. cbn [Nat.eqb andb] in *. destruct (negb (pcm =? 0) && negb mr) eqn:CP.
      + apply andb_prop in CP. destruct CP as (C1 & C2). apply negb_true_iff in C1, C2. assert (PN : pcm = n). { destruct (I3 (mIndex q) I2) as [E|[E|(E & _)]]; [congruence|congruence|congruence]. }
        assert (RF : rd = first).
        { rewrite R3; rewrite PN, Z.sub_diag, Z.mod_0_l by (pose proof (pow2_pos l); lia); [|destruct n_big; change (Z.to_nat 0) with 0; lia]. change (Z.to_nat 0) with 0. rewrite Nat.mul_0_r. unfold first. reflexivity. }
        split; [right; split; [left; exact SN|rewrite W'; exact RF]|exact MI|rewrite M'; exact I2| | | |].
        * intros k Hk. rewrite P' by exact Hk. rewrite M', MM by exact Hk. destruct (Nat.eqb_spec k (mIndex q)) as [->|D]; [right; right; split; [lia|reflexivity]|]. destruct (I3 k Hk) as [E|[E|(E & _)]]; [left; exact E|right; left; exact E|congruence].
        * intros k Hk. rewrite WM by exact Hk. apply I4, Hk.
        * intros k Hk NF. rewrite ML by exact Hk. apply I5; assumption.
        * intros F0. split; [lia|]. rewrite ML by apply first_lt. apply I6, F0.
      + split; [left; exact SN|exact MI|rewrite M'; exact I2| | | |].
        * intros k Hk. rewrite P', MM by exact Hk. destruct (I3 k Hk) as [E|[E|(E & _)]]; [left; exact E|right; left; exact E|congruence].
        * intros k Hk. rewrite WM by exact Hk. apply I4, Hk.
        * intros k Hk NF. rewrite ML by exact Hk. apply I5; assumption.
        * intros F0. split; [lia|]. rewrite ML by apply first_lt. apply I6, F0.
    - (* waiting *)
      rewrite S3 in *. cbn [Nat.eqb andb] in *. split.
      + right. split; [|rewrite W'; exact WF]. rewrite SN. destruct (_ =? _); auto.
      + exact MI.
      + rewrite M'. exact I2'.
      + intros k Hk. rewrite P', MM, M' by exact Hk. destruct (I3 k Hk) as [E|[E|(_ & E)]]; [left; exact E|right; left; exact E|]. right. right. split; [|exact E]. rewrite SN. destruct (_ =? _); discriminate.
      + intros k Hk. rewrite WM by exact Hk. apply I4, Hk.
      + intros k Hk NF. rewrite ML by exact Hk. apply I5; assumption.
      + intros F0. rewrite SN, WF, F0. split; [|rewrite ML by (rewrite <- F0 at 1; apply first_lt); rewrite <- F0 at 1; apply I6, F0]. destruct (Nat.eqb_spec (wIndex q + 1) 0); lia.
    - (* a proposal *)
      rewrite S4 in *. rewrite (WR ltac:(lia)) in *. cbn [Nat.eqb andb negb orb] in *. split; [left; exact SN|exact MI|rewrite M'; exact I2'| | | |].
      + intros k Hk. rewrite P', MM by exact Hk. destruct (Nat.eqb_spec k (m_ q)) as [->|D]; [right; left; reflexivity|]. destruct (I3 k Hk) as [E|[E|(_ & E)]]; [left; exact E|right; left; exact E|congruence].
      + intros k Hk. rewrite WM by exact Hk. apply I4, Hk.
      + intros k Hk NF. rewrite ML by exact Hk. destruct (Nat.eqb_spec k (w_ q)) as [->|D]; [congruence|]. apply I5; assumption.
      + intros F0. destruct (I6 F0). congruence.
  Qed.
  Lemma match_start q : match_init n n n q -> minv q.
  Proof.
    intros (A1 & A2 & A3 & A4 & A5 & A6 & A7 & A8 & A9). rewrite n_log in A9. assert (Z0 : n mod 2 ^ l = 0) by (apply Nat.mod_same, Nat.pow_nonzero; lia). destruct n_big as (B & _). split; [left; exact A1|lia|lia| | | |].
    - intros k Hk. left. apply A6, Hk.
    - exact A8.
    - intros k Hk _. rewrite A9, Z0 by exact Hk. reflexivity.
    - intros _. split; [lia|]. rewrite A9, Z0 by apply first_lt. reflexivity.
  Qed.
  Theorem core_shows c i o t : stable_match n n n n c i o -> (forall u, u < c -> i u = (g, e)) -> t < c ->
    forall k, k < n -> k <> first \/ first = 0 -> shown n (o t) k = 0.
  Proof.
    intros (q & I & ST) HI Ht k Hk HK. assert (IV : forall u, u <= c -> minv (q u)).
    { induction u as [|u IH]; intros Hu; [apply match_start, I|]. apply (match_inv (q u) (o u)); [apply IH; lia|]. rewrite <- (HI u ltac:(lia)). apply ST. lia. }
    specialize (ST t Ht). rewrite (HI t Ht) in ST. destruct ST as (pcm & rd & ma & r1 & r2 & mr & wr & _ & _ & _ & _ & _ & _ & _ & _ & _ & _ & _ & _ & _ & _ & _ & _ & OU). unfold shown. rewrite (val_ext _ _ _ (OU k Hk)).
    specialize (IV t ltac:(lia)). assert (E : matches (q t) k = 0). { destruct (Nat.eq_dec k first) as [->|D]; [|apply (v_match _ IV k Hk D)]. destruct HK as [HK|HK]; [contradiction|]. apply (v_zero _ IV HK). }
    rewrite E, val_of_val. reflexivity.
  Qed.
End Core.
(** Only the entry of the woman whom the list names first can ever change, and if she is number 0 none does. *)
Theorem core_shown l g e c i o t k : 1 <= l <= 31 -> stable_match (2 ^ l) (2 ^ l) (2 ^ l) (2 ^ l) c i o -> (forall u, u < c -> i u = (g, e)) -> t < c -> k < 2 ^ l ->
  k <> Z.to_nat (val l (part (2 ^ l * l) (vxor g e))) \/ Z.to_nat (val l (part (2 ^ l * l) (vxor g e))) = 0 -> shown (2 ^ l) (o t) k = 0.
Proof. intros (L1 & L2) C HI Ht. exact (core_shows l g e L1 L2 c i o t C HI Ht k). Qed.
(** So the output is no matching, at any time and for any inputs. *)
Theorem core_refuted l g e c i o t : 2 <= l <= 31 -> stable_match (2 ^ l) (2 ^ l) (2 ^ l) (2 ^ l) c i o -> (forall u, u < c -> i u = (g, e)) -> t < c -> ~ matching (2 ^ l) (shown (2 ^ l) (o t)).
Proof.
  intros HL C HI Ht (_ & INJ & _). set (f := Z.to_nat (val l (part (2 ^ l * l) (vxor g e)))). assert (B : 4 <= 2 ^ l) by (change 4 with (2 ^ 2); apply Nat.pow_le_mono_r; lia).
  assert (TWO : exists a b, a < 3 /\ b < 3 /\ a <> b /\ a <> f /\ b <> f). { destruct f as [|[|f]]; [exists 1, 2|exists 0, 2|exists 0, 1]; repeat split; lia. }
  destruct TWO as (a & b & Ha & Hb & AB & AF & BF). apply AB, INJ; [lia|lia|]. rewrite !(core_shows l g e ltac:(lia) ltac:(lia) c i o t C HI Ht) by (try lia; left; assumption). reflexivity.
Qed.
Theorem core_total Kw Km M W c i : exists o, stable_match Kw Km M W c i o.
Proof.
  apply clocked_total.
  - exists (Mw 0 0 0 0 0 (fun _ => Km) (fun _ => false) (fun _ => false) (fun _ => Km mod 2 ^ clog2 M)). repeat split; reflexivity.
  - intros (g, e) q. destruct (joined_exists (clog2 M) W (fun k => of_val (Z.of_nat (matches q k)))) as (ml & ML).
    eexists ml, (Mw _ _ _ _ _ _ _ _ _), (pcs q (mIndex q)), _, (matches q (w_ q)), _, _, (mIsMatch q (mIndex q)), (wIsMatch q (w_ q)). cbv zeta.
    split; [intros; reflexivity|]. split; [intros; reflexivity|]. split; [intros; reflexivity|]. split; [intros; reflexivity|]. split; [intros; reflexivity|]. split; [intros; reflexivity|]. split; [intros; reflexivity|].
    split; [reflexivity|]. split; [reflexivity|]. split; [reflexivity|]. split; [reflexivity|]. split; [reflexivity|].
    split; [intros k _; reflexivity|]. split; [intros k _; reflexivity|]. split; [intros k _; reflexivity|]. split; [intros k _; reflexivity|]. intros k Hk. rewrite Nat.mul_comm. apply ML, Hk.
Qed.
(** With four of each, all inputs 0, for twenty cycles *)
Example core_case : exists o, stable_match 4 4 4 4 20 (fun _ => (of_val 0, of_val 0)) o /\ shown 4 (o 19) 1 = 0 /\ shown 4 (o 19) 2 = 0 /\ ~ matching 4 (shown 4 (o 19)).
Proof.
  destruct (core_total 4 4 4 4 20 (fun _ => (of_val 0, of_val 0))) as (o & C). exists o. split; [exact C|].
  pose proof (core_shows 2 (of_val 0) (of_val 0) ltac:(lia) ltac:(lia) 20 _ o 19 C ltac:(reflexivity) ltac:(lia)) as H.
  split; [apply H; [cbn; lia|right; vm_compute; reflexivity]|]. split; [apply H; [cbn; lia|right; vm_compute; reflexivity]|].
  apply (core_refuted 2 (of_val 0) (of_val 0) 20 _ o 19 ltac:(lia) C ltac:(reflexivity) ltac:(lia)).
Qed.
