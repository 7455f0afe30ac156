(** The key schedule and the cipher of crypto/aes.h are those of FIPS-197. *)
From Coq Require Import Arith ZArith NArith List Bool Lia.
From Verif Require Import Base Codec AesSpec Aes.
Import ListNotations.
Open Scope N_scope.

(** * Bytes *)
Lemma all_bytes_in b : b < 256 -> In b all_bytes.
Proof. intros H. unfold all_bytes. apply in_map_iff. exists (N.to_nat b). split; [lia|]. apply in_seq. lia. Qed.
(** What holds for each of the 256 bytes. *)
Lemma check_bytes (P : N -> bool) : forallb P all_bytes = true -> forall b, b < 256 -> P b = true.
Proof. intros H b Hb. rewrite forallb_forall in H. apply H, all_bytes_in, Hb. Qed.
Lemma sub_ok b : b < 256 -> sub b = SBox b.
Proof. intros H. apply N.eqb_eq. revert b H. apply (check_bytes (fun b => sub b =? SBox b)). vm_compute. reflexivity. Qed.
Lemma find_ext {A} (f g : A -> bool) l : (forall a, In a l -> f a = g a) -> find f l = find g l.
Proof. induction l as [|a l IH]; intros H; [reflexivity|]. cbn. rewrite (H a) by (left; reflexivity). destruct (g a); [reflexivity|]. apply IH. intros; apply H; right; assumption. Qed.
Lemma inv_sub_ok b : b < 256 -> inv_sub b = InvSBox b.
Proof.
  intros H. unfold InvSBox. rewrite (find_ext _ (fun a => sub a =? b)).
  2:{ intros a Ha. rewrite sub_ok; [reflexivity|]. unfold all_bytes in Ha. apply in_map_iff in Ha. destruct Ha as (n & <- & Hn). apply in_seq in Hn. lia. }
  apply N.eqb_eq. revert b H. apply (check_bytes (fun b => inv_sub b =? match find (fun a => sub a =? b) all_bytes with Some a => a | None => 0 end)). vm_compute. reflexivity.
Qed.
Lemma xtime_mul b : b < 256 -> xtime b = gf_mul 2 b.
Proof. intros H. apply N.eqb_eq. revert b H. apply (check_bytes (fun b => xtime b =? gf_mul 2 b)). vm_compute. reflexivity. Qed.
Lemma mul3 b : b < 256 -> gf_mul 3 b = N.lxor (xtime b) b.
Proof. intros H. apply N.eqb_eq. revert b H. apply (check_bytes (fun b => gf_mul 3 b =? N.lxor (xtime b) b)). vm_compute. reflexivity. Qed.
Lemma sub_byte b : b < 256 -> sub b < 256.
Proof. intros H. apply N.ltb_lt. revert b H. apply (check_bytes (fun b => sub b <? 256)). vm_compute. reflexivity. Qed.
Lemma inv_sub_byte b : b < 256 -> inv_sub b < 256.
Proof. intros H. apply N.ltb_lt. revert b H. apply (check_bytes (fun b => inv_sub b <? 256)). vm_compute. reflexivity. Qed.
Lemma xtime_byte b : b < 256 -> xtime b < 256.
Proof. intros H. apply N.ltb_lt. revert b H. apply (check_bytes (fun b => xtime b <? 256)). vm_compute. reflexivity. Qed.
Lemma inv_sub_sub b : b < 256 -> inv_sub (sub b) = b.
Proof. intros H. apply N.eqb_eq. revert b H. apply (check_bytes (fun b => inv_sub (sub b) =? b)). vm_compute. reflexivity. Qed.
Lemma sub_inv_sub b : b < 256 -> sub (inv_sub b) = b.
Proof. intros H. apply N.eqb_eq. revert b H. apply (check_bytes (fun b => sub (inv_sub b) =? b)). vm_compute. reflexivity. Qed.
Lemma xor_byte a b : a < 256 -> b < 256 -> N.lxor a b < 256.
Proof.
  intros A B. change 256 with (2 ^ 8). destruct (N.eq_dec (N.lxor a b) 0) as [->|E]; [reflexivity|].
  apply N.log2_lt_pow2; [lia|]. eapply N.le_lt_trans; [apply N.log2_lxor|].
  assert (L : forall x, x < 256 -> N.log2 x < 8). { intros x Hx. destruct (N.eq_dec x 0) as [->|]; [reflexivity|]. apply N.log2_lt_pow2; [lia|exact Hx]. }
  apply N.max_lub_lt; apply L; assumption.
Qed.
Lemma xtime_xor a b : a < 256 -> b < 256 -> xtime (N.lxor a b) = N.lxor (xtime a) (xtime b).
Proof.
  intros A B. apply N.eqb_eq. revert b B. apply (check_bytes (fun b => xtime (N.lxor a b) =? N.lxor (xtime a) (xtime b))).
  revert a A. apply (check_bytes (fun a => forallb (fun b => xtime (N.lxor a b) =? N.lxor (xtime a) (xtime b)) all_bytes)). vm_compute. reflexivity.
Qed.

(** * Words *)
Definition wbyte (w : word) : Prop := y0 w < 256 /\ y1 w < 256 /\ y2 w < 256 /\ y3 w < 256.
Definition vbyte (v : m128) : Prop := wbyte (d0 v) /\ wbyte (d1 v) /\ wbyte (d2 v) /\ wbyte (d3 v).
Lemma wxor_byte a b : wbyte a -> wbyte b -> wbyte (wxor a b).
Proof. intros (?&?&?&?) (?&?&?&?). repeat split; cbn; apply xor_byte; assumption. Qed.
Lemma wsub_byte a : wbyte a -> wbyte (wmap sub a).
Proof. intros (?&?&?&?). repeat split; cbn; apply sub_byte; assumption. Qed.
Lemma rot_byte a : wbyte a -> wbyte (rot_word a).
Proof. intros (?&?&?&?). repeat split; assumption. Qed.
Lemma wxor_comm a b : wxor a b = wxor b a.
Proof. unfold wxor. f_equal; apply N.lxor_comm. Qed.
Lemma wxor_assoc a b c : wxor (wxor a b) c = wxor a (wxor b c).
Proof. unfold wxor. cbn. f_equal; apply N.lxor_assoc. Qed.
Lemma wxor_0 a : wxor a zero_word = a.
Proof. destruct a. unfold wxor. cbn. f_equal; apply N.lxor_0_r. Qed.
Lemma wxor_nil a : wxor a a = zero_word.
Proof. unfold wxor, zero_word. f_equal; apply N.lxor_nilpotent. Qed.
Lemma wxor_cancel a b : wxor a (wxor a b) = b.
Proof. rewrite <- wxor_assoc, wxor_nil, wxor_comm. apply wxor_0. Qed.
Lemma wxor_word a b : word_bytes (wxor a b) = xor_word (word_bytes a) (word_bytes b).
Proof. reflexivity. Qed.
Ltac wx := unfold wxor, zero_word; cbn [y0 y1 y2 y3]; f_equal; apply N.bits_inj; intro; rewrite ?N.lxor_spec, ?N.bits_0;
  repeat match goal with |- context [N.testbit ?x ?k] => destruct (N.testbit x k) end; reflexivity.

(** * The recurrence of the schedule, on words *)
Definition flat (ks : list m128) : list word := flat_map (fun v => [d0 v; d1 v; d2 v; d3 v]) ks.
Definition temp_word (Nk : nat) (rc : list N) (i : nat) (prev : word) : word :=
  if (i mod Nk =? 0)%nat then wxor (rot_word (wmap sub prev)) (W (nth (i / Nk - 1) rc 0) 0 0 0)
  else if ((6 <? Nk) && (i mod Nk =? 4))%nat then wmap sub prev else prev.
Definition recurrent (Nk : nat) (rc : list N) (L : list word) : Prop := forall i, (Nk <= i < length L)%nat ->
  nth i L zero_word = wxor (nth (i - Nk) L zero_word) (temp_word Nk rc i (nth (i - 1) L zero_word)).
Lemma temp_shift Nk rc pre i prev k : Nk <> 0%nat -> length pre = k -> (k * Nk <= i)%nat -> (Nk <= i - k * Nk)%nat ->
  temp_word Nk (pre ++ rc) i prev = temp_word Nk rc (i - k * Nk) prev.
Proof.
  intros N0 P H1 H2. unfold temp_word. set (i' := (i - k * Nk)%nat) in *. replace i with (i' + k * Nk)%nat by lia.
  rewrite Nat.mod_add, Nat.div_add by exact N0. rewrite app_nth2 by (rewrite P; assert (1 <= i' / Nk)%nat by (apply Nat.div_le_lower_bound; lia); lia).
  replace (i' / Nk + k - 1 - length pre)%nat with (i' / Nk - 1)%nat by (assert (1 <= i' / Nk)%nat by (apply Nat.div_le_lower_bound; lia); lia). reflexivity.
Qed.

(** One use of EXPAND_ASSIST: each new word is the old one and the new one before it. *)
Lemma assist v1 v3 v4 sh c : d0 v3 = zero_word ->
  let '(v, u) := expand_assist v1 v3 v4 sh c in
  let t := dword (_mm_aeskeygenassist_si128 v4 c) in
  d0 u = zero_word /\
  (field sh 0 = field sh 1 -> field sh 0 = field sh 2 -> field sh 0 = field sh 3 ->
   d0 v = wxor (d0 v1) (t (field sh 0)) /\ d1 v = wxor (d1 v1) (d0 v) /\ d2 v = wxor (d2 v1) (d1 v) /\ d3 v = wxor (d3 v1) (d2 v)).
Proof.
  intros Z. destruct v1 as [a b cc d], v3 as [z z1 z2 z3]. cbn [d0] in Z. subst z.
  unfold expand_assist. set (A := _mm_aeskeygenassist_si128 v4 c). unfold _mm_shuffle_ps.
  change (field 16 0) with 0. change (field 16 1) with 0. change (field 16 2) with 1. change (field 16 3) with 0.
  change (field 140 0) with 0. change (field 140 1) with 3. change (field 140 2) with 0. change (field 140 3) with 2.
  cbn [dword d0 d1 d2 d3 _mm_xor_si128 _mm_shuffle_epi32]. cbv zeta. split; [reflexivity|]. intros <- <- <-. set (t := dword A (field sh 0)).
  rewrite !wxor_0. repeat split; wx.
Qed.

Lemma assist_words v1 v3 v4 sh c v u : d0 v3 = zero_word -> expand_assist v1 v3 v4 sh c = (v, u) -> In sh [255; 85; 170] ->
  let t := match sh with 255 => wxor (rot_word (wmap sub (d3 v4))) (W c 0 0 0) | 85 => wxor (rot_word (wmap sub (d1 v4))) (W c 0 0 0) | _ => wmap sub (d3 v4) end in
  d0 u = zero_word /\ d0 v = wxor (d0 v1) t /\ d1 v = wxor (d1 v1) (d0 v) /\ d2 v = wxor (d2 v1) (d1 v) /\ d3 v = wxor (d3 v1) (d2 v).
Proof.
  intros Z E S. pose proof (assist v1 v3 v4 sh c Z) as A. rewrite E in A. destruct A as [A B]. split; [exact A|].
  destruct S as [<-|[<-|[<-|[]]]]; exact (B eq_refl eq_refl eq_refl).
Qed.

Lemma flat_cons v ks : flat (v :: ks) = d0 v :: d1 v :: d2 v :: d3 v :: flat ks.
Proof. reflexivity. Qed.

Lemma expand128_recurrent cs : forall x0 x2, d0 x2 = zero_word -> recurrent 4 cs (flat (x0 :: expand128 x0 x2 cs)).
Proof.
  induction cs as [|c cs IH]; intros x0 x2 Z i Hi.
  { cbn in Hi. lia. }
  cbn [expand128] in *. destruct (expand_assist x0 x2 x0 255 c) as [v u] eqn:E.
  destruct (assist_words _ _ _ _ _ _ _ Z E ltac:(left; reflexivity)) as (Zu & A0 & A1 & A2 & A3).
  rewrite (flat_cons x0) in *. cbn [length] in Hi. 
  destruct (Nat.lt_ge_cases i 8) as [H8|H8].
  - rewrite flat_cons. do 4 (destruct i as [|i]; [lia|]).
    destruct i as [|[|[|[|i]]]]; [..|lia]; cbn [nth Nat.sub].
    + exact A0.
    + exact A1.
    + exact A2.
    + exact A3.
  - specialize (IH v u Zu (i - 4)%nat ltac:(lia)).
    change (c :: cs) with ([c] ++ cs). rewrite (temp_shift 4 cs [c] i _ 1) by (cbn; lia).
    replace (i - 1 * 4)%nat with (i - 4)%nat by lia.
    set (L := flat (v :: expand128 v u cs)) in *.
    assert (NS : forall j, (4 <= j)%nat -> nth j (d0 x0 :: d1 x0 :: d2 x0 :: d3 x0 :: L) zero_word = nth (j - 4) L zero_word).
    { intros j Hj. do 4 (destruct j as [|j]; [lia|]). cbn [nth]. f_equal. lia. }
    rewrite !NS by lia. rewrite IH. do 2 f_equal. f_equal. lia.
Qed.
