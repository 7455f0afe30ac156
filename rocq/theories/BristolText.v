(** Files in Bristol format that are cut short are rejected. *)
From Coq Require Import ZArith NArith List Bool Lia Ascii String.
From Verif Require Import Base Gate Circuit Spec Text Sort Netlist NetlistOk Scd Front Parse VerilogOk Bristol BristolOk.
Import ListNotations.
Open Scope string_scope.
Open Scope list_scope.
Open Scope Z_scope.

(** [ws] is [W] cut short, possibly inside a word. *)
Inductive cut : list text -> list text -> Prop :=
| cut_nil w W : cut [] (w :: W)
| cut_part p q W : p <> [] -> q <> [] -> cut [p] ((p ++ q) :: W)
| cut_cons w ws W : cut ws W -> cut (w :: ws) (w :: W).

Lemma blank_app a b : blank (a ++ b) <-> blank a /\ blank b.
Proof. unfold blank. apply Forall_app. Qed.
Lemma spaced_blank b ws t : blank b -> spaced ws t -> spaced ws (b ++ t).
Proof.
  intros B S. destruct S as [t BT|b' w ws t BB NE F ST S]; [constructor; apply blank_app; auto|].
  rewrite app_assoc. constructor; auto. apply blank_app. auto.
Qed.
(** A text cut somewhere: all words are left, or they are cut short. *)
Lemma cut_text W T : spaced W T -> forall t r, T = t ++ r -> spaced W t /\ blank r \/ exists ws, cut ws W /\ spaced ws t.
Proof.
  induction 1 as [T BT|b w ws T B NE F ST S IH]; intros t r E.
  - subst T. apply blank_app in BT as [BT BR]. left. split; [constructor; exact BT|exact BR].
  - apply app_eq_app in E as (l & [[EB ER]|[EB ER]]).
    + right. exists []. split; [constructor|]. constructor. rewrite EB in B. apply blank_app in B. tauto.
    + subst t. apply app_eq_app in ER as (m & [[EW ER]|[EW ER]]).
      * subst w r. apply Forall_app in F as [FL FM].
        destruct m as [|c m].
        { cbn [app]. rewrite app_nil_r in *. destruct (IH [] T eq_refl) as [[SA SB]|(vs & C & SV)].
          - left. split; [|exact SB]. replace (b ++ l) with (b ++ l ++ []) by (rewrite app_nil_r; reflexivity). constructor; auto. cbn. exact Logic.I.
          - right. exists (l :: vs). split; [constructor; exact C|]. replace (b ++ l) with (b ++ l ++ []) by (rewrite app_nil_r; reflexivity). constructor; auto. cbn. exact Logic.I. }
        right. destruct l as [|c' l].
        { exists []. split; [constructor|]. rewrite app_nil_r. constructor. exact B. }
        exists [c' :: l]. split; [apply cut_part; discriminate|]. replace (b ++ c' :: l) with (b ++ (c' :: l) ++ []) by (rewrite app_nil_r; reflexivity). constructor; auto; try discriminate; [cbn; exact Logic.I|constructor; constructor].
      * subst l T. destruct (IH m r eq_refl) as [[SA SB]|(vs & C & SV)].
        { left. split; [|exact SB]. constructor; auto. destruct m; cbn in *; auto. }
        { right. exists (w :: vs). split; [constructor; exact C|]. constructor; auto. destruct m; cbn in *; auto. }
Qed.

(** A stream from which nothing more can be read. *)
Definition dead (s : stream) : Prop := good s = false \/ blank (rest s).
Lemma dead_num s old : dead s -> dead (snd (extract_u64 s old)).
Proof.
  intros D. unfold extract_u64, extract. destruct s as [t [|]]; cbn [good rest negb] in *; [|left; reflexivity].
  destruct D as [D|D]; [discriminate|]. cbn [rest] in D. rewrite (skip_blank t D). left. reflexivity.
Qed.
Lemma dead_word s old : dead s -> fst (extract_word s old) = old /\ dead (snd (extract_word s old)).
Proof.
  intros D. unfold extract_word. destruct s as [t [|]]; cbn [good rest negb] in *; [|split; [reflexivity|left; reflexivity]].
  destruct D as [D|D]; [discriminate|]. cbn [rest] in D. rewrite (skip_blank t D). split; [reflexivity|]. left. reflexivity.
Qed.
Lemma span_all : forall p a, Forall is_digit p -> exists v, span_digits a p = (v, List.length p, []) /\ (a <= v)%N.
Proof.
  induction p as [|c p IH]; intros a F; cbn [span_digits List.length]; [exists a; split; [reflexivity|lia]|].
  inversion F as [|? ? [d D] F']; subst. rewrite D. destruct (IH (10 * a + d)%N F') as (v & -> & L). exists v. split; [reflexivity|lia].
Qed.
Lemma part_num p r old : p <> [] -> Forall is_digit p -> blank r -> forall b, blank b ->
  exists v s, extract_u64 (mkS (b ++ p ++ r) true) old = (v, s) /\ dead s /\ 0 <= v /\ ((exists d, nth_error p 0 = Some (digit_char d) /\ 0 < d < 10)%N -> 1 <= v).
Proof.
  intros NE F BR b B. unfold extract_u64, extract. cbn [good rest negb]. rewrite skip_ws_app by exact B.
  destruct p as [|c p]; [congruence|]. inversion F as [|? ? C F']; subst. cbn [app skip_ws]. rewrite (digit_not_space _ C), sign_digit by exact C.
  assert (ND : no_digit r). { apply stops_no_digit. destruct BR; cbn; auto. }
  assert (G : forall q a, Forall is_digit q -> exists v, span_digits a (q ++ r) = (v, List.length q, r) /\ (a <= v)%N).
  { induction q as [|e q IH]; intros a FQ; cbn [app List.length].
    - exists a. split; [|lia]. destruct r as [|e r]; [reflexivity|]. cbn [span_digits]. cbn in ND. rewrite ND. reflexivity.
    - inversion FQ as [|? ? [d D] FQ']; subst. cbn [span_digits]. rewrite D. destruct (IH (10 * a + d)%N FQ') as (v & -> & L). exists v. split; [reflexivity|lia]. }
  pose proof C as [d D]. cbn [span_digits]. rewrite D. destruct (G p (10 * 0 + d)%N F') as (v & -> & L). cbn [Nat.eqb].
  assert (P : (exists d0, nth_error (c :: p) 0 = Some (digit_char d0) /\ 0 < d0 < 10)%N -> (1 <= v)%N).
  { intros (d0 & E & H). cbn in E. injection E as ->. rewrite char_digit_char in D by lia. injection D as <-. lia. }
  destruct (2 ^ 64 - 1 <? Z.of_N v) eqn:O; (do 2 eexists; split; [reflexivity|]).
  - split; [left; reflexivity|]. split; [lia|]. intros _. lia.
  - split; [right; exact BR|]. split; [lia|]. intros H. specialize (P H). lia.
Qed.
Lemma dec_first n : (0 < n)%N -> exists d, nth_error (dec n) 0 = Some (digit_char d) /\ (0 < d < 10)%N.
Proof.
  intros P. unfold dec.
  assert (G : forall f m acc, (0 < m)%N -> (m < 10 ^ N.of_nat (S f))%N -> exists d, nth_error (dec_fuel f m acc) 0 = Some (digit_char d) /\ (0 < d < 10)%N).
  { induction f as [|f IH]; intros m acc H L; cbn [dec_fuel].
    - change (10 ^ N.of_nat 1)%N with 10%N in L. exists m. rewrite N.mod_small by lia. split; [reflexivity|lia].
    - destruct (N.ltb_spec m 10); [exists m; rewrite N.mod_small by lia; split; [reflexivity|lia]|]. apply IH.
      + pose proof (N.div_le_mono 10 m 10 ltac:(lia) H0). change (10 / 10)%N with 1%N in H1. lia.
      + apply N.div_lt_upper_bound; [lia|]. replace (N.of_nat (S (S f))) with (N.succ (N.of_nat (S f))) in L by lia. rewrite N.pow_succ_r' in L. exact L. }
  apply G; [exact P|]. rewrite Nat2N.inj_succ, N2Nat.id. destruct (N.log2_spec n P) as [_ L]. pose proof (pow2_10 (N.succ (N.log2 n))). lia.
Qed.

Lemma read_cut n ws W t old : Z.of_nat n < 2 ^ 64 -> cut ws (num n :: W) -> spaced ws t ->
  exists v s, extract_u64 (mkS t true) old = (v, s) /\ (dead s \/ v = Z.of_nat n /\ exists t' ws', s = mkS t' true /\ cut ws' W /\ spaced ws' t').
Proof.
  intros B C S. inversion C as [w W'|p q W' NP NQ|w ws' W' C']; subst.
  - destruct (extract_u64 (mkS t true) old) as [v s] eqn:E. exists v, s. split; [reflexivity|]. left. change s with (snd (v, s)). rewrite <- E. apply dead_num. right.
    inversion S; subst. assumption.
  - inversion S as [|b w ws' r BB NE F ST SP]; subst. destruct (dec_ok (N.of_nat n)) as (_ & FD & _). unfold num in *.
    match goal with H : p ++ q = dec _ |- _ => rewrite <- H in FD end. apply Forall_app in FD as [FP _]. inversion SP; subst.
    destruct (part_num p r old NP FP ltac:(assumption) b BB) as (v & s & E & D & _). exists v, s. split; [exact E|]. left. exact D.
  - destruct (read_num n ws' t old B S) as (t' & E & S'). do 2 eexists. split; [exact E|]. right. split; [reflexivity|]. exists t', ws'. auto.
Qed.

(** Wire numbers fit in 64 bits. *)
Definition fits64 (g : bgate) : Prop := forall a, In a (bg_out g :: bg_ins g) -> Z.of_nat a < 2 ^ 64.
Lemma whole_gate j wi ge ee oo g ws t : fits64 g -> spaced (gate_words g ++ ws) t ->
  exists x t', bris_gate j wi ge ee oo (mkS t true) = Some (x, mkS t' true) /\ spaced ws t'.
Proof.
  intros FG S. unfold bris_gate. destruct g as [a o|a c o|a c o]; cbn [gate_words app] in *.
  - assert (Z.of_nat a < 2 ^ 64 /\ Z.of_nat o < 2 ^ 64) as [? ?] by (split; apply FG; cbn; auto).
    apply (read_num 1 _ _ (j 0%nat)) in S as (t1 & -> & S); [|lia]. apply (read_num 1 _ _ (j 1%nat)) in S as (t2 & -> & S); [|lia].
    apply (read_num a _ _ (j 2%nat)) in S as (t3 & -> & S); [|lia]. cbn [Z.of_nat Z.eqb Pos.of_succ_nat Pos.eqb].
    apply (read_num o _ _ (j 4%nat)) in S as (t4 & -> & S); [|lia]. apply (read_word _ _ _ []) in S as (t5 & -> & S).
    eexists. exists t5. split; [reflexivity|exact S].
  - assert (Z.of_nat a < 2 ^ 64 /\ Z.of_nat c < 2 ^ 64 /\ Z.of_nat o < 2 ^ 64) as (? & ? & ?) by (repeat split; apply FG; cbn; auto).
    apply (read_num 2 _ _ (j 0%nat)) in S as (t1 & -> & S); [|lia]. apply (read_num 1 _ _ (j 1%nat)) in S as (t2 & -> & S); [|lia].
    apply (read_num a _ _ (j 2%nat)) in S as (t3 & -> & S); [|lia]. cbn [Z.of_nat Z.eqb Pos.of_succ_nat Pos.succ Pos.eqb].
    apply (read_num c _ _ (j 3%nat)) in S as (t6 & -> & S); [|lia].
    apply (read_num o _ _ (j 4%nat)) in S as (t4 & -> & S); [|lia]. apply (read_word _ _ _ []) in S as (t5 & -> & S).
    eexists. exists t5. split; [reflexivity|exact S].
  - assert (Z.of_nat a < 2 ^ 64 /\ Z.of_nat c < 2 ^ 64 /\ Z.of_nat o < 2 ^ 64) as (? & ? & ?) by (repeat split; apply FG; cbn; auto).
    apply (read_num 2 _ _ (j 0%nat)) in S as (t1 & -> & S); [|lia]. apply (read_num 1 _ _ (j 1%nat)) in S as (t2 & -> & S); [|lia].
    apply (read_num a _ _ (j 2%nat)) in S as (t3 & -> & S); [|lia]. cbn [Z.of_nat Z.eqb Pos.of_succ_nat Pos.succ Pos.eqb].
    apply (read_num c _ _ (j 3%nat)) in S as (t6 & -> & S); [|lia].
    apply (read_num o _ _ (j 4%nat)) in S as (t4 & -> & S); [|lia]. apply (read_word _ _ _ []) in S as (t5 & -> & S).
    eexists. exists t5. split; [reflexivity|exact S].
Qed.

(** The second half of [bris_gate], from the number of inputs on. *)
Definition bris_tail (j : nat -> Z) (n : Z) (s : stream) : text :=
  if n =? 1 then let '(o1, s) := extract_u64 s (j 4%nat) in fst (extract_word s [])
  else if n =? 2 then let '(i1, s) := extract_u64 s (j 3%nat) in let '(o1, s) := extract_u64 s (j 4%nat) in fst (extract_word s [])
  else [].
Definition known (t : text) : bool :=
  let t := string_of_list_ascii t in String.eqb t "INV" || String.eqb t "XOR" || String.eqb t "AND".
Lemma bris_gate_none j wi ge ee oo s :
  (let '(n, s) := extract_u64 s (j 0%nat) in let '(m, s) := extract_u64 s (j 1%nat) in let '(i0, s) := extract_u64 s (j 2%nat) in known (bris_tail j n s)) = false ->
  bris_gate j wi ge ee oo s = None.
Proof.
  unfold bris_gate, bris_tail, known. destruct (extract_u64 s (j 0%nat)) as [n s1]. destruct (extract_u64 s1 (j 1%nat)) as [m s2]. destruct (extract_u64 s2 (j 2%nat)) as [i0 s3].
  destruct (n =? 1).
  - destruct (extract_u64 s3 (j 4%nat)) as [o1 s4]. destruct (extract_word s4 []) as [w s5]. cbn [fst].
    destruct (String.eqb (string_of_list_ascii w) "INV"); [discriminate|]. destruct (String.eqb (string_of_list_ascii w) "XOR"); [discriminate|].
    destruct (String.eqb (string_of_list_ascii w) "AND"); [discriminate|reflexivity].
  - destruct (n =? 2); [|reflexivity]. destruct (extract_u64 s3 (j 3%nat)) as [i1 s4]. destruct (extract_u64 s4 (j 4%nat)) as [o1 s5]. destruct (extract_word s5 []) as [w s6]. cbn [fst].
    destruct (String.eqb (string_of_list_ascii w) "INV"); [discriminate|]. destruct (String.eqb (string_of_list_ascii w) "XOR"); [discriminate|].
    destruct (String.eqb (string_of_list_ascii w) "AND"); [discriminate|reflexivity].
Qed.
Lemma dead_tail j n s : dead s -> known (bris_tail j n s) = false.
Proof.
  intros D. unfold bris_tail. destruct (n =? 1); [|destruct (n =? 2); [|reflexivity]].
  - pose proof (dead_num s (j 4%nat) D) as D1. destruct (extract_u64 s (j 4%nat)) as [o1 s1]. rewrite (proj1 (dead_word s1 [] D1)). reflexivity.
  - pose proof (dead_num s (j 3%nat) D) as D1. destruct (extract_u64 s (j 3%nat)) as [i1 s1]. pose proof (dead_num s1 (j 4%nat) D1) as D2.
    cbn [snd] in D2. destruct (extract_u64 s1 (j 4%nat)) as [o1 s2]. rewrite (proj1 (dead_word s2 [] D2)). reflexivity.
Qed.
Lemma cut_word w ws W t : In w (map list_ascii_of_string ["INV"; "XOR"; "AND"]) -> cut ws (w :: W) -> spaced ws t ->
  known (fst (extract_word (mkS t true) [])) = false \/ fst (extract_word (mkS t true) []) = w.
Proof.
  intros K C S. inversion C as [w' W'|p q W' NP NQ|w' ws' W' C']; subst.
  - left. inversion S as [u BU EU|]; subst; rewrite (proj1 (dead_word (mkS t true) [] (or_intror BU))). reflexivity.
  - left. destruct (read_word _ _ _ [] S) as (t' & -> & _). cbn [fst]. clear C S.
    destruct p as [|c1 p]; [congruence|]. destruct q as [|c0 q]; [congruence|].
    destruct K as [K|[K|[K|[]]]]; cbn in K; injection K as <- K; (destruct p as [|c2 p]; [reflexivity|]); injection K as <- K;
      (destruct p as [|c3 p]; [reflexivity|]); injection K as <- K; destruct p; discriminate K.
  - right. destruct (read_word _ _ _ [] S) as (t' & -> & _). reflexivity.
Qed.
Lemma cut_gate j wi ge ee oo g ws t : fits64 g -> cut ws (gate_words g) -> spaced ws t -> bris_gate j wi ge ee oo (mkS t true) = None.
Proof.
  intros FG C S. apply bris_gate_none.
  assert (TD : forall s, dead s -> (let '(m, s) := extract_u64 s (j 1%nat) in let '(i0, s) := extract_u64 s (j 2%nat) in forall n, known (bris_tail j n s) = false)).
  { intros s D. pose proof (dead_num s (j 1%nat) D) as D1. destruct (extract_u64 s (j 1%nat)) as [m s1]. pose proof (dead_num s1 (j 2%nat) D1) as D2. destruct (extract_u64 s1 (j 2%nat)) as [i0 s2]. intros n. apply dead_tail. exact D2. }
  assert (TD2 : forall s n, dead s -> (let '(i0, s) := extract_u64 s (j 2%nat) in known (bris_tail j n s)) = false).
  { intros s n D. pose proof (dead_num s (j 2%nat) D) as D2. destruct (extract_u64 s (j 2%nat)) as [i0 s2]. apply dead_tail. exact D2. }
  assert (H : forall k rest, (Z.of_nat k < 2 ^ 64)%Z -> forall a, Z.of_nat a < 2 ^ 64 -> gate_words g = num k :: num 1 :: num a :: rest ->
    (forall ws t, cut ws rest -> spaced ws t -> known (bris_tail j (Z.of_nat k) (mkS t true)) = false) ->
    (let '(n, s) := extract_u64 (mkS t true) (j 0%nat) in let '(m, s) := extract_u64 s (j 1%nat) in let '(i0, s) := extract_u64 s (j 2%nat) in known (bris_tail j n s)) = false).
  { intros k rest K a A EW HR. rewrite EW in C.
    destruct (read_cut k _ _ t (j 0%nat) K C S) as (v & s & -> & [D|(-> & t1 & ws1 & -> & C1 & S1)]).
    { specialize (TD s D). destruct (extract_u64 s (j 1%nat)) as [m s1]. destruct (extract_u64 s1 (j 2%nat)) as [i0 s2]. apply TD. }
    destruct (read_cut 1 _ _ t1 (j 1%nat) ltac:(lia) C1 S1) as (v & s & -> & [D|(-> & t2 & ws2 & -> & C2 & S2)]); [apply TD2; exact D|].
    destruct (read_cut a _ _ t2 (j 2%nat) A C2 S2) as (v & s & -> & [D|(-> & t3 & ws3 & -> & C3 & S3)]); [apply dead_tail; exact D|].
    apply (HR ws3 t3 C3 S3). }
  assert (LAST : forall w ws t, In w (map list_ascii_of_string ["INV"; "XOR"; "AND"]) -> cut ws [w] -> spaced ws t -> known (fst (extract_word (mkS t true) [])) = false).
  { clear. intros w ws t K C S. inversion C as [w' W'|p q W' NP NQ|w' ws' W' C']; subst.
    - inversion S as [u BU EU|]; subst. rewrite (proj1 (dead_word (mkS t true) [] (or_intror BU))). reflexivity.
    - destruct (cut_word _ [p] [] t K (cut_part p q [] NP NQ) S) as [E|E]; [exact E|]. destruct (read_word _ _ _ [] S) as (t' & E' & _). rewrite E' in E. cbn in E.
      apply (f_equal (@List.length ascii)) in E. rewrite app_length in E. destruct q; [congruence|cbn in E; lia].
    - inversion C'. }
  destruct g as [a o|a c o|a c o].
  - assert (Z.of_nat a < 2 ^ 64 /\ Z.of_nat o < 2 ^ 64) as [? ?] by (split; apply FG; cbn; auto).
    apply (H 1%nat [num o; list_ascii_of_string "INV"] ltac:(lia) a ltac:(assumption) eq_refl). intros vs u CV SV. unfold bris_tail. cbn [Z.of_nat Pos.of_succ_nat Z.eqb Pos.eqb].
    destruct (read_cut o _ _ u (j 4%nat) ltac:(lia) CV SV) as (v & s & -> & [D|(-> & t1 & ws1 & -> & C1 & S1)]); [rewrite (proj1 (dead_word s [] D)); reflexivity|].
    eapply LAST; eauto. cbn; auto.
  - assert (Z.of_nat a < 2 ^ 64 /\ Z.of_nat c < 2 ^ 64 /\ Z.of_nat o < 2 ^ 64) as (? & ? & ?) by (repeat split; apply FG; cbn; auto).
    apply (H 2%nat [num c; num o; list_ascii_of_string "XOR"] ltac:(lia) a ltac:(assumption) eq_refl). intros vs u CV SV. unfold bris_tail. cbn [Z.of_nat Pos.of_succ_nat Pos.succ Z.eqb Pos.eqb].
    destruct (read_cut c _ _ u (j 3%nat) ltac:(lia) CV SV) as (v & s & -> & [D|(-> & t1 & ws1 & -> & C1 & S1)]).
    { pose proof (dead_num s (j 4%nat) D) as D1. destruct (extract_u64 s (j 4%nat)) as [o1 s1]. rewrite (proj1 (dead_word s1 [] D1)). reflexivity. }
    destruct (read_cut o _ _ t1 (j 4%nat) ltac:(lia) C1 S1) as (v & s & -> & [D|(-> & t2 & ws2 & -> & C2 & S2)]); [rewrite (proj1 (dead_word s [] D)); reflexivity|].
    eapply LAST; eauto. cbn; auto.
  - assert (Z.of_nat a < 2 ^ 64 /\ Z.of_nat c < 2 ^ 64 /\ Z.of_nat o < 2 ^ 64) as (? & ? & ?) by (repeat split; apply FG; cbn; auto).
    apply (H 2%nat [num c; num o; list_ascii_of_string "AND"] ltac:(lia) a ltac:(assumption) eq_refl). intros vs u CV SV. unfold bris_tail. cbn [Z.of_nat Pos.of_succ_nat Pos.succ Z.eqb Pos.eqb].
    destruct (read_cut c _ _ u (j 3%nat) ltac:(lia) CV SV) as (v & s & -> & [D|(-> & t1 & ws1 & -> & C1 & S1)]).
    { pose proof (dead_num s (j 4%nat) D) as D1. destruct (extract_u64 s (j 4%nat)) as [o1 s1]. rewrite (proj1 (dead_word s1 [] D1)). reflexivity. }
    destruct (read_cut o _ _ t1 (j 4%nat) ltac:(lia) C1 S1) as (v & s & -> & [D|(-> & t2 & ws2 & -> & C2 & S2)]); [rewrite (proj1 (dead_word s [] D)); reflexivity|].
    eapply LAST; eauto. cbn; auto.
Qed.
Lemma dead_gate j wi ge ee oo s : dead s -> bris_gate j wi ge ee oo s = None.
Proof.
  intros D. apply bris_gate_none. pose proof (dead_num s (j 0%nat) D) as D0. destruct (extract_u64 s (j 0%nat)) as [n s0].
  pose proof (dead_num s0 (j 1%nat) D0) as D1. destruct (extract_u64 s0 (j 1%nat)) as [m s1]. pose proof (dead_num s1 (j 2%nat) D1) as D2. destruct (extract_u64 s1 (j 2%nat)) as [i0 s2].
  apply dead_tail. exact D2.
Qed.
Lemma dead_gates junk wi ge ee oo k s : (0 < k)%nat -> dead s -> bris_gates junk wi ge ee oo k s = None.
Proof. intros K D. destruct k; [lia|]. cbn [bris_gates]. rewrite dead_gate by exact D. reflexivity. Qed.

Lemma cut_app a b ws : cut ws (a ++ b) -> cut ws a \/ exists ws', ws = a ++ ws' /\ cut ws' b.
Proof.
  revert ws. induction a as [|x a IH]; intros ws C; cbn [app] in *; [right; exists ws; auto|].
  inversion C as [w W'|p q W' NP NQ|w ws' W' C']; subst; [left; constructor|left; constructor; auto|].
  destruct (IH ws' C') as [L|(v & -> & CV)]; [left; constructor; exact L|right; exists v; auto].
Qed.
Lemma cut_gates junk wi ge ee oo : forall gs ws t, Forall fits64 gs -> cut ws (flat_map gate_words gs) -> spaced ws t ->
  bris_gates junk wi ge ee oo (List.length gs) (mkS t true) = None.
Proof.
  induction gs as [|g gs IH]; intros ws t F C S; cbn [flat_map List.length bris_gates] in *; [inversion C|]. inversion F; subst.
  apply cut_app in C as [C|(vs & -> & C)]; [rewrite (cut_gate _ _ _ _ _ g ws t) by assumption; reflexivity|].
  destruct (whole_gate (junk (List.length gs)) wi ge ee oo g vs t ltac:(assumption) S) as (x & t' & -> & S'). rewrite (IH vs t') by assumption. reflexivity.
Qed.

Theorem bristol_cut b log junk0 junk t r : b_gates b <> [] -> Forall fits64 (b_gates b) ->
  (forall n, In n [List.length (b_gates b); b_wires b; b_g b; b_e b; b_o b] -> Z.of_nat n < 2 ^ 64) ->
  spaced (bristol_words b) (t ++ r) -> ~ blank t -> ~ blank r ->
  ParseBrisNetlist log junk0 junk (Some t) = None.
Proof.
  intros NE FG SZ S BT BR. destruct (cut_text _ _ S t r eq_refl) as [[_ X]|(ws & C & ST)]; [contradiction|].
  assert (GL : (0 < List.length (b_gates b))%nat) by (destruct (b_gates b); [congruence|cbn; lia]).
  unfold bristol_words in C. cbn [app] in C.
  unfold ParseBrisNetlist.
  assert (ALL : forall gsz s, 1 <= gsz -> dead s -> (let '(wire_size, s) := extract_u64 s (junk0 1%nat) in
      if log && negb (negb (gsz =? 0) && negb (wire_size =? 0)) then None else
      let '(g, s) := extract_u64 s 0 in let '(e, s) := extract_u64 s 0 in let '(o, s) := extract_u64 s 0 in
      match bris_gates junk wire_size g e o (Z.to_nat gsz) s with None => None | Some gs => Some (mkRCS gs [] [] 0 0 0 0 (Z.to_nat g) (Z.to_nat e) (Z.to_nat o) false) end) = None).
  { intros gsz s G D. pose proof (dead_num s (junk0 1%nat) D) as D1. destruct (extract_u64 s (junk0 1%nat)) as [wi s1]. destruct (log && negb (negb (gsz =? 0) && negb (wi =? 0))); [reflexivity|].
    pose proof (dead_num s1 0 D1) as D2. destruct (extract_u64 s1 0) as [g s2]. pose proof (dead_num s2 0 D2) as D3. destruct (extract_u64 s2 0) as [e s3].
    pose proof (dead_num s3 0 D3) as D4. destruct (extract_u64 s3 0) as [o s4]. rewrite dead_gates; [reflexivity|lia|exact D4]. }
  assert (FIRST : exists gsz s, extract_u64 (mkS t true) (junk0 0%nat) = (gsz, s) /\ 1 <= gsz /\
     (dead s \/ gsz = Z.of_nat (List.length (b_gates b)) /\ exists t' ws', s = mkS t' true /\ cut ws' (num (b_wires b) :: num (b_g b) :: num (b_e b) :: num (b_o b) :: flat_map gate_words (b_gates b)) /\ spaced ws' t')).
  { inversion C as [w W'|p q W' NP NQ|w ws' W' C']; subst.
    - exfalso. apply BT. inversion ST; subst. assumption.
    - match goal with H : p ++ q = num _ |- _ => rename H into EP end.
      inversion ST as [|b0 w ws' r0 BB NE0 F ST0 SP]; subst. destruct (dec_ok (N.of_nat (List.length (b_gates b)))) as (_ & FD & _). unfold num in EP. rewrite <- EP in FD. apply Forall_app in FD as [FP _].
      inversion SP; subst. destruct (part_num p r0 (junk0 0%nat) NP FP ltac:(assumption) b0 BB) as (v & s & E & D & _ & P). exists v, s. split; [exact E|]. split; [|left; exact D].
      apply P. destruct (dec_first (N.of_nat (List.length (b_gates b)))) as (d & DE & DR); [lia|]. exists d. split; [|exact DR]. rewrite <- EP in DE. destruct p; [congruence|exact DE].
    - destruct (read_num _ ws' t (junk0 0%nat) (SZ _ (or_introl eq_refl)) ST) as (t' & E & S'). do 2 eexists. split; [exact E|]. split; [lia|]. right. split; [reflexivity|]. exists t', ws'. auto. }
  destruct FIRST as (gsz & s & -> & P & [D|(-> & t1 & ws1 & -> & C1 & S1)]); [apply ALL; assumption|]. clear C ALL P.
  assert (ND : forall g e wi s, dead s -> (let '(o, s) := extract_u64 s 0 in match bris_gates junk wi g e o (Z.to_nat (Z.of_nat (List.length (b_gates b)))) s with None => None | Some gs => Some (mkRCS gs [] [] 0 0 0 0 (Z.to_nat g) (Z.to_nat e) (Z.to_nat o) false) end) = None).
  { intros g e wi s D. pose proof (dead_num s 0 D) as D4. destruct (extract_u64 s 0) as [o s4]. rewrite dead_gates; [reflexivity|lia|exact D4]. }
  assert (ND2 : forall g wi s, dead s -> (let '(e, s) := extract_u64 s 0 in let '(o, s) := extract_u64 s 0 in match bris_gates junk wi g e o (Z.to_nat (Z.of_nat (List.length (b_gates b)))) s with None => None | Some gs => Some (mkRCS gs [] [] 0 0 0 0 (Z.to_nat g) (Z.to_nat e) (Z.to_nat o) false) end) = None).
  { intros g wi s D. pose proof (dead_num s 0 D) as D4. destruct (extract_u64 s 0) as [e s4]. apply ND. exact D4. }
  assert (ND3 : forall wi s, dead s -> (let '(g, s) := extract_u64 s 0 in let '(e, s) := extract_u64 s 0 in let '(o, s) := extract_u64 s 0 in match bris_gates junk wi g e o (Z.to_nat (Z.of_nat (List.length (b_gates b)))) s with None => None | Some gs => Some (mkRCS gs [] [] 0 0 0 0 (Z.to_nat g) (Z.to_nat e) (Z.to_nat o) false) end) = None).
  { intros wi s D. pose proof (dead_num s 0 D) as D4. destruct (extract_u64 s 0) as [g s4]. apply ND2. exact D4. }
  destruct (read_cut (b_wires b) _ _ t1 (junk0 1%nat) (SZ (b_wires b) ltac:(cbn; auto)) C1 S1) as (wi & s & -> & X).
  destruct (log && _); [reflexivity|]. destruct X as [D|(-> & t2 & ws2 & -> & C2 & S2)]; [apply ND3; exact D|].
  destruct (read_cut (b_g b) _ _ t2 0 (SZ (b_g b) ltac:(cbn; auto)) C2 S2) as (g & s & -> & [D|(-> & t3 & ws3 & -> & C3 & S3)]); [apply ND2; exact D|].
  destruct (read_cut (b_e b) _ _ t3 0 (SZ (b_e b) ltac:(cbn; auto)) C3 S3) as (e & s & -> & [D|(-> & t4 & ws4 & -> & C4 & S4)]); [apply ND; exact D|].
  destruct (read_cut (b_o b) _ _ t4 0 (SZ (b_o b) ltac:(cbn; auto 10)) C4 S4) as (o & s & -> & [D|(-> & t5 & ws5 & -> & C5 & S5)]); [rewrite dead_gates; [reflexivity|lia|exact D]|].
  rewrite Nat2Z.id. rewrite (cut_gates junk _ _ _ _ (b_gates b) ws5 t5 FG C5 S5). reflexivity.
Qed.
