(** Modules and the netlists the parser makes of them mean the same. *)
From Coq Require Import ZArith NArith List Bool Ascii String Lia Permutation.
From Verif Require Import Base Gate Circuit Spec Sort Text Netlist NetlistOk Parse ParseOk Verilog.
Import ListNotations.
Open Scope Z_scope.
Open Scope string_scope.
Open Scope list_scope.

(** * Names made up by the parser *)
Lemma app_str_inj (p a b : string) : (p ++ a)%string = (p ++ b)%string -> a = b.
Proof. induction p; cbn; [auto|]. intros [= H]. auto. Qed.
Lemma to_string_inj a b : to_string a = to_string b -> a = b.
Proof.
  unfold to_string. intros H. apply (f_equal list_ascii_of_string) in H. rewrite !list_ascii_of_string_of_list_ascii in H.
  apply dec_inj in H. lia.
Qed.
Lemma mid_inj p q a b : In p mid_prefixes -> In q mid_prefixes -> (p ++ to_string a)%string = (q ++ to_string b)%string -> p = q /\ a = b.
Proof.
  intros P Q E. cbn in P, Q.
  decompose [or] P; try contradiction; subst p; decompose [or] Q; try contradiction; subst q; try (discriminate E);
    (split; [reflexivity|]); apply to_string_inj; eapply app_str_inj; exact E.
Qed.
Lemma mid_first n : mid_name n -> starts_with "M" n = true \/ starts_with "F" n = true.
Proof. intros (p & k & P & ->). cbn in P. decompose [or] P; try contradiction; subst p; cbn; auto. Qed.
Lemma not_mid n : starts_with "M" n = false -> starts_with "F" n = false -> ~ mid_name n.
Proof. intros A B M. apply mid_first in M. rewrite A, B in M. intuition discriminate. Qed.
Lemma port_not_mid p n w : In p in_ports -> In n (port_names p w) -> ~ mid_name n.
Proof.
  intros P I. unfold port_names in I. apply in_app_iff in I.
  assert (E : n = p \/ exists i, n = elem p i).
  { destruct I as [I|I]; [destruct (w =? 1)%nat; [destruct I as [<-|[]]; auto|destruct I]|]. apply in_map_iff in I as (i & <- & _). eauto. }
  clear I. cbn in P. destruct E as [->|[i ->]]; decompose [or] P; try contradiction; subst p; apply not_mid; reflexivity.
Qed.

(** * The nets inside a cell and their values *)
Notation mid_list := (list (string * ((string -> bool) -> bool))).
Definition cell_mids (k : kind) (b : nat) (p : ports) : mid_list :=
  match k with
  | MUX => [(("MUX_MID_1_" ++ to_string b)%string, fun v => xorb (v (pval p "IN0")) (v (pval p "IN1")));
            (("MUX_MID_2_" ++ to_string b)%string, fun v => v (pval p "SEL") && xorb (v (pval p "IN0")) (v (pval p "IN1")))]
  | FADDER => [(("FADDER_MID_1_" ++ to_string b)%string, fun v => xorb (v (pval p "IN0")) (v (pval p "CIN")))] ++
      (if has p "COUT" then
         [(("FADDER_MID_2_" ++ to_string b)%string, fun v => xorb (v (pval p "IN1")) (v (pval p "CIN")));
          (("FADDER_MID_3_" ++ to_string b)%string, fun v => xorb (v (pval p "IN0")) (v (pval p "CIN")) && xorb (v (pval p "IN1")) (v (pval p "CIN")))]
       else [])
  | _ => []
  end.
Definition stmt_mids (n : nat) (st : stmt) : mid_list := match st with Cell k _ cs => cell_mids k n (wiring cs) | _ => [] end.
Fixpoint mids_from (n : nat) (m : list stmt) : mid_list :=
  match m with [] => [] | st :: m' => stmt_mids n st ++ mids_from (n + List.length (stmt_gates n st)) m' end.

Lemma stmt_mids_index n st e : In e (stmt_mids n st) -> (exists p, In p mid_prefixes /\ fst e = (p ++ to_string n)%string) /\ (0 < List.length (stmt_gates n st))%nat.
Proof.
  destruct st as [| | | |k i cs]; cbn [stmt_mids]; try contradiction. intros H.
  assert (MP : forall p, In p mid_prefixes -> fst e = (p ++ to_string n)%string -> exists p, In p mid_prefixes /\ fst e = (p ++ to_string n)%string) by eauto.
  destruct k; cbn [cell_mids] in H; try contradiction; cbn [stmt_gates cell_gates mux_gates fadder_gates app List.length]; (split; [|lia]).
  - destruct H as [<-|[<-|[]]]; eexists; (split; [|reflexivity]); cbn; tauto.
  - apply in_app_or in H as [[<-|[]]|H]; [eexists; (split; [|reflexivity]); cbn; tauto|].
    destruct (has (wiring cs) "COUT"); [destruct H as [<-|[<-|[]]]; eexists; (split; [|reflexivity]); cbn; tauto|contradiction].
Qed.
Lemma mids_index : forall m n e, In e (mids_from n m) -> exists p j, In p mid_prefixes /\ (n <= j)%nat /\ fst e = (p ++ to_string j)%string.
Proof.
  induction m as [|st m IH]; intros n e H; cbn [mids_from] in H; [contradiction|]. apply in_app_or in H as [H|H].
  - destruct (stmt_mids_index n st e H) as [(p & P & E) _]. exists p, n. auto.
  - destruct (IH _ _ H) as (p & j & P & J & E). exists p, j. repeat split; auto; lia.
Qed.
Lemma nodup_app {A} (a b : list A) : NoDup a -> NoDup b -> (forall x, In x a -> ~ In x b) -> NoDup (a ++ b).
Proof.
  induction 1 as [|x a N ND IH]; intros B D; [exact B|]. cbn. constructor.
  - rewrite in_app_iff. intros [H|H]; [contradiction|]. apply (D x); cbn; auto.
  - apply IH; auto. intros y Y. apply D. cbn. auto.
Qed.
Lemma mids_nodup : forall m n, NoDup (map fst (mids_from n m)).
Proof.
  induction m as [|st m IH]; intros n; cbn [mids_from]; [constructor|]. rewrite map_app. apply nodup_app; [|apply IH|].
  - destruct st as [| | | |k i cs]; cbn [stmt_mids]; try constructor. destruct k; cbn [cell_mids]; try constructor.
    + cbn. intros [E|[]]. discriminate E.
    + cbn. constructor; [intros []|constructor].
    + destruct (has (wiring cs) "COUT"); cbn; [|intros []]. intros [E|[E|[]]]; discriminate E.
    + destruct (has (wiring cs) "COUT"); cbn; [|constructor]. constructor; [intros [E|[]]; discriminate E|]. constructor; [intros []|constructor].
  - intros x X Y. apply in_map_iff in X as (e & <- & X). apply in_map_iff in Y as (e' & E & Y).
    destruct (stmt_mids_index n st e X) as [(p & P & EP) L]. destruct (mids_index _ _ _ Y) as (q & j & Q & J & EQ).
    rewrite EP, EQ in E. destruct (mid_inj _ _ _ _ Q P E). lia.
Qed.

(** * Where the gates of a cell are *)
Lemma gates_from_app : forall m1 m2 n, gates_from n (m1 ++ m2) = gates_from n m1 ++ gates_from (n + List.length (gates_from n m1)) m2.
Proof.
  induction m1 as [|st m1 IH]; intros m2 n; cbn [gates_from app]; [cbn; rewrite Nat.add_0_r; reflexivity|].
  rewrite IH, <- app_assoc, app_length. do 2 f_equal. f_equal. lia.
Qed.
Lemma mids_from_app : forall m1 m2 n, mids_from n (m1 ++ m2) = mids_from n m1 ++ mids_from (n + List.length (gates_from n m1)) m2.
Proof.
  induction m1 as [|st m1 IH]; intros m2 n; cbn [gates_from mids_from app]; [cbn; rewrite Nat.add_0_r; reflexivity|].
  rewrite IH, <- app_assoc, app_length. do 2 f_equal. f_equal. lia.
Qed.
(** The gates of cell [k] with connections [cs] start at number [b]. *)
Definition placed (m : list stmt) (k : kind) (i : string) (cs : list (string * netref)) (b : nat) : Prop :=
  exists m1 m2, m = m1 ++ Cell k i cs :: m2 /\ b = List.length (gates_from 0 m1).
Lemma placed_in m k i cs b : placed m k i cs b -> In (Cell k i cs) m.
Proof. intros (m1 & m2 & -> & _). apply in_or_app. cbn. auto. Qed.
Lemma in_placed m k i cs : In (Cell k i cs) m -> exists b, placed m k i cs b.
Proof. intros H. apply in_split in H as (m1 & m2 & ->). eexists. exists m1, m2. split; reflexivity. Qed.
Lemma placed_gate m k i cs b : placed m k i cs b -> forall j g, nth_error (cell_gates k b (wiring cs)) j = Some g -> nth_error (gates_from 0 m) (b + j) = Some g.
Proof.
  intros (m1 & m2 & -> & ->) j g H. rewrite gates_from_app. cbn [gates_from stmt_gates Nat.add].
  rewrite nth_error_app2 by lia. replace (_ + j - _)%nat with j by lia. rewrite nth_error_app1; [exact H|]. apply nth_error_Some. congruence.
Qed.
Lemma placed_mids m k i cs b : placed m k i cs b -> incl (cell_mids k b (wiring cs)) (mids_from 0 m).
Proof.
  intros (m1 & m2 & -> & ->) e E. rewrite mids_from_app. cbn [mids_from stmt_mids Nat.add]. rewrite !in_app_iff. auto.
Qed.
Lemma gate_placed : forall m j g, nth_error (gates_from 0 m) j = Some g ->
  exists k i cs b j', placed m k i cs b /\ j = (b + j')%nat /\ nth_error (cell_gates k b (wiring cs)) j' = Some g.
Proof.
  intros m. induction m as [|st m IH] using rev_ind; intros j g H; [destruct j; discriminate|].
  rewrite gates_from_app in H. cbn [gates_from Nat.add] in H. rewrite app_nil_r in H.
  destruct (Nat.lt_ge_cases j (List.length (gates_from 0 m))) as [L|L].
  - rewrite nth_error_app1 in H by exact L. destruct (IH j g H) as (k & i & cs & b & j' & (m1 & m2 & -> & E) & Ej & N).
    exists k, i, cs, b, j'. split; [|auto]. exists m1, (m2 ++ [st]). rewrite <- app_assoc. auto.
  - rewrite nth_error_app2 in H by exact L. destruct st as [| | | |k i cs]; cbn [stmt_gates] in H; try (destruct (j - _)%nat; discriminate H).
    exists k, i, cs, (List.length (gates_from 0 m)), (j - List.length (gates_from 0 m))%nat. split; [|split; [lia|exact H]].
    exists m, []. auto.
Qed.

(** * One cell *)
Lemma legal_pin k i cs p : legal (Cell k i cs) -> In p (pins_in k) -> exists n, at_pin cs p = Some n /\ pval (wiring cs) p = n.
Proof.
  intros (_ & _ & _ & IN & _) P. specialize (IN p P). unfold pval. rewrite at_pin_wiring. destruct (at_pin cs p) as [n|]; [eauto|congruence].
Qed.
Lemma pval_pin cs p n : at_pin cs p = Some n -> pval (wiring cs) p = n.
Proof. intros H. unfold pval. rewrite at_pin_wiring, H. reflexivity. Qed.
Lemma has_pin cs p : has (wiring cs) p = match at_pin cs p with Some _ => true | None => false end.
Proof. unfold has. rewrite at_pin_wiring. reflexivity. Qed.
Lemma pin_value_pval k i cs p v : legal (Cell k i cs) -> In p (pins_in k) -> pin_value v cs p = v (pval (wiring cs) p).
Proof. intros L P. destruct (legal_pin k i cs p L P) as (n & A & B). unfold pin_value. rewrite A, B. reflexivity. Qed.

Definition gate_holds (v : string -> bool) (g : ReadGateString) : Prop :=
  forall f, bool_fun (gs_type g) = Some f -> v (gs_out g) = f (v (gs_in0 g)) (v (gs_in1 g)).

Ltac all_in := cbn [In pins_in pins_out]; tauto.
Lemma cell_means k i cs b v : legal (Cell k i cs) -> k <> DFF -> (forall g, In g (cell_gates k b (wiring cs)) -> gate_holds v g) ->
  forall p n, In p (pins_out k) -> at_pin cs p = Some n -> v n = library k p (pin_value v cs).
Proof.
  intros L ND H p n P A. pose proof (pval_pin _ _ _ A) as PV. pose proof (has_pin cs p) as HP. rewrite A in HP.
  pose proof (fun q Q => pin_value_pval k i cs q v L Q) as PIN.
  destruct k; try congruence; cbn [pins_out In] in P; decompose [or] P; try contradiction; subst p; cbn [library];
    try change ("SUM" =? "SUM") with true; try change ("COUT" =? "SUM") with false; cbv iota;
    rewrite ?(PIN "A"), ?(PIN "B"), ?(PIN "IN0"), ?(PIN "IN1"), ?(PIN "SEL"), ?(PIN "CIN") by all_in;
    cbn [cell_gates kind_type] in H.
  all: try (rewrite <- PV; specialize (H _ (or_introl eq_refl) _ eq_refl); cbn [gs_out gs_in0 gs_in1] in H; rewrite H;
            first [reflexivity | destruct (v (pval (wiring cs) "A")), (v (pval (wiring cs) "B")); reflexivity]).
  - unfold mux_gates in H.
    pose proof (H _ (or_introl eq_refl) _ eq_refl) as H1. pose proof (H _ (or_intror (or_introl eq_refl)) _ eq_refl) as H2.
    pose proof (H _ (or_intror (or_intror (or_introl eq_refl))) _ eq_refl) as H3. cbn [gs_out gs_in0 gs_in1] in H1, H2, H3.
    rewrite <- PV, H3, H2, H1. destruct (v (pval (wiring cs) "IN0")), (v (pval (wiring cs) "IN1")), (v (pval (wiring cs) "SEL")); reflexivity.
  - unfold hadder_gates in H. rewrite HP in H. specialize (H _ (or_introl eq_refl) _ eq_refl). cbn [gs_out gs_in0 gs_in1] in H. rewrite <- PV, H. reflexivity.
  - unfold hadder_gates in H. rewrite HP in H. pose proof (fun g G => H g (in_or_app _ _ _ (or_intror G))) as HR. clear H. pose proof (HR _ (or_introl eq_refl) _ eq_refl) as H. cbn [gs_out gs_in0 gs_in1] in H. rewrite <- PV, H. reflexivity.
  - unfold fadder_gates in H. rewrite HP in H.
    pose proof (H _ (or_introl eq_refl) _ eq_refl) as H1. pose proof (H _ (or_intror (or_introl eq_refl)) _ eq_refl) as H2. cbn [gs_out gs_in0 gs_in1] in H1, H2.
    rewrite <- PV, H2, H1. destruct (v (pval (wiring cs) "IN0")), (v (pval (wiring cs) "IN1")), (v (pval (wiring cs) "CIN")); reflexivity.
  - unfold fadder_gates in H. rewrite HP in H.
    pose proof (H _ (or_introl eq_refl) _ eq_refl) as H1. 
    pose proof (fun g G => H g (or_intror (in_or_app _ _ _ (or_intror G)))) as HR.
    pose proof (HR _ (or_introl eq_refl) _ eq_refl) as H2. pose proof (HR _ (or_intror (or_introl eq_refl)) _ eq_refl) as H3.
    pose proof (HR _ (or_intror (or_intror (or_introl eq_refl))) _ eq_refl) as H4. cbn [gs_out gs_in0 gs_in1] in H1, H2, H3, H4.
    rewrite <- PV, H4, H3, H2, H1. destruct (v (pval (wiring cs) "IN0")), (v (pval (wiring cs) "IN1")), (v (pval (wiring cs) "CIN")); reflexivity.
Qed.

Lemma cell_holds k i cs b v : legal (Cell k i cs) -> k <> DFF ->
  (forall p n, In p (pins_out k) -> at_pin cs p = Some n -> v n = library k p (pin_value v cs)) ->
  (forall e, In e (cell_mids k b (wiring cs)) -> v (fst e) = snd e v) ->
  forall g, In g (cell_gates k b (wiring cs)) -> gate_holds v g.
Proof.
  intros L ND H M g G f F. pose proof (fun q Q => pin_value_pval k i cs q v L Q) as PIN.
  assert (OUT1 : forall p, pins_out k = [p] -> v (pval (wiring cs) p) = library k p (pin_value v cs)).
  { intros p E. destruct L as (_ & _ & _ & _ & q & Q & A). rewrite E in Q. destruct Q as [<-|[]]. destruct (at_pin cs p) as [n|] eqn:AP; [|congruence].
    rewrite (pval_pin _ _ _ AP). apply H; [rewrite E; cbn; auto|exact AP]. }
  assert (OUT2 : forall p, In p (pins_out k) -> has (wiring cs) p = true -> v (pval (wiring cs) p) = library k p (pin_value v cs)).
  { intros p P HP. rewrite has_pin in HP. destruct (at_pin cs p) as [n|] eqn:AP; [|congruence]. rewrite (pval_pin _ _ _ AP). apply H; auto. }
  destruct k; try congruence; cbn [cell_gates kind_type] in G.
  all: try (destruct G as [<-|[]]; injection F as <-; cbn [gs_out gs_in0 gs_in1]; rewrite (OUT1 "Z" eq_refl); cbn [library];
            rewrite ?(PIN "A"), ?(PIN "B") by all_in;
            first [reflexivity | destruct (v (pval (wiring cs) "A")), (v (pval (wiring cs) "B")); reflexivity]).
  - cbn [cell_mids] in M. pose proof (M _ (or_introl eq_refl)) as M1. pose proof (M _ (or_intror (or_introl eq_refl))) as M2. cbn [fst snd] in M1, M2.
    destruct G as [<-|[<-|[<-|[]]]]; injection F as <-; cbn [gs_out gs_in0 gs_in1].
    + exact M1.
    + rewrite M2, M1. reflexivity.
    + rewrite (OUT1 "F" eq_refl), M2. cbn [library]. rewrite ?(PIN "IN0"), ?(PIN "IN1"), ?(PIN "SEL") by all_in.
      destruct (v (pval (wiring cs) "IN0")), (v (pval (wiring cs) "IN1")), (v (pval (wiring cs) "SEL")); reflexivity.
  - unfold hadder_gates in G. apply in_app_or in G as [G|G].
    + destruct (has (wiring cs) "SUM") eqn:HP; [|contradiction]. destruct G as [<-|[]]. injection F as <-. cbn [gs_out gs_in0 gs_in1].
      rewrite (OUT2 "SUM") by (auto; all_in). cbn [library]. change ("SUM" =? "SUM") with true. cbv iota. rewrite ?(PIN "IN0"), ?(PIN "IN1") by all_in. reflexivity.
    + destruct (has (wiring cs) "COUT") eqn:HP; [|contradiction]. destruct G as [<-|[]]. injection F as <-. cbn [gs_out gs_in0 gs_in1].
      rewrite (OUT2 "COUT") by (auto; all_in). cbn [library]. change ("COUT" =? "SUM") with false. cbv iota. rewrite ?(PIN "IN0"), ?(PIN "IN1") by all_in. reflexivity.
  - unfold fadder_gates in G. cbn [cell_mids] in M. pose proof (M _ (or_introl eq_refl)) as M1. cbn [fst snd] in M1.
    apply in_app_or in G as [[<-|[]]|G]; [injection F as <-; exact M1|]. apply in_app_or in G as [G|G].
    + destruct (has (wiring cs) "SUM") eqn:HP; [|contradiction]. destruct G as [<-|[]]. injection F as <-. cbn [gs_out gs_in0 gs_in1].
      rewrite (OUT2 "SUM") by (auto; all_in). cbn [library]. change ("SUM" =? "SUM") with true. cbv iota. rewrite ?(PIN "IN0"), ?(PIN "IN1"), ?(PIN "CIN"), M1 by all_in.
      destruct (v (pval (wiring cs) "IN0")), (v (pval (wiring cs) "IN1")), (v (pval (wiring cs) "CIN")); reflexivity.
    + destruct (has (wiring cs) "COUT") eqn:HP; [|contradiction].
      pose proof (M _ (or_intror (or_introl eq_refl))) as M2. pose proof (M _ (or_intror (or_intror (or_introl eq_refl)))) as M3. cbn [fst snd] in M2, M3.
      destruct G as [<-|[<-|[<-|[]]]]; injection F as <-; cbn [gs_out gs_in0 gs_in1].
      * exact M2.
      * rewrite M3, M1, M2. reflexivity.
      * rewrite (OUT2 "COUT") by (auto; all_in). cbn [library]. change ("COUT" =? "SUM") with false. cbv iota. rewrite ?(PIN "IN0"), ?(PIN "IN1"), ?(PIN "CIN"), M3 by all_in.
        destruct (v (pval (wiring cs) "IN0")), (v (pval (wiring cs) "IN1")), (v (pval (wiring cs) "CIN")); reflexivity.
Qed.
