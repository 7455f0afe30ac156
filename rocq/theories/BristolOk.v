(** Files in Bristol format are translated to circuits that compute what they say. *)
From Coq Require Import ZArith NArith List Bool Lia Ascii String.
From Verif Require Import Base Gate Circuit Spec Text Sort Netlist NetlistOk Scd Front Parse VerilogOk Bristol.
Import ListNotations.
Open Scope string_scope.
Open Scope list_scope.
Open Scope Z_scope.

(** * Reading the words *)
Lemma stops_no_digit t : stops t -> no_digit t.
Proof.
  destruct t as [|c t]; cbn; [auto|]. intros S. destruct (char_digit c) eqn:E; [|reflexivity].
  rewrite digit_not_space in S; [discriminate|]. exists n. exact E.
Qed.
Lemma read_num n ws t old : Z.of_nat n < 2 ^ 64 -> spaced (num n :: ws) t ->
  exists t', extract_u64 (mkS t true) old = (Z.of_nat n, mkS t' true) /\ spaced ws t'.
Proof.
  intros B S. inversion S as [|b w ws' r BL NE F ST SP]; subst. exists r. split; [|exact SP].
  unfold extract_u64, num. rewrite extract_nat; [do 2 f_equal; lia|exact BL|apply stops_no_digit; exact ST|lia|lia].
Qed.
Lemma span_word_app w t : Forall (fun c => is_space c = false) w -> stops t -> span_word (w ++ t) = (w, t).
Proof.
  induction 1 as [|c w C F IH]; intros S; cbn [app span_word].
  - destruct t as [|c t]; [reflexivity|]. cbn in *. rewrite S. reflexivity.
  - rewrite C, (IH S). reflexivity.
Qed.
Lemma read_word w ws t old : spaced (w :: ws) t -> exists t', extract_word (mkS t true) old = (w, mkS t' true) /\ spaced ws t'.
Proof.
  intros S. inversion S as [|b w' ws' r BL NE F ST SP]; subst. exists r. split; [|exact SP].
  unfold extract_word. cbn [good rest negb]. rewrite skip_ws_app by exact BL.
  destruct w as [|c w]; [congruence|]. inversion F as [|? ? C F']; subst. cbn [app skip_ws]. rewrite C.
  change (c :: w ++ r) with ((c :: w) ++ r). rewrite span_word_app by (auto using Forall_cons). reflexivity.
Qed.
Lemma skip_blank t : blank t -> skip_ws t = [].
Proof. induction 1 as [|c t C F IH]; cbn; [reflexivity|]. rewrite C. exact IH. Qed.

(** * Names *)
Definition wname (b : bristol) (w : nat) : string :=
  if (w <? b_g b)%nat then elem "g_input" w
  else if (w <? b_g b + b_e b)%nat then elem "e_input" (w - b_g b)
  else if (b_wires b - b_o b <=? w)%nat then elem "o" (w - (b_wires b - b_o b))
  else ("w" ++ to_string w)%string.
Lemma app_str_inj_r (a b p : string) : (a ++ p)%string = (b ++ p)%string -> a = b.
Proof.
  intros E. apply (f_equal list_ascii_of_string) in E.
  assert (A : forall x y, list_ascii_of_string (x ++ y)%string = list_ascii_of_string x ++ list_ascii_of_string y) by (induction x; intros; cbn; [|rewrite IHx]; reflexivity).
  rewrite !A in E. apply app_inv_tail in E. rewrite <- (string_of_list_ascii_of_string a), E. apply string_of_list_ascii_of_string.
Qed.
Lemma elem_inj p i j : elem p i = elem p j -> i = j.
Proof. unfold elem. intros E. apply app_str_inj, app_str_inj, app_str_inj_r in E. apply to_string_inj in E. exact E. Qed.

Section Valid.
Variable b : bristol.
Hypothesis BV : b_valid b.
Notation ins := (b_g b + b_e b)%nat.

Lemma ins_le : (ins < b_wires b)%nat.
Proof. pose proof (bv_some b BV). destruct (b_gates b) as [|g l] eqn:E; [congruence|]. pose proof (bv_range b BV g). rewrite E in H0. specialize (H0 (or_introl eq_refl)). lia. Qed.
Lemma outs_above i : (i < b_o b)%nat -> (ins <= b_wires b - b_o b + i)%nat.
Proof. intros H. destruct (bv_outputs b BV) as [_ O]. specialize (O i H). apply in_map_iff in O as (g & <- & G). apply (bv_range b BV g G). Qed.
Lemma outs_start : (ins <= b_wires b - b_o b)%nat.
Proof. pose proof ins_le. destruct (b_o b) eqn:E; [lia|]. pose proof (outs_above 0). lia. Qed.
Lemma wire_name w : (w < b_wires b)%nat ->
  GetBristWire (Z.of_nat w) (Z.of_nat (b_wires b)) (Z.of_nat (b_g b)) (Z.of_nat (b_e b)) (Z.of_nat (b_o b)) = wname b w.
Proof.
  intros H. pose proof ins_le. pose proof outs_start. pose proof (bv_size b BV). destruct (bv_outputs b BV) as [OW _]. unfold GetBristWire, wname, w64.
  destruct (Z.ltb_spec (Z.of_nat w) (Z.of_nat (b_g b))), (Nat.ltb_spec w (b_g b)); try lia; [f_equal; lia|].
  rewrite (Z.mod_small (Z.of_nat (b_g b) + Z.of_nat (b_e b))) by lia.
  destruct (Z.ltb_spec (Z.of_nat w) (Z.of_nat (b_g b) + Z.of_nat (b_e b))), (Nat.ltb_spec w ins); try lia.
  - rewrite Z.mod_small by lia. f_equal. lia.
  - rewrite (Z.mod_small (Z.of_nat (b_wires b) - Z.of_nat (b_o b))) by lia.
    destruct (Z.leb_spec (Z.of_nat (b_wires b) - Z.of_nat (b_o b)) (Z.of_nat w)), (Nat.leb_spec (b_wires b - b_o b) w); try lia.
    + rewrite Z.mod_small by lia. f_equal. lia.
    + rewrite Nat2Z.id. reflexivity.
Qed.
Lemma wname_inj u v : wname b u = wname b v -> u = v.
Proof.
  unfold wname.
  destruct (Nat.ltb_spec u (b_g b)), (Nat.ltb_spec v (b_g b)); try (intros E; apply elem_inj in E; lia);
  destruct (Nat.ltb_spec u ins), (Nat.ltb_spec v ins); try lia; try (intros E; apply elem_inj in E; lia);
  try (destruct (Nat.leb_spec (b_wires b - b_o b) u)); try (destruct (Nat.leb_spec (b_wires b - b_o b) v));
  try (intros E; discriminate E); try (intros E; apply elem_inj in E; lia).
  intros E. apply app_str_inj, to_string_inj in E. exact E.
Qed.

(** * Parsing *)
Definition net_gate (g : bgate) : ReadGateString :=
  match g with
  | INV a o => mkRGS (wname b a) "" (wname b o) NOTGATE
  | XOR a c o => mkRGS (wname b a) (wname b c) (wname b o) XORGATE
  | AND a c o => mkRGS (wname b a) (wname b c) (wname b o) ANDGATE
  end.
Definition net : ReadCircuitString := mkRCS (map net_gate (b_gates b)) [] [] 0 0 0 0 (b_g b) (b_e b) (b_o b) false.

Lemma in_range l g r a : b_gates b = l ++ g :: r -> In a (bg_ins g) -> (a < b_wires b)%nat.
Proof.
  intros E I. pose proof ins_le. destruct (bv_order b BV l g r E a I) as [L|L]; [lia|].
  apply in_map_iff in L as (h & <- & L). apply (bv_range b BV h). rewrite E. apply in_or_app. auto.
Qed.
Lemma out_range g : In g (b_gates b) -> (bg_out g < b_wires b)%nat.
Proof. intros H. apply (bv_range b BV g H). Qed.
Notation PG := (fun j s => bris_gate j (Z.of_nat (b_wires b)) (Z.of_nat (b_g b)) (Z.of_nat (b_e b)) (Z.of_nat (b_o b)) s).
Lemma parse_gate j l g r ws t : b_gates b = l ++ g :: r -> spaced (gate_words g ++ ws) t ->
  exists t', PG j (mkS t true) = Some (net_gate g, mkS t' true) /\ spaced ws t'.
Proof.
  intros E S. pose proof (bv_size b BV) as SZ.
  assert (OG : (bg_out g < b_wires b)%nat) by (apply out_range; rewrite E; apply in_or_app; right; left; reflexivity).
  assert (IG : forall a, In a (bg_ins g) -> (a < b_wires b)%nat) by (intros a; apply (in_range l g r a E)).
  destruct g as [a o|a c o|a c o]; cbn [gate_words app bg_out bg_ins] in *; unfold bris_gate.
  - assert (a < b_wires b)%nat by (apply IG; cbn; auto).
    apply (read_num 1 _ _ (j 0%nat)) in S as (t1 & -> & S); [|lia]. apply (read_num 1 _ _ (j 1%nat)) in S as (t2 & -> & S); [|lia].
    apply (read_num a _ _ (j 2%nat)) in S as (t3 & -> & S); [|lia]. cbn [Z.of_nat Z.eqb Pos.of_succ_nat Pos.eqb].
    apply (read_num o _ _ (j 4%nat)) in S as (t4 & -> & S); [|lia]. apply (read_word _ _ _ []) in S as (t5 & -> & S).
    exists t5. split; [|exact S]. cbn [Z.ltb Z.compare Pos.compare Pos.compare_cont net_gate]. rewrite !wire_name by assumption. reflexivity.
  - assert (a < b_wires b /\ c < b_wires b)%nat as [? ?] by (split; apply IG; cbn; auto).
    apply (read_num 2 _ _ (j 0%nat)) in S as (t1 & -> & S); [|lia]. apply (read_num 1 _ _ (j 1%nat)) in S as (t2 & -> & S); [|lia].
    apply (read_num a _ _ (j 2%nat)) in S as (t3 & -> & S); [|lia]. cbn [Z.of_nat Z.eqb Pos.of_succ_nat Pos.succ Pos.eqb].
    apply (read_num c _ _ (j 3%nat)) in S as (t6 & -> & S); [|lia].
    apply (read_num o _ _ (j 4%nat)) in S as (t4 & -> & S); [|lia]. apply (read_word _ _ _ []) in S as (t5 & -> & S).
    exists t5. split; [|exact S]. cbn [Z.ltb Z.compare Pos.compare Pos.compare_cont net_gate]. rewrite !wire_name by assumption. reflexivity.
  - assert (a < b_wires b /\ c < b_wires b)%nat as [? ?] by (split; apply IG; cbn; auto).
    apply (read_num 2 _ _ (j 0%nat)) in S as (t1 & -> & S); [|lia]. apply (read_num 1 _ _ (j 1%nat)) in S as (t2 & -> & S); [|lia].
    apply (read_num a _ _ (j 2%nat)) in S as (t3 & -> & S); [|lia]. cbn [Z.of_nat Z.eqb Pos.of_succ_nat Pos.succ Pos.eqb].
    apply (read_num c _ _ (j 3%nat)) in S as (t6 & -> & S); [|lia].
    apply (read_num o _ _ (j 4%nat)) in S as (t4 & -> & S); [|lia]. apply (read_word _ _ _ []) in S as (t5 & -> & S).
    exists t5. split; [|exact S]. cbn [Z.ltb Z.compare Pos.compare Pos.compare_cont net_gate]. rewrite !wire_name by assumption. reflexivity.
Qed.
Lemma parse_gates junk ws : forall r l t, b_gates b = l ++ r -> spaced (flat_map gate_words r ++ ws) t ->
  bris_gates junk (Z.of_nat (b_wires b)) (Z.of_nat (b_g b)) (Z.of_nat (b_e b)) (Z.of_nat (b_o b)) (List.length r) (mkS t true) = Some (map net_gate r).
Proof.
  induction r as [|g r IH]; intros l t E S; [reflexivity|]. cbn [flat_map List.length bris_gates map] in *. rewrite <- app_assoc in S.
  destruct (parse_gate (junk (List.length r)) l g r _ t E S) as (t' & -> & S'). rewrite (IH (l ++ [g]) t'); [reflexivity| |exact S'].
  rewrite <- app_assoc. exact E.
Qed.
Lemma nodup_length (l : list nat) n : NoDup l -> (forall x, In x l -> (x < n)%nat) -> (List.length l <= n)%nat.
Proof. intros ND H. rewrite <- (seq_length n 0). apply NoDup_incl_length; [exact ND|]. intros x I. apply in_seq. specialize (H x I). lia. Qed.
Lemma gates_few : (List.length (b_gates b) <= b_wires b - ins)%nat.
Proof.
  rewrite <- (map_length bg_out), <- (map_length (fun w => w - ins)%nat). apply nodup_length.
  - pose proof (bv_single b BV) as ND. pose proof (bv_range b BV) as R. revert ND R. induction (b_gates b) as [|g l IH]; cbn; [constructor|].
    intros ND R. inversion ND as [|? ? N ND']; subst. constructor; [|apply IH; auto]. intros I. apply in_map_iff in I as (w & EW & I). apply N.
    pose proof (R g (or_introl eq_refl)). assert (ins <= w)%nat; [|replace (bg_out g) with w by lia; exact I].
    apply in_map_iff in I as (h & <- & I). apply R. auto.
  - intros x I. apply in_map_iff in I as (w & <- & I). apply in_map_iff in I as (g & <- & I). pose proof (bv_range b BV g I). lia.
Qed.
Theorem parse_bristol log junk0 junk t ws : spaced (bristol_words b ++ ws) t -> ParseBrisNetlist log junk0 junk (Some t) = Some net.
Proof.
  intros S. pose proof (bv_size b BV) as SZ. pose proof ins_le. pose proof gates_few. destruct (bv_outputs b BV) as [OW _].
  unfold bristol_words in S. cbn [app] in S. unfold ParseBrisNetlist.
  apply (read_num _ _ _ (junk0 0%nat)) in S as (t1 & -> & S); [|lia]. apply (read_num _ _ _ (junk0 1%nat)) in S as (t2 & -> & S); [|lia].
  destruct (Z.eqb_spec (Z.of_nat (List.length (b_gates b))) 0) as [L|L]. { exfalso. apply (bv_some b BV). destruct (b_gates b); [reflexivity|cbn in L; lia]. }
  destruct (Z.eqb_spec (Z.of_nat (b_wires b)) 0); [lia|]. cbn [negb andb]. rewrite andb_false_r.
  apply (read_num _ _ _ 0) in S as (t3 & -> & S); [|lia]. apply (read_num _ _ _ 0) in S as (t4 & -> & S); [|lia].
  apply (read_num _ _ _ 0) in S as (t5 & -> & S); [|lia]. rewrite !Nat2Z.id. rewrite (parse_gates junk ws (b_gates b) [] t5 eq_refl S). reflexivity.
Qed.

(** * The netlist is in order *)
Definition first (s : string) : option ascii := match s with EmptyString => None | String c _ => Some c end.
Lemma port_first p n x : p <> "" -> In x (port_names p n) -> first x = first p.
Proof.
  intros NE I. unfold port_names in I. apply in_app_iff in I as [I|I].
  - destruct (n =? 1)%nat; [|destruct I]. destruct I as [<-|[]]. reflexivity.
  - apply in_map_iff in I as (i & <- & _). destruct p; [congruence|reflexivity].
Qed.
Lemma port_nodup p n : NoDup (port_names p n).
Proof.
  unfold port_names. apply nodup_app.
  - destruct (n =? 1)%nat; repeat constructor; auto.
  - apply FinFun.Injective_map_NoDup; [intros i j; apply elem_inj|apply seq_NoDup].
  - destruct (n =? 1)%nat; cbn; [|tauto]. intros x [<-|[]] I. apply in_map_iff in I as (i & E & _). unfold elem in E.
    assert (A : forall a c : string, (a ++ c)%string = a -> c = EmptyString) by (induction a; cbn; intros c H; [exact H|injection H; auto]).
    apply A in E. discriminate E.
Qed.
Lemma wname_first w : (ins <= w)%nat -> first (wname b w) = Some "o"%char \/ first (wname b w) = Some "w"%char.
Proof.
  intros H. unfold wname. destruct (Nat.ltb_spec w (b_g b)); [lia|]. destruct (Nat.ltb_spec w ins); [lia|].
  destruct (b_wires b - b_o b <=? w)%nat; [left|right]; reflexivity.
Qed.
Lemma net_out g : gs_out (net_gate g) = wname b (bg_out g).
Proof. destruct g; reflexivity. Qed.
Lemma cells : cell_names net = map (fun g => wname b (bg_out g)) (b_gates b).
Proof. unfold cell_names. cbn [net dff_list_string gate_list_string map app]. rewrite map_map. apply map_ext. apply net_out. Qed.
Lemma input_named w : (w < ins)%nat -> In (wname b w) (input_names net).
Proof.
  intros H. unfold input_names, net, wname. cbn [s_p_input s_g_input s_e_input]. rewrite !in_app_iff. unfold port_names. destruct (Nat.ltb_spec w (b_g b)) as [L|L].
  - right. left. apply in_app_iff. right. apply in_map. apply in_seq. lia.
  - destruct (Nat.ltb_spec w ins) as [M|M]; [|lia]. right. right. apply in_app_iff. right. apply in_map. apply in_seq. lia.
Qed.
Lemma cell_named w : In w (map bg_out (b_gates b)) -> In (wname b w) (cell_names net).
Proof. intros H. rewrite cells. apply in_map_iff in H as (g & <- & G). apply in_map_iff. eauto. Qed.
Lemma read_named l g r n : b_gates b = l ++ g :: r -> n = gs_in0 (net_gate g) \/ n = gs_in1 (net_gate g) ->
  (exists a, In a (bg_ins g) /\ n = wname b a) \/ n = "".
Proof. intros _ H. destruct g; cbn in *; destruct H as [-> | ->]; eauto 6. Qed.
Theorem net_well_named : well_named net.
Proof.
  assert (RT : forall n, root_of net n = n) by reflexivity.
  split.
  - unfold declared. assert (EI : init_names net = []) by reflexivity. rewrite EI. cbn [app].
    assert (FI : forall x, In x (input_names net) -> first x = Some "g"%char \/ first x = Some "e"%char).
    { unfold input_names. cbn [net s_p_input s_g_input s_e_input]. intros x I. rewrite !in_app_iff in I. destruct I as [[]|[I|I]]; apply port_first in I; try discriminate; auto. }
    assert (FC : forall x, In x (cell_names net) -> first x = Some "o"%char \/ first x = Some "w"%char).
    { intros x I. rewrite cells in I. apply in_map_iff in I as (g & <- & G). apply wname_first. apply (bv_range b BV g G). }
    assert (FK : forall x, In x const_names -> first x = None \/ first x = Some "1"%char) by (intros x [<-|[<-|[<-|[]]]]; auto).
    apply nodup_app; [|apply nodup_app|].
    + unfold input_names. cbn [net s_p_input s_g_input s_e_input]. cbn [port_names Nat.eqb seq map app]. apply nodup_app; [apply port_nodup|apply port_nodup|].
      intros x I J. apply port_first in I; [|discriminate]. apply port_first in J; [|discriminate]. rewrite I in J. discriminate.
    + rewrite cells. rewrite <- (map_map bg_out (wname b)). apply FinFun.Injective_map_NoDup; [intros u v; apply wname_inj|apply (bv_single b BV)].
    + repeat constructor; cbn; intuition discriminate.
    + intros x I J. apply FC in I. apply FK in J. destruct I as [I|I], J as [J|J]; congruence.
    + intros x I J. apply FI in I. apply in_app_or in J as [J|J]; [apply FC in J|apply FK in J]; destruct I as [I|I], J as [J|J]; congruence.
  - intros l a c r E. destruct l; discriminate.
  - pose proof (bv_some b BV). destruct (b_gates b) as [|g l] eqn:E; [congruence|].
    assert (G : exists a, In a (bg_ins g)) by (destruct g; cbn; eauto). destruct G as [a I].
    destruct (bv_order b BV [] g l E a I) as [L|[]]. exists (wname b a). rewrite !in_app_iff. right. left. apply input_named. exact L.
  - intros g I. cbn [net gate_list_string] in I. apply in_map_iff in I as (h & <- & I). split.
    + destruct h; cbn; eauto.
    + intros n N. rewrite RT, !in_app_iff. apply in_split in I as (l & r & E). destruct (read_named l h r n E N) as [(a & A & ->)| ->]; [|cbn; auto].
      destruct (bv_order b BV l h r E a A) as [L|L]; [left; apply input_named; exact L|]. right. left. apply cell_named. rewrite E, map_app. apply in_or_app. auto.
  - intros d [].
  - intros i n L ON. rewrite RT. cbn [net s_output] in L. apply in_or_app. right.
    assert (X : In (elem "o" i) (cell_names net)).
    { destruct (bv_outputs b BV) as [OW O]. specialize (O i L). apply cell_named in O. unfold wname in O. pose proof (outs_above i L).
      destruct (Nat.ltb_spec (b_wires b - b_o b + i) (b_g b)); [lia|]. destruct (Nat.ltb_spec (b_wires b - b_o b + i) ins); [lia|].
      destruct (Nat.leb_spec (b_wires b - b_o b) (b_wires b - b_o b + i)); [|lia].
      replace (b_wires b - b_o b + i - (b_wires b - b_o b))%nat with i in O by lia. exact O. }
    unfold output_name in ON. cbn [net s_output] in ON. destruct (Nat.eqb_spec (b_o b) 1) as [E|E].
    + assert (i = O) by lia. subst i. change (elem "o" 0) with "o[0]" in X. destruct ON as [->|[-> ND]]; [exact X|]. exfalso. apply ND. rewrite RT. unfold declared. rewrite !in_app_iff. auto.
    + subst n. exact X.
  - discriminate.
Qed.
Lemma reads_earlier i j : gate_reads net i j -> (j < i)%nat.
Proof.
  intros (g & h & G & H & R). cbn [net gate_list_string] in G, H. rewrite nth_error_map in G, H.
  destruct (nth_error (b_gates b) i) as [g'|] eqn:EG; [|discriminate]. destruct (nth_error (b_gates b) j) as [h'|] eqn:EH; [|discriminate].
  injection G as <-. injection H as <-. change (root_of net) with (fun n : string => n) in R. cbv beta in R. rewrite net_out in R.
  apply nth_error_split in EG as (l & r & E & LL).
  assert (X : exists n, (n = gs_in0 (net_gate g') \/ n = gs_in1 (net_gate g')) /\ n = wname b (bg_out h')) by (destruct R; eauto).
  destruct X as (n & N & EN). assert (RG : In h' (b_gates b)) by (eapply nth_error_In; eauto).
  destruct (read_named l g' r n E N) as [(a & A & ->)| ->].
  - apply wname_inj in EN. subst a. destruct (bv_order b BV l g' r E _ A) as [L|L]; [pose proof (bv_range b BV h' RG); lia|].
    destruct (Nat.lt_ge_cases j i) as [|GE]; [assumption|exfalso]. pose proof (bv_single b BV) as ND. rewrite E, map_app in ND. rewrite E in EH.
    rewrite nth_error_app2 in EH by lia. apply nth_error_In in EH. apply (in_map bg_out) in EH.
    revert ND L EH. generalize (map bg_out l) as u. generalize (map bg_out (g' :: r)) as v. clear. induction u as [|y u IH]; cbn; [tauto|].
    intros ND [->|L] EH; inversion ND as [|? ? N ND']; subst; [|auto]. apply N. apply in_or_app. auto.
  - exfalso. destruct (wname_first (bg_out h')); [apply (bv_range b BV h' RG)| |]; rewrite <- EN in H; discriminate.
Qed.
Lemma no_loop : ~ combinational_loop net.
Proof.
  intros [i L]. assert (X : forall i j, gate_depends net i j -> (j < i)%nat). { induction 1 as [? ? R|? ? ? R _ IH]; apply reads_earlier in R; lia. }
  apply X in L. lia.
Qed.
Lemma net_small : small net.
Proof.
  unfold small. cbn [net s_p_init s_g_init s_e_init s_p_input s_g_input s_e_input dff_list_string gate_list_string s_output List.length]. rewrite map_length.
  pose proof gates_few. pose proof ins_le. pose proof (bv_size b BV). destruct (bv_outputs b BV) as [OW _]. lia.
Qed.

(** * What the netlist computes *)
Section Values.
Variables (x : inputs) (U : nat -> string -> bool).
Hypothesis NC : net_consistent net x U.
Variable cy : nat.
Notation gin := (fun j => bit (g_input x) (cy * b_g b + j)).
Notation ein := (fun j => bit (e_input x) (cy * b_e b + j)).
Notation W0 := (fun w => if (w <? b_g b)%nat then gin w else ein (w - b_g b)%nat).
Lemma values : forall r l, b_gates b = l ++ r -> forall W, (forall w, (w < ins)%nat \/ In w (map bg_out l) -> W w = U cy (wname b w)) ->
  forall w, (w < ins)%nat \/ In w (map bg_out (b_gates b)) -> fold_left b_step r W w = U cy (wname b w).
Proof.
  induction r as [|g r IH]; intros l E W H w Hw. { rewrite app_nil_r in E. rewrite E in Hw. apply H. exact Hw. }
  cbn [fold_left]. apply (IH (l ++ [g])); [rewrite <- app_assoc; exact E| |exact Hw].
  assert (RI : forall a, In a (bg_ins g) -> W a = U cy (wname b a)) by (intros a A; apply H; apply (bv_order b BV l g r E a A)).
  intros v Hv. unfold b_step. destruct (Nat.eqb_spec v (bg_out g)) as [->|NV].
  - assert (G : In (net_gate g) (gate_list_string net)) by (cbn; apply in_map; rewrite E; apply in_or_app; right; left; reflexivity).
    rewrite <- net_out. destruct g as [a o|a c o|a c o]; cbn [b_apply net_gate] in *.
    + rewrite (nc_gate _ _ _ NC cy _ (fun a _ => negb a) G eq_refl). cbn. rewrite RI by (cbn; auto). reflexivity.
    + rewrite (nc_gate _ _ _ NC cy _ xorb G eq_refl). cbn. rewrite !RI by (cbn; auto). reflexivity.
    + rewrite (nc_gate _ _ _ NC cy _ (fun a b => a && b) G eq_refl). cbn. rewrite !RI by (cbn; auto). reflexivity.
  - apply H. destruct Hv as [Hv|Hv]; [auto|]. rewrite map_app, in_app_iff in Hv. cbn in Hv. intuition.
Qed.
Lemma b_run_ok w : (w < ins)%nat \/ In w (map bg_out (b_gates b)) -> b_run b gin ein w = U cy (wname b w).
Proof.
  intros H. unfold b_run. apply (values (b_gates b) [] eq_refl); [|exact H]. intros v [Hv|[]].
  destruct (nc_input _ _ _ NC cy) as (_ & [GI _] & [EI _]). cbn [net s_g_input s_e_input] in GI, EI. unfold wname.
  destruct (Nat.ltb_spec v (b_g b)); [symmetry; apply GI; assumption|]. destruct (Nat.ltb_spec v ins); [|lia]. symmetry. apply EI. lia.
Qed.
End Values.
End Valid.

Theorem bristol_reads b t ws : b_valid b -> spaced (bristol_words b ++ ws) t ->
  exists file c, (forall log junk0 junk, Bris2SCD log junk0 junk (Some t) = Done file) /\ (forall junk, ReadSCD junk file = c) /\ runs_bristol c b.
Proof.
  intros BV S. destruct (translate_reads (net b) (net_well_named b BV) (net_small b BV) (no_loop b BV)) as (file & c & T & RD & IM).
  exists file, c. split; [|split; [exact RD|]].
  - intros. unfold Bris2SCD. rewrite (parse_bristol b BV log junk0 junk t ws S), T. reflexivity.
  - destruct IM as [WF (Z1 & Z2 & Z3 & Z4 & Z5 & Z6 & Z7 & Z8 & Z9) TM SO VA]. split; [exact WF| | |].
    + cbn [net s_p_init s_g_init s_e_init s_p_input s_g_input s_e_input dff_list_string gate_list_string s_output List.length] in *. rewrite map_length in Z9. auto 12.
    + apply TM. reflexivity.
    + intros x V C cy i Hi. destruct (SO x) as [U NC]. destruct (VA x U V NC C cy) as [VO _].
      assert (ON : output_name (net b) i (elem "o" i)). { unfold output_name. cbn [net s_output]. destruct (Nat.eqb_spec (b_o b) 1); [|reflexivity]. left. replace i with O by lia. reflexivity. }
      destruct (VO i _ Hi ON) as (w & EW & EV). rewrite (nth_error_nth _ _ 0 EW), EV. unfold b_output.
      destruct (bv_outputs b BV) as [OW O]. specialize (O i Hi). rewrite (b_run_ok b BV x U NC cy) by auto. f_equal. unfold wname. pose proof (outs_above b BV i Hi).
      destruct (Nat.ltb_spec (b_wires b - b_o b + i) (b_g b)); [lia|]. destruct (Nat.ltb_spec (b_wires b - b_o b + i) (b_g b + b_e b)); [lia|].
      destruct (Nat.leb_spec (b_wires b - b_o b) (b_wires b - b_o b + i)); [|lia]. f_equal. lia.
Qed.
