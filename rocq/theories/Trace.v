(** The trace of internal values that the plaintext evaluator writes (scd/scd_evaluator.cpp). *)
From Coq Require Import ZArith NArith List Bool Lia Ascii String.
From Verif Require Import Base Gate Circuit Spec Fanout GateFacts Phase1 Phase2 Prefix Plain Sort SortOk Text Netlist NetlistOk Scd Front MapFile.
Import ListNotations.
Open Scope Z_scope.

(** * Model *)

(** The lines that repeated calls of getline deliver. *)
Fixpoint lines_of (t : text) : list text :=
  match t with
  | [] => []
  | c :: t' => if Ascii.eqb c nl then [] :: lines_of t'
               else match lines_of t' with [] => [[c]] | l :: ls => (c :: l) :: ls end
  end.
(** boost::tokenizer with char_separator(" \t") (scd_evaluator.cpp:69, 219-220):
    empty tokens are dropped.  The next token and what is left, [None] when there is
    no more token (using the iterator then is undefined). *)
Definition tab : ascii := "009"%char.
Definition is_sep (c : ascii) : bool := Ascii.eqb c sp || Ascii.eqb c tab.
Fixpoint drop_sep (t : text) : text := match t with c :: t' => if is_sep c then drop_sep t' else t | [] => [] end.
Fixpoint span_tok (t : text) : text * text :=
  match t with
  | [] => ([], [])
  | c :: t' => if is_sep c then ([], t) else let (a, r) := span_tok t' in (c :: a, r)
  end.
Definition token (t : text) : option (text * text) :=
  match drop_sep t with [] => None | t => Some (span_tok t) end.
(** atoi; undefined ([None]) when the number is not an int. *)
Definition atoi (t : text) : option Z :=
  let (neg, t) := split_sign (skip_ws t) in
  let '(v, _, _) := span_digits 0 t in
  let z := if (neg : bool) then - Z.of_N v else Z.of_N v in
  if (- 2 ^ 31 <=? z) && (z <? 2 ^ 31) then Some z else None.
Definition word_terminate : text := list_ascii_of_string "terminate".
Fixpoint text_eqb (a b : text) : bool :=
  match a, b with
  | [], [] => true
  | x :: a, y :: b => Ascii.eqb x y && text_eqb a b
  | _, _ => false
  end.
Definition comma : text := list_ascii_of_string ", ".

(** scd_evaluator.cpp:218-224 *)
Fixpoint csv_names (ls : list text) : option text :=
  match ls with
  | [] => Some []
  | l :: ls =>
    do '(n, _) <- token l;
    if text_eqb n word_terminate then Some []
    else do r <- csv_names ls; Some (n ++ [tab] ++ r)
  end.
(** scd_evaluator.cpp:231-238 *)
Fixpoint csv_values (wl : list bool) (ls : list text) : option text :=
  match ls with
  | [] => Some []
  | l :: ls =>
    do '(n, l') <- token l;
    if text_eqb n word_terminate then Some []
    else do '(ix, _) <- token l';
         do k <- atoi ix;
         do v <- rd wl k;
         do r <- csv_values wl ls; Some ([if (v : bool) then "1"%char else "0"%char] ++ comma ++ r)
  end.
(** scd_evaluator.cpp:215-242: what is appended to the file in cycle [cid].  The
    mapping file is read again from the start each time. *)
Definition csv_cycle (mapf : text) (cid : nat) (wl : list bool) : option text :=
  do h <- (match cid with
           | O => do ns <- csv_names (lines_of mapf); Some (list_ascii_of_string "cid, " ++ ns ++ [nl])
           | S _ => Some []
           end);
  do vs <- csv_values wl (lines_of mapf);
  Some (h ++ dec_nat cid ++ comma ++ vs ++ [nl]).

Section Model.
Variable c : GarbledCircuit.
Variable x : inputs.
(** scd_evaluator.cpp:73-243 with the trace: a cycle that terminates the run leaves
    the loop (205) before it is written. *)
Fixpoint tr_loop (mapf : text) (period : Z) (n cid : nat) (st : list bool * list bool) (out : N) (csv : text)
  : option (N * nat * text) :=
  match n with
  | O => Some (out, cid, csv)
  | S n' =>
    do st' <- pl_cycle c x cid st;
    do out' <- for_ (output_size c) (pl_out_body c (fst st') cid) out;
    do stop <- (if inspected c period cid then rd (fst st') (terminate_id c) else Some false);
    if (stop : bool) then Some (out', S cid, csv)
    else do l <- csv_cycle mapf cid (fst st'); tr_loop mapf period n' (S cid) st' out' (csv ++ l)
  end.
(** scd_evaluator.cpp:32-252 with the mapping file ([None]: cannot be opened); [sim]:
    the trace file can be opened.  Result: SUCCESS, outputs, cycles, trace file. *)
Definition EvalauatePlaintextFiles (mapf : option text) (sim : bool) (clock_cycles : nat) (period : Z) (wl0 ll0 : list bool)
  : option (bool * N * nat * option text) :=
  match mapf with
  | Some m =>
    if sim then do '(out, n, csv) <- tr_loop m period clock_cycles 0 (wl0, ll0) 0%N []; Some (true, out, n, Some csv)
    else Some (false, 0%N, clock_cycles, None)
  | None => Some (false, 0%N, clock_cycles, None)
  end.
End Model.

(** The outputs and the number of cycles are those of the evaluator without the trace. *)
Lemma tr_loop_pl c x mapf period : forall n cid st out csv r, tr_loop c x mapf period n cid st out csv = Some r ->
  pl_loop c x period n cid st out = Some (fst r).
Proof.
  induction n as [|n IH]; intros cid st out csv r; cbn [tr_loop pl_loop].
  - intros [= <-]. reflexivity.
  - destruct (pl_cycle c x cid st) as [st'|]; cbn [obind]; [|discriminate].
    destruct (for_ _ _ out) as [out'|]; cbn [obind]; [|discriminate].
    destruct (inspected c period cid).
    + destruct (rd (fst st') (terminate_id c)) as [[]|]; cbn [obind]; [| |discriminate].
      * intros [= <-]. reflexivity.
      * destruct (csv_cycle mapf cid (fst st')); cbn [obind]; [|discriminate]. apply IH.
    + cbn [obind]. destruct (csv_cycle mapf cid (fst st')); cbn [obind]; [|discriminate]. apply IH.
Qed.
Theorem files_plain c x mapf sim n period wl0 ll0 ok out T csv :
  EvalauatePlaintextFiles c x mapf sim n period wl0 ll0 = Some (ok, out, T, csv) ->
  EvalauatePlaintext c x (match mapf with Some _ => sim | None => false end) n period wl0 ll0 = Some (ok, out, T).
Proof.
  unfold EvalauatePlaintextFiles, EvalauatePlaintext. destruct mapf as [m|]; [destruct sim|].
  - destruct (tr_loop c x m period n 0 (wl0, ll0) 0%N []) as [[[o k] t]|] eqn:E; cbn [obind]; [|discriminate].
    apply tr_loop_pl in E. rewrite E. cbn [obind fst]. intros [= <- <- <- <-]. reflexivity.
  - intros [= <- <- <- <-]. reflexivity.
  - intros [= <- <- <- <-]. reflexivity.
Qed.

(** * Specification *)

(** A name without blanks, tabulators and line ends. *)
Definition plain_name (n : string) : Prop :=
  n <> ""%string /\ Forall (fun c => is_sep c = false /\ c <> nl) (list_ascii_of_string n).
(** The entries up to one named "terminate". *)
Fixpoint shown (es : list (string * Z)) : list (string * Z) :=
  match es with
  | [] => []
  | e :: es => if String.eqb (fst e) "terminate" then [] else e :: shown es
  end.
Definition trace_header (es : list (string * Z)) : text :=
  list_ascii_of_string "cid, " ++ flat_map (fun e => list_ascii_of_string (fst e) ++ [tab]) es ++ [nl].
Definition trace_row (es : list (string * Z)) (V : nat -> Z -> bool) (cy : nat) : text :=
  dec_nat cy ++ comma ++ flat_map (fun e : string * Z => [if V cy (snd e) then "1"%char else "0"%char] ++ comma) es ++ [nl].
(** A header and a row for each of the first [k] cycles; nothing at all for [k = 0]. *)
Definition trace (es : list (string * Z)) (V : nat -> Z -> bool) (k : nat) : text :=
  match k with O => [] | S _ => trace_header es ++ flat_map (trace_row es V) (seq 0 k) end.
(** The executed cycles except the one that terminates the run. *)
Definition recorded (c : GarbledCircuit) (V : nat -> Z -> bool) (period : Z) (n : nat) : nat :=
  match executed c V period n with
  | O => O
  | S k => if stops_at c V period k then k else S k
  end.

(** * Proof *)
Lemma text_eqb_eq a b : text_eqb a b = true <-> a = b.
Proof.
  revert b; induction a as [|x a IH]; intros [|y b]; cbn; split; try discriminate; auto.
  - rewrite andb_true_iff, Ascii.eqb_eq, IH. intros [-> ->]. reflexivity.
  - intros [= -> ->]. rewrite andb_true_iff, Ascii.eqb_eq, IH. auto.
Qed.
Lemma text_eqb_str n m : text_eqb (list_ascii_of_string n) (list_ascii_of_string m) = String.eqb n m.
Proof.
  destruct (String.eqb_spec n m) as [->|NE].
  - apply text_eqb_eq. reflexivity.
  - destruct (text_eqb _ _) eqn:E; [|reflexivity]. apply text_eqb_eq in E. exfalso. apply NE.
    rewrite <- (string_of_list_ascii_of_string n), E. apply string_of_list_ascii_of_string.
Qed.
Lemma lines_line l r : Forall (fun c => c <> nl) l -> lines_of (l ++ nl :: r) = l :: lines_of r.
Proof.
  induction 1 as [|c l H F IH]; cbn [app lines_of]; [reflexivity|].
  destruct (Ascii.eqb_spec c nl); [congruence|]. rewrite IH. reflexivity.
Qed.
Lemma span_tok_app l r : Forall (fun c => is_sep c = false) l -> match r with [] => True | c :: _ => is_sep c = true end -> span_tok (l ++ r) = (l, r).
Proof.
  intros F R. induction F as [|c l H F IH]; cbn [app span_tok].
  - destruct r as [|c r]; cbn [span_tok]; [reflexivity|]. rewrite R. reflexivity.
  - rewrite H, IH. reflexivity.
Qed.
Lemma token_app l r : l <> [] -> Forall (fun c => is_sep c = false) l -> match r with [] => True | c :: _ => is_sep c = true end -> token (l ++ r) = Some (l, r).
Proof.
  intros N F R. unfold token. assert (E : drop_sep (l ++ r) = l ++ r).
  { destruct F as [|c l H F]; [congruence|]. cbn [app drop_sep]. rewrite H. reflexivity. }
  rewrite E. destruct (l ++ r) eqn:E2; [destruct l; [congruence|discriminate]|]. rewrite <- E2. rewrite span_tok_app; auto.
Qed.
Lemma digit_plain ch : is_digit ch -> is_sep ch = false /\ ch <> nl.
Proof.
  intros D. pose proof (digit_not_space ch D) as S. unfold is_sep. split.
  - destruct (Ascii.eqb_spec ch sp) as [->|]; [discriminate|]. destruct (Ascii.eqb_spec ch tab) as [->|]; [discriminate|]. reflexivity.
  - intros ->. discriminate.
Qed.
Lemma atoi_dec w : 0 <= w < 2 ^ 31 -> atoi (dec_Z w) = Some w.
Proof.
  intros H. unfold dec_Z. destruct (Z.ltb_spec w 0); [lia|]. unfold atoi. destruct (dec_ok (Z.to_N w)) as (NE & F & V).
  specialize (V [] Logic.I). rewrite app_nil_r in V. destruct (dec (Z.to_N w)) as [|ch ds]; [congruence|].
  inversion F as [|? ? C F']; subst. cbn [skip_ws]. rewrite (digit_not_space _ C), (sign_digit _ _ C), V. rewrite Z2N.id by lia.
  destruct (Z.leb_spec (- 2 ^ 31) w); [|lia]. destruct (Z.ltb_spec w (2 ^ 31)); [reflexivity|lia].
Qed.

Section Entries.
Variable es : list (string * Z).
Variable t : Z.
Hypothesis NM : forall n w, In (n, w) es -> plain_name n.
Hypothesis WI : forall n w, In (n, w) es -> 0 <= w < 2 ^ 31.
Hypothesis TI : 0 <= t.

Definition bare (e : string * Z) : text := list_ascii_of_string (fst e) ++ [sp] ++ dec_Z (snd e).
Lemma dec_plain w : 0 <= w -> dec_Z w <> [] /\ Forall (fun c => is_sep c = false /\ c <> nl) (dec_Z w).
Proof.
  intros H. unfold dec_Z. destruct (Z.ltb_spec w 0); [lia|]. destruct (dec_ok (Z.to_N w)) as (NE & F & _). split; [exact NE|].
  eapply Forall_impl; [|exact F]. apply digit_plain.
Qed.
Lemma bare_no_nl n w : plain_name n -> 0 <= w -> Forall (fun c => c <> nl) (bare (n, w)).
Proof.
  intros [_ F] H. unfold bare. cbn [fst snd]. rewrite !Forall_app. repeat split.
  - eapply Forall_impl; [|exact F]. cbn. tauto.
  - constructor; [discriminate|constructor].
  - eapply Forall_impl; [|apply (dec_plain w H)]. cbn. tauto.
Qed.
Lemma map_line_bare n w : map_line n w = bare (n, w) ++ [nl].
Proof. unfold map_line, bare. cbn [fst snd]. rewrite <- !app_assoc. reflexivity. Qed.
Lemma terminate_plain : plain_name "terminate".
Proof. split; [discriminate|]. repeat constructor; discriminate. Qed.
Lemma map_lines : lines_of (map_file es t) = map bare es ++ [bare ("terminate"%string, t)].
Proof.
  unfold map_file. revert NM WI. induction es as [|[n w] l IH]; intros N W.
  - cbn [flat_map app map]. rewrite map_line_bare, lines_line by (apply bare_no_nl; auto using terminate_plain). reflexivity.
  - cbn [flat_map map app fst snd]. rewrite map_line_bare, <- !app_assoc. cbn [app]. rewrite lines_line.
    + f_equal. apply IH; intros; [eapply N|eapply W]; right; eauto.
    + apply bare_no_nl; [apply (N n w); left; reflexivity|]. specialize (W n w (or_introl eq_refl)). lia.
Qed.
Lemma token_name n w : plain_name n -> token (bare (n, w)) = Some (list_ascii_of_string n, [sp] ++ dec_Z w).
Proof.
  intros [NE F]. unfold bare. cbn [fst snd]. apply token_app; [|eapply Forall_impl; [|exact F]; cbn; tauto|reflexivity].
  destruct n; [congruence|discriminate].
Qed.
Lemma token_index w : 0 <= w -> token ([sp] ++ dec_Z w) = Some (dec_Z w, []).
Proof.
  intros H. destruct (dec_plain w H) as [NE F]. change (token ([sp] ++ dec_Z w)) with (token (dec_Z w)).
  replace (dec_Z w) with (dec_Z w ++ []) at 1 by apply app_nil_r. apply token_app; auto.
  eapply Forall_impl; [|exact F]. cbn. tauto.
Qed.
Lemma names_shown : csv_names (lines_of (map_file es t)) = Some (flat_map (fun e => list_ascii_of_string (fst e) ++ [tab]) (shown es)).
Proof.
  rewrite map_lines. revert NM WI. induction es as [|[n w] l IH]; intros N W; cbn [map app csv_names shown flat_map].
  - rewrite token_name by apply terminate_plain. cbn [obind]. reflexivity.
  - rewrite token_name by (apply (N n w); left; reflexivity). cbn [obind fst]. unfold word_terminate. rewrite text_eqb_str.
    destruct (String.eqb n "terminate"); [reflexivity|]. rewrite IH by (intros; first [eapply N; right; eassumption | eapply W; right; eassumption]). cbn [obind flat_map fst].
    rewrite <- app_assoc. reflexivity.
Qed.
Lemma values_shown wl (V : Z -> bool) : (forall n w, In (n, w) es -> rd wl w = Some (V w)) ->
  csv_values wl (lines_of (map_file es t)) = Some (flat_map (fun e : string * Z => [if V (snd e) then "1"%char else "0"%char] ++ comma) (shown es)).
Proof.
  intros RV. rewrite map_lines. revert NM WI RV. induction es as [|[n w] l IH]; intros N W RV; cbn [map app csv_values shown flat_map].
  - rewrite token_name by apply terminate_plain. cbn [obind]. reflexivity.
  - rewrite token_name by (apply (N n w); left; reflexivity). cbn [obind fst]. unfold word_terminate. rewrite text_eqb_str.
    destruct (String.eqb n "terminate"); [reflexivity|]. pose proof (W n w (or_introl eq_refl)) as B.
    rewrite token_index by lia. cbn [obind]. rewrite atoi_dec by exact B. cbn [obind]. rewrite (RV n w (or_introl eq_refl)). cbn [obind].
    rewrite IH by (intros; first [eapply N; right; eassumption | eapply W; right; eassumption | eapply RV; right; eassumption]). cbn [obind flat_map snd]. reflexivity.
Qed.

Variable c : GarbledCircuit.
Variable x : inputs.
Variable V : nat -> Z -> bool.
Variable period : Z.
Hypothesis WF : well_formed c.
Hypothesis CV : consistent c x V.
Hypothesis RG : forall n w, In (n, w) es -> first_input c <= w < last_wire c.

Definition chunk (cy : nat) : text := match cy with O => trace_header (shown es) | S _ => [] end ++ trace_row (shown es) V cy.
Lemma cycle_shown wl cid : Z.of_nat (List.length wl) = wsz c -> (forall w, first_input c <= w < last_wire c -> bz wl w = V cid w) ->
  csv_cycle (map_file es t) cid wl = Some (chunk cid).
Proof.
  intros LW HV. unfold csv_cycle, chunk. rewrite names_shown. cbn [obind].
  rewrite (values_shown wl (V cid)).
  2:{ intros n w I. pose proof (RG n w I) as B. pose proof (wsz_last c). pose proof (first_input_nonneg c). rewrite (rd_lz false) by lia. rewrite HV by exact B. reflexivity. }
  unfold trace_row. destruct cid; cbn [obind]; reflexivity.
Qed.
Definition rows_from (n cid : nat) : nat :=
  let T := executed_from c V period n cid in
  match n with O => cid | S _ => if stops_at c V period (T - 1) then (T - 1)%nat else T end.

Lemma tr_loop_ok : forall n cid wl ll out csv,
  Z.of_nat (List.length wl) = wsz c -> List.length ll = dff_size c ->
  (forall k w, cid = S k -> first_input c <= w < last_wire c -> bz wl w = V k w) ->
  exists out', pl_loop c x period n cid (wl, ll) out = Some (out', executed_from c V period n cid) /\
    tr_loop c x (map_file es t) period n cid (wl, ll) out csv =
      Some (out', executed_from c V period n cid, csv ++ flat_map chunk (seq cid (rows_from n cid - cid))).
Proof.
  induction n as [|n IH]; intros cid wl ll out csv HW HL HV.
  - exists out. cbn [pl_loop tr_loop executed_from rows_from]. rewrite Nat.sub_diag. cbn [seq flat_map]. rewrite app_nil_r. auto.
  - destruct (pl_cycle_values c x V WF CV cid wl ll HW HL HV) as (wl' & ll' & E & LW & LL & HV').
    destruct (pl_out_ok c WF wl' cid out (V cid) LW HV') as (out1 & EO & _).
    unfold rows_from. cbn [pl_loop tr_loop executed_from]. rewrite E. cbn [obind fst]. rewrite EO. cbn [obind].
    assert (TT : inspected c period cid = true -> rd wl' (terminate_id c) = Some (V cid (terminate_id c))).
    { unfold inspected. intros HI. rewrite !andb_true_iff in HI. destruct HI as [[_ H1] _].
      pose proof (Zgt_cases (terminate_id c) 0) as TC. rewrite H1 in TC.
      pose proof (first_input_nonneg c). pose proof (wsz_last c).
      destruct (wf_term _ WF) as [|HB]; [lia|].
      rewrite (rd_lz false) by lia. rewrite HV' by lia. auto. }
    assert (ST : stops_at c V period cid = inspected c period cid && V cid (terminate_id c)) by reflexivity.
    assert (NEXT : stops_at c V period cid = false -> exists out',
      pl_loop c x period n (S cid) (wl', ll') out1 = Some (out', executed_from c V period n (S cid)) /\
      (do l <- csv_cycle (map_file es t) cid wl'; tr_loop c x (map_file es t) period n (S cid) (wl', ll') out1 (csv ++ l)) =
      Some (out', executed_from c V period n (S cid),
        csv ++ flat_map chunk (seq cid ((if stops_at c V period (executed_from c V period n (S cid) - 1)
           then executed_from c V period n (S cid) - 1 else executed_from c V period n (S cid)) - cid)))%nat).
    { intros NS. rewrite (cycle_shown wl' cid LW HV'). cbn [obind].
      destruct (IH (S cid) wl' ll' out1 (csv ++ chunk cid) LW LL) as (out' & EP & ET). { intros k w [= <-]. apply HV'. }
      exists out'. split; [exact EP|]. rewrite ET. f_equal. f_equal. rewrite <- app_assoc. f_equal.
      pose proof (executed_from_bounds c V period n (S cid)) as EB.
      assert (RE : rows_from n (S cid) = if stops_at c V period (executed_from c V period n (S cid) - 1)
           then (executed_from c V period n (S cid) - 1)%nat else executed_from c V period n (S cid)).
      { unfold rows_from. destruct n as [|n]; [|reflexivity]. cbn [executed_from]. replace (S cid - 1)%nat with cid by lia. rewrite NS. reflexivity. }
      rewrite <- RE.
      assert (RB : (S cid <= rows_from n (S cid))%nat).
      { rewrite RE. destruct (Nat.eq_dec (executed_from c V period n (S cid)) (S cid)) as [->|NE].
        - replace (S cid - 1)%nat with cid by lia. rewrite NS. lia.
        - clear - EB NE. revert EB NE. generalize (executed_from c V period n (S cid)). intros e EB NE. destruct (stops_at _ _ _ _); lia. }
      destruct (rows_from n (S cid) - cid)%nat as [|m] eqn:EM; [lia|]. cbn [seq flat_map].
      replace (rows_from n (S cid) - S cid)%nat with m by lia. reflexivity. }
    destruct (inspected c period cid).
    + rewrite TT by reflexivity. cbn [obind]. rewrite ST. cbn [andb] in *. destruct (V cid (terminate_id c)).
      * exists out1. split; [reflexivity|]. replace (S cid - 1)%nat with cid by lia. rewrite ST. rewrite Nat.sub_diag. cbn [seq flat_map]. rewrite app_nil_r. reflexivity.
      * apply NEXT. exact ST.
    + cbn [andb obind] in *. rewrite ST. apply NEXT. exact ST.
Qed.
Lemma chunks k : flat_map chunk (seq 0 k) = trace (shown es) V k.
Proof.
  destruct k as [|k]; [reflexivity|]. cbn [seq flat_map trace]. unfold chunk at 1. rewrite <- app_assoc. do 2 f_equal.
  assert (G : forall m i, flat_map chunk (seq (S i) m) = flat_map (trace_row (shown es) V) (seq (S i) m)).
  { induction m as [|m IH]; intros i; cbn [seq flat_map]; [reflexivity|]. rewrite IH. reflexivity. }
  apply G.
Qed.
Lemma recorded_rows n : recorded c V period n = rows_from n 0.
Proof.
  unfold recorded, rows_from, executed. destruct n as [|n]; [reflexivity|].
  pose proof (executed_from_bounds c V period n 1). destruct (executed_from c V period (S n) 0) as [|k] eqn:E.
  - cbn [executed_from] in E. destruct (stops_at c V period 0); [discriminate|]. lia.
  - replace (S k - 1)%nat with k by lia. reflexivity.
Qed.

Theorem trace_ok n wl0 ll0 sim : List.length wl0 = get_wire_size c -> List.length ll0 = dff_size c -> sim = true ->
  exists out, EvalauatePlaintext c x true n period wl0 ll0 = Some (true, out, executed c V period n) /\
    EvalauatePlaintextFiles c x (Some (map_file es t)) sim n period wl0 ll0 =
      Some (true, out, executed c V period n, Some (trace (shown es) V (recorded c V period n))).
Proof.
  intros L1 L2 ->. destruct (tr_loop_ok n 0 wl0 ll0 0%N []) as (out & EP & ET); [unfold wsz; lia|exact L2|discriminate|].
  exists out. unfold EvalauatePlaintext, EvalauatePlaintextFiles. rewrite EP, ET. cbn [obind app]. rewrite Nat.sub_0_r, chunks, recorded_rows. auto.
Qed.
End Entries.
