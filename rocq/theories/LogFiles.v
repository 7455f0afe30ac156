(** util/log.cpp: how a block is printed, and where the logs and the dumps go. *)
From Coq Require Import ZArith NArith List Bool Lia Ascii String.
From Verif Require Import Base Text Hex CmdText.
Import ListNotations.
Open Scope list_scope.
Open Scope N_scope.

(** * Model *)
(** An output stream: the flags hex and left (the flags showbase and uppercase, which nothing in
    /repo sets, are off), the character to fill with, the width for the next output, and what was
    written. *)
Record stream := Stream { s_hex : bool; s_left : bool; s_fill : ascii; s_width : nat; s_text : text }.
Definition put (t : text) (s : stream) : stream :=
  let pad := repeat (s_fill s) (s_width s - List.length t) in
  Stream (s_hex s) (s_left s) (s_fill s) 0 (s_text s ++ if s_left s then t ++ pad else pad ++ t).
Fixpoint digits_fuel (base : N) (fuel : nat) (n : N) (acc : text) : text :=
  let acc := lower_digit (n mod base) :: acc in
  match fuel with
  | O => acc
  | S fuel => if n <? base then acc else digits_fuel base fuel (n / base) acc
  end.
(** of an unsigned number of 32 bits *)
Definition put_number (n : N) (s : stream) : stream := put (digits_fuel (if s_hex s then 16 else 10) 15 n []) s.
Definition setfill (c : ascii) (s : stream) : stream := Stream (s_hex s) (s_left s) c (s_width s) (s_text s).
Definition setw (n : nat) (s : stream) : stream := Stream (s_hex s) (s_left s) (s_fill s) n (s_text s).
Definition hex (s : stream) : stream := Stream true (s_left s) (s_fill s) (s_width s) (s_text s).
Definition set_flags (h l : bool) (s : stream) : stream := Stream h l (s_fill s) (s_width s) (s_text s).
(** v_u32[k] *)
Definition word (v : N) (k : N) : N := v / 2 ^ (32 * k) mod 2 ^ 32.
(** operator<<, log.cpp:152-161 *)
Definition put_block (v : N) (s : stream) : stream :=
  let field k s := put_number (word v k) (setw 8 (setfill "0" s)) in
  let gap := put [" "%char] in
  set_flags (s_hex s) (s_left s) (field 0 (gap (field 1 (gap (field 2 (gap (field 3 (hex s)))))))).

(** Where a stream writes to; [Nowhere]: dummy_log, which has no buffer (Dump returns it as an ostream);
    [Lost]: a file that could not be opened. *)
Inductive sink := Cout | Cerr | Nowhere | Lost | File (name : text).
(** A pointer to a stream: not set, to a standard stream, to an ofstream with the file that it has open, or
    to one that was deleted. *)
Inductive slot := Null | Std (k : sink) | Ofs (open : option text) | Freed.
(** dump_prefix, dump_map and log_map, log.cpp:38-41 *)
Record logs := Logs { dump_prefix : text; dump_map : text -> option slot; log_error : slot; log_info : slot }.
Definition no_logs : logs := Logs [] (fun _ => None) Null Null.
(** The files and what was written to the terminal.  Two names are two files. *)
Record world := World { files : text -> option text; cout : text; cerr : text }.
Definition set_file (n : text) (t : text) (w : world) : world :=
  World (fun m => if list_eq_dec ascii_dec m n then Some t else files w m) (cout w) (cerr w).
Definition write (k : sink) (t : text) (w : world) : world :=
  match k with
  | Cout => World (files w) (cout w ++ t) (cerr w)
  | Cerr => World (files w) (cout w) (cerr w ++ t)
  | Nowhere | Lost => w
  | File n => set_file n (match files w n with Some u => u | None => [] end ++ t) w
  end.
Definition str (s : string) : text := list_ascii_of_string s.
Definition dump_names : list text := map str ["dff"; "input"; "output"; "table"; "r_key"]%string.
Definition named (f : text) : bool := if in_dec (list_eq_dec ascii_dec) f dump_names then true else false.
(** The options that LogInitial looks for, log.cpp:53-58, as boost delivers them *)
Record log_options := LogOptions { alice : bool; bob : bool; dump_directory : option text; error2std : bool; log2std : bool }.

Section Log.
(** The files that can be opened (the same throughout a run); the messages of log.cpp:139 and 145 *)
Variable can : text -> bool.
Variable no_dump : text -> text.
Variable no_stream : Z -> text.
(** ofstream::open with ios::out: the file is emptied *)
Definition open_out (n : text) (w : world) : option text * world := if can n then (Some n, set_file n [] w) else (None, w).
(** LogInitial, log.cpp:49-107, with argv[0] and the digits of the time in seconds *)
Definition LogInitial (o : log_options) (argv0 time : text) (st : logs) (w : world) : logs * world :=
  let (prefix, map) :=
    match dump_directory o with
    | None => (dump_prefix st, dump_map st)
    | Some d => (if alice o then d ++ str "alice-" else if bob o then d ++ str "bob-" else d, fun f => if named f then Some (Ofs None) else dump_map st f)
    end in
  let file := argv0 ++ str "-" ++ time in
  let (i, w) := if log2std o then (Std Cout, w) else let (h, w) := open_out (file ++ str "-info.log") w in (Ofs h, w) in
  let (e, w) := if log2std o || error2std o then (Std Cerr, w) else let (h, w) := open_out (file ++ str "-error.log") w in (Ofs h, w) in
  (Logs prefix map e i, w).
Definition deref (s : slot) : option sink :=
  match s with Null | Freed => None | Std k => Some k | Ofs (Some n) => Some (File n) | Ofs None => Some Lost end.
(** LogStream, log.cpp:143-150; None: undefined behaviour.  ERROR is 0 and INFO is 1, log.h:48-49 *)
Definition LogStream (code : Z) (st : logs) (w : world) : option (sink * world) :=
  if (code =? 0)%Z then option_map (fun k => (k, w)) (deref (log_error st))
  else if (code =? 1)%Z then option_map (fun k => (k, w)) (deref (log_info st))
  else Some (Cerr, write Cerr (no_stream code) w).
(** Dump, log.cpp:128-141; None: undefined behaviour *)
Definition Dump (f : text) (st : logs) (w : world) : option (sink * logs * world) :=
  match dump_prefix st with
  | [] => Some (Nowhere, st, w)
  | _ =>
    match dump_map st f with
    | Some (Ofs (Some n)) => Some (File n, st, w)
    | Some (Ofs None) =>
      let (h, w) := open_out (dump_prefix st ++ f ++ str ".hex") w in
      Some (match h with Some n => File n | None => Lost end,
            Logs (dump_prefix st) (fun g => if list_eq_dec ascii_dec g f then Some (Ofs h) else dump_map st g) (log_error st) (log_info st), w)
    | Some _ => None
    | None => option_map (fun r => (Cerr, st, write (fst r) (no_dump f) (snd r))) (LogStream 0 st w)
    end
  end.
(** delete of an ofstream after it was closed; a standard stream stays *)
Definition release (s : slot) : option slot := match s with Freed => None | Ofs _ => Some Freed | s => Some s end.
(** LogFinish, log.cpp:109-125; None: undefined behaviour *)
Definition LogFinish (st : logs) : option logs :=
  match release (log_error st), release (log_info st) with
  | Some e, Some i =>
    if existsb (fun f => match dump_map st f with Some Freed => true | _ => false end) dump_names then None
    else Some (Logs (dump_prefix st) (fun f => match dump_map st f with Some (Ofs _) => Some Freed | s => s end) e i)
  | _, _ => None
  end.
(** A run: DUMP(f) << t (with ENABLE_DUMP) and LOG(code) << t (with ENABLE_LOG), log.h:53-65 *)
Inductive event := Dumped (f t : text) | Logged (code : Z) (t : text).
Definition happen (ev : event) (st : logs) (w : world) : option (logs * world) :=
  match ev with
  | Dumped f t => option_map (fun '(k, st, w) => (st, write k t w)) (Dump f st w)
  | Logged code t => option_map (fun '(k, w) => (st, write k t w)) (LogStream code st w)
  end.
Fixpoint history (l : list event) (st : logs) (w : world) : option (logs * world) :=
  match l with [] => Some (st, w) | ev :: l => match happen ev st w with Some (st, w) => history l st w | None => None end end.
End Log.

(** * Specification *)
(** What was dumped under a name, and logged under a code *)
Definition dumped (f : text) (l : list event) : list text :=
  flat_map (fun ev => match ev with Dumped g t => if list_eq_dec ascii_dec g f then [t] else [] | _ => [] end) l.
Definition logged (c : Z) (l : list event) : list text :=
  flat_map (fun ev => match ev with Logged d t => if (d =? c)%Z then [t] else [] | _ => [] end) l.
(** The uses in /repo: the five names and the two codes *)
Definition uses : list text := [str "r_key"; str "dff"; str "input"; str "table"; str "output"].
Definition usual (ev : event) : Prop := match ev with Dumped f _ => In f uses | Logged c _ => c = 0%Z \/ c = 1%Z end.
Definition party (o : log_options) : text := if alice o then str "alice-" else if bob o then str "bob-" else [].
Definition dump_file (o : log_options) (d f : text) : text := d ++ party o ++ f ++ str ".hex".
Definition info_file (argv0 time : text) : text := argv0 ++ str "-" ++ time ++ str "-info.log".
Definition error_file (argv0 time : text) : text := argv0 ++ str "-" ++ time ++ str "-error.log".
Definition dumps_on (o : log_options) : bool := match dump_directory o with Some d => match d ++ party o with [] => false | _ => true end | None => false end.

Lemma uses_named f : In f uses <-> In f dump_names.
Proof. unfold uses, dump_names. cbn [map In]. tauto. Qed.

(** * Blocks *)
Lemma digits_hex fuel : forall n acc, digits_fuel 16 fuel n acc = hex_fuel fuel n acc.
Proof. induction fuel as [|k IH]; intros n acc; cbn [digits_fuel hex_fuel]; [reflexivity|]. now rewrite IH. Qed.
Lemma word_lt v k : word v k < 2 ^ 32.
Proof. apply N.mod_lt. discriminate. Qed.
Lemma eight_digits n : n < 2 ^ 32 -> hexnum (to_string_hex n 8) = Some n /\ List.length (to_string_hex n 8) = 8%nat.
Proof.
  intros B. destruct (to_string_hex_ok n 8) as [H L]; [change (2 ^ 64) with (2 ^ 32 * 2 ^ 32); lia|]. split; [exact H|].
  unfold to_string_hex in *. rewrite app_length, repeat_length in *.
  assert (L8 : (List.length (hex_fuel 15 n []) <= 8)%nat); [|lia].
  assert (G : forall f k m acc, (k <= f)%nat -> m < 16 ^ N.of_nat (S k) -> (List.length (hex_fuel f m acc) <= List.length acc + S k)%nat).
  { clear. induction f as [|f IH]; intros k m acc Hk B; cbn [hex_fuel]; [cbn [List.length]; lia|].
    destruct (N.ltb_spec m 16); [cbn [List.length]; lia|]. destruct k as [|k]; [change (16 ^ N.of_nat 1) with 16 in B; lia|].
    etransitivity; [apply (IH k); [lia|]|cbn [List.length]; lia]. apply N.div_lt_upper_bound; [discriminate|]. rewrite <- N.pow_succ_r', <- Nat2N.inj_succ. exact B. }
  apply (G 15%nat 7%nat n []); [lia|]. change (16 ^ N.of_nat 8) with (2 ^ 32). exact B.
Qed.
Definition block_chars (v : N) : text :=
  to_string_hex (word v 3) 8 ++ " "%char :: to_string_hex (word v 2) 8 ++ " "%char :: to_string_hex (word v 1) 8 ++ " "%char :: to_string_hex (word v 0) 8.
Lemma put_field n c w t : put_number n (setw 8 (setfill "0" (Stream true false c w t))) = Stream true false "0" 0 (t ++ to_string_hex n 8).
Proof. unfold put_number, setw, setfill. cbn [s_hex s_left s_fill s_width s_text]. rewrite digits_hex. reflexivity. Qed.
Lemma put_gap c t : put [" "%char] (Stream true false c 0 t) = Stream true false c 0 (t ++ [" "%char]).
Proof. reflexivity. Qed.
Lemma put_block_chars v s : s_left s = false -> put_block v s = Stream (s_hex s) false "0" 0 (s_text s ++ block_chars v).
Proof.
  destruct s as [h l c w t]. cbn [s_left]. intros ->. unfold put_block, hex. cbn [s_hex s_left s_fill s_width s_text].
  do 3 (rewrite put_field; rewrite put_gap). rewrite put_field. unfold set_flags. cbn [s_hex s_left s_fill s_width s_text].
  f_equal. unfold block_chars. rewrite <- !app_assoc. reflexivity.
Qed.
Lemma words_sum v : v < 2 ^ 128 -> ((word v 3 * 2 ^ 32 + word v 2) * 2 ^ 32 + word v 1) * 2 ^ 32 + word v 0 = v.
Proof.
  intros B. unfold word. change (32 * 3) with (32 + 32 + 32). change (32 * 2) with (32 + 32). change (32 * 1) with 32. change (32 * 0) with 0. rewrite !N.pow_add_r, <- !N.div_div by discriminate. change (2 ^ 0) with 1. rewrite N.div_1_r.
  pose proof (N.div_mod' v (2 ^ 32)). pose proof (N.div_mod' (v / 2 ^ 32) (2 ^ 32)). pose proof (N.div_mod' (v / 2 ^ 32 / 2 ^ 32) (2 ^ 32)).
  rewrite (N.mod_small (v / 2 ^ 32 / 2 ^ 32 / 2 ^ 32)). 2:{ rewrite !N.div_div by discriminate. apply N.div_lt_upper_bound; [discriminate|]. exact B. }
  set (p := 2 ^ 32) in *. nia.
Qed.
Theorem block_printed v s : s_left s = false -> v < 2 ^ 128 -> exists t,
  put_block v s = Stream (s_hex s) false "0" 0 (s_text s ++ t) /\ List.length t = 35%nat /\ block_text t v /\ Str2Block t = Some v.
Proof.
  intros L B. exists (block_chars v). split; [exact (put_block_chars v s L)|].
  destruct (eight_digits _ (word_lt v 3)) as [H3 L3]. destruct (eight_digits _ (word_lt v 2)) as [H2 L2].
  destruct (eight_digits _ (word_lt v 1)) as [H1 L1]. destruct (eight_digits _ (word_lt v 0)) as [H0 L0].
  assert (BT : block_text (block_chars v) v).
  { unfold block_text, block_chars. rewrite filter_app, (no_pad _ _ H3). cbn [filter]. change (negb (is_pad " ")) with false. cbv iota.
    rewrite filter_app, (no_pad _ _ H2). cbn [filter]. change (negb (is_pad " ")) with false. cbv iota.
    rewrite filter_app, (no_pad _ _ H1). cbn [filter]. change (negb (is_pad " ")) with false. cbv iota. rewrite (no_pad _ _ H0).
    split; [rewrite !app_length; lia|]. rewrite !app_assoc. unfold hexnum in *.
    pose proof (numeral_app _ _ _ _ _ _ H3 H2) as E. pose proof (numeral_app _ _ _ _ _ _ E H1) as E1. pose proof (numeral_app _ _ _ _ _ _ E1 H0) as E2.
    rewrite L2, L1, L0 in E2. change (16 ^ N.of_nat 8) with (2 ^ 32) in E2. rewrite E2. f_equal. exact (words_sum v B). }
  split; [|split; [exact BT|exact (Str2Block_ok _ _ BT)]].
  unfold block_chars. rewrite app_length. cbn [List.length]. rewrite app_length. cbn [List.length]. rewrite app_length. cbn [List.length]. lia.
Qed.
Definition fresh : stream := Stream false false " " 0 [].
Lemma block_case : s_text (put_block 0x00112233445566778899aabbccddeeff fresh) = str "00112233 44556677 8899aabb ccddeeff".
Proof. vm_compute. reflexivity. Qed.
(** The flags are restored, the character to fill with is not *)
Theorem fill_refuted : ~ forall v s, s_fill (put_block v s) = s_fill s.
Proof. intros H. specialize (H 0 fresh). discriminate H. Qed.
Lemma fill_case : s_text (put_number 7 (setw 4 fresh)) = str "   7" /\
  s_text (put_number 7 (setw 4 (put_block 0 fresh))) = str "00000000 00000000 00000000 000000000007".
Proof. split; vm_compute; reflexivity. Qed.
(** With the flag left blocks are confused *)
Theorem left_refuted : ~ forall s v w, v < 2 ^ 128 -> w < 2 ^ 128 -> s_text (put_block v s) = s_text (put_block w s) -> v = w.
Proof.
  intros H. specialize (H (Stream false true " " 0 []) 7 0x70). assert (E : 7 = 0x70); [|discriminate E]. apply H; vm_compute; reflexivity.
Qed.

(** * Names *)
Lemma name_inj p f g : p ++ f ++ str ".hex" = p ++ g ++ str ".hex" -> f = g.
Proof. intros E. apply app_inv_head in E. now apply app_inv_tail in E. Qed.
Lemma hex_not_log p f a n : (n = str "-info.log" \/ n = str "-error.log") -> p ++ f ++ str ".hex" <> a ++ n.
Proof.
  intros N E. apply (f_equal (@rev ascii)) in E. rewrite !rev_app_distr in E. destruct N as [-> | ->]; discriminate E.
Qed.
Lemma info_not_error a b : a ++ str "-info.log" <> b ++ str "-error.log".
Proof. intros E. apply (f_equal (@rev ascii)) in E. rewrite !rev_app_distr in E. discriminate E. Qed.
(** The two parties never dump into the same file, whatever the directories *)
Theorem parties_apart o o' d d' f g : alice o = true -> alice o' = false -> bob o' = true -> In f uses -> In g uses -> dump_file o d f <> dump_file o' d' g.
Proof.
  intros A A' B F G E. unfold dump_file, party in E. rewrite A, A', B in E. rewrite !app_assoc in E. apply app_inv_tail in E.
  apply (f_equal (@rev ascii)) in E. rewrite !rev_app_distr in E.
  cbn [uses In] in F, G. destruct F as [<-|[<-|[<-|[<-|[<-|[]]]]]]; destruct G as [<-|[<-|[<-|[<-|[<-|[]]]]]]; discriminate E.
Qed.

(** * Runs *)
Section Runs.
Variable can : text -> bool.
Variable no_dump : text -> text.
Variable no_stream : Z -> text.
Variable o : log_options.
Variables argv0 time : text.
Variable w0 : world.
Local Notation run l := (let (st, w) := LogInitial can o argv0 time no_logs w0 in history can no_dump no_stream l st w).

Definition pfx : text := match dump_directory o with Some d => d ++ party o | None => [] end.
Definition info_std : bool := log2std o.
Definition error_std : bool := log2std o || error2std o.
Definition made (n : text) (ts : list text) : bool := can n && match ts with [] => false | _ => true end.
Record inv (l : list event) (st : logs) (w : world) : Prop := {
  i_prefix : dump_prefix st = pfx;
  i_map : dumps_on o = true -> forall f, In f dump_names -> dump_map st f = Some (Ofs (if made (pfx ++ f ++ str ".hex") (dumped f l) then Some (pfx ++ f ++ str ".hex") else None));
  i_info : log_info st = if info_std then Std Cout else Ofs (if can (info_file argv0 time) then Some (info_file argv0 time) else None);
  i_error : log_error st = if error_std then Std Cerr else Ofs (if can (error_file argv0 time) then Some (error_file argv0 time) else None);
  i_dumps : forall f, In f dump_names -> files w (pfx ++ f ++ str ".hex") = if dumps_on o && made (pfx ++ f ++ str ".hex") (dumped f l) then Some (List.concat (dumped f l)) else files w0 (pfx ++ f ++ str ".hex");
  i_finfo : files w (info_file argv0 time) = if negb info_std && can (info_file argv0 time) then Some (List.concat (logged 1 l)) else files w0 (info_file argv0 time);
  i_ferror : files w (error_file argv0 time) = if negb error_std && can (error_file argv0 time) then Some (List.concat (logged 0 l)) else files w0 (error_file argv0 time);
  i_rest : forall n, n <> info_file argv0 time -> n <> error_file argv0 time -> (forall f, In f dump_names -> n <> pfx ++ f ++ str ".hex") -> files w n = files w0 n;
  i_cout : cout w = cout w0 ++ if info_std then List.concat (logged 1 l) else [];
  i_cerr : cerr w = cerr w0 ++ if error_std then List.concat (logged 0 l) else [] }.

Lemma same_name n t w : files (set_file n t w) n = Some t.
Proof. cbn [set_file files]. destruct (list_eq_dec ascii_dec n n); congruence. Qed.
Lemma other_name n m t w : m <> n -> files (set_file n t w) m = files w m.
Proof. intros D. cbn [set_file files]. destruct (list_eq_dec ascii_dec m n); congruence. Qed.
Lemma log_name s : (argv0 ++ str "-" ++ time) ++ s = argv0 ++ str "-" ++ time ++ s.
Proof. now rewrite <- !app_assoc. Qed.
Lemma dump_info p f : p ++ f ++ str ".hex" <> info_file argv0 time.
Proof. unfold info_file. rewrite <- log_name. apply hex_not_log. now left. Qed.
Lemma dump_error p f : p ++ f ++ str ".hex" <> error_file argv0 time.
Proof. unfold error_file. rewrite <- log_name. apply hex_not_log. now right. Qed.
Lemma info_error : info_file argv0 time <> error_file argv0 time.
Proof. unfold info_file, error_file. rewrite <- !log_name. apply info_not_error. Qed.
Lemma dumps_prefix : dumps_on o = match pfx with [] => false | _ => true end.
Proof. unfold dumps_on, pfx. destruct (dump_directory o); reflexivity. Qed.

Lemma made_nil n : made n [] = false.
Proof. unfold made. apply andb_false_r. Qed.
Lemma open_cases n w : open_out can n w = (if can n then Some n else None, if can n then set_file n [] w else w).
Proof. unfold open_out. destruct (can n); reflexivity. Qed.
Definition w1 : world := if info_std then w0 else if can (info_file argv0 time) then set_file (info_file argv0 time) [] w0 else w0.
Definition w2 : world := if error_std then w1 else if can (error_file argv0 time) then set_file (error_file argv0 time) [] w1 else w1.
Lemma initial : LogInitial can o argv0 time no_logs w0 =
  (Logs pfx (match dump_directory o with Some _ => fun f => if named f then Some (Ofs None) else None | None => fun _ => None end)
    (if error_std then Std Cerr else Ofs (if can (error_file argv0 time) then Some (error_file argv0 time) else None))
    (if info_std then Std Cout else Ofs (if can (info_file argv0 time) then Some (info_file argv0 time) else None)), w2).
Proof.
  unfold LogInitial, w2, w1, pfx, party, info_std, error_std. rewrite !log_name. fold (info_file argv0 time) (error_file argv0 time).
  destruct (dump_directory o) as [d|]; [destruct (alice o); [|destruct (bob o)]; [..|rewrite app_nil_r]|];
    (destruct (log2std o); cbn [orb]; [reflexivity|]; rewrite open_cases; destruct (error2std o); [reflexivity|]; rewrite open_cases; reflexivity).
Qed.
Lemma w1_other n : n <> info_file argv0 time -> files w1 n = files w0 n.
Proof. intros D. unfold w1. destruct info_std; [reflexivity|]. destruct (can _); [|reflexivity]. now apply other_name. Qed.
Lemma w2_other n : n <> error_file argv0 time -> files w2 n = files w1 n.
Proof. intros D. unfold w2. destruct error_std; [reflexivity|]. destruct (can _); [|reflexivity]. now apply other_name. Qed.
Lemma w2_std : cout w2 = cout w0 /\ cerr w2 = cerr w0.
Proof. unfold w2, w1. destruct error_std, info_std, (can (info_file argv0 time)), (can (error_file argv0 time)); split; reflexivity. Qed.
Lemma inv_initial : inv [] (fst (LogInitial can o argv0 time no_logs w0)) (snd (LogInitial can o argv0 time no_logs w0)).
Proof.
  rewrite initial. split; cbn [fst snd dump_prefix dump_map log_info log_error dumped logged flat_map List.concat].
  - reflexivity.
  - intros D f F. rewrite made_nil. unfold dumps_on in D. destruct (dump_directory o); [|discriminate]. unfold named. destruct (in_dec _ f dump_names); [reflexivity|contradiction].
  - reflexivity.
  - reflexivity.
  - intros f F. rewrite made_nil, andb_false_r, w2_other by apply dump_error. apply w1_other, dump_info.
  - rewrite w2_other by apply info_error. unfold w1. destruct info_std; [reflexivity|]. cbn [negb andb]. destruct (can (info_file argv0 time)); [apply same_name|reflexivity].
  - unfold w2. destruct error_std; cbn [negb andb].
    + apply w1_other, not_eq_sym, info_error.
    + destruct (can (error_file argv0 time)); [apply same_name|]. apply w1_other, not_eq_sym, info_error.
  - intros n D1 D2 _. rewrite w2_other by exact D2. now apply w1_other.
  - rewrite (proj1 w2_std). destruct info_std; now rewrite app_nil_r.
  - rewrite (proj2 w2_std). destruct error_std; now rewrite app_nil_r.
Qed.

Lemma dumped_snoc f l ev : dumped f (l ++ [ev]) = dumped f l ++ dumped f [ev].
Proof. apply flat_map_app. Qed.
Lemma logged_snoc c l ev : logged c (l ++ [ev]) = logged c l ++ logged c [ev].
Proof. apply flat_map_app. Qed.
Lemma made_more n a b : made n (a ++ [b]) = can n.
Proof. unfold made. destruct a; cbn [app]; apply andb_true_r. Qed.
Lemma concat_one (a : list text) b : List.concat (a ++ [b]) = List.concat a ++ b.
Proof. rewrite concat_app. cbn [List.concat]. now rewrite app_nil_r. Qed.
Lemma dumped_one f g t : dumped f [Dumped g t] = if list_eq_dec ascii_dec g f then [t] else [].
Proof. unfold dumped. cbn [flat_map]. apply app_nil_r. Qed.
Lemma logged_one c d t : logged c [Logged d t] = if (d =? c)%Z then [t] else [].
Proof. unfold logged. cbn [flat_map]. apply app_nil_r. Qed.
Lemma step_dump l st w f t : inv l st w -> In f dump_names -> exists st' w', happen can no_dump no_stream (Dumped f t) st w = Some (st', w') /\ inv (l ++ [Dumped f t]) st' w'.
Proof.
  intros [I1 I2 I3 I4 I5 I6 I7 I8 I9 I10] F. cbn [happen]. unfold Dump. rewrite I1. set (n := pfx ++ f ++ str ".hex").
  assert (LG : forall c, logged c (l ++ [Dumped f t]) = logged c l) by (intros c; rewrite logged_snoc; apply app_nil_r).
  assert (DF : dumped f (l ++ [Dumped f t]) = dumped f l ++ [t]) by (rewrite dumped_snoc, dumped_one; destruct (list_eq_dec ascii_dec f f); congruence).
  assert (DO : forall g, g <> f -> dumped g (l ++ [Dumped f t]) = dumped g l) by (intros g D; rewrite dumped_snoc, dumped_one; destruct (list_eq_dec ascii_dec f g); [congruence|apply app_nil_r]).
  assert (NO : forall g, g <> f -> pfx ++ g ++ str ".hex" <> n) by (intros g D E; apply D, (name_inj pfx), E).
  assert (On : dumps_on o = false \/ dumps_on o = true) by (destruct (dumps_on o); auto). destruct On as [On|On].
  { assert (P : pfx = []) by (rewrite dumps_prefix in On; destruct pfx; [reflexivity|discriminate]). exists st, w. split; [rewrite P; reflexivity|].
    split; rewrite ?LG; try assumption; intros; try congruence. rewrite I5, On by assumption. reflexivity. }
  assert (K : forall st' w', dump_prefix st' = pfx -> (forall g, g <> f -> dump_map st' g = dump_map st g) -> dump_map st' f = Some (Ofs (if can n then Some n else None)) ->
    log_info st' = log_info st -> log_error st' = log_error st -> files w' n = (if can n then Some (List.concat (dumped f l) ++ t) else files w n) ->
    (forall m, m <> n -> files w' m = files w m) -> cout w' = cout w -> cerr w' = cerr w -> inv (l ++ [Dumped f t]) st' w').
  { intros st' w' A1 A2 A3 A4 A5 A6 A7 A8 A9. split; rewrite ?LG, ?A4, ?A5, ?A8, ?A9, ?On; try assumption.
    - intros _ g G. destruct (list_eq_dec ascii_dec g f) as [->|D]; [rewrite DF, made_more; exact A3|]. rewrite DO, A2 by exact D. now apply I2.
    - intros g G. destruct (list_eq_dec ascii_dec g f) as [->|D].
      + rewrite DF, made_more. cbn [andb]. fold n. rewrite A6, concat_one. destruct (can n) eqn:C; [reflexivity|]. unfold n in *. rewrite I5, On by exact F. unfold made. now rewrite C.
      + rewrite DO by exact D. rewrite A7 by now apply NO. rewrite I5, ?On by exact G. reflexivity.
    - rewrite A7; [exact I6|apply not_eq_sym, dump_info].
    - rewrite A7; [exact I7|apply not_eq_sym, dump_error].
    - intros m D1 D2 D3. rewrite A7; [now apply I8|]. now apply D3. }
  assert (NE : forall A (x y : A), match pfx with [] => x | _ => y end = y) by (intros; rewrite dumps_prefix in On; destruct pfx; [discriminate|reflexivity]).
  rewrite NE, (I2 On f F). fold n. specialize (I5 f F). fold n in I5. rewrite On in I5. cbn [andb] in I5.
  destruct (made n (dumped f l)) eqn:M.
  - assert (C : can n = true) by (unfold made in M; now destruct (can n)). eexists _, _. split; [reflexivity|]. apply K; try reflexivity; try assumption.
    + rewrite (I2 On f F). fold n. now rewrite M, C.
    + cbn [write]. rewrite same_name, I5, C. reflexivity.
    + intros m D. now apply other_name.
  - rewrite open_cases. eexists _, _. split; [reflexivity|]. apply K; try reflexivity.
    + intros g D. cbn [dump_map]. destruct (list_eq_dec ascii_dec g f); congruence.
    + cbn [dump_map]. destruct (list_eq_dec ascii_dec f f); congruence.
    + destruct (can n) eqn:C; [|reflexivity]. cbn [write]. rewrite !same_name. unfold made in M. rewrite C in M. destruct (dumped f l); [reflexivity|discriminate].
    + intros m D. destruct (can n); [|reflexivity]. cbn [write]. now rewrite !other_name.
    + destruct (can n); reflexivity.
    + destruct (can n); reflexivity.
Qed.
Lemma step_log l st w c t : inv l st w -> c = 0%Z \/ c = 1%Z -> exists st' w', happen can no_dump no_stream (Logged c t) st w = Some (st', w') /\ inv (l ++ [Logged c t]) st' w'.
Proof.
  intros [I1 I2 I3 I4 I5 I6 I7 I8 I9 I10] F. cbn [happen]. unfold LogStream.
  assert (DF : forall f, dumped f (l ++ [Logged c t]) = dumped f l) by (intros f; rewrite dumped_snoc; apply app_nil_r).
  destruct F as [-> | ->]; cbn [Z.eqb Pos.eqb].
  - assert (L0 : logged 0 (l ++ [Logged 0 t]) = logged 0 l ++ [t]) by now rewrite logged_snoc, logged_one.
    assert (L1 : logged 1 (l ++ [Logged 0 t]) = logged 1 l) by (rewrite logged_snoc, logged_one; apply app_nil_r).
    rewrite I4. destruct error_std eqn:S; [|destruct (can (error_file argv0 time)) eqn:C]; eexists _, _; (split; [reflexivity|]);
      split; rewrite ?L0, ?L1, ?concat_one, ?S, ?C; cbn [write files cout cerr]; try assumption; try (intros; rewrite DF; auto).
    + cbn [cerr]. rewrite I10, ?S, <- app_assoc. reflexivity.
    + rewrite other_name by apply dump_error. auto.
    + rewrite other_name by apply info_error. exact I6.
    + rewrite same_name, I7, ?S, ?C. reflexivity.
    + intros n D1 D2 D3. rewrite other_name by assumption. auto.
  - assert (L0 : logged 0 (l ++ [Logged 1 t]) = logged 0 l) by (rewrite logged_snoc, logged_one; apply app_nil_r).
    assert (L1 : logged 1 (l ++ [Logged 1 t]) = logged 1 l ++ [t]) by now rewrite logged_snoc, logged_one.
    rewrite I3. destruct info_std eqn:S; [|destruct (can (info_file argv0 time)) eqn:C]; eexists _, _; (split; [reflexivity|]);
      split; rewrite ?L0, ?L1, ?concat_one, ?S, ?C; cbn [write files cout cerr]; try assumption; try (intros; rewrite DF; auto).
    + cbn [cout]. rewrite I9, ?S, <- app_assoc. reflexivity.
    + rewrite other_name by apply dump_info. auto.
    + rewrite same_name, I6, ?S, ?C. reflexivity.
    + rewrite other_name by apply not_eq_sym, info_error. exact I7.
    + intros n D1 D2 D3. rewrite other_name by assumption. auto.
Qed.
Lemma history_inv l : forall done st w, inv done st w -> Forall usual l -> exists st' w', history can no_dump no_stream l st w = Some (st', w') /\ inv (done ++ l) st' w'.
Proof.
  induction l as [|ev l IH]; intros done st w I U; cbn [history]; [exists st, w; now rewrite app_nil_r|]. inversion_clear U as [|? ? U1 U2].
  assert (S : exists st' w', happen can no_dump no_stream ev st w = Some (st', w') /\ inv (done ++ [ev]) st' w') by (destruct ev; [apply step_dump; [exact I|now apply uses_named]|now apply step_log]).
  destruct S as (st' & w' & -> & I'). destruct (IH _ _ _ I' U2) as (st2 & w3 & -> & I2). exists st2, w3. now rewrite <- app_assoc in I2.
Qed.
Lemma run_inv l : Forall usual l -> exists st w, run l = Some (st, w) /\ inv l st w.
Proof. intros U. pose proof inv_initial as I. destruct (LogInitial can o argv0 time no_logs w0) as [st w]. exact (history_inv l [] st w I U). Qed.

(** Every dump is the concatenation of what was dumped under its name; a file is made only if there is something *)
Theorem dumps_kept l d f : Forall usual l -> dump_directory o = Some d -> d ++ party o <> [] -> In f uses -> exists st w, run l = Some (st, w) /\
  files w (dump_file o d f) = if can (dump_file o d f) && negb (Nat.eqb (List.length (dumped f l)) 0) then Some (List.concat (dumped f l)) else files w0 (dump_file o d f).
Proof.
  intros U D NE F. apply uses_named in F. destruct (run_inv l U) as (st & w & E & I). exists st, w. split; [exact E|].
  assert (N : dump_file o d f = pfx ++ f ++ str ".hex") by (unfold dump_file, pfx; rewrite D; apply app_assoc). rewrite N, (i_dumps _ _ _ I f F).
  assert (On : dumps_on o = true) by (unfold dumps_on; rewrite D; destruct (d ++ party o); congruence). rewrite On. unfold made. destruct (dumped f l); reflexivity.
Qed.
(** So are the two logs, in files or on the terminal *)
Theorem logs_kept l : Forall usual l -> exists st w, run l = Some (st, w) /\
  (if log2std o then cout w = cout w0 ++ List.concat (logged 1 l) else
     cout w = cout w0 /\ files w (info_file argv0 time) = if can (info_file argv0 time) then Some (List.concat (logged 1 l)) else files w0 (info_file argv0 time)) /\
  (if log2std o || error2std o then cerr w = cerr w0 ++ List.concat (logged 0 l) else
     cerr w = cerr w0 /\ files w (error_file argv0 time) = if can (error_file argv0 time) then Some (List.concat (logged 0 l)) else files w0 (error_file argv0 time)).
Proof.
  intros U. destruct (run_inv l U) as (st & w & E & I). exists st, w. split; [exact E|].
  pose proof (i_cout _ _ _ I) as C1. pose proof (i_cerr _ _ _ I) as C2. pose proof (i_finfo _ _ _ I) as F1. pose proof (i_ferror _ _ _ I) as F2. unfold info_std, error_std in *. split.
  - destruct (log2std o); [exact C1|]. rewrite app_nil_r in C1. now split.
  - destruct (log2std o || error2std o); [exact C2|]. rewrite app_nil_r in C2. now split.
Qed.
(** and no other file is touched *)
Theorem others_kept l n : Forall usual l -> (log2std o = false -> n <> info_file argv0 time) -> (log2std o || error2std o = false -> n <> error_file argv0 time) ->
  (forall d f, dump_directory o = Some d -> d ++ party o <> [] -> In f uses -> n <> dump_file o d f) -> exists st w, run l = Some (st, w) /\ files w n = files w0 n.
Proof.
  intros U N1 N2 N3. destruct (run_inv l U) as (st & w & E & I). exists st, w. split; [exact E|].
  destruct (list_eq_dec ascii_dec n (info_file argv0 time)) as [->|D1].
  { rewrite (i_finfo _ _ _ I). unfold info_std. destruct (log2std o); [reflexivity|]. now destruct (N1 eq_refl). }
  destruct (list_eq_dec ascii_dec n (error_file argv0 time)) as [->|D2].
  { rewrite (i_ferror _ _ _ I). unfold error_std. destruct (log2std o || error2std o); [reflexivity|]. now destruct (N2 eq_refl). }
  destruct (dumps_on o) eqn:On.
  - apply (i_rest _ _ _ I); auto. intros f F. unfold dumps_on in On. unfold pfx. destruct (dump_directory o) as [d|] eqn:D; [|discriminate].
    rewrite <- app_assoc. apply (N3 d f); [reflexivity| |now apply uses_named]. intros Z. rewrite Z in On. discriminate.
  - destruct (in_dec (list_eq_dec ascii_dec) n (map (fun f => pfx ++ f ++ str ".hex") dump_names)) as [IN|NI].
    + apply in_map_iff in IN as (f & <- & F). rewrite (i_dumps _ _ _ I f F), On. reflexivity.
    + apply (i_rest _ _ _ I); auto. intros f F Z. apply NI, in_map_iff. exists f. now split.
Qed.
(** LogFinish is defined after a run; a log that was a file cannot be used any more, and LogFinish cannot be called again *)
Theorem finished l : Forall usual l -> exists st w st', run l = Some (st, w) /\ LogFinish st = Some st' /\
  (log2std o = false -> (forall w', LogStream no_stream 1 st' w' = None) /\ LogFinish st' = None) /\
  (log2std o || error2std o = false -> forall w', LogStream no_stream 0 st' w' = None) /\
  (dumps_on o = true -> (forall f w', In f uses -> Dump can no_dump no_stream f st' w' = None) /\ LogFinish st' = None).
Proof.
  intros U. destruct (run_inv l U) as (st & w & E & I). exists st, w. pose proof (i_info _ _ _ I) as H1. pose proof (i_error _ _ _ I) as H2. unfold info_std, error_std in *.
  assert (NF : existsb (fun f => match dump_map st f with Some Freed => true | _ => false end) dump_names = false).
  { destruct (existsb _ _) eqn:X; [|reflexivity]. exfalso. apply existsb_exists in X as (f & F & X). revert X.
    assert (G : dump_map st f <> Some Freed); [|destruct (dump_map st f) as [[]|]; congruence].
    clear -E F. pose proof initial as IN. destruct (LogInitial can o argv0 time no_logs w0) as [s0 u0] eqn:EI.
    assert (G0 : forall g, dump_map s0 g <> Some Freed). { injection IN as -> _. cbn [dump_map]. intros g. destruct (dump_directory o); [destruct (named g)|]; discriminate. }
    clear IN EI. revert s0 u0 G0 E. induction l as [|ev l IH]; intros s0 u0 G0; cbn [history]; [intros [= <- _]; apply G0|].
    destruct (happen can no_dump no_stream ev s0 u0) as [[s1 u1]|] eqn:H; [|discriminate]. apply IH. intros g. destruct ev as [h t|c t]; cbn [happen] in H.
    - unfold Dump in H. destruct (dump_prefix s0); [injection H as <- _; apply G0|]. destruct (dump_map s0 h) as [[| |[n|]|]|] eqn:M; try discriminate.
      + injection H as <- _. apply G0.
      + rewrite open_cases in H. injection H as <- _. cbn [dump_map]. destruct (list_eq_dec ascii_dec g h); [discriminate|apply G0].
      + destruct (LogStream no_stream 0 s0 u0); [|discriminate]. injection H as <- _. apply G0.
    - destruct (LogStream no_stream c s0 u0) as [[k u]|]; [|discriminate]. injection H as <- _. apply G0. }
  assert (R1 : release (log_info st) = Some (if log2std o then Std Cout else Freed)) by (rewrite H1; destruct (log2std o); reflexivity).
  assert (R2 : release (log_error st) = Some (if log2std o || error2std o then Std Cerr else Freed)) by (rewrite H2; destruct (log2std o || error2std o); reflexivity).
  eexists. split; [exact E|]. split; [unfold LogFinish; rewrite R1, R2, NF; reflexivity|]. split; [|split].
  - intros L. rewrite L. split; [reflexivity|]. unfold LogFinish. cbn [log_error log_info orb]. destruct (error2std o); reflexivity.
  - intros L. rewrite L. reflexivity.
  - intros On. assert (DM : forall f, In f dump_names -> exists h, dump_map st f = Some (Ofs h)) by (intros f F; eexists; now apply (i_map _ _ _ I)). split.
    + intros f w' F. apply uses_named in F. unfold Dump. cbn [dump_prefix dump_map]. rewrite (i_prefix _ _ _ I). pose proof On as On'. rewrite dumps_prefix in On'. destruct pfx; [discriminate|]. destruct (DM f F) as (h & ->). reflexivity.
    + unfold LogFinish. cbn [log_error log_info dump_map]. clear R1 R2 H1 H2. destruct (log2std o || error2std o); [|reflexivity]. destruct (log2std o); [|reflexivity].
      destruct (DM (str "dff") (or_introl eq_refl)) as (h & M). unfold dump_names. cbn [map existsb]. rewrite M. reflexivity.
Qed.
(** A name that nothing in /repo dumps, or a code other than the two: everything goes to cerr, the message about
    the name to the log of errors *)
Lemma others_unset l st w g : run l = Some (st, w) -> ~ In g dump_names -> dump_map st g = None.
Proof.
  intros E NI. pose proof initial as IN. destruct (LogInitial can o argv0 time no_logs w0) as [s0 u0] eqn:EI.
  assert (G0 : dump_map s0 g = None). { injection IN as -> _. cbn [dump_map]. destruct (dump_directory o); [|reflexivity]. unfold named. destruct (in_dec _ g dump_names); [contradiction|reflexivity]. }
  clear IN EI. revert s0 u0 G0 E. induction l as [|ev l IH]; intros s0 u0 G0; cbn [history]; [intros [= <- _]; exact G0|].
  destruct (happen can no_dump no_stream ev s0 u0) as [[s1 u1]|] eqn:H; [|discriminate]. apply IH. destruct ev as [h t|c t]; cbn [happen] in H.
  - unfold Dump in H. destruct (dump_prefix s0); [injection H as <- _; exact G0|]. destruct (dump_map s0 h) as [[| |[n|]|]|] eqn:M; try discriminate.
    + injection H as <- _. exact G0.
    + rewrite open_cases in H. injection H as <- _. cbn [dump_map]. destruct (list_eq_dec ascii_dec g h) as [->|]; [congruence|exact G0].
    + destruct (LogStream no_stream 0 s0 u0); [|discriminate]. injection H as <- _. exact G0.
  - destruct (LogStream no_stream c s0 u0) as [[k u]|]; [|discriminate]. injection H as <- _. exact G0.
Qed.
Theorem unknown_dump l g t : Forall usual l -> dumps_on o = true -> ~ In g uses -> exists st w w', run l = Some (st, w) /\ happen can no_dump no_stream (Dumped g t) st w = Some (st, w') /\ cout w' = cout w /\
  if log2std o || error2std o then cerr w' = cerr w ++ no_dump g ++ t /\ forall n, files w' n = files w n
  else cerr w' = cerr w ++ t /\ (forall n, n <> error_file argv0 time -> files w' n = files w n) /\
    files w' (error_file argv0 time) = if can (error_file argv0 time) then Some (List.concat (logged 0 l) ++ no_dump g) else files w0 (error_file argv0 time).
Proof.
  intros U On NI. destruct (run_inv l U) as (st & w & E & I). exists st, w.
  assert (M : dump_map st g = None) by (apply (others_unset l st w g E); intros Z; now apply NI, uses_named).
  pose proof (i_error _ _ _ I) as IE. pose proof (i_ferror _ _ _ I) as IF. unfold error_std in *. cbn [happen]. unfold Dump. rewrite (i_prefix _ _ _ I), M. rewrite dumps_prefix in On.
  destruct pfx; [discriminate|]. unfold LogStream. cbn [Z.eqb]. rewrite IE. destruct (log2std o || error2std o).
  - eexists. split; [exact E|]. split; [reflexivity|]. cbn [write fst snd cout cerr files]. split; [reflexivity|]. split; [symmetry; apply app_assoc|reflexivity].
  - destruct (can (error_file argv0 time)); cbn [negb andb] in IF; eexists; (split; [exact E|]); (split; [reflexivity|]); cbn [write fst snd cout cerr files].
    + split; [reflexivity|]. split; [reflexivity|]. split; [intros n D; now apply other_name|]. rewrite same_name, IF. reflexivity.
    + split; [reflexivity|]. split; [reflexivity|]. split; [reflexivity|exact IF].
Qed.
Theorem unknown_code l c t : Forall usual l -> c <> 0%Z -> c <> 1%Z -> exists st w w', run l = Some (st, w) /\ happen can no_dump no_stream (Logged c t) st w = Some (st, w') /\
  cout w' = cout w /\ cerr w' = cerr w ++ no_stream c ++ t /\ forall n, files w' n = files w n.
Proof.
  intros U C0 C1. destruct (run_inv l U) as (st & w & E & I). exists st, w. cbn [happen]. unfold LogStream. destruct (Z.eqb_spec c 0); [contradiction|]. destruct (Z.eqb_spec c 1); [contradiction|].
  eexists. split; [exact E|]. split; [reflexivity|]. cbn [write fst snd cout cerr files]. split; [reflexivity|]. split; [symmetry; apply app_assoc|reflexivity].
Qed.
End Runs.

(** * What does not hold *)
(** The logs of the two parties have the same names, if argv[0] and the second are the same: the one that
    starts later empties what the other has logged. *)
Theorem same_second_refuted can no_dump no_stream o o' argv0 time w0 l : log2std o = false -> log2std o' = false -> can (info_file argv0 time) = true -> Forall usual l ->
  exists st w, (let (st, w) := LogInitial can o argv0 time no_logs w0 in history can no_dump no_stream l st w) = Some (st, w) /\
    files w (info_file argv0 time) = Some (List.concat (logged 1 l)) /\
    files (snd (LogInitial can o' argv0 time no_logs w)) (info_file argv0 time) = Some [].
Proof.
  intros L L' C U. destruct (run_inv can no_dump no_stream o argv0 time w0 l U) as (st & w & E & I). exists st, w. split; [exact E|]. split.
  - rewrite (i_finfo _ _ _ _ _ _ _ _ I). unfold info_std. rewrite L, C. reflexivity.
  - pose proof (inv_initial can o' argv0 time w) as I'. rewrite (i_finfo _ _ _ _ _ _ _ _ I'). unfold info_std. rewrite L', C. reflexivity.
Qed.
(** The dumps need not be in the directory: nothing is put between its name and the rest *)
Theorem directory_refuted : ~ forall o d f, dump_directory o = Some d -> In f uses -> exists n, dump_file o d f = d ++ str "/" ++ n \/ exists d', d = d' ++ str "/".
Proof.
  intros H. destruct (H (LogOptions true false (Some (str "out")) false false) (str "out") (str "dff") eq_refl (or_intror (or_introl eq_refl))) as (n & [E|(d & E)]); [discriminate E|].
  apply (f_equal (@rev ascii)) in E. rewrite rev_app_distr in E. discriminate E.
Qed.
Definition empty_world : world := World (fun _ => None) [] [].
Lemma log_case : match (let (st, w) := LogInitial (fun _ => true) (LogOptions true false (Some (str "out/")) true false) (str "tg") (str "17") no_logs empty_world in
    history (fun _ => true) (fun _ => []) (fun _ => []) [Dumped (str "table") (str "a"); Logged 1 (str "x"); Logged 0 (str "y"); Dumped (str "table") (str "b")] st w) with
  | Some (_, w) => files w (str "out/alice-table.hex") = Some (str "ab") /\ files w (str "tg-17-info.log") = Some (str "x") /\ cerr w = str "y" /\ files w (str "out/alice-dff.hex") = None
  | None => False end.
Proof. vm_compute. repeat split. Qed.
(** LogFinish without LogInitial does nothing *)
Lemma finish_first_case : exists st, LogFinish no_logs = Some st /\ dump_prefix st = [] /\ log_error st = Null /\ log_info st = Null /\ forall f, dump_map st f = None.
Proof. eexists. repeat split. Qed.
(** A sixth name and a third code *)
Lemma unknown_case : match (let (st, w) := LogInitial (fun _ => true) (LogOptions false true (Some (str "out/")) false false) (str "tg") (str "17") no_logs empty_world in
    history (fun _ => true) (fun f => str "No such a dump file " ++ f) (fun _ => str "No such a LOG stream") [Logged 0 (str "y"); Dumped (str "wires") (str "a"); Logged 2 (str "z")] st w) with
  | Some (_, w) => files w (str "tg-17-error.log") = Some (str "yNo such a dump file wires") /\ cerr w = str "aNo such a LOG streamz" /\ cout w = [] /\ files w (str "out/bob-wires.hex") = None
  | None => False end.
Proof. vm_compute. repeat split. Qed.
