(** garbled_circuit/eval_garbled_circuit.cpp: the runs of TinyGarble that the timing evaluation starts. *)
From Coq Require Import String ZArith List Bool Lia.
Import ListNotations.
Open Scope Z_scope.

(** * Model *)
(** ifstream and stringstream: the words that are left and whether the stream has failed.  Extraction
    from a stream that has failed or is at its end leaves the variable as it is; a word that is not a
    number gives 0 and the stream fails.  [num]: the number that a word stands for; that a word can
    begin with a number is not modelled. *)
Record reader := Reader { words_left : list string; failed : bool }.
Definition read_word (r : reader) (v : string) : reader * string :=
  if failed r then (r, v) else match words_left r with [] => (Reader [] true, v) | t :: l => (Reader l false, t) end.
Definition read_int (num : string -> option Z) (r : reader) (v : option Z) : reader * option Z :=
  if failed r then (r, v) else
  match words_left r with
  | [] => (Reader [] true, v)
  | t :: l => match num t with Some n => (Reader l false, Some n) | None => (Reader (t :: l) true, Some 0) end
  end.
(** The variables of main that the loop sets, eval_garbled_circuit.cpp:46-51; None: not initialised *)
Record vars := Vars { fin : reader; netlist_address : string; cycles : option Z; output_mode : option Z; benchmark : string; bit_width : string }.
Definition start (file : list string) : vars := Vars (Reader file false) "" None None "" "".
(** The begin of the body of the loop, eval_garbled_circuit.cpp:109-112; None: break *)
Definition read_record (num : string -> option Z) (v : vars) : option vars :=
  let (r, n) := read_word (fin v) (netlist_address v) in
  if string_dec n "terminate" then None else
  let (r, c) := read_int num r (cycles v) in
  let (r, m) := read_int num r (output_mode v) in
  let (r, b) := read_word r (benchmark v) in
  let (r, w) := read_word r (bit_width v) in
  Some (Vars r n c m b w).
(** A command line of TinyGarble, eval_garbled_circuit.cpp:126-134 *)
Record command := Command { x_netlist : string; x_port : Z; x_server : string; x_cycles : Z; x_mode : Z; x_alice : bool }.
(** The options of the program, eval_garbled_circuit.cpp:53-60 *)
Record options := Options { port : Z; server_ip : string; num_eval : Z }.
(** The runs for one record, eval_garbled_circuit.cpp:116-152, overflow of port left out; None: a
    variable is used that is not initialised *)
Definition record_runs (alice : bool) (o : options) (v : vars) : option (list command) :=
  if num_eval o <=? 0 then Some [] else
  match cycles v, output_mode v with
  | Some c, Some m => Some (map (fun i => Command (netlist_address v) (port o + 10 * Z.of_nat i) (server_ip o) c m alice) (seq 0 (Z.to_nat (num_eval o))))
  | _, _ => None
  end.
(** What the process has started after at most n rounds of the loop: it has left the loop, is still in it,
    or has used a variable that is not initialised *)
Inductive outcome := Left_loop (l : list command) | In_loop (l : list command) | Undefined.
Definition more (l : list command) (x : outcome) : outcome :=
  match x with Left_loop l' => Left_loop (l ++ l') | In_loop l' => In_loop (l ++ l') | Undefined => Undefined end.
Fixpoint rounds (num : string -> option Z) (alice : bool) (o : options) (n : nat) (v : vars) : outcome :=
  match n with
  | O => In_loop []
  | S n' =>
    match read_record num v with
    | None => Left_loop []
    | Some v' => match record_runs alice o v' with None => Undefined | Some l => more l (rounds num alice o n' v') end
    end
  end.
(** main, eval_garbled_circuit.cpp:35-43, 109: in both processes; TIMING_EVAL is 0 in
    garbled_circuit_util.h:52 *)
Definition eval_main (timing_eval : bool) (num : string -> option Z) (alice : bool) (o : options) (n : nat) (file : list string) : outcome :=
  if timing_eval then rounds num alice o n (start file) else Left_loop [].
(** The three numbers that a run prints, eval_garbled_circuit.cpp:145-150 *)
Definition measure (num : string -> option Z) (output : list string) (dc : option Z * option Z * option Z) : option Z * option Z * option Z :=
  let '(d0, d1, d2) := dc in
  let (r, d0) := read_int num (Reader output false) d0 in
  let (r, d1) := read_int num r d1 in
  let (r, d2) := read_int num r d2 in
  (d0, d1, d2).
(** The sums over the runs of a record; that they are of type double is left out; None: a variable that is not
    initialised is used *)
Fixpoint sums (num : string -> option Z) (outputs : list (list string)) (dc : option Z * option Z * option Z) (s : Z * Z * Z) : option (Z * Z * Z) :=
  match outputs with
  | [] => Some s
  | x :: l =>
    let dc := measure num x dc in
    match dc, s with
    | (Some a, Some b, Some c), (sa, sb, sc) => sums num l dc (sa + a, sb + b, sc + c)
    | _, _ => None
    end
  end.

(** * Specification *)
(** A record of the file with benchmarks and its five words *)
Record bench := Bench { b_netlist : string; b_cycles : Z; b_mode : Z }.
Definition written (num : string -> option Z) (b : bench) (l : list string) : Prop :=
  exists c m n w, l = [b_netlist b; c; m; n; w] /\ num c = Some (b_cycles b) /\ num m = Some (b_mode b) /\ b_netlist b <> "terminate"%string.
(** What a party is to start: for each record num_eval runs, on ports ten apart *)
Definition wanted (alice : bool) (o : options) (bs : list bench) : list command :=
  flat_map (fun b => map (fun i => Command (b_netlist b) (port o + 10 * Z.of_nat i) (server_ip o) (b_cycles b) (b_mode b) alice) (seq 0 (Z.to_nat (num_eval o)))) bs.
(** The command of the other party *)
Definition other (c : command) : command := Command (x_netlist c) (x_port c) (x_server c) (x_cycles c) (x_mode c) (negb (x_alice c)).
Definition other_outcome (x : outcome) : outcome :=
  match x with Left_loop l => Left_loop (map other l) | In_loop l => In_loop (map other l) | Undefined => Undefined end.

(** * Proofs *)
Section Eval.
Variables (num : string -> option Z) (o : options).
Lemma read_one b l rest v : written num b l -> failed (fin v) = false -> words_left (fin v) = l ++ rest ->
  exists n w, read_record num v = Some (Vars (Reader rest false) (b_netlist b) (Some (b_cycles b)) (Some (b_mode b)) n w).
Proof.
  intros (c & m & n & w & -> & Hc & Hm & Hn) F E. exists n, w. unfold read_record, read_word, read_int. rewrite F, E. cbn [app fst failed words_left].
  destruct (string_dec _ _) as [X | _]; [contradiction | ]. rewrite Hc. cbn [failed words_left]. rewrite Hm. reflexivity.
Qed.
Lemma runs_of alice b r n w : record_runs alice o (Vars r (b_netlist b) (Some (b_cycles b)) (Some (b_mode b)) n w) = Some (wanted alice o [b]).
Proof.
  unfold record_runs, wanted. cbn [cycles output_mode netlist_address flat_map]. rewrite app_nil_r. destruct (Z.leb_spec (num_eval o) 0); [ | reflexivity].
  now replace (Z.to_nat (num_eval o)) with O by lia.
Qed.
Lemma wanted_cons alice b bs : wanted alice o (b :: bs) = wanted alice o [b] ++ wanted alice o bs.
Proof. unfold wanted. cbn [flat_map]. now rewrite app_nil_r. Qed.
Lemma wanted_app alice bs cs : wanted alice o (bs ++ cs) = wanted alice o bs ++ wanted alice o cs.
Proof. apply flat_map_app. Qed.
Lemma rounds_S alice n v : rounds num alice o (S n) v =
  match read_record num v with None => Left_loop [] | Some v' => match record_runs alice o v' with None => Undefined | Some l => more l (rounds num alice o n v') end end.
Proof. reflexivity. Qed.
Lemma rounds_all alice bs ls : Forall2 (written num) bs ls -> forall rest n v, failed (fin v) = false -> words_left (fin v) = concat ls ++ "terminate"%string :: rest ->
  rounds num alice o (S (length bs + n)) v = Left_loop (wanted alice o bs).
Proof.
  induction 1 as [ | b l bs ls W _ IH]; intros rest n v F E.
  - cbn [rounds]. unfold read_record, read_word. rewrite F, E. cbn [concat app]. reflexivity.
  - cbn [concat] in E. rewrite <- app_assoc in E. destruct (read_one b l _ v W F E) as (bn & w & R). cbn [length Nat.add]. rewrite rounds_S, R, runs_of.
    rewrite (IH rest n) by reflexivity. cbn [more]. now rewrite <- wanted_cons.
Qed.
(** Each party starts the runs that are wanted and comes to an end *)
Theorem runs_wanted alice bs ls rest n : Forall2 (written num) bs ls -> (length bs < n)%nat ->
  eval_main true num alice o n (concat ls ++ "terminate"%string :: rest) = Left_loop (wanted alice o bs).
Proof.
  intros H L. replace n with (S (length bs + (n - length bs - 1))) by lia. now apply (rounds_all alice bs ls H rest).
Qed.
(** Whatever the file, the parties start the same runs, as the two roles *)
Theorem runs_match t file n : eval_main t num false o n file = other_outcome (eval_main t num true o n file).
Proof.
  destruct t; [ | reflexivity]. unfold eval_main. generalize (start file) as v. induction n as [ | n IH]; intros v; [reflexivity | ]. cbn [rounds]. destruct (read_record num v) as [v' | ]; [ | reflexivity].
  unfold record_runs. destruct (num_eval o <=? 0); [rewrite IH; now destruct (rounds num true o n v') | ].
  destruct (cycles v'), (output_mode v'); try reflexivity. rewrite IH. destruct (rounds num true o n v'); cbn [more other_outcome]; rewrite ?map_app, ?map_map; reflexivity.
Qed.
(** If the last word is missing the last record is repeated without end *)
Lemma read_failed v : failed (fin v) = true -> netlist_address v <> "terminate"%string -> read_record num v = Some v.
Proof.
  intros F N. destruct v as [[r f] na c m b w]. cbn in F, N. subst f. unfold read_record, read_word, read_int. cbn [fin failed netlist_address cycles output_mode benchmark bit_width].
  destruct (string_dec na "terminate"); [contradiction | ]. cbn [failed words_left]. reflexivity.
Qed.
Lemma read_end v : failed (fin v) = false -> words_left (fin v) = [] -> netlist_address v <> "terminate"%string ->
  read_record num v = Some (Vars (Reader [] true) (netlist_address v) (cycles v) (output_mode v) (benchmark v) (bit_width v)).
Proof.
  intros F E N. destruct v as [[r f] na c m b w]. cbn in F, E, N. subst f r. unfold read_record, read_word, read_int. cbn [fin failed words_left netlist_address cycles output_mode benchmark bit_width].
  destruct (string_dec na "terminate"); [contradiction | ]. reflexivity.
Qed.
Lemma rounds_failed alice b n : b_netlist b <> "terminate"%string -> forall v, failed (fin v) = true \/ words_left (fin v) = [] -> netlist_address v = b_netlist b -> cycles v = Some (b_cycles b) -> output_mode v = Some (b_mode b) ->
  rounds num alice o n v = In_loop (wanted alice o (repeat b n)).
Proof.
  intros N. induction n as [ | n IH]; intros v F E1 E2 E3; [reflexivity | ].
  assert (R : exists r, failed r = true /\ read_record num v = Some (Vars r (b_netlist b) (Some (b_cycles b)) (Some (b_mode b)) (benchmark v) (bit_width v))).
  { destruct (failed (fin v)) eqn:D.
    - exists (fin v). split; [exact D | ]. rewrite read_failed by (try exact D; rewrite E1; exact N). destruct v as [r na c m bn w]. cbn in *. now subst.
    - destruct F as [F | F]; [discriminate F | ]. exists (Reader [] true). split; [reflexivity | ]. rewrite read_end by (try assumption; rewrite E1; exact N). now rewrite E1, E2, E3. }
  destruct R as (r & Fr & R). cbn [rounds repeat]. rewrite R, runs_of, IH by (try reflexivity; left; exact Fr). cbn [more]. now rewrite <- wanted_cons.
Qed.
Lemma rounds_on alice bs ls : Forall2 (written num) bs ls -> forall b l, written num b l -> forall n v, failed (fin v) = false -> words_left (fin v) = concat (ls ++ [l]) ->
  rounds num alice o (length bs + S n) v = In_loop (wanted alice o (bs ++ repeat b (S n))).
Proof.
  induction 1 as [ | b' l' bs ls W' _ IH]; intros b l W n v F E.
  - cbn [app concat length Nat.add] in *. destruct (read_one b l [] v W F E) as (bn & w & R). cbn [rounds]. rewrite R, runs_of.
    assert (N : b_netlist b <> "terminate"%string) by (destruct W as (? & ? & ? & ? & _ & _ & _ & N); exact N).
    rewrite (rounds_failed alice b n N) by (try reflexivity; right; reflexivity). cbn [more repeat]. now rewrite <- wanted_cons.
  - cbn [app concat] in E. destruct (read_one b' l' _ v W' F E) as (bn & w & R). cbn [length Nat.add rounds]. rewrite R, runs_of, (IH b l W n) by reflexivity. cbn [more app]. now rewrite <- wanted_cons.
Qed.
Theorem runs_without_end alice bs ls b l n : Forall2 (written num) bs ls -> written num b l ->
  eval_main true num alice o (length bs + S n) (concat (ls ++ [l])) = In_loop (wanted alice o (bs ++ repeat b (S n))).
Proof. intros H W. now apply (rounds_on alice bs ls H b l W). Qed.
(** A word that is not a number keeps the loop from ending, whatever follows *)
Lemma rounds_stuck alice n : forall v, failed (fin v) = true -> netlist_address v <> "terminate"%string -> forall l, rounds num alice o n v <> Left_loop l.
Proof.
  induction n as [ | n IH]; intros v F N l; [discriminate | ]. cbn [rounds]. rewrite read_failed by assumption. destruct (record_runs alice o v) as [x | ]; [ | discriminate].
  specialize (IH v F N). destruct (rounds num alice o n v) as [l' | l' | ]; cbn [more]; try discriminate. now elim (IH l').
Qed.
Theorem runs_bad_number alice bs ls name bad rest n : Forall2 (written num) bs ls -> name <> "terminate"%string -> num bad = None ->
  forall l, eval_main true num alice o n (concat ls ++ name :: bad :: rest) <> Left_loop l.
Proof.
  intros H N B. unfold eval_main. assert (G : forall n v, failed (fin v) = false -> words_left (fin v) = concat ls ++ name :: bad :: rest -> forall l, rounds num alice o n v <> Left_loop l); [ | now apply G].
  clear n. induction H as [ | b l' bs ls W _ IH]; intros n v F E l; (destruct n as [ | n]; [discriminate | ]); cbn [rounds].
  - unfold read_record, read_word, read_int. rewrite F, E. cbn [concat app failed words_left]. destruct (string_dec _ _) as [X | _]; [contradiction | ]. rewrite B. cbn [failed].
    destruct (record_runs _ _ _) as [x | ]; [ | discriminate].
    match goal with |- more x (rounds _ _ _ _ ?w) <> _ => pose proof (rounds_stuck alice n w eq_refl N) as Q; destruct (rounds num alice o n w) as [l2 | l2 | ] end; cbn [more]; try discriminate. now elim (Q l2).
  - cbn [concat] in E. rewrite <- app_assoc in E. destruct (read_one b l' _ v W F E) as (bn & w & R). rewrite R, runs_of.
    match goal with |- more _ (rounds _ _ _ _ ?u) <> _ => pose proof (IH n u eq_refl eq_refl) as Q; destruct (rounds num alice o n u) as [l2 | l2 | ] end; cbn [more]; try discriminate. now elim (Q l2).
Qed.
(** It is then run with zero cycles and the mode of the record before, for ever *)
Lemma last_cons l (x d : Z) : last (x :: l) d = last l x.
Proof. revert x. induction l as [ | y l IH]; intros x; [reflexivity | ]. change (last (y :: l) d = last (y :: l) x). rewrite IH. destruct l as [ | z l]; [reflexivity | ]. clear IH. change (last (z :: l) y = last (z :: l) x). revert z. induction l as [ | u l IH]; intros z; [reflexivity | exact (IH u)]. Qed.
Lemma rounds_bad alice name bad rest n bs ls : name <> "terminate"%string -> num bad = None -> Forall2 (written num) bs ls -> forall m v, failed (fin v) = false -> words_left (fin v) = concat ls ++ name :: bad :: rest -> output_mode v = Some m ->
  rounds num alice o (length bs + n) v = In_loop (wanted alice o (bs ++ repeat (Bench name 0 (last (map b_mode bs) m)) n)).
Proof.
  intros N B H. induction H as [ | b l' bs ls W _ IH]; intros m v F E M.
  - cbn [length Nat.add app map last]. destruct n as [ | n]; [reflexivity | ]. rewrite rounds_S.
    assert (R : read_record num v = Some (Vars (Reader (bad :: rest) true) name (Some 0) (Some m) (benchmark v) (bit_width v))).
    { unfold read_record, read_word, read_int. rewrite F, E. cbn [concat app failed words_left]. destruct (string_dec _ _) as [X | _]; [contradiction | ]. rewrite B. cbn [failed]. now rewrite M. }
    rewrite R. change name with (b_netlist (Bench name 0 m)) at 1. rewrite (runs_of alice (Bench name 0 m)). rewrite (rounds_failed alice (Bench name 0 m) n N) by (try reflexivity; left; reflexivity).
    cbn [more repeat]. now rewrite <- wanted_cons.
  - cbn [concat] in E. rewrite <- app_assoc in E. destruct (read_one b l' _ v W F E) as (bn & w & R). cbn [length Nat.add]. rewrite rounds_S, R, runs_of, (IH (b_mode b)) by reflexivity.
    cbn [more app map]. rewrite <- wanted_cons, last_cons. reflexivity.
Qed.
Theorem runs_zero_cycles alice b l bs ls name bad rest n : written num b l -> Forall2 (written num) bs ls -> name <> "terminate"%string -> num bad = None ->
  eval_main true num alice o (S (length bs + n)) (l ++ concat ls ++ name :: bad :: rest) = In_loop (wanted alice o (b :: bs ++ repeat (Bench name 0 (last (map b_mode bs) (b_mode b))) n)).
Proof.
  intros W H N B. unfold eval_main. destruct (read_one b l (concat ls ++ name :: bad :: rest) (start (l ++ concat ls ++ name :: bad :: rest)) W eq_refl eq_refl) as (bn & w & R).
  rewrite rounds_S, R, runs_of, (rounds_bad alice name bad rest n bs ls N B H (b_mode b)) by reflexivity. cbn [more]. now rewrite <- wanted_cons.
Qed.
(** The runs of a record have different ports if they are not more than 32768, in the sixteen bits of a port *)
Theorem run_ports i j : (i < j)%nat -> Z.of_nat j < 32768 -> (port o + 10 * Z.of_nat i) mod 65536 <> (port o + 10 * Z.of_nat j) mod 65536.
Proof.
  intros H J E. assert (D : (10 * (Z.of_nat j - Z.of_nat i)) mod 65536 = 0).
  { replace (10 * (Z.of_nat j - Z.of_nat i)) with ((port o + 10 * Z.of_nat j) - (port o + 10 * Z.of_nat i)) by lia. rewrite Zminus_mod, E, Z.sub_diag. reflexivity. }
  apply Z.mod_divide in D; [ | lia]. destruct D as (q & D). assert (5 * (Z.of_nat j - Z.of_nat i) = q * 32768) by lia. 
  assert (X : (32768 | 5 * (Z.of_nat j - Z.of_nat i))) by (exists q; lia). apply Z.gauss in X; [ | reflexivity]. destruct X as (k & X). lia.
Qed.
(** ** The measurements *)
Theorem sums_exact outs vals dc s0 s1 s2 : Forall2 (fun out v => exists x y z rest, out = x :: y :: z :: rest /\ num x = Some (fst (fst v)) /\ num y = Some (snd (fst v)) /\ num z = Some (snd v)) outs vals ->
  sums num outs dc (s0, s1, s2) = Some (fold_left (fun s v => s + fst (fst v)) vals s0, fold_left (fun s v => s + snd (fst v)) vals s1, fold_left (fun s v => s + snd v) vals s2).
Proof.
  intros H. revert dc s0 s1 s2. induction H as [ | out [[a b] c] outs vals (x & y & z & rest & -> & X & Y & Z) _ IH]; intros [[d0 d1] d2] s0 s1 s2; [reflexivity | ].
  cbn [fst snd] in X, Y, Z. cbn [sums]. unfold measure, read_int. cbn [failed words_left]. rewrite X. cbn [failed words_left]. rewrite Y. cbn [failed words_left]. rewrite Z.
  rewrite IH. reflexivity.
Qed.
(** A run that prints nothing counts as the one before it *)
Theorem empty_run out a b c x y z rest s0 s1 s2 dc : out = x :: y :: z :: rest -> num x = Some a -> num y = Some b -> num z = Some c ->
  sums num [out; []] dc (s0, s1, s2) = Some (s0 + a + a, s1 + b + b, s2 + c + c) /\ sums num [[]; out] (None, None, None) (s0, s1, s2) = None.
Proof.
  intros -> X Y Z. destruct dc as [[d0 d1] d2]. split; [ | reflexivity]. cbn [sums]. unfold measure, read_int. cbn [failed words_left]. rewrite X. cbn [failed words_left]. rewrite Y. cbn [failed words_left]. rewrite Z. reflexivity.
Qed.
End Eval.
(** The shipped sources set TIMING_EVAL to 0: nothing is run *)
Theorem nothing_run num alice o n file : eval_main false num alice o n file = Left_loop [].
Proof. reflexivity. Qed.
(** Not all runs of an evaluation have ports of their own *)
Theorem ports_again : ~ forall num alice o n file l i j c d, eval_main true num alice o n file = Left_loop l -> nth_error l i = Some c -> nth_error l j = Some d -> i <> j -> x_port c <> x_port d.
Proof.
  intros H. pose (num := fun s => if string_dec s "1" then Some 1 else None).
  apply (H num true (Options 1234 "127.0.0.1" 1) 3%nat ["a"; "1"; "1"; "A"; "1"; "b"; "1"; "1"; "B"; "1"; "terminate"]%string _ 0%nat 1%nat _ _ eq_refl eq_refl eq_refl); [discriminate | reflexivity].
Qed.
(** ** Cases *)
Definition digits (s : string) : option Z := if string_dec s "1" then Some 1 else if string_dec s "256" then Some 256 else if string_dec s "0" then Some 0 else if string_dec s "128" then Some 128 else None.
Lemma runs_case : eval_main true digits false (Options 1234 "127.0.0.1" 2) 9 ["sum"; "256"; "0"; "SUM"; "256"; "aes"; "1"; "0"; "AES"; "128"; "terminate"]%string =
  Left_loop [Command "sum" 1234 "127.0.0.1" 256 0 false; Command "sum" 1244 "127.0.0.1" 256 0 false; Command "aes" 1234 "127.0.0.1" 1 0 false; Command "aes" 1244 "127.0.0.1" 1 0 false].
Proof. reflexivity. Qed.
Lemma endless_case : eval_main true digits true (Options 1234 "127.0.0.1" 1) 3 ["aes"; "1"; "0"; "AES"; "128"]%string =
  In_loop [Command "aes" 1234 "127.0.0.1" 1 0 true; Command "aes" 1234 "127.0.0.1" 1 0 true; Command "aes" 1234 "127.0.0.1" 1 0 true].
Proof. reflexivity. Qed.
Lemma empty_case : sums digits [["1"; "128"; "256"; "ff"]; []]%string (None, None, None) (0, 0, 0) = Some (2, 256, 512).
Proof. reflexivity. Qed.
(** Not every file comes to an end *)
Theorem ends_refuted : ~ forall num alice o file, exists n l, eval_main true num alice o n file = Left_loop l.
Proof.
  intros H. destruct (H digits true (Options 1234 "127.0.0.1" 1) ["aes"; "1"; "0"; "AES"; "128"]%string) as (n & l & E). destruct n as [ | n]; [discriminate E | ].
  assert (W : written digits (Bench "aes" 1 0) ["aes"; "1"; "0"; "AES"; "128"]%string) by (exists "1"%string, "0"%string, "AES"%string, "128"%string; repeat split; discriminate).
  rewrite (runs_without_end digits (Options 1234 "127.0.0.1" 1) true [] [] _ _ n (Forall2_nil _) W : eval_main true digits true (Options 1234 "127.0.0.1" 1) (S n) ["aes"; "1"; "0"; "AES"; "128"]%string = _) in E. discriminate E.
Qed.
Lemma zero_case : eval_main true digits true (Options 1234 "127.0.0.1" 1) 3 ["aes"; "1"; "0"; "AES"; "128"; "sum"; "x"; "0"; "SUM"; "128"; "terminate"]%string =
  In_loop [Command "aes" 1234 "127.0.0.1" 1 0 true; Command "sum" 1234 "127.0.0.1" 0 0 true; Command "sum" 1234 "127.0.0.1" 0 0 true].
Proof. reflexivity. Qed.
