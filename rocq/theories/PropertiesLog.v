(** C146, C147: printed blocks, and the files of logs and dumps.
    Statements only; the proofs are in LogFiles.v. *)
From Coq Require Import ZArith NArith List Bool Ascii String.
From Verif Require Import Base Text Hex CmdText LogFiles.
Import ListNotations.
Open Scope list_scope.
Open Scope N_scope.

(** * C146: printed blocks *)
Theorem C146_printed : forall v s, s_left s = false -> v < 2 ^ 128 -> exists t,
  put_block v s = Stream (s_hex s) false "0" 0 (s_text s ++ t) /\ List.length t = 35%nat /\ block_text t v /\ Str2Block t = Some v.
Proof. exact block_printed. Qed.
Print Assumptions C146_printed.
Example C146_printed_case : s_text (put_block 0x00112233445566778899aabbccddeeff fresh) = str "00112233 44556677 8899aabb ccddeeff".
Proof. exact block_case. Qed.
Theorem C146_fill_refuted : ~ forall v s, s_fill (put_block v s) = s_fill s.
Proof. exact fill_refuted. Qed.
Print Assumptions C146_fill_refuted.
Example C146_fill_case : s_text (put_number 7 (setw 4 fresh)) = str "   7" /\
  s_text (put_number 7 (setw 4 (put_block 0 fresh))) = str "00000000 00000000 00000000 000000000007".
Proof. exact fill_case. Qed.
Theorem C146_left_refuted : ~ forall s v w, v < 2 ^ 128 -> w < 2 ^ 128 -> s_text (put_block v s) = s_text (put_block w s) -> v = w.
Proof. exact left_refuted. Qed.
Print Assumptions C146_left_refuted.
(** * C147: where the logs and the dumps go *)
Theorem C147_dumps : forall can no_dump no_stream o argv0 time w0 l d f, Forall usual l -> dump_directory o = Some d -> d ++ party o <> [] -> In f uses -> exists st w, (let (st, w) := LogInitial can o argv0 time no_logs w0 in history can no_dump no_stream l st w) = Some (st, w) /\
  files w (dump_file o d f) = if can (dump_file o d f) && negb (Nat.eqb (List.length (dumped f l)) 0) then Some (List.concat (dumped f l)) else files w0 (dump_file o d f).
Proof. exact dumps_kept. Qed.
Print Assumptions C147_dumps.
Theorem C147_logs : forall can no_dump no_stream o argv0 time w0 l, Forall usual l -> exists st w, (let (st, w) := LogInitial can o argv0 time no_logs w0 in history can no_dump no_stream l st w) = Some (st, w) /\
  (if log2std o then cout w = cout w0 ++ List.concat (logged 1 l) else
     cout w = cout w0 /\ files w (info_file argv0 time) = if can (info_file argv0 time) then Some (List.concat (logged 1 l)) else files w0 (info_file argv0 time)) /\
  (if log2std o || error2std o then cerr w = cerr w0 ++ List.concat (logged 0 l) else
     cerr w = cerr w0 /\ files w (error_file argv0 time) = if can (error_file argv0 time) then Some (List.concat (logged 0 l)) else files w0 (error_file argv0 time)).
Proof. exact logs_kept. Qed.
Print Assumptions C147_logs.
Theorem C147_others : forall can no_dump no_stream o argv0 time w0 l n, Forall usual l -> (log2std o = false -> n <> info_file argv0 time) -> (log2std o || error2std o = false -> n <> error_file argv0 time) ->
  (forall d f, dump_directory o = Some d -> d ++ party o <> [] -> In f uses -> n <> dump_file o d f) -> exists st w, (let (st, w) := LogInitial can o argv0 time no_logs w0 in history can no_dump no_stream l st w) = Some (st, w) /\ files w n = files w0 n.
Proof. exact others_kept. Qed.
Print Assumptions C147_others.
Example C147_case : match (let (st, w) := LogInitial (fun _ => true) (LogOptions true false (Some (str "out/")) true false) (str "tg") (str "17") no_logs empty_world in
    history (fun _ => true) (fun _ => []) (fun _ => []) [Dumped (str "table") (str "a"); Logged 1 (str "x"); Logged 0 (str "y"); Dumped (str "table") (str "b")] st w) with
  | Some (_, w) => files w (str "out/alice-table.hex") = Some (str "ab") /\ files w (str "tg-17-info.log") = Some (str "x") /\ cerr w = str "y" /\ files w (str "out/alice-dff.hex") = None
  | None => False end.
Proof. exact log_case. Qed.
Theorem C147_parties : forall o o' d d' f g, alice o = true -> alice o' = false -> bob o' = true -> In f uses -> In g uses -> dump_file o d f <> dump_file o' d' g.
Proof. exact parties_apart. Qed.
Print Assumptions C147_parties.
Theorem C147_unknown_dump : forall can no_dump no_stream o argv0 time w0 l g t, Forall usual l -> dumps_on o = true -> ~ In g uses -> exists st w w', (let (st, w) := LogInitial can o argv0 time no_logs w0 in history can no_dump no_stream l st w) = Some (st, w) /\ happen can no_dump no_stream (Dumped g t) st w = Some (st, w') /\ cout w' = cout w /\
  if log2std o || error2std o then cerr w' = cerr w ++ no_dump g ++ t /\ forall n, files w' n = files w n
  else cerr w' = cerr w ++ t /\ (forall n, n <> error_file argv0 time -> files w' n = files w n) /\
    files w' (error_file argv0 time) = if can (error_file argv0 time) then Some (List.concat (logged 0 l) ++ no_dump g) else files w0 (error_file argv0 time).
Proof. exact unknown_dump. Qed.
Print Assumptions C147_unknown_dump.
Theorem C147_unknown_code : forall can no_dump no_stream o argv0 time w0 l c t, Forall usual l -> c <> 0%Z -> c <> 1%Z -> exists st w w', (let (st, w) := LogInitial can o argv0 time no_logs w0 in history can no_dump no_stream l st w) = Some (st, w) /\ happen can no_dump no_stream (Logged c t) st w = Some (st, w') /\
  cout w' = cout w /\ cerr w' = cerr w ++ no_stream c ++ t /\ forall n, files w' n = files w n.
Proof. exact unknown_code. Qed.
Print Assumptions C147_unknown_code.
Example C147_unknown_case : match (let (st, w) := LogInitial (fun _ => true) (LogOptions false true (Some (str "out/")) false false) (str "tg") (str "17") no_logs empty_world in
    history (fun _ => true) (fun f => str "No such a dump file " ++ f) (fun _ => str "No such a LOG stream") [Logged 0 (str "y"); Dumped (str "wires") (str "a"); Logged 2 (str "z")] st w) with
  | Some (_, w) => files w (str "tg-17-error.log") = Some (str "yNo such a dump file wires") /\ cerr w = str "aNo such a LOG streamz" /\ cout w = [] /\ files w (str "out/bob-wires.hex") = None
  | None => False end.
Proof. exact unknown_case. Qed.
Theorem C147_finish : forall can no_dump no_stream o argv0 time w0 l, Forall usual l -> exists st w st', (let (st, w) := LogInitial can o argv0 time no_logs w0 in history can no_dump no_stream l st w) = Some (st, w) /\ LogFinish st = Some st' /\
  (log2std o = false -> (forall w', LogStream no_stream 1 st' w' = None) /\ LogFinish st' = None) /\
  (log2std o || error2std o = false -> forall w', LogStream no_stream 0 st' w' = None) /\
  (dumps_on o = true -> (forall f w', In f uses -> Dump can no_dump no_stream f st' w' = None) /\ LogFinish st' = None).
Proof. exact finished. Qed.
Print Assumptions C147_finish.
Example C147_finish_first_case : exists st, LogFinish no_logs = Some st /\ dump_prefix st = [] /\ log_error st = Null /\ log_info st = Null /\ forall f, dump_map st f = None.
Proof. exact finish_first_case. Qed.
Theorem C147_same_second_refuted : forall can no_dump no_stream o o' argv0 time w0 l, log2std o = false -> log2std o' = false -> can (info_file argv0 time) = true -> Forall usual l ->
  exists st w, (let (st, w) := LogInitial can o argv0 time no_logs w0 in history can no_dump no_stream l st w) = Some (st, w) /\
    files w (info_file argv0 time) = Some (List.concat (logged 1 l)) /\
    files (snd (LogInitial can o' argv0 time no_logs w)) (info_file argv0 time) = Some [].
Proof. exact same_second_refuted. Qed.
Print Assumptions C147_same_second_refuted.
Theorem C147_directory_refuted : ~ forall o d f, dump_directory o = Some d -> In f uses -> exists n, dump_file o d f = d ++ str "/" ++ n \/ exists d', d = d' ++ str "/".
Proof. exact directory_refuted. Qed.
Print Assumptions C147_directory_refuted.
