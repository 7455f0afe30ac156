(** C139, C140: the opening and closing of the connection.
    Statements only; the proofs are in Sockets.v. *)
From Coq Require Import ZArith List Bool.
From Verif Require Import Sockets.
Import ListNotations.
Open Scope Z_scope.

(** * C139: what is opened is closed *)
Theorem C139_server_opens : forall port d l p, unused p l -> unused p d -> d <> l ->
  ServerInit (OpenAnswers (Some l) true true true) (WaitAnswers (Some d) true) port p =
  (d, Process (d :: l :: opened p) ((l, blank_addr port) :: bound p) (connected p) (l :: listening p) (d :: nodelay p) l).
Proof. exact server_opens. Qed.
Print Assumptions C139_server_opens.
Theorem C139_server_closes : forall port d l p q, unused p l -> unused p d -> d <> l -> tidy p ->
  ServerInit (OpenAnswers (Some l) true true true) (WaitAnswers (Some d) true) port p = (d, q) ->
  fst (ServerClose d q) = SUCCESS /\ same_kernel (snd (ServerClose d q)) p.
Proof. exact server_closes. Qed.
Print Assumptions C139_server_closes.
Example C139_server_case : let r := ServerInit (OpenAnswers (Some 3) true true true) (WaitAnswers (Some 4) true) 1234 plain_process in
  fst r = 4 /\ opened (snd r) = [4; 3; 0; 1; 2] /\ bound (snd r) = [(3, [2; 0; 4; 210; 0; 0; 0; 0; 0; 0; 0; 0; 0; 0; 0; 0])] /\ opened (snd (ServerClose 4 (snd r))) = [0; 1; 2].
Proof. exact server_case. Qed.
Theorem C139_client_connects : forall port d host p, unused p d -> length host = 4%nat ->
  exists a, ClientInit (ClientAnswers (Some d) (Some host) true true) port p =
    Some (d, Process (d :: opened p) (bound p) ((d, a) :: connected p) (listening p) (d :: nodelay p) (listenfd p)) /\
  length a = 16%nat /\ port_field a = port_field (blank_addr port) /\ host_field a = host.
Proof. exact client_connects. Qed.
Print Assumptions C139_client_connects.
Theorem C139_client_closes : forall port d host p q, unused p d -> length host = 4%nat -> tidy p ->
  ClientInit (ClientAnswers (Some d) (Some host) true true) port p = Some (d, q) -> same_kernel (snd (ClientClose d q)) p.
Proof. exact client_closes. Qed.
Print Assumptions C139_client_closes.
Example C139_client_case : match ClientInit (ClientAnswers (Some 3) (Some [127; 0; 0; 1]) true true) 1234 plain_process with
  | Some (d, q) => d = 3 /\ connected q = [(3, [2; 0; 4; 210; 127; 0; 0; 1; 0; 0; 0; 0; 0; 0; 0; 0])] /\ opened (snd (ClientClose d q)) = [0; 1; 2] | None => False end.
Proof. exact client_case. Qed.
Theorem C139_server_address : forall port, 0 <= port < 65536 -> internet_address (blank_addr port) port [0; 0; 0; 0].
Proof. exact server_address. Qed.
Print Assumptions C139_server_address.
Theorem C139_client_address : forall port d host p, 0 <= port < 65536 -> length host = 4%nat ->
  exists a q, ClientInit (ClientAnswers (Some d) (Some host) true true) port p = Some (d, q) /\ connected q = (d, a) :: connected p /\ internet_address a port host.
Proof. exact client_address. Qed.
Print Assumptions C139_client_address.
Theorem C139_port : forall port, 0 <= port < 65536 -> exists h l, port_field (blank_addr port) = [h; l] /\ 0 <= h < 256 /\ 0 <= l < 256 /\ port = 256 * h + l.
Proof. exact port_ok. Qed.
Print Assumptions C139_port.
Theorem C139_port_injective : forall p q, 0 <= p < 65536 -> 0 <= q < 65536 -> blank_addr p = blank_addr q -> p = q.
Proof. exact port_injective. Qed.
Print Assumptions C139_port_injective.
Theorem C139_ports_refuted : forall p, blank_addr (p + 65536) = blank_addr p.
Proof. exact ports_refuted. Qed.
Print Assumptions C139_ports_refuted.
(** * C140: failures *)
Theorem C140_server_fails : forall a w port p, (forall d, o_socket a = Some d -> unused p d) -> (forall d, w_accept w = Some d -> unused p d) ->
  (fst (ServerInit a w port p) = FAILURE <-> o_socket a = None \/ o_reuse a = false \/ o_bind a = false \/ w_accept w = None \/ w_nodelay w = false) /\
  (fst (ServerInit a w port p) = FAILURE -> opened (snd (ServerInit a w port p)) =
    (if match o_socket a with Some _ => o_reuse a && o_bind a | None => false end then match w_accept w with Some d => [d] | None => [] end else []) ++
    match o_socket a with Some l => [l] | None => [] end ++ opened p).
Proof. exact server_fails. Qed.
Print Assumptions C140_server_fails.
Theorem C140_client_fails : forall a port p, (forall d, c_socket a = Some d -> unused p d) -> (forall h, c_host a = Some h -> length h = 4%nat) ->
  exists r q, ClientInit a port p = Some (r, q) /\
  (r = FAILURE <-> c_socket a = None \/ c_host a = None \/ c_connect a = false \/ c_nodelay a = false) /\
  opened q = match c_socket a with Some d => [d] | None => [] end ++ opened p.
Proof. exact client_fails. Qed.
Print Assumptions C140_client_fails.
Theorem C140_leak_refuted : ~ forall a w port p, fst (ServerInit a w port p) = FAILURE -> opened (snd (ServerInit a w port p)) = opened p.
Proof. exact leak_refuted. Qed.
Print Assumptions C140_leak_refuted.
Theorem C140_listen_refuted : forall port p d, fst (ServerOpenSocket (OpenAnswers (Some d) true true false) port p) = SUCCESS /\
  (~ In d (listening p) -> ~ In d (listening (snd (ServerOpenSocket (OpenAnswers (Some d) true true false) port p)))).
Proof. exact listen_refuted. Qed.
Print Assumptions C140_listen_refuted.
Theorem C140_attempts : forall before a port after p (l := before ++ (a, port) :: after), Forall (fun x => exists d, o_socket (fst x) = Some d /\ o_reuse (fst x) && o_bind (fst x) = false) before ->
  (exists d, o_socket a = Some d) -> o_reuse a = true -> o_bind a = true ->
  fst (attempts l p) = SUCCESS /\ length (opened (snd (attempts l p))) = (length before + 1 + length (opened p))%nat /\
  exists d, o_socket a = Some d /\ listenfd (snd (attempts l p)) = d.
Proof. exact attempts_leak. Qed.
Print Assumptions C140_attempts.
Example C140_attempts_case : let busy := OpenAnswers (Some 3) true false true in
  opened (snd (attempts [(busy, 20000); (OpenAnswers (Some 4) true true true, 1500)] plain_process)) = [4; 3; 0; 1; 2].
Proof. exact attempts_case. Qed.
Theorem C140_address_overflow_refuted : forall d host c n port p, (12 < length host)%nat -> ClientInit (ClientAnswers (Some d) (Some host) c n) port p = None.
Proof. exact address_overflow. Qed.
Print Assumptions C140_address_overflow_refuted.
