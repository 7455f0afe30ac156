(** tcpip/tcpip.cpp: opening and closing the connection. *)
From Coq Require Import ZArith List Bool Lia.
Import ListNotations.
Open Scope Z_scope.

(** * Model *)
(** util/common.h:32-33 *)
Definition SUCCESS : Z := 0.
Definition FAILURE : Z := -1.
(** A struct sockaddr_in as its sixteen bytes on a little-endian machine: the family in bytes 0 and
    1, the port in network order in 2 and 3, the address in 4 to 7, then padding. *)
Definition sockaddr := list Z.
(** bzero and the assignments of sin_family and sin_port, tcpip.cpp:54-58, 114-115, 118; htons
    takes the low sixteen bits of the int *)
Definition AF_INET : Z := 2.
Definition blank_addr (port : Z) : sockaddr := [AF_INET; 0; (port / 256) mod 256; port mod 256] ++ repeat 0 12.
(** bcopy to sin_addr, tcpip.cpp:116-117; None: it writes beyond the end of the struct *)
Definition with_host (a : sockaddr) (host : list Z) : option sockaddr :=
  if (12 <? length host)%nat then None else Some (firstn 4 a ++ host ++ skipn (4 + length host) a).

(** What the kernel keeps for a process: the descriptors that are open, the addresses sockets are
    bound or connected to, those that listen, those with TCP_NODELAY; and the global variable
    listenfd, tcpip.cpp:36. *)
Record process := Process {
  opened : list Z; bound : list (Z * sockaddr); connected : list (Z * sockaddr); listening : list Z; nodelay : list Z; listenfd : Z }.
(** close(2); of a descriptor that is not open it has no effect *)
Definition close (d : Z) (p : process) : process :=
  Process (filter (fun x => negb (x =? d)) (opened p)) (filter (fun x => negb (fst x =? d)) (bound p)) (filter (fun x => negb (fst x =? d)) (connected p))
    (filter (fun x => negb (x =? d)) (listening p)) (filter (fun x => negb (x =? d)) (nodelay p)) (listenfd p).

(** The answers of the kernel to the calls in ServerOpenSocket, ServerWaitForClient and ClientInit:
    the descriptor that socket or accept returns (None: error), whether the other calls succeed, the
    address that gethostbyname finds. *)
Record open_answers := OpenAnswers { o_socket : option Z; o_reuse : bool; o_bind : bool; o_listen : bool }.
Record wait_answers := WaitAnswers { w_accept : option Z; w_nodelay : bool }.
Record client_answers := ClientAnswers { c_socket : option Z; c_host : option (list Z); c_connect : bool; c_nodelay : bool }.

(** ServerOpenSocket, tcpip.cpp:40-65; the result of listen is not looked at *)
Definition ServerOpenSocket (a : open_answers) (port : Z) (p : process) : Z * process :=
  match o_socket a with
  | None => (FAILURE, Process (opened p) (bound p) (connected p) (listening p) (nodelay p) (-1))
  | Some d =>
    let p := Process (d :: opened p) (bound p) (connected p) (listening p) (nodelay p) d in
    if negb (o_reuse a) then (FAILURE, p)
    else if negb (o_bind a) then (FAILURE, p)
    else (SUCCESS, Process (opened p) ((d, blank_addr port) :: bound p) (connected p) (if o_listen a then d :: listening p else listening p) (nodelay p) d)
  end.
(** ServerWaitForClient, tcpip.cpp:67-83 *)
Definition ServerWaitForClient (a : wait_answers) (p : process) : Z * process :=
  match w_accept a with
  | None => (FAILURE, p)
  | Some d =>
    let p := Process (d :: opened p) (bound p) (connected p) (listening p) (nodelay p) (listenfd p) in
    if w_nodelay a then (d, Process (opened p) (bound p) (connected p) (listening p) (d :: nodelay p) (listenfd p)) else (FAILURE, p)
  end.
(** ServerInit, tcpip.cpp:85-92 *)
Definition ServerInit (a : open_answers) (w : wait_answers) (port : Z) (p : process) : Z * process :=
  let (r, p) := ServerOpenSocket a port p in
  if r =? FAILURE then (FAILURE, p)
  else let (connfd, p) := ServerWaitForClient w p in if connfd =? FAILURE then (FAILURE, p) else (connfd, p).
(** ServerClose, tcpip.cpp:94-98 *)
Definition ServerClose (sock : Z) (p : process) : Z * process := (SUCCESS, close (listenfd p) (close sock p)).
(** ClientInit, tcpip.cpp:100-132; None: a write outside serv_addr *)
Definition ClientInit (a : client_answers) (port : Z) (p : process) : option (Z * process) :=
  match c_socket a with
  | None => Some (FAILURE, p)
  | Some d =>
    let p := Process (d :: opened p) (bound p) (connected p) (listening p) (nodelay p) (listenfd p) in
    match c_host a with
    | None => Some (FAILURE, p)
    | Some host =>
      match with_host (blank_addr port) host with
      | None => None
      | Some serv_addr =>
        if negb (c_connect a) then Some (FAILURE, p)
        else let p := Process (opened p) (bound p) ((d, serv_addr) :: connected p) (listening p) (nodelay p) (listenfd p) in
        if c_nodelay a then Some (d, Process (opened p) (bound p) (connected p) (listening p) (d :: nodelay p) (listenfd p)) else Some (FAILURE, p)
      end
    end
  end.
(** ClientClose, tcpip.cpp:134-137 *)
Definition ClientClose (sock : Z) (p : process) : Z * process := (SUCCESS, close sock p).
(** The attempts of TcpipTestRun to open a port, tcpip_testsuit.cpp:40-53, with the answers to each and
    the ports drawn *)
Fixpoint attempts (l : list (open_answers * Z)) (p : process) : Z * process :=
  match l with
  | [] => (FAILURE, p)
  | (a, port) :: l' => let (r, p) := ServerOpenSocket a port p in if r =? FAILURE then attempts l' p else (SUCCESS, p)
  end.

(** * Specification *)
(** The kernel gives out descriptors that are not in use *)
Definition unused (p : process) (d : Z) : Prop := 0 <= d /\ ~ In d (opened p).
(** Descriptors that are not open have no state *)
Definition tidy (p : process) : Prop :=
  (forall d a, In (d, a) (bound p) -> In d (opened p)) /\ (forall d a, In (d, a) (connected p) -> In d (opened p)) /\
  (forall d, In d (listening p) -> In d (opened p)) /\ (forall d, In d (nodelay p) -> In d (opened p)).
(** Whatever the kernel keeps is the same *)
Definition same_kernel (p q : process) : Prop :=
  opened p = opened q /\ bound p = bound q /\ connected p = connected q /\ listening p = listening q /\ nodelay p = nodelay q.
(** A client that connects to the address with port field c reaches the server bound to s *)
Definition port_field (a : sockaddr) : list Z := firstn 2 (skipn 2 a).
Definition host_field (a : sockaddr) : list Z := firstn 4 (skipn 4 a).
(** The bytes of an address of the internet: AF_INET is 2 on Linux; the rest is zero *)
Definition internet_address (a : sockaddr) (port : Z) (host : list Z) : Prop :=
  exists h l, a = [2; 0; h; l] ++ host ++ [0; 0; 0; 0; 0; 0; 0; 0] /\ 0 <= h < 256 /\ 0 <= l < 256 /\ port = 256 * h + l.

(** * Proofs *)
Lemma filter_none {A} (f : A -> bool) l : (forall x, In x l -> f x = true) -> filter f l = l.
Proof. induction l as [ | x l IH]; intros H; [reflexivity | ]. cbn [filter]. rewrite (H x) by now left. f_equal. apply IH. intros y Hy. apply H. now right. Qed.
Lemma gone d l : ~ In d l -> filter (fun x => negb (x =? d)) l = l.
Proof. intros H. apply filter_none. intros x Hx. apply negb_true_iff, Z.eqb_neq. intros ->. now apply H. Qed.
Lemma gone_pair d (l : list (Z * sockaddr)) : (forall a, ~ In (d, a) l) -> filter (fun x => negb (fst x =? d)) l = l.
Proof. intros H. apply filter_none. intros [x a] Hx. cbn [fst]. apply negb_true_iff, Z.eqb_neq. intros ->. now apply (H a). Qed.
Lemma gone_head d l : filter (fun x => negb (x =? d)) (d :: l) = filter (fun x => negb (x =? d)) l.
Proof. cbn [filter]. now rewrite Z.eqb_refl. Qed.
Lemma not_failure d : 0 <= d -> d =? FAILURE = false.
Proof. intros H. apply Z.eqb_neq. unfold FAILURE. lia. Qed.
(** ** The server *)
Theorem server_opens port d l p : unused p l -> unused p d -> d <> l ->
  ServerInit (OpenAnswers (Some l) true true true) (WaitAnswers (Some d) true) port p =
  (d, Process (d :: l :: opened p) ((l, blank_addr port) :: bound p) (connected p) (l :: listening p) (d :: nodelay p) l).
Proof. intros [L1 L2] [D1 D2] N. unfold ServerInit. cbn. now rewrite not_failure. Qed.
Theorem server_closes port d l p q : unused p l -> unused p d -> d <> l -> tidy p ->
  ServerInit (OpenAnswers (Some l) true true true) (WaitAnswers (Some d) true) port p = (d, q) ->
  fst (ServerClose d q) = SUCCESS /\ same_kernel (snd (ServerClose d q)) p.
Proof.
  intros L D N (T1 & T2 & T3 & T4) H. rewrite server_opens in H by assumption. injection H as <-. destruct L as [L1 L2], D as [D1 D2].
  assert (Nl : l =? d = false) by (apply Z.eqb_neq; congruence).
  split; [reflexivity | ]. unfold ServerClose, close, same_kernel. cbn [snd opened bound connected listening nodelay listenfd].
  repeat split; cbn [filter fst]; rewrite ?Z.eqb_refl, ?Nl; cbn [negb filter fst]; rewrite ?Z.eqb_refl; cbn [negb];
    rewrite ?(gone d), ?(gone l), ?(gone_pair d), ?(gone_pair l); try reflexivity; try assumption.
  all: try (intros a Ha; first [apply T1 in Ha | apply T2 in Ha]; contradiction).
  all: intros Ha; first [apply T3 in Ha | apply T4 in Ha]; contradiction.
Qed.
(** When it fails, and what stays open then *)
Theorem server_fails a w port p : (forall d, o_socket a = Some d -> unused p d) -> (forall d, w_accept w = Some d -> unused p d) ->
  (fst (ServerInit a w port p) = FAILURE <-> o_socket a = None \/ o_reuse a = false \/ o_bind a = false \/ w_accept w = None \/ w_nodelay w = false) /\
  (fst (ServerInit a w port p) = FAILURE -> opened (snd (ServerInit a w port p)) =
    (if match o_socket a with Some _ => o_reuse a && o_bind a | None => false end then match w_accept w with Some d => [d] | None => [] end else []) ++
    match o_socket a with Some l => [l] | None => [] end ++ opened p).
Proof.
  intros U V. unfold ServerInit, ServerOpenSocket, ServerWaitForClient. destruct a as [[l | ] [] [] ls], w as [[d | ] []]; cbn;
    try (specialize (V d eq_refl); destruct V as [V _]; rewrite (not_failure d V); cbn);
    (split; [split; [intros E | intros E] | intros E]);
    try reflexivity; try tauto.
  all: try (unfold FAILURE in E; lia).
  all: try (destruct E as [E | [E | [E | [E | E]]]]; discriminate).
Qed.
Theorem leak_refuted : ~ forall a w port p, fst (ServerInit a w port p) = FAILURE -> opened (snd (ServerInit a w port p)) = opened p.
Proof. intros H. specialize (H (OpenAnswers (Some 3) true false true) (WaitAnswers None false) 1234 (Process [] [] [] [] [] 0) eq_refl). discriminate H. Qed.
(** A server that could not listen is not noticed *)
Theorem listen_refuted port p d : fst (ServerOpenSocket (OpenAnswers (Some d) true true false) port p) = SUCCESS /\
  (~ In d (listening p) -> ~ In d (listening (snd (ServerOpenSocket (OpenAnswers (Some d) true true false) port p)))).
Proof. split; [reflexivity | ]. intros H. exact H. Qed.
(** ** Several attempts *)
Theorem attempts_leak before a port after p (l := before ++ (a, port) :: after) :
  Forall (fun x => exists d, o_socket (fst x) = Some d /\ o_reuse (fst x) && o_bind (fst x) = false) before ->
  (exists d, o_socket a = Some d) -> o_reuse a = true -> o_bind a = true ->
  fst (attempts l p) = SUCCESS /\ length (opened (snd (attempts l p))) = (length before + 1 + length (opened p))%nat /\
  exists d, o_socket a = Some d /\ listenfd (snd (attempts l p)) = d.
Proof.
  intros H (d & S) R B. unfold l. clear l. revert p. induction H as [ | [b q] before (x & X1 & X2) _ IH]; intros p; cbn [app attempts].
  - unfold ServerOpenSocket. rewrite S, R, B. cbn. split; [reflexivity | ]. split; [lia | ]. now exists d.
  - cbn [fst] in X1, X2.
    assert (E : ServerOpenSocket b q p = (FAILURE, Process (x :: opened p) (bound p) (connected p) (listening p) (nodelay p) x)).
    { unfold ServerOpenSocket. rewrite X1. destruct (o_reuse b); cbn [andb negb] in *; [rewrite X2 | ]; reflexivity. }
    rewrite E. replace (FAILURE =? FAILURE) with true by reflexivity. destruct (IH (Process (x :: opened p) (bound p) (connected p) (listening p) (nodelay p) x)) as (I1 & I2 & I3).
    split; [exact I1 | ]. split; [rewrite I2; cbn [length opened]; lia | exact I3].
Qed.
(** ** The client *)
Theorem client_connects port d host p : unused p d -> length host = 4%nat ->
  exists a, ClientInit (ClientAnswers (Some d) (Some host) true true) port p =
    Some (d, Process (d :: opened p) (bound p) ((d, a) :: connected p) (listening p) (d :: nodelay p) (listenfd p)) /\
  length a = 16%nat /\ port_field a = port_field (blank_addr port) /\ host_field a = host.
Proof.
  intros U L. destruct host as [ | h1 [ | h2 [ | h3 [ | h4 [ | ]]]]]; try discriminate L. eexists. split; [reflexivity | ]. repeat split.
Qed.
Theorem client_closes port d host p q : unused p d -> length host = 4%nat -> tidy p ->
  ClientInit (ClientAnswers (Some d) (Some host) true true) port p = Some (d, q) -> same_kernel (snd (ClientClose d q)) p.
Proof.
  intros U L (T1 & T2 & T3 & T4) H. destruct (client_connects port d host p U L) as (a & E & _). rewrite E in H. injection H as <-. destruct U as [U1 U2].
  unfold ClientClose, close, same_kernel. cbn [snd opened bound connected listening nodelay filter fst]. rewrite !Z.eqb_refl. cbn [negb].
  repeat split; rewrite ?(gone d), ?(gone_pair d); try reflexivity; try assumption.
  all: try (intros b Hb; first [apply T1 in Hb | apply T2 in Hb]; contradiction).
  all: intros Hb; first [apply T3 in Hb | apply T4 in Hb]; contradiction.
Qed.
Theorem client_fails a port p : (forall d, c_socket a = Some d -> unused p d) -> (forall h, c_host a = Some h -> length h = 4%nat) ->
  exists r q, ClientInit a port p = Some (r, q) /\
  (r = FAILURE <-> c_socket a = None \/ c_host a = None \/ c_connect a = false \/ c_nodelay a = false) /\
  opened q = match c_socket a with Some d => [d] | None => [] end ++ opened p.
Proof.
  intros U L. destruct a as [[d | ] [h | ] [] []]; cbn [c_socket c_host c_connect c_nodelay] in *.
  all: try (specialize (L h eq_refl); destruct h as [ | h1 [ | h2 [ | h3 [ | h4 [ | ]]]]]; try discriminate L).
  all: eexists _, _; (split; [reflexivity | ]; split; [ | reflexivity]).
  all: try (split; [tauto | reflexivity]).
  specialize (U d eq_refl). destruct U as [U _]. split; [intros ->; unfold FAILURE in U; lia | intros [E | [E | [E | E]]]; discriminate].
Qed.
(** An address of IPv6, of sixteen bytes, does not fit *)
Theorem address_overflow d host c n port p : (12 < length host)%nat -> ClientInit (ClientAnswers (Some d) (Some host) c n) port p = None.
Proof. intros H. unfold ClientInit, with_host. cbn [c_socket c_host]. now rewrite (proj2 (Nat.ltb_lt _ _) H). Qed.
(** ** Ports *)
Theorem port_ok port : 0 <= port < 65536 -> exists h l, port_field (blank_addr port) = [h; l] /\ 0 <= h < 256 /\ 0 <= l < 256 /\ port = 256 * h + l.
Proof.
  intros H. exists ((port / 256) mod 256), (port mod 256). split; [reflexivity | ]. assert (0 <= port / 256 < 256) by (split; [apply Z.div_pos; lia | apply Z.div_lt_upper_bound; lia]).
  rewrite (Z.mod_small (port / 256)) by lia. split; [lia | ]. split; [apply Z.mod_pos_bound; lia | apply Z.div_mod; lia].
Qed.
(** The server accepts from any host *)
Theorem server_address port : 0 <= port < 65536 -> internet_address (blank_addr port) port [0; 0; 0; 0].
Proof.
  intros H. exists ((port / 256) mod 256), (port mod 256). split; [reflexivity | ]. pose proof (Z.div_mod port 256 ltac:(lia)). pose proof (Z.mod_pos_bound port 256 ltac:(lia)).
  assert (0 <= port / 256 < 256) by (split; [apply Z.div_pos; lia | apply Z.div_lt_upper_bound; lia]). rewrite (Z.mod_small (port / 256)) by lia. lia.
Qed.
Theorem client_address port d host p : 0 <= port < 65536 -> length host = 4%nat ->
  exists a q, ClientInit (ClientAnswers (Some d) (Some host) true true) port p = Some (d, q) /\ connected q = (d, a) :: connected p /\ internet_address a port host.
Proof.
  intros H L. destruct host as [ | h1 [ | h2 [ | h3 [ | h4 [ | ]]]]]; try discriminate L. destruct (server_address port H) as (h & l & E & B). injection E as <- <-.
  eexists _, _. split; [reflexivity | ]. split; [reflexivity | ]. eexists _, _. split; [reflexivity | exact B].
Qed.
Theorem port_injective p q : 0 <= p < 65536 -> 0 <= q < 65536 -> blank_addr p = blank_addr q -> p = q.
Proof.
  intros Hp Hq E. destruct (port_ok p Hp) as (h & l & E1 & _ & _ & ->). destruct (port_ok q Hq) as (h' & l' & E2 & _ & _ & ->). rewrite E, E2 in E1. congruence.
Qed.
Theorem ports_refuted p : blank_addr (p + 65536) = blank_addr p.
Proof.
  unfold blank_addr. replace (p + 65536) with (p + 256 * 256) by lia. rewrite Z.div_add by lia. rewrite Z.mod_add by lia.
  replace (p / 256 + 256) with (p / 256 + 1 * 256) by lia. now rewrite Z.mod_add by lia.
Qed.
(** ** Cases *)
Definition plain_process : process := Process [0; 1; 2] [] [] [] [] 0.
Lemma server_case : let r := ServerInit (OpenAnswers (Some 3) true true true) (WaitAnswers (Some 4) true) 1234 plain_process in
  fst r = 4 /\ opened (snd r) = [4; 3; 0; 1; 2] /\ bound (snd r) = [(3, [2; 0; 4; 210; 0; 0; 0; 0; 0; 0; 0; 0; 0; 0; 0; 0])] /\ opened (snd (ServerClose 4 (snd r))) = [0; 1; 2].
Proof. vm_compute. repeat split. Qed.
Lemma client_case : match ClientInit (ClientAnswers (Some 3) (Some [127; 0; 0; 1]) true true) 1234 plain_process with
  | Some (d, q) => d = 3 /\ connected q = [(3, [2; 0; 4; 210; 127; 0; 0; 1; 0; 0; 0; 0; 0; 0; 0; 0])] /\ opened (snd (ClientClose d q)) = [0; 1; 2] | None => False end.
Proof. vm_compute. repeat split. Qed.
Lemma attempts_case : let busy := OpenAnswers (Some 3) true false true in
  opened (snd (attempts [(busy, 20000); (OpenAnswers (Some 4) true true true, 1500)] plain_process)) = [4; 3; 0; 1; 2].
Proof. reflexivity. Qed.
