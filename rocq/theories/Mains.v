(** The main programs, and the exchange of options that they leave out. *)
From Coq Require Import String ZArith NArith List Bool Lia Ascii.
From Verif Require Import Base Gate Circuit CycleModel Spec Plain Run Results
  Proc Codec Tcp BN OT Rand Bounded Tables Protocol Transfer OutTransfer ProtocolOk ProtocolRun EndToEnd ProtocolResults
  Text Scd MapFile Trace Hex Format Programs ProgramsOk CmdText.
Import ListNotations.
Open Scope Z_scope.

(** * Model *)

(** util/common.h:32-33 *)
Definition SUCCESS : Z := 0.
Definition FAILURE : Z := -1.

(** The option output_mode, garbled_circuit_main.cpp:218-235 and
    scd_evaluator_main.cpp:97-115; [None]: the program ends with FAILURE. *)
Definition named (s : string) (t : text) : bool := text_eqb t (list_ascii_of_string s).
Definition output_mode_of (o : option text) : option OutputMode :=
  match o with
  | None => Some consecutive
  | Some t => if named "0" t || named "consecutive" t then Some consecutive
              else if named "1" t || named "separated_clock" t then Some separated_clock
              else if named "2" t || named "last_clock" t then Some last_clock
              else None
  end.

(** The command line of TinyGarble after boost::program_options has filled in the
    defaults (garbled_circuit_main.cpp:142-216); boost itself, --help and the
    connection (ServerInit, ClientInit) are not modelled. *)
Record cmdline := mkCmd {
  cl_scd : text; cl_p_init : text; cl_p_input : text; cl_init : text; cl_input : text;
  cl_cycles : nat; cl_mask : text; cl_period : Z; cl_mode : option text; cl_disable_OT : bool; cl_low_mem_foot : bool }.
(** garbled_circuit_main.cpp:237-246, 255-259 *)
Definition arguments_of (fs : text -> option text) (cl : cmdline) (mode : OutputMode) : arguments :=
  mkArguments (fs (cl_scd cl)) (ReadFileOrPassHex fs (cl_p_init cl)) (ReadFileOrPassHex fs (cl_p_input cl))
    (ReadFileOrPassHex fs (cl_init cl)) (ReadFileOrPassHex fs (cl_input cl))
    (cl_cycles cl) (cl_mask cl) (cl_period cl) mode (cl_disable_OT cl) (cl_low_mem_foot cl).
(** What main does with the result of GarbleStr or EvaluateStr
    (garbled_circuit_main.cpp:276-286, 313-328): standard output and exit status.
    [log]: CHECK returns FAILURE, otherwise it ignores the result and the string
    printed is still empty (util/log.h:59-82). *)
Definition finish (log : bool) (r : option text) : text * Z :=
  match r with
  | Some t => ((t ++ [nl])%list, SUCCESS)
  | None => if log then ([], FAILURE) else ([nl], SUCCESS)
  end.
Section Mains.
Variable AESk : block -> block -> block.
Variable sha : bytes -> bytes.
Variable coins : nat -> ot_coins.
Variable log : bool.
(** garbled_circuit_main.cpp:261-286; [usage] is what is printed with an unknown
    output mode. *)
Definition main_alice (usage : text) (fs : text -> option text) (jf : nat -> nat -> Z) (cl : cmdline) (ra : nat -> block) (junk : list Z) (m : gmem)
  : proc (text * Z) :=
  match output_mode_of (cl_mode cl) with
  | None => Ret (usage, FAILURE)
  | Some mode => bind (GarbleStr AESk sha coins jf (arguments_of fs cl mode) ra junk m) (fun r => Ret (finish log r))
  end.
(** garbled_circuit_main.cpp:287-328 *)
Definition main_bob (usage : text) (fs : text -> option text) (jf : nat -> nat -> Z) (cl : cmdline) (rnd : nat -> block) (junk : list Z) (m : emem)
  : proc (text * Z) :=
  match output_mode_of (cl_mode cl) with
  | None => Ret (usage, FAILURE)
  | Some mode => bind (EvaluateStr AESk sha coins jf (arguments_of fs cl mode) rnd junk m) (fun r => Ret (finish log r))
  end.
End Mains.

(** scd_evaluator_main.cpp:91-133: the result of EvalauatePlaintextStr is not
    looked at in any build.  The outer [None]: an access out of bounds. *)
Definition main_plain (usage : text) (fs : text -> option text) (jf : nat -> nat -> Z) (files : bool) (wl0 ll0 : list bool)
    (scd p_init g_init e_init p_input g_input e_input : text) (cycles : nat) (period : Z) (mode : option text) : option (text * Z) :=
  match scd, output_mode_of mode with
  | [], _ => Some (usage, FAILURE)
  | _, None => Some (usage, FAILURE)
  | _, Some mode =>
    let r := ReadFileOrPassHex fs in
    do o <- EvalauatePlaintextStr jf files wl0 ll0
              (mkPlain (fs scd) (r p_init) (r g_init) (r e_init) (r p_input) (r g_input) (r e_input) cycles period mode);
    Some ((match o with Some t => t | None => [] end ++ [nl])%list, SUCCESS)
  end.

(** OT_main.cpp:87-117.  [None]: the messages cannot be parsed. *)
Definition ot_main_alice (key : rsa_key) (x : nat -> bool -> Z) (message0 message1 : text) : proc Z :=
  match Str2Block message0 with
  | None => Ret FAILURE
  | Some m0 => match Str2Block message1 with
    | None => Ret FAILURE
    | Some m1 => bind (OTSend key x [(m0, m1)]) (fun _ => Ret SUCCESS)
    end
  end.
(** OT_main.cpp:132-149; the message is only written to the log.  [Crash]: atoi of a
    number that is not an int is undefined. *)
Definition ot_main_bob (k : nat -> Z) (select : text) : proc (option block * Z) :=
  match atoi select with
  | None => Crash
  | Some z => bind (OTRecv [z =? 1] k) (fun r => match r with
                | Some (m :: _) => Ret (Some m, SUCCESS)
                | _ => Ret (None, FAILURE)
                end)
  end.

(** ** The exchange of options *)
Record offer := mkOffer { of_scd : text; of_cycles : N; of_mask : text; of_disable_OT : bool; of_low : bool }.
Definition text_bytes (t : text) : bytes := map N_of_ascii t.
Definition bytes_text (b : bytes) : text := map ascii_of_N b.
Definition int_bytes (z : Z) : bytes := le 4 (Z.to_N (z mod 2 ^ 32)).
Definition bool_byte (b : bool) : bytes := [if b then 1%N else 0%N].
(** garbled_circuit_main.cpp:57-61, 65-69 *)
Definition send_text (t : text) : proc unit :=
  let size := to_int (Z.of_nat (length t)) in
  let! _ := send (int_bytes size) in
  if 0 <? size then send (firstn (Z.to_nat size) (text_bytes t)) else Ret tt.
(** CheckOptionsAlice, garbled_circuit_main.cpp:53-80 *)
Definition CheckOptionsAlice (o : offer) : proc Z :=
  let! _ := send_text (of_scd o) in
  let! _ := send (le 8 (of_cycles o)) in
  let! _ := send_text (of_mask o) in
  let! _ := send (bool_byte (of_disable_OT o)) in
  let! _ := send (bool_byte (of_low o)) in
  let! s := recv 4 in
  Ret (to_int (Z.of_N (of_le s))).
(** string(buff): up to the first NUL.  [None]: there is none in the memory that can
    be read. *)
Fixpoint c_str (t : text) : option text :=
  match t with
  | [] => None
  | c :: t' => if Ascii.eqb c "000" then Some [] else match c_str t' with Some s => Some (c :: s) | None => None end
  end.
(** garbled_circuit_main.cpp:95-103, 107-115: the buffer has no room for a NUL;
    [after] is what lies behind it in memory (reading it is undefined behaviour). *)
Definition recv_text (after : text) : proc text :=
  let! s := recv 4 in
  let size := to_int (Z.of_N (of_le s)) in
  if size <=? 0 then Ret []
  else let! b := recv (Z.to_nat size) in
       match c_str (bytes_text b ++ after)%list with Some t => Ret t | None => Crash end.
(** CheckOptionsBob, garbled_circuit_main.cpp:82-133 *)
Definition CheckOptionsBob (after1 after2 : text) (o : offer) : proc Z :=
  let! scd := recv_text after1 in
  let! cyc := recv 8 in
  let! mask := recv_text after2 in
  let! dis := recv 1 in
  let! low := recv 1 in
  let differ := (negb (text_eqb scd (of_scd o)) || negb (of_le cyc =? of_cycles o)%N || negb (text_eqb mask (of_mask o)) ||
                 negb (of_le dis =? of_le (bool_byte (of_disable_OT o)))%N || negb (of_le low =? of_le (bool_byte (of_low o)))%N)%bool in
  let status := if differ then FAILURE else SUCCESS in
  let! _ := send (int_bytes status) in
  Ret status.

(** * Specification *)

(** Options as the shell can pass them: no NUL, lengths an int can hold. *)
Definition proper (o : offer) : Prop :=
  ~ In "000"%char (of_scd o) /\ ~ In "000"%char (of_mask o) /\ Z.of_nat (length (of_scd o)) < 2 ^ 31 /\
  Z.of_nat (length (of_mask o)) < 2 ^ 31 /\ (of_cycles o < 2 ^ 64)%N.
Definition starts_with_nul (t : text) : Prop := exists r, t = "000"%char :: r.

(** * Facts *)

(** ** The main programs *)
Theorem mains_ok usage ja jb log fsA fsB ca cb mode u V T :
  output_mode_of (cl_mode ca) = Some mode -> output_mode_of (cl_mode cb) = Some mode ->
  started (arguments_of fsA ca mode) (arguments_of fsB cb mode) u -> good_run (cl_low_mem_foot ca) u V T ->
  Z.of_nat (u_n u * output_size (u_c u)) < 2 ^ 31 ->
  (forall cy i, (cy < T)%nat -> ~ hidden (sess (cl_low_mem_foot ca) u) u V cy i) ->
  exists ta tb, always_finish
      (main_alice (u_AES u) (u_sha u) (u_coins u) log usage fsA ja ca (u_ra u) (u_junkA u) (gmem_of (u_m u)))
      (main_bob (u_AES u) (u_sha u) (u_coins u) log usage fsB jb cb (u_rnd u) (u_junkB u) (emem_of (u_m u)))
      ((ta ++ [nl])%list, SUCCESS) ((tb ++ [nl])%list, SUCCESS) /\
    displays mode (output_size (u_c u)) T ta (fun cy i => V cy (nth i (outputs (u_c u)) 0) && to_garbler u i) /\
    displays mode (output_size (u_c u)) T tb (fun cy i => V cy (nth i (outputs (u_c u)) 0) && negb (to_garbler u i)).
Proof.
  intros MA MB ST G SM NH. destruct (programs_ok ja jb _ _ u V T ST G SM NH) as (ta & tb & (n & R & _) & DA & DB).
  destruct (st_mode _ _ _ ST) as [EM _]. cbn [arguments_of arg_mode] in EM. rewrite <- EM in DA, DB.
  exists ta, tb. split; [|split; assumption]. apply always_runs. unfold main_alice, main_bob. rewrite MA, MB.
  eapply runs_bind; [exists n; exact R|]. apply runs_ret.
Qed.

(** With logging the exit status tells whether the run failed. *)
Theorem status_with_log AESk sha coins usage fs jf cl ra junk m mode i o r : output_mode_of (cl_mode cl) = Some mode ->
  does (GarbleStr AESk sha coins jf (arguments_of fs cl mode) ra junk m) i o r ->
  exists out st, does (main_alice AESk sha coins true usage fs jf cl ra junk m) i o (out, st) /\ (st = SUCCESS <-> r <> None).
Proof.
  intros M D. unfold main_alice. rewrite M. exists (fst (finish true r)), (snd (finish true r)). split.
  - rewrite <- surjective_pairing, <- (app_nil_r i), <- (app_nil_r o). eapply does_bind; [exact D|]. constructor.
  - destruct r; cbn; unfold SUCCESS, FAILURE; split; intros; [discriminate|reflexivity|discriminate|congruence].
Qed.
(** Without logging it never does: every run that ends, ends with SUCCESS. *)
Theorem status_without_log AESk sha coins usage fs jf cl ra junk m mode i o out st : output_mode_of (cl_mode cl) = Some mode ->
  does (main_alice AESk sha coins false usage fs jf cl ra junk m) i o (out, st) -> st = SUCCESS.
Proof.
  intros M D. unfold main_alice in D. rewrite M in D.
  assert (G : forall A (p : proc A) (f : A -> text * Z), (forall a, snd (f a) = SUCCESS) ->
    forall i o r, does (bind p (fun a => Ret (f a))) i o r -> snd r = SUCCESS).
  { clear. intros A p f HF. induction p as [a|bs p IH|n k IH|]; intros i o r D; cbn [bind] in D; inversion D; subst; eauto. }
  apply (G _ _ (finish false)) in D; [exact D|]. intros [t|]; reflexivity.
Qed.
Theorem status_refuted : ~ forall AESk sha coins usage fs jf cl ra junk m mode i o,
  output_mode_of (cl_mode cl) = Some mode ->
  does (GarbleStr AESk sha coins jf (arguments_of fs cl mode) ra junk m) i o None ->
  exists out st, does (main_alice AESk sha coins false usage fs jf cl ra junk m) i o (out, st) /\ st <> SUCCESS.
Proof.
  intros H. specialize (H (fun _ b => b) (fun b => b) (fun _ => mkCoins (mkKey 1 1 1) (fun _ _ => 0) (fun _ => 0) 0 (fun _ => 0)) [] (fun _ => None) (fun _ _ => 0)
    (mkCmd [] [] [] [] [] 1 [] 0 None false false) (fun _ => 0%N) [] (mkC [] [] [] [] [], [], []) consecutive [] []).
  destruct (H eq_refl) as (out & st & D & NS); [constructor|].
  apply NS. eapply status_without_log; [|exact D]. reflexivity.
Qed.

(** ** Oblivious transfer of two messages given as text *)
Theorem ot_main_ok key x k s0 s1 m0 m1 t : key_ok key -> key_sized key -> draws_sized x ->
  block_text s0 m0 -> block_text s1 m1 -> Z.of_N t < 2 ^ 31 ->
  runs (ot_main_alice key x s0 s1) (ot_main_bob k (dec t)) SUCCESS (Some (if (t =? 1)%N then m1 else m0), SUCCESS).
Proof.
  intros K1 K2 K3 B0 B1 HT. unfold ot_main_alice, ot_main_bob. rewrite (Str2Block_ok _ _ B0), (Str2Block_ok _ _ B1).
  assert (A : atoi (dec t) = Some (Z.of_N t)).
  { destruct (dec_ok t) as (NE & F & S). specialize (S [] Logic.I). rewrite app_nil_r in S. unfold atoi.
    destruct (dec t) as [|c d] eqn:E; [congruence|]. inversion F as [|? ? HC F']; subst.
    cbn [skip_ws]. rewrite (digit_not_space c HC). cbn [split_sign].
    destruct (digit_not_sign c HC) as [N1 N2]. destruct (Ascii.eqb_spec c "-"); [congruence|]. destruct (Ascii.eqb_spec c "+"); [congruence|].
    rewrite S. destruct (Z.leb_spec (- 2 ^ 31) (Z.of_N t)); [|lia]. destruct (Z.ltb_spec (Z.of_N t) (2 ^ 31)); [reflexivity|lia]. }
  rewrite A.
  assert (W : forall s m, block_text s m -> is_block m).
  { intros s m [L H]. unfold is_block. eapply N.lt_le_trans; [apply (hexnum_bound _ _ H)|]. change (2 ^ 128)%N with (16 ^ 32)%N.
    apply N.pow_le_mono_r; [discriminate|]. lia. }
  eapply runs_bind.
  - apply (ot_correct key x [(m0, m1)] [Z.of_N t =? 1] k); auto; [reflexivity|]. constructor; [|constructor]. split; eapply W; eassumption.
  - cbn [chosen combine map fst snd]. 
    replace (Z.of_N t =? 1) with (t =? 1)%N by (destruct (N.eqb_spec t 1), (Z.eqb_spec (Z.of_N t) 1); try reflexivity; lia).
    destruct (t =? 1)%N; apply runs_ret.
Qed.

(** ** Comparing the options *)
Lemma to_int_neg z : - 2 ^ 31 <= z < 2 ^ 31 -> to_int (Z.of_N (Z.to_N (z mod 2 ^ 32))) = z.
Proof.
  intros H. assert (P : 2 ^ 32 = 4294967296) by reflexivity. assert (Q : 2 ^ 31 = 2147483648) by reflexivity.
  rewrite Z2N.id by (apply Z.mod_pos_bound; lia). unfold to_int. rewrite Z.mod_mod by lia.
  destruct (Z.lt_ge_cases z 0).
  - replace (z mod 2 ^ 32) with (z + 2 ^ 32). 2:{ apply (Z.mod_unique_pos _ _ (-1)); lia. }
    destruct (Z.ltb_spec (z + 2 ^ 32) (2 ^ 31)); lia.
  - rewrite Z.mod_small by lia. destruct (Z.ltb_spec z (2 ^ 31)); lia.
Qed.
Lemma int_round z : - 2 ^ 31 <= z < 2 ^ 31 -> to_int (Z.of_N (of_le (int_bytes z))) = z.
Proof.
  intros H. unfold int_bytes. rewrite of_le_small; [apply to_int_neg; exact H|].
  change (256 ^ N.of_nat 4)%N with (Z.to_N (2 ^ 32)). apply Z2N.inj_lt; [apply Z.mod_pos_bound; reflexivity|lia|]. apply Z.mod_pos_bound. reflexivity.
Qed.
Definition text_msg (t : text) : bytes := int_bytes (Z.of_nat (length t)) ++ text_bytes t.
Lemma send_text_does t : Z.of_nat (length t) < 2 ^ 31 -> does (send_text t) [] (text_msg t) tt.
Proof.
  intros H. unfold send_text, text_msg. rewrite to_int_small by lia. cbn [bind send].
  apply does_send. destruct t as [|c t]; [constructor|]. destruct (Z.ltb_spec 0 (Z.of_nat (length (c :: t)))) as [_|L]; [|cbn [length] in L; lia].
  rewrite firstn_all2 by (unfold text_bytes; rewrite map_length; lia). change (text_bytes (c :: t)) with (text_bytes (c :: t) ++ [])%list at 2 || rewrite <- (app_nil_r (text_bytes (c :: t))) at 2. apply does_send. constructor.
Qed.
Lemma bytes_text_back t : bytes_text (text_bytes t) = t.
Proof. unfold bytes_text, text_bytes. rewrite map_map. rewrite <- map_id. apply map_ext. apply ascii_N_embedding. Qed.
Lemma c_str_ok t a : ~ In "000"%char t -> c_str (t ++ a) = match c_str a with Some s => Some (t ++ s) | None => None end.
Proof.
  induction t as [|c t IH]; intros H; cbn [app c_str]; [destruct (c_str a); reflexivity|].
  destruct (Ascii.eqb_spec c "000"); [exfalso; apply H; left; auto|]. rewrite IH by (intros K; apply H; right; auto).
  destruct (c_str a); reflexivity.
Qed.
(** What Bob makes of a text he is sent. *)
Definition heard (after t : text) : option text :=
  match t with [] => Some [] | _ => match c_str after with Some s => Some (t ++ s) | None => None end end.
Lemma recv_text_does after t s : ~ In "000"%char t -> Z.of_nat (length t) < 2 ^ 31 -> heard after t = Some s ->
  does (recv_text after) (text_msg t) [] s.
Proof.
  intros NZ L E. unfold recv_text, text_msg. cbn [bind recv]. apply does_recv; [unfold int_bytes; rewrite le_length; reflexivity|].
  rewrite int_round by lia. destruct t as [|c t].
  - injection E as <-. constructor.
  - destruct (Z.leb_spec (Z.of_nat (length (c :: t))) 0) as [L'|_]; [cbn [length] in L'; lia|]. cbn [bind].
    rewrite <- (app_nil_r (text_bytes _)). apply does_recv; [unfold text_bytes; rewrite map_length; lia|].
    rewrite bytes_text_back, c_str_ok by exact NZ. unfold heard in E. destruct (c_str after); [|discriminate]. injection E as <-. constructor.
Qed.
Definition offer_msg (o : offer) : bytes :=
  text_msg (of_scd o) ++ le 8 (of_cycles o) ++ text_msg (of_mask o) ++ bool_byte (of_disable_OT o) ++ bool_byte (of_low o).
Lemma runs_ABA {A B C} (p1 : proc C) (p2 : C -> proc A) (q : proc B) s t a c b :
  does p1 [] s c -> does q s t b -> does (p2 c) t [] a -> runs (bind p1 p2) q a b.
Proof. intros H1 H2 H3. apply runs_swap. eapply runs_BAB; eassumption. Qed.

Lemma does_send_one bs : does (send bs) [] bs tt.
Proof. pose proof (does_send bs (Ret tt) [] [] tt (does_ret tt)) as D. rewrite app_nil_r in D. exact D. Qed.
Lemma does_recv_one bs n : n = length bs -> does (recv n) bs [] bs.
Proof. intros E. pose proof (does_recv bs n (fun l => Ret l) [] [] bs E (does_ret bs)) as D. rewrite app_nil_r in D. exact D. Qed.
(** The verdict, from what Bob hears. *)
Definition agrees (a b : offer) (scd mask : text) : bool :=
  text_eqb scd (of_scd b) && (of_cycles a =? of_cycles b)%N && text_eqb mask (of_mask b) &&
  Bool.eqb (of_disable_OT a) (of_disable_OT b) && Bool.eqb (of_low a) (of_low b).
Lemma check_runs after1 after2 a b scd mask : proper a ->
  heard after1 (of_scd a) = Some scd -> heard after2 (of_mask a) = Some mask ->
  let s := if agrees a b scd mask then SUCCESS else FAILURE in
  runs (CheckOptionsAlice a) (CheckOptionsBob after1 after2 b) s s.
Proof.
  intros (N1 & N2 & L1 & L2 & LC) H1 H2 s.
  pose (p1 := (let! _ := send_text (of_scd a) in let! _ := send (le 8 (of_cycles a)) in let! _ := send_text (of_mask a) in
               let! _ := send (bool_byte (of_disable_OT a)) in send (bool_byte (of_low a)))%proc).
  pose (p2 := fun _ : unit => (let! s := recv 4 in Ret (to_int (Z.of_N (of_le s))))%proc).
  assert (E : CheckOptionsAlice a = bind p1 p2).
  { unfold p1, p2, CheckOptionsAlice, send_text. cbn [bind send].
    destruct (0 <? to_int (Z.of_nat (length (of_scd a)))), (0 <? to_int (Z.of_nat (length (of_mask a)))); reflexivity. }
  rewrite E. apply (runs_ABA p1 p2 _ (offer_msg a) (int_bytes s) s tt s).
  - unfold p1, offer_msg. 
    apply (does_bind _ _ [] _ tt [] _ _ (send_text_does _ L1)). apply (does_bind (send _) _ [] _ tt [] _ _); [apply does_send_one|].
    apply (does_bind _ _ [] _ tt [] _ _ (send_text_does _ L2)). apply (does_bind (send _) _ [] _ tt [] _ _); [apply does_send_one|]. apply does_send_one.
  - unfold CheckOptionsBob, offer_msg.
    apply (does_bind _ _ _ [] _ _ _ _ (recv_text_does _ _ _ N1 L1 H1)).
    apply (does_bind (recv 8) _ (le 8 (of_cycles a)) [] (le 8 (of_cycles a)) _ _ _); [apply does_recv_one; rewrite le_length; reflexivity|].
    apply (does_bind _ _ _ [] _ _ _ _ (recv_text_does _ _ _ N2 L2 H2)).
    apply (does_bind (recv 1) _ (bool_byte (of_disable_OT a)) [] (bool_byte (of_disable_OT a)) _ _ _); [apply does_recv_one; reflexivity|].
    rewrite <- (app_nil_r (bool_byte (of_low a))). 
    apply (does_bind (recv 1) _ (bool_byte (of_low a)) [] (bool_byte (of_low a)) _ _ _); [apply does_recv_one; reflexivity|].
    rewrite of_le_small by (change (256 ^ N.of_nat 8)%N with (2 ^ 64)%N; exact LC).
    match goal with |- context [if ?x then FAILURE else SUCCESS] => assert (X : x = negb (agrees a b scd mask)) end.
    { unfold agrees. rewrite !negb_andb.
      assert (BB : forall x y : bool, negb (of_le (bool_byte x) =? of_le (bool_byte y))%N = negb (Bool.eqb x y)) by (intros [] []; reflexivity).
      rewrite !BB. reflexivity. }
    rewrite X. replace (if negb (agrees a b scd mask) then FAILURE else SUCCESS) with s by (unfold s; destruct (agrees a b scd mask); reflexivity).
    pose proof (does_bind (send (int_bytes s)) (fun _ => Ret s) [] _ tt [] [] s (does_send_one _) (does_ret s)) as D. rewrite app_nil_r in D. exact D.
  - unfold p2. rewrite <- (app_nil_r (int_bytes s)).
    apply (does_bind (recv 4) _ (int_bytes s) [] (int_bytes s) [] [] _); [apply does_recv_one; unfold int_bytes; rewrite le_length; reflexivity|].
    assert (B : - 2 ^ 31 <= s < 2 ^ 31) by (unfold s, SUCCESS, FAILURE; destruct (agrees a b scd mask); split; reflexivity || discriminate).
    rewrite (int_round s B). constructor.
Qed.

(** With a NUL behind each buffer the check is right. *)
Lemma heard_ok after t : starts_with_nul after -> heard after t = Some t.
Proof. intros (r & ->). destruct t as [|c t]; [reflexivity|]. cbn [heard c_str]. cbn. rewrite app_nil_r. reflexivity. Qed.
Theorem check_ok after1 after2 a b : proper a -> starts_with_nul after1 -> starts_with_nul after2 ->
  exists s, always_finish (CheckOptionsAlice a) (CheckOptionsBob after1 after2 b) s s /\ (s = SUCCESS <-> a = b) /\ (s = SUCCESS \/ s = FAILURE).
Proof.
  intros P A1 A2. pose proof (check_runs after1 after2 a b _ _ P (heard_ok _ _ A1) (heard_ok _ _ A2)) as R. cbv zeta in R.
  eexists. split; [apply always_runs; exact R|]. split; [|destruct (agrees _ _ _ _); auto].
  transitivity (agrees a b (of_scd a) (of_mask a) = true).
  - destruct (agrees _ _ _ _); unfold SUCCESS, FAILURE; split; congruence.
  - unfold agrees. rewrite !andb_true_iff, !text_eqb_eq, N.eqb_eq, !eqb_true_iff. destruct a, b; cbn. split.
    + intros ((((-> & ->) & ->) & ->) & ->). reflexivity.
    + intros [= -> -> -> -> ->]. repeat split.
Qed.
(** There never is room for one: with a text that is not empty, memory behind the
    buffer is read, whatever the options. *)
Theorem check_overruns a b after2 : proper a -> of_scd a <> [] ->
  exists k d, reach k (start_cfg (CheckOptionsAlice a) (CheckOptionsBob [] after2 b)) d /\ pB d = Crash.
Proof.
  intros (N1 & N2 & L1 & L2 & LC) NE. unfold CheckOptionsAlice, CheckOptionsBob.
  match goal with |- context [start_cfg (bind _ ?f) (bind _ ?g)] => set (fa := f); set (gb := g) end.
  destruct (does_reach_A _ _ _ _ (send_text_does _ L1) (bind (recv_text []) gb) [] []) as [n R].
  pose proof (reach_bind_A n _ _ fa R) as R1. cbn [pA pB qAB qBA app] in R1.
  unfold text_msg, recv_text in R1. cbn [bind recv] in R1.
  match type of R1 with reach _ _ (mkCfg ?p (Recv 4 ?k) _ _) =>
    pose proof (recv_steps (int_bytes (Z.of_nat (length (of_scd a)))) k p (text_bytes (of_scd a)) []) as R2 end.
  replace (length (int_bytes (Z.of_nat (length (of_scd a))))) with 4%nat in R2 by (unfold int_bytes; rewrite le_length; reflexivity).
  cbv beta in R2. rewrite int_round in R2 by lia.
  destruct (Z.leb_spec (Z.of_nat (length (of_scd a))) 0) as [L|_]; [destruct (of_scd a); [congruence|cbn [length] in L; lia]|].
  cbn [bind recv] in R2. rewrite Nat2Z.id in R2.
  match type of R2 with reach _ _ (mkCfg ?p (Recv _ ?k) _ _) =>
    pose proof (recv_steps (text_bytes (of_scd a)) k p [] []) as R3 end.
  replace (length (text_bytes (of_scd a))) with (length (of_scd a)) in R3 by (unfold text_bytes; rewrite map_length; reflexivity).
  rewrite app_nil_r in R3. cbv beta in R3. rewrite bytes_text_back, c_str_ok in R3 by exact N1. cbn [c_str bind] in R3.
  eexists. eexists. split; [eapply reach_trans; [exact R1|]; eapply reach_trans; [exact R2|exact R3]|reflexivity].
Qed.
(** What lies behind the buffers decides. *)
Theorem check_refuted : ~ forall after1 after2 a b s, proper a -> proper b ->
  runs (CheckOptionsAlice a) (CheckOptionsBob after1 after2 b) s s -> (s = SUCCESS <-> a = b).
Proof.
  intros H. set (a := mkOffer [] 1 ["0"%char] false false).
  pose proof (check_runs [] ["!"%char; "000"%char] a a [] ["0"%char; "!"%char]) as R. cbv zeta in R.
  assert (P : proper a) by (repeat split; cbn; try (intros [E|[]]; discriminate E); try tauto; reflexivity).
  specialize (R P eq_refl eq_refl). replace (if agrees a a [] ["0"%char; "!"%char] then SUCCESS else FAILURE) with FAILURE in R by reflexivity.
  destruct (H _ _ _ _ _ P P R) as [_ K]. specialize (K eq_refl). discriminate.
Qed.

(** ** Different masks *)
Definition secret_value (v : Z) : Prop := v <> 0 /\ v <> 1.
(** Both parties leave the output to the other: neither learns it, and a message to
    each is left over. *)
Theorem output_lost ma mb off i ya yb bna bnb : secret_value (snd ya) -> secret_value (snd yb) ->
  N.testbit ma (N.of_nat i) = false -> N.testbit mb (N.of_nat i) = true ->
  exists n ab ba, reach n (start_cfg (garble_output ma off i ya bna) (evaluate_output mb off i yb bnb))
    (mkCfg (Ret (fst (BN_clear_bit bna (N.of_nat (off + i))))) (Ret (fst (BN_clear_bit bnb (N.of_nat (off + i))))) ab ba) /\
    length ab = 2%nat /\ length ba = 2%nat.
Proof.
  intros [A0 A1] [B0 B1] TA TB. unfold garble_output, evaluate_output.
  rewrite (proj2 (Z.eqb_neq _ _) A0), (proj2 (Z.eqb_neq _ _) A1), (proj2 (Z.eqb_neq _ _) B0), (proj2 (Z.eqb_neq _ _) B1).
  assert (SB : (N.of_nat i < BN_num_bits (Z.of_N mb))%N).
  { unfold BN_num_bits. rewrite mag_of_N. apply size_pos. exact TB. }
  unfold BN.BN_is_bit_set. rewrite !mag_of_N, TA, TB.
  rewrite (proj2 (N.leb_gt _ _) SB), orb_true_r. cbn [negb orb bind send].
  eexists. eexists. eexists. split; [|split].
  - eapply reach_trans; [apply send_steps|]. apply send_steps_B.
  - cbn [app]. apply le_length.
  - cbn [app]. apply le_length.
Qed.
(** Both parties expect it from the other: they wait for ever. *)
Theorem output_stuck ma mb off i ya yb bna bnb : secret_value (snd ya) -> secret_value (snd yb) ->
  N.testbit ma (N.of_nat i) = true -> N.testbit mb (N.of_nat i) = false ->
  stuck (start_cfg (garble_output ma off i ya bna) (evaluate_output mb off i yb bnb)).
Proof.
  intros [A0 A1] [B0 B1] TA TB. unfold garble_output, evaluate_output.
  rewrite (proj2 (Z.eqb_neq _ _) A0), (proj2 (Z.eqb_neq _ _) A1), (proj2 (Z.eqb_neq _ _) B0), (proj2 (Z.eqb_neq _ _) B1).
  assert (SB : (N.of_nat i < BN_num_bits (Z.of_N ma))%N).
  { unfold BN_num_bits. rewrite mag_of_N. apply size_pos. exact TA. }
  unfold BN.BN_is_bit_set. rewrite !mag_of_N, TA, TB.
  rewrite (proj2 (N.leb_gt _ _) SB), orb_true_r. cbn [negb orb bind recv]. split; reflexivity.
Qed.

(** Running two processes, party A first. *)
Fixpoint exec {A B} (n : nat) (c : config A B) : config A B :=
  match n with
  | O => c
  | S n => match Proc.stepA c with
           | Some c' => exec n c'
           | None => match Proc.stepB c with Some c' => exec n c' | None => c end
           end
  end.
Lemma exec_reach {A B} n (c : config A B) : exists m, reach m c (exec n c).
Proof.
  revert c. induction n as [|n IH]; intros c; cbn [exec]; [exists O; constructor|].
  destruct (Proc.stepA c) as [c'|] eqn:EA; [destruct (IH c') as [m R]; exists (S m); eapply reach_A; eauto|].
  destruct (Proc.stepB c) as [c'|] eqn:EB; [destruct (IH c') as [m R]; exists (S m); eapply reach_B; eauto|]. exists O. constructor.
Qed.

(** * The plaintext program *)
Theorem plain_main_ok usage fs jf wl0 ll0 scd p_init g_init e_init p_input g_input e_input cycles period om mode u V T :
  scd <> [] -> output_mode_of om = Some mode ->
  let r := ReadFileOrPassHex fs in
  plain_started (mkPlain (fs scd) (r p_init) (r g_init) (r e_init) (r p_input) (r g_input) (r e_input) cycles period mode) u ->
  ready u -> consistent (u_c u) (u_x u) V -> executes u V T -> Z.of_nat (u_n u * output_size (u_c u)) < 2 ^ 31 ->
  List.length wl0 = get_wire_size (u_c u) -> List.length ll0 = dff_size (u_c u) ->
  exists t, main_plain usage fs jf true wl0 ll0 scd p_init g_init e_init p_input g_input e_input cycles period om = Some ((t ++ [nl])%list, SUCCESS) /\
    displays (output_mode (u_opt u)) (output_size (u_c u)) T t (fun cy i => V cy (nth i (outputs (u_c u)) 0)).
Proof.
  intros S M r PS R C E O W L. destruct (plain_program_ok jf _ u V T wl0 ll0 PS R C E O W L) as (t & P & D). exists t. split; [|exact D].
  unfold main_plain. destruct scd as [|ch scd]; [congruence|]. rewrite M. fold r. rewrite P. reflexivity.
Qed.
(** A file that cannot be opened gives an empty line and SUCCESS, in every build. *)
Theorem plain_status_refuted : ~ forall usage fs jf files wl0 ll0 scd p_init g_init e_init p_input g_input e_input cycles period om out,
  main_plain usage fs jf files wl0 ll0 scd p_init g_init e_init p_input g_input e_input cycles period om = Some (out, SUCCESS) ->
  fs scd <> None.
Proof.
  intros H. refine (H [] (fun _ => None) (fun _ _ => 0) true [] [] ["a"%char] [] [] [] [] [] [] 1%nat 0 None [nl] _ eq_refl). reflexivity.
Qed.
