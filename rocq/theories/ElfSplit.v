(** a23/tools: from the linked program (an ELF file) to the words of the processor's
    program memory (p.txt). *)
From Coq Require Import String ZArith NArith List Bool Lia Ascii.
From Verif Require Import Base Gate Circuit Spec Proc Codec Tcp BN Text Scd MapFile Trace Hex Format Protocol Programs CmdText Mains.
Import ListNotations.
Open Scope list_scope.
Open Scope Z_scope.
Notation length := List.length.

(** * Model *)

(** The [k] bytes at [o] of the buffer, read as a little-endian number; [None] when
    they are not all in the buffer. *)
Fixpoint bytes_at (f : bytes) (o : Z) (k : nat) : option bytes :=
  match k with
  | O => Some []
  | S k => do b <- rd f o; do r <- bytes_at f (o + 1) k; Some (b :: r)
  end.
Definition field (f : bytes) (o : Z) (k : nat) : option Z := do l <- bytes_at f o k; Some (Z.of_N (of_le l)).

(** strncmp(e_ident + 1, "ELF", 3), amber-elfsplitter.c:272: stops at the first
    difference. *)
Fixpoint same_bytes (f : bytes) (o : Z) (l : bytes) : option bool :=
  match l with
  | [] => Some true
  | x :: l => do b <- rd f o; if N.eqb b x then same_bytes f (o + 1) l else Some false
  end.

(** printf's %x, %08x and %02x of an unsigned int *)
Definition pct_x (pad : nat) (v : Z) : text := to_string_hex (Z.to_N v) pad.
Definition lit (s : string) : text := list_ascii_of_string s.

(** pSHT, amber-elfsplitter.c:177-203, SHT_* 63-82 *)
Definition pSHT (sh_type : Z) : text :=
  lit (nth (Z.to_nat (Z.min sh_type 20))
    ["SHT_NULL"; "SHT_PROGBITS"; "SHT_SYMTAB"; "SHT_STRTAB"; "SHT_RELA"; "SHT_HASH"; "SHT_DYNAMIC"; "SHT_NOTE"; "SHT_NOBITS"; "SHT_REL";
     "SHT_SHLIB"; "SHT_DYNSYM"; "SHT_UNKNOWN12"; "SHT_UNKNOWN13"; "SHT_INIT_ARRAY"; "SHT_FINI_ARRAY"; "SHT_PREINIT_ARRAY"; "SHT_GROUP";
     "SHT_SYMTAB_SHNDX"; "SHT_NUM"; "???"] "???")%string.

(** Fields of the headers, amber-elfsplitter.c:86-101, 105-114, 118-129 (on a machine
    with 4-byte int and 2-byte short, little-endian as the file) *)
Definition e_machine f := field f 18 2.
Definition e_phoff f := field f 28 4.
Definition e_shoff f := field f 32 4.
Definition e_phentsize f := field f 42 2.
Definition e_phnum f := field f 44 2.
Definition e_shentsize f := field f 46 2.
Definition e_shnum f := field f 48 2.
Definition p_vaddr f b := field f (b + 8) 4.
Definition p_memsz f b := field f (b + 20) 4.
Definition sh_name f b := field f b 4.
Definition sh_type f b := field f (b + 4) 4.
Definition sh_addr f b := field f (b + 12) 4.
Definition sh_offset f b := field f (b + 16) 4.
Definition sh_size f b := field f (b + 20) 4.
(** Lines 289, 302 and 310: the header with index [i] (the product is an unsigned
    int, and at most 65535 * 65535) *)
Definition header_at (off entsize : Z) (i : nat) : Z := off + entsize * Z.of_nat i.

(** amber-elfsplitter.c:288-295: the program headers are read, and the sum dropped *)
Definition read_program_headers (f : bytes) : option unit :=
  do n <- e_phnum f;
  for_ (Z.to_nat n) (fun i _ =>
    do o <- e_phoff f; do z <- e_phentsize f;
    let b := header_at o z i in
    do _v <- p_vaddr f b; do _m <- p_memsz f b; Some tt) tt.
(** amber-elfsplitter.c:301-307; [None] inside: the variable has not been set. *)
Definition find_strings (f : bytes) : option (option Z) :=
  do n <- e_shnum f;
  for_ (Z.to_nat n) (fun i found =>
    do o <- e_shoff f; do z <- e_shentsize f;
    let b := header_at o z i in
    do t <- sh_type f b;
    match found with
    | None => if t =? 3 then do s <- sh_offset f b; Some (Some s) else Some None
    | Some s => Some (Some s)
    end) None.

(** Lines 329-332 and 340-342: one byte of the image, and the greatest address so far
    (it is below the size of the buffer, so it fits an int) *)
Definition put (outP : Z) (v : N) (s : bytes * Z) : option (bytes * Z) :=
  let (out, max_out) := s in
  do out <- wr out outP v; Some (out, if max_out <? outP then outP else max_out).
(** Lines 316-322; using StringSectionOffset before it is set is undefined. *)
Definition section_comment (f : bytes) (strings : option Z) (b ty off : Z) : option text :=
  do so <- strings;
  do n <- sh_name f b;
  do name <- c_str (bytes_text (skipn (Z.to_nat (so + n)) f));
  do size <- sh_size f b; do addr <- sh_addr f b;
  Some (lit "// Section name " ++ name ++ [nl] ++
        lit "//  Type " ++ pSHT ty ++ lit ", Size 0x" ++ pct_x 0 size ++ lit ", Start address 0x" ++ pct_x 8 addr ++
        lit ", File offset 0x" ++ pct_x 0 off ++ lit ", boffset " ++ pct_x 0 (Z.land off 3) ++ [nl]).
(** amber-elfsplitter.c:309-345 *)
Definition load_section (f : bytes) (strings : option Z) (i : nat) (s : bytes * Z * text) : option (bytes * Z * text) :=
  let '(out, max_out, stdout) := s in
  do o <- e_shoff f; do z <- e_shentsize f;
  let b := header_at o z i in
  do off <- sh_offset f b;
  do ty <- sh_type f b;
  do c <- if ty =? 0 then Some [] else section_comment f strings b ty off;
  do size <- sh_size f b; do addr <- sh_addr f b;
  do om <- if (ty =? 1) && negb (size =? 0)
           then for_ (Z.to_nat size) (fun j s => do v <- rd f ((Z.of_nat j + off) mod 2 ^ 32); put ((addr + Z.of_nat j) mod 2 ^ 32) v s) (out, max_out)
           else Some (out, max_out);
  do om <- if (ty =? 8) && negb (size =? 0)
           then for_ (Z.to_nat size) (fun j s => put ((Z.of_nat j + addr) mod 2 ^ 32) 0%N s) om
           else Some om;
  Some (om, stdout ++ c ++ (if (ty =? 8) && negb (size =? 0) then lit "// .bss Dump Zeros" ++ [nl] else [])).
Definition load_sections (f : bytes) (strings : option Z) (out : bytes) : option (bytes * Z * text) :=
  do n <- e_shnum f; for_ (Z.to_nat n) (load_section f strings) (out, 0, []).

(** amber-elfsplitter.c:348-350 *)
Definition word_line (out : bytes) (j : Z) : option text :=
  do b3 <- rd out (j + 3); do b2 <- rd out (j + 2); do b1 <- rd out (j + 1); do b0 <- rd out j;
  Some (["@"%char] ++ pct_x 8 j ++ [sp] ++ pct_x 2 (Z.of_N b3) ++ pct_x 2 (Z.of_N b2) ++ pct_x 2 (Z.of_N b1) ++ pct_x 2 (Z.of_N b0) ++ [nl]).
Definition print_words (out : bytes) (max_out : Z) : option text :=
  if 2 ^ 31 <=? max_out + 3 then None
  else for_ (Z.to_nat ((max_out + 6) / 4)) (fun i t => do l <- word_line out (4 * Z.of_nat i); Some (t ++ l)) [].

(** main, amber-elfsplitter.c:207-356: the exit code and what is written to stdout.
    [None] is undefined behaviour.  [heap] is what the memory of outbuf contains: it is
    never initialised.  The calls of malloc succeed, and fread delivers the whole file;
    the warning on stderr is left out. *)
Definition elfsplitter (fs : text -> option bytes) (heap : bytes) (argv : list text) : option (Z * text) :=
  match argv with
  | [] => None
  | [a0] => Some (1, a0 ++ lit " ERROR: no input file specified. Quitting" ++ [nl])
  | a0 :: a1 :: _ =>
    match fs a1 with
    | None => Some (1, a0 ++ lit " ERROR: Can't open " ++ a1 ++ lit ". Quitting" ++ [nl])
    | Some f =>
      let infile_size := Z.of_nat (length f) in
      if 2 ^ 31 <=? infile_size * 2 then None else
      let outbuf := firstn (Z.to_nat (infile_size * 2)) heap in
      do elf <- same_bytes f 1 [69; 76; 70]%N;
      if negb elf then Some (1, a0 ++ lit " ERROR: Not an ELF file." ++ [nl] ++ lit "Use the correct cross compiler for mips. Quitting" ++ [nl]) else
      do m <- e_machine f;
      if negb (m =? 40) then Some (1, a0 ++ lit " ERROR: Invalid ELF file." ++ [nl]) else
      do _u <- read_program_headers f;
      do strings <- find_strings f;
      do s <- load_sections f strings outbuf;
      let '(out, max_out, stdout) := s in
      do w <- print_words out max_out;
      Some (0, stdout ++ w)
    end
  end.

(** amber-code32.sh:43: grep '@' $1 | awk '{print $2}' > $2.  [None]: grep takes a file
    with other than ASCII characters for binary. *)
Definition plain_text (c : ascii) : bool := (0 <? N_of_ascii c)%N && (N_of_ascii c <? 128)%N.
Definition has_at (l : text) : bool := existsb (Ascii.eqb "@"%char) l.
Definition second_field (l : text) : text := fst (span_tok (drop_sep (snd (span_tok (drop_sep l))))).
Definition code32 (t : text) : option text :=
  if forallb plain_text t then Some (flat_map (fun l => second_field l ++ [nl]) (filter has_at (lines_of t))) else None.

(** * Specification *)

(** The [k] bytes at [o] are the number [v]. *)
Definition stored (f : bytes) (o : Z) (k : nat) (v : Z) : Prop :=
  0 <= v < 256 ^ Z.of_nat k /\ exists pre post, f = pre ++ le k (Z.to_N v) ++ post /\ Z.of_nat (length pre) = o.
Record section := Sec { s_name : Z; s_type : Z; s_addr : Z; s_offset : Z; s_size : Z }.
Definition section_at (f : bytes) (b : Z) (s : section) : Prop :=
  stored f b 4 (s_name s) /\ stored f (b + 4) 4 (s_type s) /\ stored f (b + 12) 4 (s_addr s) /\
  stored f (b + 16) 4 (s_offset s) /\ stored f (b + 20) 4 (s_size s).

(** An ELF file for the ARM with these sections. *)
Record elf (f : bytes) (secs : list section) : Prop := {
  elf_magic : forall i v, nth_error [69; 76; 70]%N i = Some v -> rd f (1 + Z.of_nat i) = Some v;
  elf_machine : stored f 18 2 40;
  elf_programs : exists o z n, stored f 28 4 o /\ stored f 42 2 z /\ stored f 44 2 n /\
    forall i, 0 <= i < n -> o + z * i + 24 <= Z.of_nat (length f);
  elf_sections : exists o z, stored f 32 4 o /\ stored f 46 2 z /\ stored f 48 2 (Z.of_nat (length secs)) /\
    forall i s, nth_error secs i = Some s -> section_at f (o + z * Z.of_nat i) s
}.

(** The section occupies this address: program text, data, or cleared memory. *)
Definition covers (s : section) (a : Z) : Prop :=
  (s_type s = 1 \/ s_type s = 8) /\ s_addr s <= a < s_addr s + s_size s.
(** The section wants [b] there. *)
Definition wants (f : bytes) (s : section) (a : Z) (b : N) : Prop :=
  covers s a /\ (s_type s = 1 -> rd f (s_offset s + (a - s_addr s)) = Some b) /\ (s_type s = 8 -> b = 0%N).
(** The last section that occupies [a] puts [b] there. *)
Definition loads (f : bytes) (secs : list section) (a : Z) (b : N) : Prop :=
  exists l s r, secs = l ++ s :: r /\ wants f s a b /\ forall t, In t r -> ~ covers t a.
Definition free (secs : list section) (a : Z) : Prop := forall s, In s secs -> ~ covers s a.
(** No section occupies an address behind [top]. *)
Definition last_address (secs : list section) (top : Z) : Prop :=
  0 <= top /\ (forall s a, In s secs -> covers s a -> a <= top) /\ (top = 0 \/ exists s, In s secs /\ covers s top).

(** What the program needs: the contents of the sections are in the file, the image is
    not longer than twice the file, the names are in the first string table. *)
Definition name_ok (f : bytes) (o : Z) : Prop :=
  exists t pre post, f = pre ++ map N_of_ascii t ++ 0%N :: post /\ Z.of_nat (length pre) = o /\
    Forall (fun c => plain_text c = true /\ c <> "@"%char /\ c <> nl) t.
Record fits (f : bytes) (secs : list section) : Prop := {
  fit_size : 2 <= Z.of_nat (length f) < 2 ^ 30;
  fit_bytes : Forall is_byte f;
  fit_offset : forall s, In s secs -> s_type s = 1 -> s_size s <> 0 -> s_offset s + s_size s <= Z.of_nat (length f);
  fit_addr : forall s a, In s secs -> covers s a -> a + 6 <= 2 * Z.of_nat (length f);
  fit_names : (forall s, In s secs -> s_type s = 0) \/
    exists l st r, secs = l ++ st :: r /\ s_type st = 3 /\ (forall t, In t l -> s_type t <> 3) /\
      forall s, In s secs -> s_type s <> 0 -> name_ok f (s_offset st + s_name s)
}.

(** Byte [a] of a number. *)
Definition byte_of (w : N) (a : Z) : N := N.land (N.shiftr w (8 * Z.to_N a)) 255.

(** * Reading the headers *)
Lemma bytes_at_ok l : forall pre post, bytes_at (pre ++ l ++ post) (Z.of_nat (length pre)) (length l) = Some l.
Proof.
  induction l as [|b l IH]; intros pre post; cbn [length bytes_at]; [reflexivity|].
  rewrite rd_app_r by lia. rewrite Z.sub_diag. cbn [app]. unfold rd at 1. cbn [Z.ltb Z.compare Z.to_nat nth_error obind].
  specialize (IH (pre ++ [b]) post). rewrite <- app_assoc in IH. cbn [app] in IH. rewrite app_length in IH. cbn [length] in IH.
  replace (Z.of_nat (length pre) + 1) with (Z.of_nat (length pre + 1)) by lia. rewrite IH. reflexivity.
Qed.
Lemma field_ok f o k v : stored f o k v -> field f o k = Some v.
Proof.
  intros (B & pre & post & -> & <-). unfold field. pose proof (bytes_at_ok (le k (Z.to_N v)) pre post) as E. rewrite le_length in E. rewrite E. cbn [obind].
  rewrite of_le_small, Z2N.id; [reflexivity|lia|].
  replace (256 ^ N.of_nat k)%N with (Z.to_N (256 ^ Z.of_nat k)). { apply Z2N.inj_lt; lia. }
  rewrite Z2N.inj_pow by lia. f_equal. lia.
Qed.
Lemma same_bytes_ok f l : forall o, (forall i v, nth_error l i = Some v -> rd f (o + Z.of_nat i) = Some v) -> same_bytes f o l = Some true.
Proof.
  induction l as [|x l IH]; intros o H; [reflexivity|]. cbn [same_bytes]. pose proof (H O x eq_refl) as E. rewrite Z.add_0_r in E. rewrite E. cbn [obind].
  rewrite N.eqb_refl. apply IH. intros i v N. rewrite <- (H (S i) v N). f_equal. lia.
Qed.
Lemma bytes_in f o : forall k p, 0 <= p -> p + Z.of_nat k <= Z.of_nat (length f) -> p = o -> exists l, bytes_at f o k = Some l.
Proof.
  intros k. revert o. induction k as [|k IH]; intros o p P L ->; cbn [bytes_at]; [eexists; reflexivity|].
  destruct (rd_ok f o ltac:(lia)) as [b ->]. destruct (IH (o + 1) (o + 1) ltac:(lia) ltac:(lia) eq_refl) as [l ->]. cbn [obind]. eauto.
Qed.
Lemma field_in f o k : 0 <= o -> o + Z.of_nat k <= Z.of_nat (length f) -> exists v, field f o k = Some v.
Proof. intros H1 H2. unfold field. destruct (bytes_in f o k o H1 H2 eq_refl) as [l ->]. cbn [obind]. eauto. Qed.

Lemma program_headers_ok f secs : elf f secs -> read_program_headers f = Some tt.
Proof.
  intros E. destruct (elf_programs _ _ E) as (o & z & n & O & ZZ & NN & I).
  unfold read_program_headers, e_phnum, e_phoff, e_phentsize. rewrite (field_ok _ _ _ _ O), (field_ok _ _ _ _ ZZ), (field_ok _ _ _ _ NN). cbn [obind].
  destruct (for_inv (fun _ _ => True) (Z.to_nat n) (fun i (_ : unit) => do _v <- p_vaddr f (header_at o z i); do _m <- p_memsz f (header_at o z i); Some tt) tt) as ([] & F & _).
  - auto.
  - intros i [] Hi _. exists tt. split; [|auto]. unfold p_vaddr, p_memsz, header_at. specialize (I (Z.of_nat i) ltac:(lia)).
    destruct O as [O _], ZZ as [ZZ _].
    destruct (field_in f (o + z * Z.of_nat i + 8) 4) as [v ->]; [lia|lia|]. cbn [obind].
    destruct (field_in f (o + z * Z.of_nat i + 20) 4) as [v' ->]; [lia|lia|]. reflexivity.
  - exact F.
Qed.

Lemma strings_ok f secs : elf f secs ->
  (forall l st r, secs = l ++ st :: r -> s_type st = 3 -> (forall t, In t l -> s_type t <> 3) -> find_strings f = Some (Some (s_offset st))) /\
  exists x, find_strings f = Some x.
Proof.
  intros E. destruct (elf_sections _ _ E) as (o & z & O & ZZ & NN & I).
  unfold find_strings, e_shnum, e_shoff, e_shentsize. rewrite (field_ok _ _ _ _ O), (field_ok _ _ _ _ ZZ), (field_ok _ _ _ _ NN). cbn [obind].
  rewrite Nat2Z.id.
  match goal with |- context [for_ _ ?b] => set (body := b) end.
  destruct (for_inv (fun k found => (forall l st r, secs = l ++ st :: r -> s_type st = 3 -> (forall t, In t l -> s_type t <> 3) ->
      found = if (length l <? k)%nat then Some (s_offset st) else None) /\ ((forall t, In t (firstn k secs) -> s_type t <> 3) -> found = None)) (length secs) body None) as (x & F & P1 & P2).
  - split; auto.
  - intros k found Hk (P1 & P2). destruct (nth_error secs k) as [s|] eqn:S; [|apply nth_error_None in S; lia].
    destruct (I k s S) as (_ & T & _ & OF & _). unfold body, sh_type, sh_offset, header_at. rewrite (field_ok _ _ _ _ T). cbn [obind].
    rewrite (field_ok _ _ _ _ OF). cbn [obind].
    assert (FS : firstn (Datatypes.S k) secs = firstn k secs ++ [s]).
    { clear - S. revert k S. induction secs as [|a l IH]; intros [|k] S; cbn in *; try discriminate; [congruence|]. f_equal. apply IH. auto. }
    assert (NE : forall l st r, secs = l ++ st :: r -> length l = k -> st = s).
    { intros l st r -> <-. rewrite nth_error_app2, Nat.sub_diag in S by lia. cbn in S. congruence. }
    assert (IN : forall l st r, secs = l ++ st :: r -> (forall t, In t l -> s_type t <> 3) -> (k < length l)%nat -> s_type s <> 3).
    { intros l st r -> N L. rewrite nth_error_app1 in S by lia. apply N. eapply nth_error_In; eauto. }
    assert (DEC : found <> None -> exists t, In t (firstn k secs) /\ s_type t = 3).
    { intros NF. destruct (Exists_dec (fun t => s_type t = 3) (firstn k secs)) as [X|X]; [intros; apply Z.eq_dec|apply Exists_exists in X; auto|].
      exfalso. apply NF, P2. intros t Ht Z3. apply X, Exists_exists; eauto. }
    destruct found as [v|].
    + exists (Some v). split; [reflexivity|]. split.
      * intros l st r E' T3 NL. pose proof (P1 l st r E' T3 NL) as Q. destruct (Nat.ltb_spec (length l) k) as [L|L]; [|discriminate].
        destruct (Nat.ltb_spec (length l) (Datatypes.S k)); [exact Q|lia].
      * intros H. destruct DEC as (t & Ht & X); [discriminate|]. exfalso. apply (H t); [|exact X]. rewrite FS. apply in_or_app; auto.
    + destruct (Z.eqb_spec (s_type s) 3) as [Y|Y].
      * exists (Some (s_offset s)). split; [reflexivity|]. split.
        -- intros l st r E' T3 NL. specialize (P1 l st r E' T3 NL). destruct (Nat.ltb_spec (length l) k); [discriminate|].
           destruct (Nat.ltb_spec (length l) (Datatypes.S k)); [|exfalso; apply (IN l st r E' NL ltac:(lia) Y)]. rewrite (NE l st r E' ltac:(lia)). reflexivity.
        -- intros H'. exfalso. apply (H' s); [|exact Y]. rewrite FS. apply in_or_app; right; left; auto.
      * exists None. split; [reflexivity|]. split.
        -- intros l st r E' T3 NL. specialize (P1 l st r E' T3 NL). destruct (Nat.ltb_spec (length l) k); [discriminate|].
           destruct (Nat.ltb_spec (length l) (Datatypes.S k)); [|reflexivity]. exfalso. rewrite (NE l st r E' ltac:(lia)) in T3. auto.
        -- reflexivity.
  - split; [|eauto]. intros l st r E' T3 NL. rewrite F. f_equal. rewrite (P1 l st r E' T3 NL).
    assert (L : (length l < length secs)%nat) by (rewrite E', app_length; cbn [length]; lia). destruct (Nat.ltb_spec (length l) (length secs)); [reflexivity|lia].
Qed.

(** * Loading a section *)
Lemma put_loop (v : nat -> N) addr n body : forall out mx, 0 <= addr -> addr + Z.of_nat n <= Z.of_nat (length out) ->
  (forall j s, (j < n)%nat -> body j s = put (addr + Z.of_nat j) (v j) s) ->
  exists out' mx', for_ n body (out, mx) = Some (out', mx') /\ length out' = length out /\
    (forall a, rd out' a = if (addr <=? a) && (a <? addr + Z.of_nat n) then Some (v (Z.to_nat (a - addr))) else rd out a) /\
    mx <= mx' /\ (forall a, addr <= a < addr + Z.of_nat n -> a <= mx') /\ (mx' = mx \/ addr <= mx' < addr + Z.of_nat n).
Proof.
  intros out mx A L B.
  destruct (for_inv (fun k (s : bytes * Z) => length (fst s) = length out /\
     (forall a, rd (fst s) a = if (addr <=? a) && (a <? addr + Z.of_nat k) then Some (v (Z.to_nat (a - addr))) else rd out a) /\
     mx <= snd s /\ (forall a, addr <= a < addr + Z.of_nat k -> a <= snd s) /\ (snd s = mx \/ addr <= snd s < addr + Z.of_nat k)) n body (out, mx)) as ((out', mx') & F & P).
  - cbn [fst snd]. split; [auto|]. split. { intros a. destruct (Z.leb_spec addr a), (Z.ltb_spec a (addr + Z.of_nat 0)); cbn; auto; lia. } split; [lia|]. split; [intros; lia|auto].
  - intros k (o & m) Hk (P1 & P2 & P3 & P4 & P5). cbn [fst snd] in *. rewrite B by exact Hk. unfold put.
    destruct (wr_ok o (addr + Z.of_nat k) (v k)) as (o' & W); [lia|]. rewrite W. cbn [obind]. eexists. split; [reflexivity|]. cbn [fst snd].
    split; [rewrite (wr_length _ _ _ _ W); auto|]. split.
    { intros a. rewrite (rd_wr _ _ _ _ _ W). rewrite P2. destruct (Z.eqb_spec a (addr + Z.of_nat k)).
      - subst a. replace (Z.to_nat (addr + Z.of_nat k - addr)) with k by lia. destruct (Z.leb_spec addr (addr + Z.of_nat k)); [|lia]. destruct (Z.ltb_spec (addr + Z.of_nat k) (addr + Z.of_nat (S k))); [reflexivity|lia].
      - destruct (Z.leb_spec addr a); cbn [andb]; [|reflexivity]. destruct (Z.ltb_spec a (addr + Z.of_nat k)), (Z.ltb_spec a (addr + Z.of_nat (S k))); try reflexivity; lia. }
    destruct (Z.ltb_spec m (addr + Z.of_nat k)).
    + split; [lia|]. split; [intros; lia|]. right. lia.
    + split; [lia|]. split; [|intuition lia]. intros a Ha. destruct (Z.eq_dec a (addr + Z.of_nat k)); [lia|]. apply P4. lia.
  - exists out', mx'. split; [exact F|]. exact P.
Qed.

(** Lines that the second tool drops. *)
Definition remark (l : text) : Prop := Forall (fun c => plain_text c = true /\ c <> "@"%char /\ c <> nl) l.
Definition remarks (t : text) : Prop := exists ls, Forall remark ls /\ t = flat_map (fun l => l ++ [nl]) ls.
Lemma remark_app a b : remark a -> remark b -> remark (a ++ b).
Proof. intros. apply Forall_app; auto. Qed.
Lemma remarks_app a b : remarks a -> remarks b -> remarks (a ++ b).
Proof.
  intros (la & A & ->) (lb & B & ->). exists (la ++ lb). split; [apply Forall_app; auto|]. rewrite flat_map_app. reflexivity.
Qed.
Lemma remarks_line l : remark l -> remarks (l ++ [nl]).
Proof. intros H. exists [l]. split; [auto|]. cbn. rewrite app_nil_r. reflexivity. Qed.
Lemma remarks_nil : remarks [].
Proof. exists []. auto. Qed.
Definition remark_b (l : text) : bool := forallb (fun c => plain_text c && negb (Ascii.eqb c "@") && negb (Ascii.eqb c nl)) l.
Lemma remark_dec l : remark_b l = true -> remark l.
Proof.
  intros H. apply Forall_forall. intros c Hc. unfold remark_b in H. rewrite forallb_forall in H. specialize (H c Hc).
  apply andb_prop in H as [H H3]. apply andb_prop in H as [H1 H2]. split; [exact H1|].
  destruct (Ascii.eqb_spec c "@"), (Ascii.eqb_spec c nl); try discriminate; auto.
Qed.
Lemma hex_char c d : hex_digit c = Some d -> plain_text c = true /\ c <> "@"%char /\ c <> nl /\ is_sep c = false.
Proof.
  destruct c as [[] [] [] [] [] [] [] []]; intros H; try discriminate H; (split; [reflexivity|]; split; [discriminate|]; split; [discriminate|reflexivity]).
Qed.
Lemma hex_remark t v : hexnum t = Some v -> remark t.
Proof.
  intros H. apply hexnum_chars in H. eapply Forall_impl; [|exact H]. intros c Hc. cbv beta in Hc. destruct (hex_digit c) as [d|] eqn:E; [|congruence].
  destruct (hex_char c d E) as (A & B & C & _). auto.
Qed.
Lemma pct_remark pad v : v < 2 ^ 64 -> remark (pct_x pad v).
Proof.
  intros B. destruct (to_string_hex_ok (Z.to_N v) pad) as [H _]. { destruct v; [lia| |lia]. apply N2Z.inj_lt. rewrite Z2N.id by lia. exact B. }
  eapply hex_remark; exact H.
Qed.
Lemma pSHT_remark v : remark (pSHT v).
Proof.
  unfold pSHT. set (k := Z.to_nat (Z.min v 20)). assert (K : (k <= 20)%nat) by (unfold k; lia). clearbody k.
  do 21 (destruct k as [|k]; [apply remark_dec; vm_compute; reflexivity|]). lia.
Qed.
Lemma bytes_text_ascii t : bytes_text (map N_of_ascii t) = t.
Proof. unfold bytes_text. rewrite map_map. rewrite (map_ext _ (fun c => c)); [apply map_id|]. apply ascii_N_embedding. Qed.
Lemma name_text f o : name_ok f o -> exists t, c_str (bytes_text (skipn (Z.to_nat o) f)) = Some t /\ remark t.
Proof.
  intros (t & pre & post & -> & <- & H). exists t. split; [|exact H]. rewrite Nat2Z.id, skipn_app, skipn_all, Nat.sub_diag. cbn [app skipn].
  unfold bytes_text. rewrite map_app. fold (bytes_text (map N_of_ascii t)). rewrite bytes_text_ascii. rewrite c_str_ok.
  - cbn. rewrite app_nil_r. reflexivity.
  - intros I. rewrite Forall_forall in H. destruct (H _ I) as [P _]. discriminate P.
Qed.

Lemma comment_ok f so b s : section_at f b s -> name_ok f (so + s_name s) ->
  exists t, section_comment f (Some so) b (s_type s) (s_offset s) = Some t /\ remarks t.
Proof.
  intros (N & T & A & O & Z_) NM. destruct (name_text _ _ NM) as (t & E & R). unfold section_comment, sh_name, sh_size, sh_addr.
  cbn [obind]. rewrite (field_ok _ _ _ _ N), (field_ok _ _ _ _ A), (field_ok _ _ _ _ Z_). cbn [obind]. rewrite E. cbn [obind]. eexists. split; [reflexivity|].
  destruct A as [A _], Z_ as [Z_ _], O as [O _]. change (256 ^ Z.of_nat 4) with (2 ^ 32) in *.
  assert (LT : forall x, x < 2 ^ 32 -> x < 2 ^ 64) by (intros x; assert (2 ^ 32 < 2 ^ 64) by reflexivity; lia).
  match goal with |- remarks ?X => assert (E2 : X = ((lit "// Section name " ++ t) ++ [nl]) ++
    ((lit "//  Type " ++ pSHT (s_type s) ++ lit ", Size 0x" ++ pct_x 0 (s_size s) ++ lit ", Start address 0x" ++ pct_x 8 (s_addr s) ++
        lit ", File offset 0x" ++ pct_x 0 (s_offset s) ++ lit ", boffset " ++ pct_x 0 (Z.land (s_offset s) 3)) ++ [nl])) by (rewrite <- !app_assoc; reflexivity) end.
  rewrite E2. assert (L3 : Z.land (s_offset s) 3 < 2 ^ 64).
  { change 3 with (Z.ones 2). rewrite Z.land_ones by lia. pose proof (Z.mod_pos_bound (s_offset s) (2 ^ 2) ltac:(lia)). lia. }
  assert (LIT : forall x, remark_b (lit x) = true -> remark (lit x)) by (intros; apply remark_dec; auto).
  apply remarks_app; apply remarks_line; repeat match goal with |- remark (_ ++ _) => apply remark_app end; try exact R; try apply pSHT_remark; try (apply pct_remark; solve [apply LT; lia|exact L3]); apply LIT; vm_compute; reflexivity.
Qed.

(** What loading the section does to the image. *)
Definition loaded (f : bytes) (s : section) (o o' : bytes * Z) : Prop :=
  length (fst o') = length (fst o) /\ (forall a, ~ covers s a -> rd (fst o') a = rd (fst o) a) /\
  (forall a, covers s a -> exists b, wants f s a b /\ rd (fst o') a = Some b) /\
  snd o <= snd o' /\ (forall a, covers s a -> a <= snd o') /\ (snd o' = snd o \/ covers s (snd o')).

Lemma load_section_ok f secs strings i s out mx t : elf f secs -> fits f secs -> find_strings f = Some strings ->
  nth_error secs i = Some s -> Z.of_nat (length out) = 2 * Z.of_nat (length f) -> remarks t ->
  exists out' mx' t', load_section f strings i (out, mx, t) = Some (out', mx', t') /\ loaded f s (out, mx) (out', mx') /\ remarks t'.
Proof.
  intros E FT FS NS LO RT. destruct (elf_sections _ _ E) as (o & z & O & ZZ & NN & I). pose proof (I i s NS) as SA. pose proof SA as (_ & T & A & OF & SZ).
  pose proof (nth_error_In _ _ NS) as IN.
  unfold load_section, e_shoff, e_shentsize, header_at, sh_offset, sh_type, sh_size, sh_addr.
  rewrite (field_ok _ _ _ _ O), (field_ok _ _ _ _ ZZ). cbn [obind]. rewrite (field_ok _ _ _ _ T), (field_ok _ _ _ _ OF), (field_ok _ _ _ _ A), (field_ok _ _ _ _ SZ). cbn [obind].
  assert (C : exists c, (if s_type s =? 0 then Some [] else section_comment f strings (o + z * Z.of_nat i) (s_type s) (s_offset s)) = Some c /\ remarks c).
  { destruct (Z.eqb_spec (s_type s) 0) as [T0|T0]; [exists []; split; [reflexivity|apply remarks_nil]|].
    destruct (fit_names _ _ FT) as [N|(l & st & r & E1 & T3 & NL & NM)]; [exfalso; apply T0, N; exact IN|].
    destruct (strings_ok f secs E) as [ST _]. rewrite (ST l st r E1 T3 NL) in FS. injection FS as <-. apply comment_ok; [exact SA|]. apply NM; auto. }
  destruct C as (c & -> & RC). cbn [obind].
  destruct A as [A _], OF as [OF _], SZ as [SZ _]. change (256 ^ Z.of_nat 4) with (2 ^ 32) in *.
  pose proof (fit_size _ _ FT) as [F2 F30].
  assert (AS : s_type s = 1 \/ s_type s = 8 -> s_size s <> 0 -> s_addr s + s_size s + 5 <= 2 * Z.of_nat (length f)).
  { intros T18 S0. pose proof (fit_addr _ _ FT s (s_addr s + s_size s - 1) IN) as Q. unfold covers in Q. specialize (Q ltac:(split; [exact T18|lia])). lia. }
  assert (RT' : remarks (t ++ c ++ (if (s_type s =? 8) && negb (s_size s =? 0) then lit "// .bss Dump Zeros" ++ [nl] else []))).
  { apply remarks_app; [exact RT|]. apply remarks_app; [exact RC|]. destruct (_ && _); [|apply remarks_nil]. apply remarks_line, remark_dec. vm_compute. reflexivity. }
  assert (NOT : ((s_type s =? 1) && negb (s_size s =? 0)) = false -> ((s_type s =? 8) && negb (s_size s =? 0)) = false -> forall a, ~ covers s a).
  { intros H1 H2 a ([X|X] & Y); rewrite X in *; cbn [Z.eqb Pos.eqb andb] in *; destruct (Z.eqb_spec (s_size s) 0); try discriminate; lia. }
  destruct ((s_type s =? 1) && negb (s_size s =? 0)) eqn:E1.
  - apply andb_prop in E1 as [T1 S0]. apply Z.eqb_eq in T1. apply negb_true_iff, Z.eqb_neq in S0. rewrite T1 in *. cbn [Z.eqb Pos.eqb andb] in *.
    specialize (AS (or_introl eq_refl) S0). pose proof (fit_offset _ _ FT s IN T1 S0) as FO.
    match goal with |- context [for_ ?n ?b ?s0] => destruct (put_loop (fun j => nth (Z.to_nat (s_offset s) + j) f 0%N) (s_addr s) n b out mx ltac:(lia) ltac:(lia)) as (out' & mx' & F & LEN & RD & M1 & M2 & M3) end.
    { intros j st Hj. rewrite !Z.mod_small by lia. unfold rd. destruct (Z.ltb_spec (Z.of_nat j + s_offset s) 0); [lia|].
      replace (Z.to_nat (Z.of_nat j + s_offset s)) with (Z.to_nat (s_offset s) + j)%nat by lia.
      rewrite (nth_error_nth' f 0%N) by lia. reflexivity. }
    match goal with |- context [for_ ?n ?b ?s0] => replace (for_ n b s0) with (Some (out', mx')) by (symmetry; exact F) end. cbn [obind]. exists out', mx'. eexists. split; [reflexivity|]. split; [|exact RT']. rewrite Z2Nat.id in * by lia. unfold loaded, covers, wants; cbn [fst snd]. rewrite T1.
    split; [exact LEN|]. split. { intros a H. rewrite RD. destruct (Z.leb_spec (s_addr s) a), (Z.ltb_spec a (s_addr s + s_size s)); cbn [andb]; auto. exfalso. apply H. split; [auto|lia]. }
    split. { intros a (_ & H). exists (nth (Z.to_nat (s_offset s) + Z.to_nat (a - s_addr s)) f 0%N). split.
      - split; [split; [auto|exact H]|]. split; [intros _|discriminate]. unfold rd. destruct (Z.ltb_spec (s_offset s + (a - s_addr s)) 0); [lia|].
        replace (Z.to_nat (s_offset s + (a - s_addr s))) with (Z.to_nat (s_offset s) + Z.to_nat (a - s_addr s))%nat by lia. apply nth_error_nth'. lia.
      - rewrite RD. destruct (Z.leb_spec (s_addr s) a); [|lia]. destruct (Z.ltb_spec a (s_addr s + s_size s)); [|lia]. reflexivity. }
    split; [exact M1|]. split; [intros a (_ & H); apply M2; exact H|]. destruct M3 as [M3|M3]; [auto|]. right. split; [auto|exact M3].
  - cbn [obind]. destruct ((s_type s =? 8) && negb (s_size s =? 0)) eqn:E8.
    + apply andb_prop in E8 as [T8 S0]. apply Z.eqb_eq in T8. apply negb_true_iff, Z.eqb_neq in S0. rewrite T8 in *.
      specialize (AS (or_intror eq_refl) S0).
      match goal with |- context [for_ ?n ?b ?s0] => destruct (put_loop (fun j => 0%N) (s_addr s) n b out mx ltac:(lia) ltac:(lia)) as (out' & mx' & F & LEN & RD & M1 & M2 & M3) end.
      { intros j st Hj. rewrite Z.mod_small by lia. rewrite (Z.add_comm (Z.of_nat j)). reflexivity. }
      match goal with |- context [for_ ?n ?b ?s0] => replace (for_ n b s0) with (Some (out', mx')) by (symmetry; exact F) end. cbn [obind]. exists out', mx'. eexists. split; [reflexivity|]. split; [|exact RT']. rewrite Z2Nat.id in * by lia. unfold loaded, covers, wants; cbn [fst snd]. rewrite T8.
      split; [exact LEN|]. split. { intros a H. rewrite RD. destruct (Z.leb_spec (s_addr s) a), (Z.ltb_spec a (s_addr s + s_size s)); cbn [andb]; auto. exfalso. apply H. split; [auto|lia]. }
      split. { intros a (_ & H). exists 0%N. split; [split; [split; [auto|exact H]|]; split; [discriminate|reflexivity]|].
        rewrite RD. destruct (Z.leb_spec (s_addr s) a); [|lia]. destruct (Z.ltb_spec a (s_addr s + s_size s)); [|lia]. reflexivity. }
      split; [exact M1|]. split; [intros a (_ & H); apply M2; exact H|]. destruct M3 as [M3|M3]; [auto|]. right. split; [auto|exact M3].
    + cbn [obind]. specialize (NOT eq_refl eq_refl). exists out, mx. eexists. split; [reflexivity|]. split; [|exact RT'].
      unfold loaded; cbn [fst snd]. split; [auto|]. split; [auto|]. split; [intros a H; exfalso; apply (NOT a H)|]. split; [lia|]. split; [intros a H; exfalso; apply (NOT a H)|auto].
Qed.

(** * All sections *)
Definition image (f : bytes) (secs : list section) (heap : bytes) (o : bytes * Z) : Prop :=
  length (fst o) = length heap /\ (forall a, free secs a -> rd (fst o) a = rd heap a) /\
  (forall a s, In s secs -> covers s a -> exists b, loads f secs a b /\ rd (fst o) a = Some b) /\ last_address secs (snd o).
Lemma covers_dec s a : {covers s a} + {~ covers s a}.
Proof.
  unfold covers. destruct (Z.eq_dec (s_type s) 1), (Z.eq_dec (s_type s) 8), (Z_le_dec (s_addr s) a), (Z_lt_dec a (s_addr s + s_size s)); (left; tauto) || (right; tauto).
Qed.
Lemma image_snoc f secs s heap o o' : image f secs heap o -> loaded f s o o' -> image f (secs ++ [s]) heap o'.
Proof.
  intros (I1 & I2 & I3 & I4) (L1 & L2 & L3 & L4 & L5 & L6). unfold image. split; [congruence|].
  split. { intros a F. rewrite L2, I2; auto; [intros t Ht; apply F, in_or_app; auto|apply F, in_or_app; right; left; auto]. }
  split.
  - intros a t Ht C. destruct (covers_dec s a) as [D|D].
    + destruct (L3 a D) as (b & W & R). exists b. split; [|exact R]. exists secs, s, []. split; [reflexivity|]. split; [exact W|intros ? []].
    + apply in_app_or in Ht as [Ht|[<-|[]]]; [|contradiction]. destruct (I3 a t Ht C) as (b & (l & u & r & E & W & N) & R). exists b. rewrite L2 by exact D. split; [|exact R].
      exists l, u, (r ++ [s]). split; [rewrite E, <- app_assoc; reflexivity|]. split; [exact W|]. intros t' Ht'. apply in_app_or in Ht' as [Ht'|[<-|[]]]; auto.
  - destruct I4 as (M0 & M1 & M2). split; [lia|]. split.
    + intros t a Ht C. apply in_app_or in Ht as [Ht|[<-|[]]]; [specialize (M1 t a Ht C); lia|apply L5, C].
    + destruct L6 as [L6|L6]; [|right; exists s; split; [apply in_or_app; right; left; auto|exact L6]].
      rewrite L6. destruct M2 as [M2|(t & Ht & C)]; [auto|]. right. exists t. split; [apply in_or_app; auto|exact C].
Qed.
Lemma load_sections_ok f secs strings heap : elf f secs -> fits f secs -> find_strings f = Some strings ->
  Z.of_nat (length heap) = 2 * Z.of_nat (length f) ->
  exists out mx t, load_sections f strings heap = Some (out, mx, t) /\ image f secs heap (out, mx) /\ remarks t.
Proof.
  intros E FT FS LH. destruct (elf_sections _ _ E) as (o & z & O & ZZ & NN & I). unfold load_sections, e_shnum. rewrite (field_ok _ _ _ _ NN). cbn [obind]. rewrite Nat2Z.id.
  destruct (for_inv (fun k (s : bytes * Z * text) => image f (firstn k secs) heap (fst s) /\ remarks (snd s)) (length secs) (load_section f strings) (heap, 0, [])) as (((out & mx) & t) & F & P & R).
  - cbn [fst snd firstn]. split; [|apply remarks_nil]. split; [auto|]. split; [auto|]. split; [intros a s []|]. split; [cbn; lia|]. split; [intros s a []|auto].
  - intros k ((out & mx) & t) Hk (P & R). cbn [fst snd] in *. destruct (nth_error secs k) as [s|] eqn:S; [|apply nth_error_None in S; lia].
    destruct (load_section_ok f secs strings k s out mx t E FT FS S) as (out' & mx' & t' & L & LD & R'); [destruct P as (P & _); cbn [fst] in P; lia|exact R|].
    exists (out', mx', t'). split; [exact L|]. cbn [fst snd]. split; [|exact R'].
    assert (FS' : firstn (Datatypes.S k) secs = firstn k secs ++ [s]).
    { clear - S. revert k S. induction secs as [|a l IH]; intros [|k] S; cbn in *; try discriminate; [congruence|]. f_equal. apply IH. auto. }
    rewrite FS'. eapply image_snoc; eauto.
  - cbn [fst snd] in *. rewrite firstn_all in P. eauto 6.
Qed.

(** * The words *)
Lemma two_digits b : (b < 256)%N -> hexnum (to_string_hex b 2) = Some b /\ length (to_string_hex b 2) = 2%nat.
Proof.
  intros H. split. { apply (to_string_hex_ok b 2). assert (256 < 2 ^ 64)%N by reflexivity. lia. }
  assert (K : forallb (fun k => (length (to_string_hex (N.of_nat k) 2) =? 2)%nat) (seq 0 256) = true) by (vm_compute; reflexivity).
  rewrite forallb_forall in K. specialize (K (N.to_nat b)). rewrite N2Nat.id in K. apply Nat.eqb_eq, K, in_seq. lia.
Qed.
Lemma of_le_bits l : Forall is_byte l -> forall r k, (k < 8)%N -> N.testbit (of_le l) (8 * N.of_nat r + k) = N.testbit (nth r l 0%N) k.
Proof.
  induction 1 as [|b l B F IH]; intros r k K. { destruct r; cbn [nth of_le]; rewrite !N.bits_0; reflexivity. }
  cbn [of_le]. unfold is_byte in B. change 256%N with (2 ^ 8)%N in *. destruct r as [|r]; cbn [nth].
  - change (8 * N.of_nat 0 + k)%N with k. rewrite <- (N.mod_pow2_bits_low (b + 2 ^ 8 * of_le l) 8 k K). rewrite N.mul_comm, N.mod_add by discriminate. rewrite N.mod_small by exact B. reflexivity.
  - replace (8 * N.of_nat (S r) + k)%N with (8 * N.of_nat r + k + 8)%N by lia. rewrite <- N.div_pow2_bits. rewrite N.mul_comm, N.div_add by discriminate.
    rewrite N.div_small by exact B. apply IH, K.
Qed.

Lemma span_plain t r : Forall (fun c => is_sep c = false) t -> (r = [] \/ exists c r', r = c :: r' /\ is_sep c = true) -> span_tok (t ++ r) = (t, r).
Proof.
  induction 1 as [|c t H F IH]; intros R; cbn [app span_tok].
  - destruct R as [->|(c & r' & -> & S)]; cbn [span_tok]; [reflexivity|]. rewrite S. reflexivity.
  - rewrite H, IH by exact R. reflexivity.
Qed.
Lemma drop_plain t : Forall (fun c => is_sep c = false) t -> drop_sep t = t.
Proof. intros H. destruct t as [|c t]; [reflexivity|]. inversion H; subst. cbn [drop_sep]. rewrite H2. reflexivity. Qed.
Lemma hex_not_sep t v : hexnum t = Some v -> Forall (fun c => is_sep c = false) t.
Proof.
  intros H. apply hexnum_chars in H. eapply Forall_impl; [|exact H]. intros c Hc. cbv beta in Hc. destruct (hex_digit c) as [d|] eqn:E; [|congruence].
  apply (hex_char c d E).
Qed.
Lemma field_word d u v w : hexnum d = Some u -> hexnum w = Some v -> second_field ("@"%char :: d ++ sp :: w) = w.
Proof.
  intros D W. unfold second_field. pose proof (hex_not_sep _ _ D) as SD. pose proof (hex_not_sep _ _ W) as SW.
  change ("@"%char :: d ++ sp :: w) with (("@"%char :: d) ++ sp :: w). 
  assert (SA : Forall (fun c => is_sep c = false) ("@"%char :: d)) by (constructor; [reflexivity|exact SD]).
  assert (DR : drop_sep (("@"%char :: d) ++ sp :: w) = ("@"%char :: d) ++ sp :: w) by reflexivity. rewrite DR. rewrite span_plain by (auto; right; exists sp, w; auto). cbn [snd].
  cbn [drop_sep]. change (is_sep sp) with true. cbn match. rewrite drop_plain by exact SW. rewrite <- (app_nil_r w) at 1. rewrite span_plain by auto. reflexivity.
Qed.

Definition word_digits (b3 b2 b1 b0 : N) : text := to_string_hex b3 2 ++ to_string_hex b2 2 ++ to_string_hex b1 2 ++ to_string_hex b0 2.
Lemma word_digits_ok b3 b2 b1 b0 : Forall is_byte [b0; b1; b2; b3] ->
  length (word_digits b3 b2 b1 b0) = 8%nat /\ hexnum (word_digits b3 b2 b1 b0) = Some (of_le [b0; b1; b2; b3]).
Proof.
  intros F. inversion F as [|? ? B0 F0]; subst. inversion F0 as [|? ? B1 F1]; subst. inversion F1 as [|? ? B2 F2]; subst. inversion F2 as [|? ? B3 _]; subst.
  destruct (two_digits b0 B0) as [H0 L0], (two_digits b1 B1) as [H1 L1], (two_digits b2 B2) as [H2 L2], (two_digits b3 B3) as [H3 L3].
  unfold word_digits. split; [rewrite !app_length; lia|].
  unfold hexnum in *. pose proof (numeral_app _ _ _ _ _ _ H1 H0) as E1. pose proof (numeral_app _ _ _ _ _ _ H2 E1) as E2. pose proof (numeral_app _ _ _ _ _ _ H3 E2) as E3.
  rewrite E3. rewrite !app_length, L0, L1, L2. cbn [of_le]. f_equal. change (16 ^ N.of_nat 2)%N with 256%N. change (16 ^ N.of_nat (2 + 2))%N with 65536%N. change (16 ^ N.of_nat (2 + (2 + 2)))%N with 16777216%N. lia.
Qed.

Definition out_word (out : bytes) (i : nat) : text := word_digits (nth (4 * i + 3) out 0%N) (nth (4 * i + 2) out 0%N) (nth (4 * i + 1) out 0%N) (nth (4 * i) out 0%N).
Lemma print_words_ok out mx : 0 <= mx -> mx + 6 <= Z.of_nat (length out) -> mx + 6 < 2 ^ 31 ->
  print_words out mx = Some (flat_map (fun i => ("@"%char :: pct_x 8 (4 * Z.of_nat i) ++ sp :: out_word out i) ++ [nl]) (seq 0 (Z.to_nat ((mx + 6) / 4)))).
Proof.
  intros M L B. unfold print_words. destruct (Z.leb_spec (2 ^ 31) (mx + 3)); [lia|].
  set (n := Z.to_nat ((mx + 6) / 4)).
  assert (N : 4 * Z.of_nat n <= mx + 6). { unfold n. pose proof (Z.mul_div_le (mx + 6) 4 ltac:(lia)). rewrite Z2Nat.id; [lia|]. apply Z.div_pos; lia. }
  clearbody n.
  destruct (for_inv (fun k t => t = flat_map (fun i => ("@"%char :: pct_x 8 (4 * Z.of_nat i) ++ sp :: out_word out i) ++ [nl]) (seq 0 k)) n
     (fun i t => do l <- word_line out (4 * Z.of_nat i); Some (t ++ l)) []) as (t & F & ->).
  - reflexivity.
  - intros k t Hk ->. eexists. split; [|reflexivity]. rewrite seq_S, flat_map_app. cbn [Nat.add flat_map]. rewrite app_nil_r. unfold word_line.
    assert (R : forall d, (d < 4)%nat -> rd out (4 * Z.of_nat k + Z.of_nat d) = Some (nth (4 * k + d) out 0%N)).
    { intros d Hd. replace (4 * Z.of_nat k + Z.of_nat d) with (Z.of_nat (4 * k + d)) by lia. rewrite rd_nat. apply nth_error_nth'. lia. }
    pose proof (R 0%nat ltac:(lia)) as R0. pose proof (R 1%nat ltac:(lia)) as R1. pose proof (R 2%nat ltac:(lia)) as R2. pose proof (R 3%nat ltac:(lia)) as R3.
    change (Z.of_nat 1) with 1 in R1. change (Z.of_nat 2) with 2 in R2. change (Z.of_nat 3) with 3 in R3. change (Z.of_nat 0) with 0 in R0. rewrite Z.add_0_r, Nat.add_0_r in R0.
    rewrite R3, R2, R1, R0. cbn [obind]. unfold out_word, word_digits, pct_x. rewrite !N2Z.id. repeat (rewrite <- !app_assoc || cbn [app]). reflexivity.
  - exact F.
Qed.

Lemma lines_prefix ls r : Forall (Forall (fun c => c <> nl)) ls -> lines_of (flat_map (fun l => l ++ [nl]) ls ++ r) = ls ++ lines_of r.
Proof.
  induction 1 as [|l ls H F IH]; cbn [flat_map app]; [reflexivity|]. rewrite <- !app_assoc. cbn [app]. rewrite lines_line by exact H. rewrite IH. reflexivity.
Qed.
Lemma flat_map_lines {A} (g : A -> text) l : flat_map (fun i => g i ++ [nl]) l = flat_map (fun x => x ++ [nl]) (map g l).
Proof. induction l as [|a l IH]; cbn; [reflexivity|]. rewrite IH. reflexivity. Qed.
Lemma no_at l : remark l -> has_at l = false.
Proof.
  induction 1 as [|c l (_ & H & _) F IH]; [reflexivity|]. unfold has_at in *. cbn [existsb]. rewrite IH. destruct (Ascii.eqb_spec "@" c); [congruence|reflexivity].
Qed.
Lemma filter_remarks ls : Forall remark ls -> filter has_at ls = [].
Proof. induction 1 as [|l ls H F IH]; cbn [filter]; [reflexivity|]. rewrite no_at by exact H. exact IH. Qed.

Lemma remarks_plain t : remarks t -> forallb plain_text t = true.
Proof.
  intros (ls & F & ->). induction F as [|l ls R F IH]; [reflexivity|]. cbn [flat_map]. rewrite !forallb_app, IH. replace (forallb plain_text l) with true; [reflexivity|].
  symmetry. apply forallb_forall. intros c Hc. unfold remark in R. rewrite Forall_forall in R. apply (R c Hc).
Qed.
Lemma code32_ok t out n : remarks t -> Forall is_byte out -> (Z.of_nat n < 2 ^ 32) ->
  code32 (t ++ flat_map (fun i => ("@"%char :: pct_x 8 (4 * Z.of_nat i) ++ sp :: out_word out i) ++ [nl]) (seq 0 n)) =
  Some (flat_map (fun l => l ++ [nl]) (map (out_word out) (seq 0 n))).
Proof.
  intros R B N. unfold code32.
  set (g := fun i => "@"%char :: pct_x 8 (4 * Z.of_nat i) ++ sp :: out_word out i).
  assert (NB : forall k, is_byte (nth k out 0%N)).
  { intros k. destruct (Nat.lt_ge_cases k (length out)); [|rewrite nth_overflow by lia; reflexivity]. rewrite Forall_forall in B. apply B, nth_In. lia. }
  assert (WD : forall i, exists v, hexnum (out_word out i) = Some v).
  { intros i. eexists. apply word_digits_ok. repeat (constructor; [apply NB|]). constructor. }
  assert (AD : forall i, (i < n)%nat -> exists v, hexnum (pct_x 8 (4 * Z.of_nat i)) = Some v).
  { intros i Hi. eexists. apply to_string_hex_ok. apply N2Z.inj_lt. rewrite Z2N.id by lia. change (Z.of_N (2 ^ 64)) with (2 ^ 64). assert (4 * 2 ^ 32 < 2 ^ 64) by reflexivity. lia. }
  assert (GP : forall i, (i < n)%nat -> Forall (fun c => plain_text c = true /\ c <> nl) (g i)).
  { intros i Hi. destruct (WD i) as (v & W), (AD i Hi) as (u & D). unfold g. constructor; [split; [reflexivity|discriminate]|]. apply Forall_app. split.
    - eapply Forall_impl; [|apply (hex_remark _ _ D)]. intros c (H1 & _ & H2). auto.
    - constructor; [split; [reflexivity|discriminate]|]. eapply Forall_impl; [|apply (hex_remark _ _ W)]. intros c (H1 & _ & H2). auto. }
  change (fun i => ("@"%char :: pct_x 8 (4 * Z.of_nat i) ++ sp :: out_word out i) ++ [nl]) with (fun i => g i ++ [nl]).
  rewrite flat_map_lines.
  assert (P : forallb plain_text (t ++ flat_map (fun x => x ++ [nl]) (map g (seq 0 n))) = true).
  { rewrite forallb_app, (remarks_plain t R). cbn [andb]. apply forallb_forall. intros c Hc. apply in_flat_map in Hc as (l & Hl & Hc). apply in_map_iff in Hl as (i & <- & Hi). apply in_seq in Hi.
    apply in_app_or in Hc as [Hc|[<-|[]]]; [|reflexivity]. pose proof (GP i ltac:(lia)) as G. rewrite Forall_forall in G. apply (G c Hc). }
  rewrite P. f_equal. destruct R as (ls & RL & ->).
  rewrite lines_prefix. 2:{ eapply Forall_impl; [|exact RL]. intros l Hl. eapply Forall_impl; [|exact Hl]. intros c (_ & _ & H). exact H. }
  rewrite <- (app_nil_r (flat_map _ (map g (seq 0 n)))). rewrite lines_prefix.
  2:{ apply Forall_forall. intros l Hl. apply in_map_iff in Hl as (i & <- & Hi). apply in_seq in Hi. eapply Forall_impl; [|apply (GP i); lia]. intros c (_ & H). exact H. }
  cbn [lines_of]. rewrite app_nil_r, filter_app, filter_remarks by exact RL. cbn [app].
  assert (FT : forall l, filter has_at (map g l) = map g l). { induction l as [|i l IH]; [reflexivity|]. cbn [map filter]. unfold g at 1. unfold has_at at 1. cbn [existsb Ascii.eqb Bool.eqb orb]. rewrite IH. reflexivity. }
  rewrite FT. rewrite !flat_map_concat_map, !map_map. f_equal. apply map_ext_in. intros i Hi. apply in_seq in Hi. destruct (WD i) as (v & W), (AD i ltac:(lia)) as (u & D).
  unfold g. rewrite (field_word _ u v) by auto. reflexivity.
Qed.

(** * The tools *)
Lemma loads_byte f secs a b : Forall is_byte f -> loads f secs a b -> is_byte b.
Proof.
  intros B (l & s & r & -> & ((C & _) & W1 & W2) & _). destruct C as [C|C].
  - specialize (W1 C). unfold rd in W1. destruct (_ <? 0); [discriminate|]. apply nth_error_In in W1. rewrite Forall_forall in B. auto.
  - rewrite (W2 C). reflexivity.
Qed.
Lemma loads_once f secs a b b' : loads f secs a b -> loads f secs a b' -> b = b'.
Proof.
  intros (l & s & r & E & (C & W1 & W2) & N) (l' & s' & r' & E' & (C' & W1' & W2') & N'). assert (X : s = s').
  { rewrite E in E'. destruct (Nat.lt_trichotomy (length l) (length l')) as [L|[L|L]].
    - exfalso. apply (N s'); [|exact C']. assert (Q : nth_error (l ++ s :: r) (length l') = Some s') by (rewrite E', nth_error_app2, Nat.sub_diag by lia; reflexivity).
      rewrite nth_error_app2 in Q by lia. replace (length l' - length l)%nat with (S (length l' - length l - 1)) in Q by lia. cbn [nth_error] in Q. eapply nth_error_In; eauto.
    - apply (f_equal (fun x => nth_error x (length l))) in E'. rewrite nth_error_app2, Nat.sub_diag in E' by lia. rewrite L in E'. rewrite nth_error_app2, Nat.sub_diag in E' by lia. cbn in E'. congruence.
    - exfalso. apply (N' s); [|exact C]. assert (Q : nth_error (l' ++ s' :: r') (length l) = Some s) by (rewrite <- E', nth_error_app2, Nat.sub_diag by lia; reflexivity).
      rewrite nth_error_app2 in Q by lia. replace (length l - length l')%nat with (S (length l - length l' - 1)) in Q by lia. cbn [nth_error] in Q. eapply nth_error_In; eauto. }
  subst s'. destruct C as ([C|C] & _).
  - specialize (W1 C). specialize (W1' C). congruence.
  - rewrite (W2 C), (W2' C). reflexivity.
Qed.

Theorem split_ok fs heap a0 a1 rest f secs : fs a1 = Some f -> elf f secs -> fits f secs -> Forall is_byte heap -> 2 * Z.of_nat (length f) <= Z.of_nat (length heap) ->
  exists t p ls top, elfsplitter fs heap (a0 :: a1 :: rest) = Some (0, t) /\ code32 t = Some p /\ file_of ls p /\
    last_address secs top /\ Z.of_nat (length ls) = (top + 6) / 4 /\
    forall i l, nth_error ls i = Some l -> exists m, length m = 4%nat /\ length l = 8%nat /\ hexnum l = Some (of_le m) /\
      forall j b, nth_error m j = Some b -> is_byte b /\
        (free secs (4 * Z.of_nat i + Z.of_nat j) -> rd heap (4 * Z.of_nat i + Z.of_nat j) = Some b) /\
        (forall b', loads f secs (4 * Z.of_nat i + Z.of_nat j) b' -> b = b').
Proof.
  intros FA E FT HB HL. unfold elfsplitter. rewrite FA. pose proof (fit_size _ _ FT) as [F2 F30].
  destruct (Z.leb_spec (2 ^ 31) (Z.of_nat (length f) * 2)); [lia|].
  rewrite (same_bytes_ok _ _ _ (elf_magic _ _ E)). cbn [obind negb]. unfold e_machine. rewrite (field_ok _ _ _ _ (elf_machine _ _ E)). cbn [obind]. cbn [Z.eqb Pos.eqb negb].
  rewrite (program_headers_ok _ _ E). cbn [obind]. destruct (strings_ok _ _ E) as (_ & strings & ST). rewrite ST. cbn [obind].
  set (hp := firstn (Z.to_nat (Z.of_nat (length f) * 2)) heap).
  assert (LH : Z.of_nat (length hp) = 2 * Z.of_nat (length f)) by (unfold hp; rewrite firstn_length; lia).
  destruct (load_sections_ok f secs strings hp E FT ST LH) as (out & mx & t & LS & (I1 & I2 & I3 & I4) & RT). rewrite LS. cbn [obind fst snd] in *.
  assert (MX : mx + 6 <= 2 * Z.of_nat (length f) \/ mx = 0).
  { destruct I4 as (_ & _ & [M|(s & Hs & C)]); [auto|]. left. apply (fit_addr _ _ FT s mx Hs C). }
  assert (M0 : 0 <= mx) by (destruct I4; lia).
  assert (F52 : 20 <= Z.of_nat (length f)). { destruct (elf_machine _ _ E) as (_ & pre & post & EF & LP). rewrite EF, !app_length, le_length. lia. }
  rewrite print_words_ok by lia. cbn [obind].
  assert (HN : forall a x, rd hp a = Some x -> rd heap a = Some x).
  { intros a x. unfold rd, hp. destruct (a <? 0); [discriminate|]. intros H'. assert (L' : (Z.to_nat a < length (firstn (Z.to_nat (Z.of_nat (length f) * 2)) heap))%nat) by (apply nth_error_Some; congruence).
    rewrite <- (firstn_skipn (Z.to_nat (Z.of_nat (length f) * 2)) heap). rewrite nth_error_app1 by exact L'. exact H'. }
  assert (DEC : forall a, free secs a \/ exists s, In s secs /\ covers s a).
  { intros a. destruct (Exists_dec (fun s => covers s a) secs (fun s => covers_dec s a)) as [X|X]; [right; apply Exists_exists in X; auto|left].
    intros s Hs C. apply X, Exists_exists; eauto. }
  assert (OB : Forall is_byte out).
  { apply Forall_forall. intros b Hb. apply In_nth_error in Hb as (k & Hk). destruct (DEC (Z.of_nat k)) as [D|(s & Hs & C)].
    - specialize (I2 _ D). rewrite !rd_nat in I2. rewrite Hk in I2. symmetry in I2. rewrite <- rd_nat in I2. apply HN in I2. rewrite rd_nat in I2. apply nth_error_In in I2. rewrite Forall_forall in HB. auto.
    - destruct (I3 _ s Hs C) as (b' & LD & R). rewrite rd_nat, Hk in R. injection R as <-. eapply loads_byte; [apply (fit_bytes _ _ FT)|exact LD]. }
  set (n := Z.to_nat ((mx + 6) / 4)). assert (NB : 4 * Z.of_nat n <= mx + 6).
  { unfold n. pose proof (Z.mul_div_le (mx + 6) 4 ltac:(lia)). rewrite Z2Nat.id; [lia|]. apply Z.div_pos; lia. }
  eexists. exists (flat_map (fun l => l ++ [nl]) (map (out_word out) (seq 0 n))), (map (out_word out) (seq 0 n)), mx.
  split; [reflexivity|]. split; [apply code32_ok; [exact RT|exact OB|lia]|]. split; [left; reflexivity|]. split; [exact I4|].
  split. { rewrite map_length, seq_length. unfold n. rewrite Z2Nat.id; [reflexivity|]. apply Z.div_pos; lia. }
  intros i l Hi. rewrite nth_error_map in Hi. destruct (nth_error (seq 0 n) i) as [i'|] eqn:S; [|discriminate]. injection Hi as <-.
  assert (i' = i /\ (i < n)%nat) as [-> Hi]. { assert (LT : (i < length (seq 0 n))%nat) by (apply nth_error_Some; congruence). rewrite seq_length in LT. split; [|exact LT].
    apply (nth_error_nth _ _ O) in S. rewrite seq_nth in S by exact LT. lia. }
  set (m := map (fun d => nth (4 * i + d) out 0%N) [0; 1; 2; 3]%nat). exists m. split; [reflexivity|].
  assert (MB : Forall is_byte m). { apply Forall_forall. intros b Hb. apply in_map_iff in Hb as (d & <- & Hd). rewrite Forall_forall in OB. apply OB, nth_In. cbn [In] in Hd. lia. }
  assert (EM : m = [nth (4 * i) out 0%N; nth (4 * i + 1) out 0%N; nth (4 * i + 2) out 0%N; nth (4 * i + 3) out 0%N]) by (unfold m; cbn [map]; rewrite Nat.add_0_r; reflexivity).
  pose proof (word_digits_ok (nth (4 * i + 3) out 0%N) (nth (4 * i + 2) out 0%N) (nth (4 * i + 1) out 0%N) (nth (4 * i) out 0%N)) as WD. rewrite <- EM in WD. destruct (WD MB) as [WL WV]. split; [exact WL|]. split; [exact WV|].
  intros j b Hj. assert (R : rd out (4 * Z.of_nat i + Z.of_nat j) = Some b).
  { assert (J : (j < 4)%nat) by (change 4%nat with (length m); apply nth_error_Some; congruence).
    replace (4 * Z.of_nat i + Z.of_nat j) with (Z.of_nat (4 * i + j)) by lia. rewrite rd_nat. rewrite (nth_error_nth' out 0%N) by lia. rewrite <- Hj.
    do 4 (destruct j as [|j]; [unfold m; cbn [map nth_error]; reflexivity|]). lia. }
  split. { rewrite Forall_forall in MB. apply MB. eapply nth_error_In; eauto. } split.
  - intros FR. apply HN. rewrite <- I2 by exact FR. exact R.
  - intros b' LD. destruct LD as (l0 & s & r & EQ & W & N). destruct (I3 (4 * Z.of_nat i + Z.of_nat j) s) as (b'' & LD & R'); [rewrite EQ; apply in_or_app; right; left; reflexivity|apply W|].
    rewrite R in R'. injection R' as <-. eapply loads_once; [exact LD|]. exists l0, s, r. auto.
Qed.

Theorem program_memory fs heap a0 a1 rest f secs : fs a1 = Some f -> elf f secs -> fits f secs -> Forall is_byte heap -> 2 * Z.of_nat (length f) <= Z.of_nat (length heap) ->
  Z.of_nat (length f) < 2 ^ 27 ->
  exists t p top, elfsplitter fs heap (a0 :: a1 :: rest) = Some (0, t) /\ code32 t = Some p /\ last_address secs top /\
  forall files name, files name = Some p -> exists w, writes (ReadFileOrPassHex files name) w /\
    (forall a b, 0 <= a -> loads f secs a b -> byte_of w a = b) /\
    (forall a, 0 <= a < 4 * ((top + 6) / 4) -> free secs a -> rd heap a = Some (byte_of w a)) /\
    (forall a, 4 * ((top + 6) / 4) <= a -> byte_of w a = 0%N).
Proof.
  intros FA E FT HB HL F27. destruct (split_ok fs heap a0 a1 rest f secs FA E FT HB HL) as (t & p & ls & top & X & C & FO & TP & LN & WS).
  exists t, p, top. split; [exact X|]. split; [exact C|]. split; [exact TP|]. intros files name FN.
  assert (TB : top + 6 <= 2 * Z.of_nat (length f)).
  { destruct TP as (_ & _ & [->|(s & Hs & Cv)]); [|apply (fit_addr _ _ FT s top Hs Cv)].
    destruct (elf_machine _ _ E) as (_ & pre & post & EF & LP). rewrite EF, !app_length, le_length. lia. }
  assert (T0 : 0 <= top) by (destruct TP; auto).
  set (v := fun cy => match nth_error ls cy with Some l => match hexnum l with Some x => x | None => 0%N end | None => 0%N end).
  destruct (input_file_ok files name p 8 ls v FN FO) as (w & W & BT).
  { intros cy l Hl. destruct (WS cy l Hl) as (m & _ & L8 & HX & _). split; [exact L8|]. unfold v. rewrite Hl, HX. reflexivity. }
  { pose proof (Z.mul_div_le (top + 6) 4 ltac:(lia)). apply N2Z.inj_lt. rewrite nat_N_Z, Nat2Z.inj_mul, LN. change (Z.of_N (2 ^ 29)) with (2 * (2 * 2 ^ 27)). change (Z.of_nat 8) with 8. lia. }
  exists w. split; [exact W|].
  assert (BY : forall a, 0 <= a -> forall k, N.testbit (byte_of w a) k = if (k <? 8)%N then N.testbit w (8 * Z.to_N a + k) else false).
  { intros a Ha k. unfold byte_of. change 255%N with (N.ones 8). rewrite N.land_spec, N.shiftr_spec by lia. destruct (N.ltb_spec k 8).
    - rewrite N.ones_spec_low by lia. rewrite andb_true_r. f_equal. lia.
    - rewrite N.ones_spec_high by lia. apply andb_false_r. }
  assert (IN : forall a, 0 <= a < 4 * ((top + 6) / 4) -> exists b, byte_of w a = b /\ (free secs a -> rd heap a = Some b) /\ (forall b', loads f secs a b' -> b = b')).
  { intros a Ha. set (i := Z.to_nat (a / 4)). set (j := Z.to_nat (a mod 4)). pose proof (Z.div_mod a 4 ltac:(lia)) as DM. pose proof (Z.mod_pos_bound a 4 ltac:(lia)) as MB.
    assert (D0 : 0 <= a / 4) by (apply Z.div_pos; lia). assert (Hi : (i < length ls)%nat) by (unfold i; lia).
    assert (EA : 4 * Z.of_nat i + Z.of_nat j = a) by (unfold i, j; lia).
    destruct (nth_error ls i) as [l|] eqn:Hl; [|apply nth_error_None in Hl; lia]. destruct (WS i l Hl) as (m & L4 & L8 & HX & MM).
    destruct (nth_error m j) as [b|] eqn:Hb; [|apply nth_error_None in Hb; unfold j in Hb; lia]. destruct (MM j b Hb) as (Bb & FR & LD). rewrite EA in FR, LD.
    exists b. split; [|auto]. apply N.bits_inj. intros k. rewrite BY by lia. destruct (N.ltb_spec k 8) as [K|K].
    - assert (EK : (8 * Z.to_N a + k)%N = N.of_nat (i * (4 * 8) + (8 * j + N.to_nat k))) by (rewrite <- EA; lia). rewrite EK. rewrite BT by (unfold j; lia). apply Nat.ltb_lt in Hi. rewrite Hi.
      unfold v. rewrite Hl, HX. replace (N.of_nat (8 * j + N.to_nat k)) with (8 * N.of_nat j + k)%N by lia. rewrite of_le_bits.
      + rewrite (nth_error_nth _ _ 0%N Hb). reflexivity.
      + apply Forall_forall. intros x Hx. apply In_nth_error in Hx as (q & Hq). apply (MM q x Hq).
      + exact K.
    - symmetry. apply N.bits_above_log2. unfold is_byte in Bb. destruct (N.eq_dec b 0) as [->|NZ]; [cbn; lia|]. assert (N.log2 b < 8)%N by (apply N.log2_lt_pow2; [lia|exact Bb]). lia. }
  split; [|split].
  - intros a b Ha LD. destruct (IN a) as (b' & EB & _ & L'); [|rewrite EB; apply L'; exact LD].
    split; [exact Ha|]. assert (a <= top). { destruct TP as (_ & TP & _). destruct LD as (l0 & s & r & EQ & Wn & _). apply (TP s a); [rewrite EQ; apply in_or_app; right; left; reflexivity|apply Wn]. }
    pose proof (Z.div_mod (top + 6) 4 ltac:(lia)). pose proof (Z.mod_pos_bound (top + 6) 4 ltac:(lia)). lia.
  - intros a Ha FR. destruct (IN a Ha) as (b' & EB & H' & _). rewrite EB. apply H', FR.
  - intros a Ha. assert (0 <= (top + 6) / 4) by (apply Z.div_pos; lia). apply N.bits_inj. intros k. rewrite BY by lia. rewrite N.bits_0. destruct (N.ltb_spec k 8); [|reflexivity].
    pose proof (Z.div_mod a 4 ltac:(lia)) as DM. pose proof (Z.mod_pos_bound a 4 ltac:(lia)) as MB.
    replace (8 * Z.to_N a + k)%N with (N.of_nat (Z.to_nat (a / 4) * (4 * 8) + (8 * Z.to_nat (a mod 4) + N.to_nat k))). 2:{ assert (0 <= a / 4) by (apply Z.div_pos; lia). lia. }
    rewrite BT by lia. destruct (Nat.ltb_spec (Z.to_nat (a / 4)) (length ls)); [|reflexivity]. exfalso. assert (0 <= a / 4) by (apply Z.div_pos; lia). lia.
Qed.

(** ** What is printed for memory that was never written *)
Lemma byte_zero_heap n : Forall is_byte (repeat 0%N n) /\ Forall is_byte (repeat 1%N n).
Proof. split; apply Forall_forall; intros x Hx; apply repeat_spec in Hx; subst; reflexivity. Qed.
Lemma rd_repeat_in {A} (x : A) n i : 0 <= i < Z.of_nat n -> rd (repeat x n) i = Some x.
Proof. intros H. destruct (rd_ok (repeat x n) i) as [y E]; [rewrite repeat_length; exact H|]. rewrite E. f_equal. eapply rd_repeat; eauto. Qed.
(** When the image ends at a word boundary, one word too many is printed, and its
    contents are whatever the memory held. *)
Theorem heap_printed fs a0 a1 rest f secs top : fs a1 = Some f -> elf f secs -> fits f secs -> Z.of_nat (length f) < 2 ^ 27 ->
  last_address secs top -> top mod 4 = 3 ->
  exists h1 h2 t1 t2 p1 p2, length h1 = length h2 /\
    elfsplitter fs h1 (a0 :: a1 :: rest) = Some (0, t1) /\ elfsplitter fs h2 (a0 :: a1 :: rest) = Some (0, t2) /\
    code32 t1 = Some p1 /\ code32 t2 = Some p2 /\ p1 <> p2.
Proof.
  intros FA E FT F27 TP T3. set (n := (2 * length f)%nat). destruct (byte_zero_heap n) as [B0 B1].
  destruct (program_memory fs (repeat 0%N n) a0 a1 rest f secs FA E FT B0) as (t1 & p1 & top1 & X1 & C1 & TP1 & W1); [rewrite repeat_length; lia|exact F27|].
  destruct (program_memory fs (repeat 1%N n) a0 a1 rest f secs FA E FT B1) as (t2 & p2 & top2 & X2 & C2 & TP2 & W2); [rewrite repeat_length; lia|exact F27|].
  assert (U : forall x y, last_address secs x -> last_address secs y -> x <= y).
  { intros x y (X0 & XA & XE) (Y0 & YA & YE). destruct XE as [->|(s & Hs & C)]; [exact Y0|]. apply (YA s x Hs C). }
  assert (top1 = top) by (apply Z.le_antisymm; apply U; auto). assert (top2 = top) by (apply Z.le_antisymm; apply U; auto). subst top1 top2.
  exists (repeat 0%N n), (repeat 1%N n), t1, t2, p1, p2. split; [rewrite !repeat_length; reflexivity|]. do 4 (split; [assumption|]). intros ->.
  destruct (W1 (fun _ => Some p2) [] eq_refl) as (w1 & (HW1 & _) & _ & G1 & _). destruct (W2 (fun _ => Some p2) [] eq_refl) as (w2 & (HW2 & _) & _ & G2 & _).
  rewrite HW1 in HW2. injection HW2 as <-.
  assert (T0 : 0 <= top) by (destruct TP; auto).
  assert (FR : free secs (top + 1)). { intros s Hs C. destruct TP as (_ & TA & _). specialize (TA s _ Hs C). lia. }
  assert (TB : top + 6 <= 2 * Z.of_nat (length f)).
  { destruct TP as (_ & _ & [->|(s & Hs & Cv)]); [discriminate T3|apply (fit_addr _ _ FT s top Hs Cv)]. }
  assert (RG : 0 <= top + 1 < 4 * ((top + 6) / 4)).
  { pose proof (Z.div_mod top 4 ltac:(lia)). replace (top + 6) with (1 + (top / 4 + 2) * 4) by lia. rewrite Z.div_add by lia. change (1 / 4) with 0. lia. }
  specialize (G1 _ RG FR). specialize (G2 _ RG FR). rewrite rd_repeat_in in G1 by (unfold n; lia). rewrite rd_repeat_in in G2 by (unfold n; lia). congruence.
Qed.

(** ** Addresses outside the buffer *)
Lemma for_each {S} (body : nat -> S -> option S) : forall k i s s', for_from body i k s = Some s' ->
  forall j, (j < k)%nat -> exists u u', for_from body i j s = Some u /\ body (i + j)%nat u = Some u'.
Proof.
  induction k as [|k IH]; intros i s s' F j Hj; [lia|]. cbn [for_from] in F. destruct (body i s) as [v|] eqn:B; [|discriminate]. cbn [obind] in F.
  destruct j as [|j]. { exists s, v. rewrite Nat.add_0_r. cbn. auto. }
  destruct (IH _ _ _ F j ltac:(lia)) as (u & u' & FU & BU). exists u, u'. cbn [for_from]. rewrite B. cbn [obind]. replace (i + Datatypes.S j)%nat with (Datatypes.S i + j)%nat by lia. auto.
Qed.
Lemma put_length a v s s' : put a v s = Some s' -> length (fst s') = length (fst s) /\ 0 <= a < Z.of_nat (length (fst s)).
Proof.
  destruct s as [o m]. unfold put. destruct (wr o a v) as [o'|] eqn:W; [|discriminate]. cbn [obind]. intros [= <-]. cbn [fst].
  split; [exact (wr_length _ _ _ _ W)|exact (wr_bound _ _ _ _ W)].
Qed.
Lemma put_for_length n body s s' (addr : nat -> Z) : for_ n body s = Some s' ->
  (forall j u u', body j u = Some u' -> exists v, put (addr j) v u = Some u') ->
  length (fst s') = length (fst s) /\ forall j, (j < n)%nat -> 0 <= addr j < Z.of_nat (length (fst s)).
Proof.
  intros F B. assert (L : forall m u, for_ m body s = Some u -> length (fst u) = length (fst s)).
  { intros m u Fm. apply (for_inv_partial (fun _ x => length (fst x) = length (fst s)) m body s u); [reflexivity| |exact Fm].
    intros i x x' Hi P Bx. destruct (B i x x' Bx) as (v & Pt). destruct (put_length _ _ _ _ Pt) as [Q _]. etransitivity; [exact Q|exact P]. }
  split; [exact (L n s' F)|]. intros j Hj. destruct (for_each body n 0 s s' F j Hj) as (u & u' & Fu & Bu). destruct (B _ _ _ Bu) as (v & Pt). destruct (put_length _ _ _ _ Pt) as [_ Q].
  rewrite (L j u Fu) in Q. exact Q.
Qed.
Lemma load_section_bound f secs strings i s out mx t out' mx' t' : elf f secs -> nth_error secs i = Some s ->
  load_section f strings i (out, mx, t) = Some (out', mx', t') ->
  length out' = length out /\ forall a, covers s a -> a mod 2 ^ 32 < Z.of_nat (length out).
Proof.
  intros E NS. destruct (elf_sections _ _ E) as (o & z & O & ZZ & NN & I). pose proof (I i s NS) as (_ & T & A & OF & SZ).
  unfold load_section, e_shoff, e_shentsize, header_at, sh_offset, sh_type, sh_size, sh_addr.
  rewrite (field_ok _ _ _ _ O), (field_ok _ _ _ _ ZZ). cbn [obind]. rewrite (field_ok _ _ _ _ T), (field_ok _ _ _ _ OF), (field_ok _ _ _ _ A), (field_ok _ _ _ _ SZ). cbn [obind].
  destruct (if s_type s =? 0 then Some [] else _) as [c|]; [|discriminate]. cbn [obind].
  destruct A as [A _], SZ as [SZ _].
  destruct ((s_type s =? 1) && negb (s_size s =? 0)) eqn:E1.
  - apply andb_prop in E1 as [T1 S0]. apply Z.eqb_eq in T1. rewrite T1. cbn [Z.eqb Pos.eqb andb].
    match goal with |- context [for_ ?n ?b ?s0] => destruct (for_ n b s0) as [(o1, m1)|] eqn:F; [|discriminate] end. cbn [obind]. intros [= <- <- <-].
    destruct (put_for_length _ _ _ _ (fun j => (s_addr s + Z.of_nat j) mod 2 ^ 32) F) as [L B].
    { intros j u u' H. destruct (rd f _) as [v|]; [|discriminate]. exists v. exact H. }
    cbn [fst] in *. split; [exact L|]. intros a (_ & C). specialize (B (Z.to_nat (a - s_addr s)) ltac:(lia)). rewrite Z2Nat.id in B by lia. replace (s_addr s + (a - s_addr s)) with a in B by lia. lia.
  - cbn [obind]. destruct ((s_type s =? 8) && negb (s_size s =? 0)) eqn:E8.
    + apply andb_prop in E8 as [T8 S0].
      match goal with |- context [for_ ?n ?b ?s0] => destruct (for_ n b s0) as [(o1, m1)|] eqn:F; [|discriminate] end. cbn [obind]. intros [= <- <- <-].
      destruct (put_for_length _ _ _ _ (fun j => (Z.of_nat j + s_addr s) mod 2 ^ 32) F) as [L B].
      { intros j u u' H. exists 0%N. exact H. }
      cbn [fst] in *. split; [exact L|]. intros a (_ & C). specialize (B (Z.to_nat (a - s_addr s)) ltac:(lia)). rewrite Z2Nat.id in B by lia. replace (a - s_addr s + s_addr s) with a in B by lia. lia.
    + cbn [obind]. intros [= <- <- <-]. split; [reflexivity|]. intros a ([X|X] & Y); rewrite X in *; cbn [Z.eqb Pos.eqb andb] in *; destruct (Z.eqb_spec (s_size s) 0); try discriminate; lia.
Qed.
(** A section at an address that twice the size of the file does not reach: the buffer
    is overrun, or something else undefined has happened before. *)
Theorem overrun fs heap a0 a1 rest f secs s a : fs a1 = Some f -> elf f secs -> In s secs -> covers s a -> 2 * Z.of_nat (length f) <= a < 2 ^ 32 ->
  elfsplitter fs heap (a0 :: a1 :: rest) = None.
Proof.
  intros FA E Hs C Ha. unfold elfsplitter. rewrite FA. destruct (2 ^ 31 <=? Z.of_nat (length f) * 2); [reflexivity|].
  rewrite (same_bytes_ok _ _ _ (elf_magic _ _ E)). cbn [obind negb]. unfold e_machine. rewrite (field_ok _ _ _ _ (elf_machine _ _ E)). cbn [obind]. cbn [Z.eqb Pos.eqb negb].
  rewrite (program_headers_ok _ _ E). cbn [obind]. destruct (find_strings f) as [strings|]; [|reflexivity]. cbn [obind].
  set (hp := firstn _ heap). assert (LH : Z.of_nat (length hp) <= 2 * Z.of_nat (length f)) by (unfold hp; rewrite firstn_length; lia). clearbody hp.
  destruct (load_sections f strings hp) as [((out & mx) & t)|] eqn:LS; [|reflexivity]. exfalso.
  destruct (elf_sections _ _ E) as (o & z & O & ZZ & NN & I). unfold load_sections, e_shnum in LS. rewrite (field_ok _ _ _ _ NN) in LS. cbn [obind] in LS. rewrite Nat2Z.id in LS.
  apply In_nth_error in Hs as (i & Hi). assert (LI : (i < length secs)%nat) by (apply nth_error_Some; congruence).
  destruct (for_each _ _ _ _ _ LS i LI) as (((o1 & m1) & t1) & ((o2 & m2) & t2) & FU & BU). cbn [Nat.add] in BU.
  assert (L1 : length o1 = length hp).
  { assert (Q : forall u, for_ i (load_section f strings) (hp, 0, []) = Some u -> length (fst (fst u)) = length hp).
    { intros u Fu. apply (for_inv_partial (fun _ x => length (fst (fst x)) = length hp) i (load_section f strings) (hp, 0, []) u); [reflexivity| |exact Fu].
      intros k ((x & y) & w) ((x' & y') & w') Hk P B. cbn [fst] in *. destruct (nth_error secs k) as [sk|] eqn:Sk; [|apply nth_error_None in Sk; lia].
      destruct (load_section_bound _ _ _ _ _ _ _ _ _ _ _ E Sk B) as [Q _]. etransitivity; [exact Q|exact P]. }
    apply (Q _ FU). }
  destruct (load_section_bound _ _ _ _ _ _ _ _ _ _ _ E Hi BU) as [_ B]. specialize (B a C). rewrite Z.mod_small in B by lia. lia.
Qed.

(** ** Files that are refused *)
Theorem refused fs heap a0 a1 rest f : fs a1 = Some f -> 20 <= Z.of_nat (length f) < 2 ^ 30 ->
  (exists i v, nth_error [69; 76; 70]%N i = Some v /\ rd f (1 + Z.of_nat i) <> Some v) \/ (exists m, stored f 18 2 m /\ m <> 40) ->
  exists t, elfsplitter fs heap (a0 :: a1 :: rest) = Some (1, t).
Proof.
  intros FA LF H. unfold elfsplitter. rewrite FA. destruct (Z.leb_spec (2 ^ 31) (Z.of_nat (length f) * 2)); [lia|].
  assert (SB : forall l o, 0 <= o -> o + Z.of_nat (length l) <= Z.of_nat (length f) ->
     exists b, same_bytes f o l = Some b /\ (b = true -> forall i v, nth_error l i = Some v -> rd f (o + Z.of_nat i) = Some v)).
  { induction l as [|x l IH]; intros o O L. { exists true. split; [reflexivity|]. intros _ [|i] v; discriminate. }
    cbn [same_bytes]. cbn [length] in L. destruct (rd_ok f o ltac:(lia)) as [b R]. rewrite R. cbn [obind]. destruct (N.eqb_spec b x) as [->|NE].
    - destruct (IH (o + 1) ltac:(lia) ltac:(lia)) as (b' & -> & P). exists b'. split; [reflexivity|]. intros T [|i] v N; cbn [nth_error] in N.
      + injection N as <-. change (Z.of_nat 0) with 0. rewrite Z.add_0_r. exact R.
      + rewrite <- (P T i v N). f_equal. lia.
    - exists false. split; [reflexivity|discriminate]. }
  destruct (SB [69; 76; 70]%N 1 ltac:(lia) ltac:(cbn [length]; lia)) as (b & -> & P). cbn [obind]. destruct b; cbn [negb]; [|eexists; reflexivity].
  destruct H as [(i & v & N & R)|(m & S & M)]. { exfalso. apply R, P; auto. }
  unfold e_machine. rewrite (field_ok _ _ _ _ S). cbn [obind]. destruct (Z.eqb_spec m 40); [contradiction|]. cbn [negb]. eexists; reflexivity.
Qed.
