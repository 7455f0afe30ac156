(** A small ELF file for the tools in a23/tools. *)
From Coq Require Import String ZArith NArith List Bool Lia Ascii.
From Verif Require Import Base Proc Codec Text Scd Trace Hex Programs CmdText Mains ElfSplit.
Import ListNotations.
Open Scope list_scope.
Open Scope Z_scope.
Notation length := List.length.

(** Deciding what is stored where *)
Definition bytes_eqb (a b : bytes) : bool := if list_eq_dec N.eq_dec a b then true else false.
Definition storedb (f : bytes) (o : nat) (k : nat) (v : Z) : bool :=
  (0 <=? v) && (v <? 256 ^ Z.of_nat k) && (o <=? length f)%nat && bytes_eqb f (firstn o f ++ le k (Z.to_N v) ++ skipn (o + k) f).
Lemma storedb_ok f o k v z : storedb f o k v = true -> z = Z.of_nat o -> stored f z k v.
Proof.
  unfold storedb, bytes_eqb. intros H ->. apply andb_prop in H as [H H4]. apply andb_prop in H as [H H3]. apply andb_prop in H as [H1 H2]. apply Z.leb_le in H1. apply Z.ltb_lt in H2. apply Nat.leb_le in H3.
  destruct (list_eq_dec _ _ _) as [E|]; [|discriminate]. split; [lia|]. exists (firstn o f), (skipn (o + k) f). split; [exact E|]. rewrite firstn_length. lia.
Qed.

(** The two bytes before a field and so on are arbitrary; here they are what a linker
    writes. *)
Definition le32 (z : Z) : bytes := le 4 (Z.to_N z).
Definition le16 (z : Z) : bytes := le 2 (Z.to_N z).
Definition header (shoff shnum : Z) : bytes :=
  [127; 69; 76; 70; 1; 1; 1; 0; 0; 0; 0; 0; 0; 0; 0; 0]%N ++ le16 2 ++ le16 40 ++ le32 1 ++ le32 0 ++ le32 0 ++ le32 shoff ++ le32 0 ++
  le16 52 ++ le16 32 ++ le16 0 ++ le16 40 ++ le16 shnum ++ le16 1.
Definition section_header (flags : Z) (s : section) : bytes :=
  le32 (s_name s) ++ le32 (s_type s) ++ le32 flags ++ le32 (s_addr s) ++ le32 (s_offset s) ++ le32 (s_size s) ++ le32 0 ++ le32 0 ++ le32 4 ++ le32 0.
Definition names : bytes := map N_of_ascii ("000"%char :: lit ".text" ++ ["000"%char] ++ lit ".bss" ++ ["000"%char] ++ lit ".shstrtab" ++ ["000"%char; "000"%char]).
(** Two instructions: ldr sp, [pc, #28] and ldr r0, [pc, #12] *)
Definition code : bytes := le 4 0xe59fd01c ++ le 4 0xe59f000c.
Definition demo_secs : list section :=
  [Sec 0 0 0 0 0; Sec 12 3 0 60 23; Sec 1 1 0 52 8; Sec 7 8 16 60 4].
Definition demo : bytes := header 83 4 ++ code ++ names ++ flat_map (section_header 6) demo_secs.

Lemma demo_elf : elf demo demo_secs.
Proof.
  constructor.
  - intros i v H. do 3 (destruct i as [|i]; [injection H as <-; vm_compute; reflexivity|]). destruct i; discriminate.
  - apply (storedb_ok _ 18); vm_compute; reflexivity.
  - exists 0, 32, 0. split; [apply (storedb_ok _ 28); vm_compute; reflexivity|]. split; [apply (storedb_ok _ 42); vm_compute; reflexivity|].
    split; [apply (storedb_ok _ 44); vm_compute; reflexivity|]. intros; lia.
  - exists 83, 40. split; [apply (storedb_ok _ 32); vm_compute; reflexivity|]. split; [apply (storedb_ok _ 46); vm_compute; reflexivity|].
    split; [apply (storedb_ok _ 48); vm_compute; reflexivity|]. intros i s H.
    assert (K : forallb (fun i => match nth_error demo_secs i with None => true | Some s =>
      storedb demo (83 + 40 * i) 4 (s_name s) && storedb demo (83 + 40 * i + 4) 4 (s_type s) && storedb demo (83 + 40 * i + 12) 4 (s_addr s) &&
      storedb demo (83 + 40 * i + 16) 4 (s_offset s) && storedb demo (83 + 40 * i + 20) 4 (s_size s) end) [0; 1; 2; 3]%nat = true) by (vm_compute; reflexivity).
    rewrite forallb_forall in K. specialize (K i). rewrite H in K.
    assert (I : In i [0; 1; 2; 3]%nat). { assert (i < 4)%nat by (change 4%nat with (length demo_secs); apply nth_error_Some; congruence). cbn [In]. lia. }
    specialize (K I). apply andb_prop in K as [K K5]. apply andb_prop in K as [K K4]. apply andb_prop in K as [K K3]. apply andb_prop in K as [K1 K2].
    split; [apply (storedb_ok _ _ _ _ _ K1); lia|]. split; [apply (storedb_ok _ _ _ _ _ K2); lia|]. split; [apply (storedb_ok _ _ _ _ _ K3); lia|].
    split; [apply (storedb_ok _ _ _ _ _ K4); lia|]. apply (storedb_ok _ _ _ _ _ K5); lia.
Qed.
Lemma demo_name o t : bytes_eqb demo (firstn o demo ++ map N_of_ascii t ++ 0%N :: skipn (o + length t + 1) demo) = true -> (o <=? length demo)%nat = true -> remark_b t = true ->
  name_ok demo (Z.of_nat o).
Proof.
  unfold bytes_eqb. destruct (list_eq_dec _ _ _) as [E|]; [|discriminate]. intros _ L R. apply Nat.leb_le in L. exists t, (firstn o demo), (skipn (o + length t + 1) demo).
  split; [exact E|]. split; [rewrite firstn_length; lia|]. exact (remark_dec _ R).
Qed.
Lemma demo_fits : fits demo demo_secs.
Proof.
  assert (LD : length demo = 243%nat) by (vm_compute; reflexivity).
  constructor.
  - rewrite LD. change (Z.of_nat 243) with 243. lia.
  - assert (K : forallb (fun b => (b <? 256)%N) demo = true) by (vm_compute; reflexivity). apply Forall_forall. intros b Hb. rewrite forallb_forall in K. apply N.ltb_lt, K, Hb.
  - rewrite LD. change (Z.of_nat 243) with 243. intros s H. cbn [demo_secs In] in H. destruct H as [<-|[<-|[<-|[<-|[]]]]]; cbn [s_type s_size s_offset]; lia.
  - rewrite LD. change (Z.of_nat 243) with 243. intros s a H (T & C). cbn [demo_secs In] in H. destruct H as [<-|[<-|[<-|[<-|[]]]]]; cbn [s_type s_size s_addr] in *; lia.
  - right. exists [Sec 0 0 0 0 0], (Sec 12 3 0 60 23), [Sec 1 1 0 52 8; Sec 7 8 16 60 4]. split; [reflexivity|]. split; [reflexivity|]. split.
    + intros t [<-|[]]. cbn. lia.
    + intros s H N. cbn [demo_secs In] in H. destruct H as [<-|[<-|[<-|[<-|[]]]]]; cbn [s_type s_offset s_name] in *; [lia| | |].
      * apply (demo_name 72 (lit ".shstrtab")); vm_compute; reflexivity.
      * apply (demo_name 61 (lit ".text")); vm_compute; reflexivity.
      * apply (demo_name 67 (lit ".bss")); vm_compute; reflexivity.
Qed.
Lemma demo_top : last_address demo_secs 19.
Proof.
  split; [lia|]. split.
  - intros s a H (T & C). cbn [demo_secs In] in H. destruct H as [<-|[<-|[<-|[<-|[]]]]]; cbn [s_type s_size s_addr] in *; lia.
  - right. exists (Sec 7 8 16 60 4). split; [right; right; right; left; reflexivity|]. split; [right; reflexivity|cbn; lia].
Qed.
Definition demo_fs (t : text) : option bytes := Some demo.
(** The memory returned by malloc holds 0xa5 everywhere. *)
Definition demo_heap : bytes := repeat 165%N 486.
Definition demo_args : list text := [lit "amber-elfsplitter"; lit "sum.elf"].
Lemma demo_text : elfsplitter demo_fs demo_heap demo_args = Some (0, flat_map (fun s => lit s ++ [nl])
  ["// Section name .shstrtab"; "//  Type SHT_STRTAB, Size 0x17, Start address 0x00000000, File offset 0x3c, boffset 0";
   "// Section name .text"; "//  Type SHT_PROGBITS, Size 0x8, Start address 0x00000000, File offset 0x34, boffset 0";
   "// Section name .bss"; "//  Type SHT_NOBITS, Size 0x4, Start address 0x00000010, File offset 0x3c, boffset 0"; "// .bss Dump Zeros";
   "@00000000 e59fd01c"; "@00000004 e59f000c"; "@00000008 a5a5a5a5"; "@0000000c a5a5a5a5"; "@00000010 00000000"; "@00000014 a5a5a5a5"]%string).
Proof. vm_compute. reflexivity. Qed.
Lemma demo_code : exists t, elfsplitter demo_fs demo_heap demo_args = Some (0, t) /\
  code32 t = Some (flat_map (fun s => lit s ++ [nl]) ["e59fd01c"; "e59f000c"; "a5a5a5a5"; "a5a5a5a5"; "00000000"; "a5a5a5a5"]%string).
Proof. eexists. split; [apply demo_text|]. vm_compute. reflexivity. Qed.

(** The same program with a section of remarks by the compiler: it has address 0 and
    is not part of the program (its flags are 0), but it is loaded over it.
    include/common.mk removes that section from the file first. *)
Definition commented_secs : list section := [Sec 0 0 0 0 0; Sec 12 3 0 60 23; Sec 1 1 0 52 8; Sec 7 1 0 60 4].
Definition commented : bytes := header 83 4 ++ code ++ names ++ flat_map (section_header 6) (firstn 3 commented_secs) ++ section_header 0 (Sec 7 1 0 60 4).
Lemma commented_code : exists t, elfsplitter (fun _ => Some commented) demo_heap demo_args = Some (0, t) /\
  code32 t = Some (flat_map (fun s => lit s ++ [nl]) ["65742e00"; "e59f000c"; "a5a5a5a5"]%string).
Proof. eexists. split; vm_compute; reflexivity. Qed.

(** A program linked for address 0x8000. *)
Definition far_secs : list section := [Sec 0 0 0 0 0; Sec 12 3 0 60 23; Sec 1 1 0x8000 52 8].
Definition far : bytes := header 83 3 ++ code ++ names ++ flat_map (section_header 6) far_secs.
Lemma far_elf : elf far far_secs.
Proof.
  constructor.
  - intros i v H. do 3 (destruct i as [|i]; [injection H as <-; vm_compute; reflexivity|]). destruct i; discriminate.
  - apply (storedb_ok _ 18); vm_compute; reflexivity.
  - exists 0, 32, 0. split; [apply (storedb_ok _ 28); vm_compute; reflexivity|]. split; [apply (storedb_ok _ 42); vm_compute; reflexivity|].
    split; [apply (storedb_ok _ 44); vm_compute; reflexivity|]. intros; lia.
  - exists 83, 40. split; [apply (storedb_ok _ 32); vm_compute; reflexivity|]. split; [apply (storedb_ok _ 46); vm_compute; reflexivity|].
    split; [apply (storedb_ok _ 48); vm_compute; reflexivity|]. intros i s H.
    assert (K : forallb (fun i => match nth_error far_secs i with None => true | Some s =>
      storedb far (83 + 40 * i) 4 (s_name s) && storedb far (83 + 40 * i + 4) 4 (s_type s) && storedb far (83 + 40 * i + 12) 4 (s_addr s) &&
      storedb far (83 + 40 * i + 16) 4 (s_offset s) && storedb far (83 + 40 * i + 20) 4 (s_size s) end) [0; 1; 2]%nat = true) by (vm_compute; reflexivity).
    rewrite forallb_forall in K. specialize (K i). rewrite H in K.
    assert (I : In i [0; 1; 2]%nat). { assert (i < 3)%nat by (change 3%nat with (length far_secs); apply nth_error_Some; congruence). cbn [In]. lia. }
    specialize (K I). apply andb_prop in K as [K K5]. apply andb_prop in K as [K K4]. apply andb_prop in K as [K K3]. apply andb_prop in K as [K1 K2].
    split; [apply (storedb_ok _ _ _ _ _ K1); lia|]. split; [apply (storedb_ok _ _ _ _ _ K2); lia|]. split; [apply (storedb_ok _ _ _ _ _ K3); lia|].
    split; [apply (storedb_ok _ _ _ _ _ K4); lia|]. apply (storedb_ok _ _ _ _ _ K5); lia.
Qed.
(** No memory at all is long enough. *)
Lemma far_overrun heap : elfsplitter (fun _ => Some far) heap demo_args = None.
Proof.
  apply (overrun _ _ _ _ _ far far_secs (Sec 1 1 0x8000 52 8) 0x8000); [reflexivity|exact far_elf|right; right; left; reflexivity| |].
  - split; [left; reflexivity|]. cbn. lia.
  - assert (L : length far = 203%nat) by (vm_compute; reflexivity). rewrite L. change (Z.of_nat 203) with 203. lia.
Qed.
