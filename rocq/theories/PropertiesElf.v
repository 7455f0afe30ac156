(** C100: from the linked program to the processor's program memory.  Statements only;
    the proofs are in ElfSplit.v and ElfSplitDemo.v. *)
From Coq Require Import String ZArith NArith List Bool Ascii.
From Verif Require Import Base Proc Codec Text Scd Trace Hex Programs CmdText Mains ElfSplit ElfSplitDemo.
Import ListNotations.
Open Scope list_scope.
Open Scope Z_scope.
Notation length := List.length.

(** The number read from p.txt is the memory that the sections of the file describe. *)
Theorem C100_program_memory : forall fs heap a0 a1 rest f secs,
  fs a1 = Some f -> elf f secs -> fits f secs -> Forall is_byte heap -> 2 * Z.of_nat (length f) <= Z.of_nat (length heap) ->
  Z.of_nat (length f) < 2 ^ 27 ->
  exists t p top, elfsplitter fs heap (a0 :: a1 :: rest) = Some (0, t) /\ code32 t = Some p /\ last_address secs top /\
  forall files name, files name = Some p -> exists w, writes (ReadFileOrPassHex files name) w /\
    (forall a b, 0 <= a -> loads f secs a b -> byte_of w a = b) /\
    (forall a, 0 <= a < 4 * ((top + 6) / 4) -> free secs a -> rd heap a = Some (byte_of w a)) /\
    (forall a, 4 * ((top + 6) / 4) <= a -> byte_of w a = 0%N).
Proof. exact program_memory. Qed.
Print Assumptions C100_program_memory.

(** The lines of p.txt, word by word. *)
Theorem C100_words : forall fs heap a0 a1 rest f secs,
  fs a1 = Some f -> elf f secs -> fits f secs -> Forall is_byte heap -> 2 * Z.of_nat (length f) <= Z.of_nat (length heap) ->
  exists t p ls top, elfsplitter fs heap (a0 :: a1 :: rest) = Some (0, t) /\ code32 t = Some p /\ file_of ls p /\
    last_address secs top /\ Z.of_nat (length ls) = (top + 6) / 4 /\
    forall i l, nth_error ls i = Some l -> exists m, length m = 4%nat /\ length l = 8%nat /\ hexnum l = Some (of_le m) /\
      forall j b, nth_error m j = Some b -> is_byte b /\
        (free secs (4 * Z.of_nat i + Z.of_nat j) -> rd heap (4 * Z.of_nat i + Z.of_nat j) = Some b) /\
        (forall b', loads f secs (4 * Z.of_nat i + Z.of_nat j) b' -> b = b').
Proof. exact split_ok. Qed.
Print Assumptions C100_words.

(** Not so: the output is determined by the file. *)
Theorem C100_output_determined_refuted : forall fs a0 a1 rest f secs top,
  fs a1 = Some f -> elf f secs -> fits f secs -> Z.of_nat (length f) < 2 ^ 27 ->
  last_address secs top -> top mod 4 = 3 ->
  exists h1 h2 t1 t2 p1 p2, length h1 = length h2 /\
    elfsplitter fs h1 (a0 :: a1 :: rest) = Some (0, t1) /\ elfsplitter fs h2 (a0 :: a1 :: rest) = Some (0, t2) /\
    code32 t1 = Some p1 /\ code32 t2 = Some p2 /\ p1 <> p2.
Proof. exact heap_printed. Qed.
Print Assumptions C100_output_determined_refuted.

(** Not so: a file that a linker may write is handled without undefined behaviour. *)
Theorem C100_memory_safety_refuted : forall fs heap a0 a1 rest f secs s a,
  fs a1 = Some f -> elf f secs -> In s secs -> covers s a -> 2 * Z.of_nat (length f) <= a < 2 ^ 32 ->
  elfsplitter fs heap (a0 :: a1 :: rest) = None.
Proof. exact overrun. Qed.
Print Assumptions C100_memory_safety_refuted.

(** A file that is not ELF, or not for the ARM, is refused. *)
Theorem C100_refused : forall fs heap a0 a1 rest f,
  fs a1 = Some f -> 20 <= Z.of_nat (length f) < 2 ^ 30 ->
  (exists i v, nth_error [69; 76; 70]%N i = Some v /\ rd f (1 + Z.of_nat i) <> Some v) \/ (exists m, stored f 18 2 m /\ m <> 40) ->
  exists t, elfsplitter fs heap (a0 :: a1 :: rest) = Some (1, t).
Proof. exact refused. Qed.
Print Assumptions C100_refused.

(** A program of two instructions with four bytes of cleared memory: the premises... *)
Example C100_example_premises : elf demo demo_secs /\ fits demo demo_secs /\ last_address demo_secs 19.
Proof. exact (conj demo_elf (conj demo_fits demo_top)). Qed.
(** ... and what the tools make of it; between the sections, and behind them, is what
    the memory contained. *)
Example C100_example : exists t, elfsplitter demo_fs demo_heap demo_args = Some (0, t) /\
  code32 t = Some (flat_map (fun s => lit s ++ [nl]) ["e59fd01c"; "e59f000c"; "a5a5a5a5"; "a5a5a5a5"; "00000000"; "a5a5a5a5"]%string).
Proof. exact demo_code. Qed.
(** A section that is not part of the program is loaded over it. *)
Example C100_example_comment : exists t, elfsplitter (fun _ => Some commented) demo_heap demo_args = Some (0, t) /\
  code32 t = Some (flat_map (fun s => lit s ++ [nl]) ["65742e00"; "e59f000c"; "a5a5a5a5"]%string).
Proof. exact commented_code. Qed.
(** A program linked for a high address overruns the buffer. *)
Example C100_example_overrun : elf far far_secs /\ forall heap, elfsplitter (fun _ => Some far) heap demo_args = None.
Proof. exact (conj far_elf far_overrun). Qed.
