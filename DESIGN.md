# Formal model of TinyGarble: design

The repository (`/repo`, C++) implements two-party garbled-circuit evaluation of
sequential circuits.  This directory holds a Rocq (Coq 8.16.1) model of that code
and proofs of the properties listed in `properties.jsonl`.  `MANIFEST.json` maps
each property to theorem names; all of them are in `rocq/theories/Properties*.v`,
files which contain nothing else.  `seeded/LOG.jsonl` records the deliberate
mistakes made in copies of the model and the theorems that noticed them.

## How the code is modelled

* Every C++ function that is modelled becomes a total computable Gallina function
  (or, for code that talks to a socket, a *process*).  Each definition carries a
  comment with file and lines in `/repo`.
* Blocks (`__m128i`) and bignums are `N`; wire values are `Z`
  (`SECRET = -1`, `SECRET_INV = -2`, 0, 1).  C integers are `Z` or `N`, with the
  wrap-around or range restriction stated where it matters.
* Arrays are lists with checked access; an out-of-range access is the distinct
  outcome `None` (undefined behaviour).  Uninitialised memory is a parameter
  (`junk`, arbitrary initial arrays), so theorems quantify over its contents.
* In the garbling theorems AES under the fixed global key is an arbitrary function
  `N -> N`, SHA-256 an arbitrary function on byte strings; theorems quantify over
  both.  That the code's cipher is the one of FIPS-197 is C74 to C77, and C77 shows a
  run with it that meets the hypotheses.
* `RandomBlock` (a linear congruential generator) is modelled; `BN_rand`,
  `RSA_generate_key` and the time used as a seed are explicit inputs.  Label
  correctness does not need randomness; it needs that no accidental equality of
  64-bit label halves occurs in the run, which is an explicit, computable
  hypothesis (`no_collisions`), shown satisfiable by examples and necessary by C28.
* Privacy is stated without probabilities: a bijection on the coins (labels,
  offset, and the cipher as a random function) maps the runs with one set of secret
  inputs to those with another and leaves what the evaluator sees unchanged
  (C64, C65).  That AES under a fixed, publicly known key behaves like a random
  function is the usual assumption and is not proved.
* Sockets: a party is an inductive process (`Ret`, `Send bytes k`, `Recv n k`);
  two parties run over two FIFO byte queues with a non-deterministic scheduler.
  `SendData`/`RecvData` themselves are modelled separately over a kernel oracle
  that fragments arbitrarily (`Tcp.v`), and C23 links the two levels.
* Release builds: `CHECK(x)` evaluates `x` and ignores the result, `CHECK_EXPR(x)`
  likewise.  Where that makes a difference the function takes a flag for logging.
* Specifications (plaintext semantics of circuits and netlists, transposition,
  positional numbers, grammar of the netlist, what a mapping file means) are
  written separately in `Spec.v`, `Verilog.v`, `Text.v`, `Format.v` and at the
  head of the files that need them, without using the model's helpers.

## What is modelled where

| source | functions | theory |
|--------|-----------|--------|
| util/common.h, crypto/block.h | gate types, wire values, `XorBlock`, `CmpBlock`, `get_LSB`, `MakeBlock` | Gate |
| crypto/aes.h 75-257 | key expansion for 128, 192 and 256 bits, decryption keys, encryption and decryption, the AES-NI and shuffle instructions they use | Aes, AesBlock |
| crypto/block.h 76-108 | `Double_Block`, `SlowDouble_Block`, `LeftShift`, `RightShift` | BlockOps |
| garbled_circuit_util.cpp 79-140, 294-335 | hash around AES, `HalfGarbleEvalGateKnownValue`, `HalfGarbleGate`, `GarbleEvalGateKnownValue`, `HalfEvalGate`, `InvertSecretValue`, `XorSecret` | Gate |
| garbled_circuit_util.cpp 142-292, 337-449 | `GarbleGate`, `EvalGate` | Gate |
| garbled_circuit_util.cpp 45-55, 451-518 | `NumOfNonXor`, `FillFanout`, `ReduceFanout` | Circuit |
| garbled_circuit_util.cpp 591-626 | `GarbleTransferTerminate`, `EvaluateTransferTerminate` | Protocol |
| garbled_circuit_util.cpp 70-77 | `ParseInitInputStr` | Programs |
| garbled_circuit_low_mem.cpp | all functions | Circuit, CycleModel, Run, Tables, Protocol |
| garbled_circuit_high_mem.cpp | all functions | the same (the two modes share the definition of a gate and differ in drivers) |
| garbled_circuit.cpp | `GarbleStr`, `EvaluateStr` | Protocol, Programs |
| scd/scd.cpp | `ReadSCD`, `WriteSCD` | Scd |
| scd/scd_evaluator.cpp | `EvalauatePlaintext`, `EvalauatePlaintextStr`, the csv trace | Plain, Programs, Trace |
| scd/parse_netlist.cpp | `ParseNetlist`, `AddWireArray`, `IdAssignment`, `ParseBrisNetlist` | Parse, Netlist, Bristol |
| scd/scheduling.cpp 26-329 | `QuickSort`, `TopSort`, `GetMinIndex`, `GetMax`, `DFS`, `FindPath`, `Schedule`, `TopologicalSortMultiCore` (nothing calls them) | Sched |
| scd/scheduling.cpp 332-527 | `TopologicalSort`, `SortNetlist`, `WriteMapping` | Sort, MapFile |
| scd/v_2_scd.cpp | `Verilog2SCD`, `Bris2SCD` | Front, VerilogFront, Bristol, MapFile, TraceRun |
| scd/v_2_scd_main.cpp; scd_evaluator_main.cpp with its files | `main` from the parsed options on | Disk |
| crypto/BN.cpp | all functions | BN, Net |
| crypto/OT.cpp, crypto/OT_extension.cpp | all functions | OT, OTExt, Net |
| tcpip/tcpip.cpp 139-179 | `SendData`, `RecvData` | Tcp, Proc |
| tcpip/tcpip.cpp 30-137 | the opening and closing of sockets; the kernel's answers are arbitrary; struct sockaddr_in laid out as on a little-endian machine | Sockets |
| util/util.cpp 54-150, 197-377 | `SrandSSE`, `RandomBlock`, `Type2V`, `GateOperator`, string and bignum printing helpers | Rand, Gate, Hex, Format |
| util/util.cpp 152-195, 379-406 | `Str2Block`, `to_string_hex`, `ReadFileOrPassHex`, `icompare` | CmdText |
| a23/{bubble-sort, merge-sort, dijkstra, sum, compare, mul, matrix-mul, hamming, sbox, aes, sha3, cordic}/*.c | all functions of the C programs for the garbled processor, for arrays of any size where the size is a macro | A23Sort, A23Dijkstra, A23Arith, A23Hamming, A23Sbox, A23Aes, A23Sha3, A23Cordic |
| a23/lib/a23_main_testing.cpp, a23/temp/temp.c, a23/mem-test/mem-test.c | all functions, `main` from the parsed options on | A23Main |
| garbled_circuit/garbled_circuit_testing.cpp, a23_test_main.cpp, tcpip/tcpip_testsuit.cpp | all functions, `main` from the parsed options on; the operating system's answers are arbitrary | TestRun |
| a23/tools/amber-elfsplitter.c, amber-code32.sh | `main`, `pSHT`, `fsize`; grep and awk as the one line uses them; malloc succeeds, the warning on stderr is left out | ElfSplit |
| circuit_synthesis/syn_lib/*.v | all modules, of any width | RtlLib, RtlArith |
| circuit_synthesis/{sum, compare, hamming, mult, non_secret_test, public_test, matrix_mult, argmax, encoder, knns, knns_td, stack_machine, select}/*.v | all modules but the test benches, of any size | RtlSeq, RtlMatrix, RtlSelect, RtlKnns, RtlStack |
| circuit_synthesis/aes/*.v | all modules | RtlAes, RtlAesRun |
| circuit_synthesis/sha3/*.v | all modules but the test bench | RtlSha3, RtlSha3Run |
| circuit_synthesis/rsa/*.v | all modules but the test benches; CC/(2N) of modexp_2N_NN and CC of modexp_1_N are parameters, its CC = 1 branch is not modelled | RtlRsa, RtlRsaSeq, RtlRsaRun |
| circuit_synthesis/mips/*.v, mips/test/benchmarks/hamming.s | all modules but the test bench; states from the reset on; a fetch beyond the program memory is undefined; narrow control signals are represented by their values; hamming.s assembled by hand | RtlMips, RtlMipsHamming (specification of the architecture: MipsSpec; proofs: RtlMipsOk, RtlMipsStep, RtlMipsRun) |
| circuit_synthesis/stable_match/stable_match_seq.v, stable_match.v, encoder.v | all modules, from the reset on; registers that hold a number are represented by it; a read with the index out of range gives anything | RtlMatch, RtlMatchCore (proofs: RtlMatchOk, RtlMatchRun) |
| circuit_synthesis/cordic/*.v | cordic, alpha_table and barrel_shifter_left at the default width of 16 bits, all modes and directions; the table for 32 bits is not modelled | RtlCordic |
| circuit_synthesis/a23/*.v, *.vh | all modules of the processor, one cycle as a function; words are numbers, each always block one equation per register; the five arrays of a23_mem are one function of the byte address; instruction addresses kept for interrupts, and interrupts, which are never raised, are left out | RtlA23 (specification of the architecture: the beginnings of RtlA23Units, RtlA23Step, RtlA23Jump, RtlA23Mem, RtlA23Mul; cases and refutations: RtlA23Refuted) |
| a23/{sum, mul, compare, mem-test, matrix-mul, bubble-sort, hamming, cordic, temp}/p.txt | the machine code, word by word | RtlA23Sum, RtlA23Product, RtlA23Compare, RtlA23Fill, RtlA23Matrix, RtlA23Bubble, RtlA23Hamming, RtlA23Cordic, RtlA23Temp (with RtlA23Multi for LDM and STM, RtlA23LoadPc for LDR to r15, RtlA23Run for runs of many instructions; cases: RtlA23Cases) |
| eval_garbled_circuit.cpp | the loop of `main` over the records: reading of the file as words, the commands, the sums of the measurements as integers (not the averages and the printing) | EvalRuns |
| garbled_circuit_util.cpp 520-589 | `PrintPredecessorsGarble`, `PrintPredecessorsEval`; what is printed for a gate is a record | Predecessors |
| circuit_synthesis/lib/stdcells_S.v | all cells but those that yosys maps itself ($pos and $bu0 are extension or truncation) and $pow, which is commented out; ports that only pass numbers on are represented by their values | StdCells, StdMux |
| circuit_synthesis/lib/asic_cell_yosys_extended.lib, asic_cell_yosys.lib | all cells with their pins, functions (read as the Liberty format says) and the flip-flop; not the areas | LibCells |
| util/log.cpp | all functions; the options as boost delivers them, the time as a text, two names are two files, which files can be opened does not change during a run | LogFiles |
| garbled_circuit_main.cpp, scd_evaluator_main.cpp, OT_main.cpp | `main` from the parsed options on, `CheckOptionsAlice`, `CheckOptionsBob` | Mains |

Not modelled: the parsing of options by boost and `--help` (a command line is a
record of the values that boost delivers), timing and the calls of LOG and DUMP in the other models (util/log.cpp by itself is),
`RemoveGarbledCircuit` and other deallocation, OpenSSL's implementation, the test programs, the other circuits
in circuit_synthesis/ (div and float only name components of Synopsys) and their synthesis,
and the machine code of the programs in a23/ other than sum, mul, compare, mem-test, matrix-mul,
bubble-sort, hamming, cordic and temp (their C text is modelled).

## Simplifications

* Sockets never fail in the two-party theorems and buffer without bound (failure
  is in C23; blocking writes could deadlock two programs that both write, which
  the protocol never makes them do).
* A Verilog module is a relation between the values of its ports in one clock
  cycle: the conjunction of its assignments and instances, the wires inside being
  existentially quantified.  Wires have the values 0 and 1 (no x and z), the reset is
  the state before the first cycle, and a wire that nothing drives has an arbitrary
  value.  Beside each theorem on a relation stands one that it can be satisfied, for
  all sizes and inputs.  Test benches are left out.
* Memory allocation succeeds.  `delete` against `delete[]`, padding bytes and the
  `uint` loop counters of `IdAssignment` and of the cycle loops (fewer than 2^32
  cycles and wires) are not modelled.  Gate numbers are below 2^31 (`int gindex`).
* In the high-memory evaluator a `FAILURE` in the middle is an outcome of its own
  (`Crash`) from which the program does not continue.
* `TopologicalSort` and `FindPath` print the loop they find; only the result is modelled.
* A file is either its text or cannot be opened.  Output files are taken to be
  writable except in `Disk.v`, where a file may be closed to writing or have room
  for a limited number of characters.
* OpenSSL: `BN_hex2bn` as in version 1.1 and later; `BN_bn2hex` prints whole
  bytes and "0" for zero; bignum modulus 0 and negative operands where the code
  cannot produce them are left out.
* The AES instructions are defined by what Intel's manual says they do, with tables
  for the S-box; FIPS-197 is written separately in `AesSpec.v` from the field
  GF(2^8) on and checked on the standard's own test vectors.
* The programs in a23/: an overflow of `int` either wraps around or is undefined
  (`None`); theorems say which they assume, most hold for both.  The inline
  assembly of sum.c and compare.c is the sequence of its four instructions; that
  it does not declare the flags as changed is harmless there and not modelled.
  The functional test hands over arrays of 64 words; a program for shorter arrays
  is run on their beginning (`on_longer`).  In cordic.c a right shift of a negative number keeps the sign.
  SHA-3 (FIPS 202) is written separately in `Sha3Spec.v` on bit strings.
* The variables that `ParseBrisNetlist` does not initialise are parameters.

## Properties and where they are proved

| id | subject | main lemmas |
|----|---------|-------------|
| C01, C26 | one gate: garbling and evaluation agree | GateFacts, GateSim |
| C02-C08, C10, C11, C46 | whole cycles, both modes, tables, fan-out, memory safety | Phase1, Phase2, Phase2E, Cycle, Run, Safe, Fanout, Comm, Modes |
| C04, C09, C28 | refutations by computed sessions | Demo, Results |
| C12-C15, C25, C41 | the two parties over the network | Transfer, OutTransfer, ProtocolOk, ProtocolRun, EndToEnd, ProtocolDemo |
| C16-C24, C40, C43-C45 | bignums, oblivious transfer, sockets, schedules | Codec, BN, OT, OTExt, Rsa, Net, Tcp, Proc |
| C27, C29, C39, C48, C49 | generator, leaks, tweaks, privacy of a table | Rand, Leaks, Privacy |
| C64, C65 | what the evaluator sees of a whole run, for two sets of secret inputs | View, ViewCycle, ViewRun, ViewCoins, ViewEval, ViewDemo |
| C30, C42, C56, C62 | plaintext evaluator | Plain, ProgramsOk, Trace |
| C31, C32, C35, C36, C47, C54 | sorting and numbering of netlists | SortOk, NetlistOk, Front |
| C33, C50-C53 | Verilog netlists | ParseOk, VerilogOk, VerilogNet, VerilogFront, FrontDemo |
| C34 | circuit files | Scd, ScdResults |
| C37, C38 | printing of outputs | Hex, FormatOk |
| C55, C57, C60, C63 | compositions, from texts to texts | ProgramsOk, VerilogFront, BristolRun, TraceRun |
| C58, C59 | Bristol files | BristolOk, BristolText |
| C61 | mapping file | MapFile |
| C66, C71, C72 | texts on the command line and in input files | CmdText, MainsDemo |
| C67-C70, C73 | the main programs, exit status, options that do not fit | Mains, MainsDemo |
| C74-C78 | the block cipher | AesOk, AesKey, AesCipher, AesInv, AesBlock, AesDemo |
| C79 | arithmetic on blocks | BlockOps |
| C80-C83 | the scheduler for several cores | SchedSort, SchedOk, SchedEnd, SchedDemo |
| C84-C86 | the translator and the plaintext evaluator on a disk | Disk, DiskDemo |
| C87-C94, C96 | the programs for the garbled processor | A23Sort, A23Dijkstra, A23Arith, A23Hamming, A23Sbox, A23Aes, A23Sha3, A23Demo |
| C95 | sine and cosine on the garbled processor | A23Cordic |
| C97, C98 | the functional test of these programs, two small programs | A23Main |
| C99 | the test of the processor with both processes | TestRun, TestRunDemo |
| C100 | from the linked program to the processor's memory | ElfSplit, ElfSplitDemo |
| C101-C106 | the library of Verilog modules | RtlBase, RtlLib, RtlArith |
| C107, C108, C113 | circuits that take their inputs in pieces, test circuits | RtlSeq, RtlDemo |
| C109 | matrix multiplication | RtlMatrix, RtlDemo |
| C110-C112 | maximum, encoder, nearest neighbours | RtlSelect, RtlKnns, RtlDemo |
| C114 | stack machine and memory | RtlStack, RtlDemo |
| C115 | AES-128 in Verilog | RtlAes, RtlAesRun, AesSpec |
| C116 | SHA3 in Verilog | RtlSha3, RtlSha3Run, Sha3Spec |
| C117 | RSA in Verilog | RtlRsa, RtlRsaSeq, RtlRsaRun |
| C118, C119 | the processor Lite_MIPS, hamming.s | MipsSpec, RtlMips, RtlMipsOk, RtlMipsStep, RtlMipsRun, RtlMipsHamming |
| C120, C121 | stable matching | RtlMatch, RtlMatchOk, RtlMatchRun, RtlMatchCore |
| C122 | CORDIC | RtlCordic |
| C123-C126 | the shifter, arithmetic unit, conditions, memory of a23 | RtlA23Units, RtlA23Step, RtlA23Mem |
| C127-C130 | the instructions of a23 in its pipeline | RtlA23Step, RtlA23Jump, RtlA23Mem, RtlA23Mul, RtlA23Refuted |
| C131 | loads and stores of several registers | RtlA23Multi |
| C132-C134 | the shipped programs sum, mul, compare executed by a23 | RtlA23Sum, RtlA23Product, RtlA23Compare |
| C135, C136, C138 | the shipped programs mem-test, matrix-mul, bubble-sort executed by a23 | RtlA23Fill, RtlA23Matrix, RtlA23Bubble |
| C137 | the load of the program counter | RtlA23LoadPc |
| C141-C143 | the shipped programs hamming, cordic, temp executed by a23 | RtlA23Hamming, RtlA23Cordic, RtlA23Temp |
| C139, C140 | the opening and closing of the connection | Sockets |
| C144, C145 | the runs of the timing evaluation | EvalRuns |
| C146, C147 | printed blocks, logs and dumps | LogFiles |
| C148 | the gates before a gate | Predecessors |
| C149, C150 | the cells of stdcells_S.v | StdCells |
| C151 | its multiplexers | StdMux |
| C152 | the cells of the two .lib files | LibCells |

A claim about the code that is false is proved false: the theorem ends in
`_refuted` and gives the witness, and what does hold is proved beside it.

## Trusted base

* Coq's kernel (8.16.1).
* What `Print Assumptions` prints beneath each theorem in `Properties*.v`: for
  every one of them but those of C95 and `C142_angles` "Closed under the global context".
  These four theorems speak about sine and cosine of real numbers and rest on the axioms
  of Coq's standard library of the reals: `ClassicalDedekindReals.sig_not_dec`,
  `ClassicalDedekindReals.sig_forall_dec`,
  `FunctionalExtensionality.functional_extensionality_dep` and
  `Classical_Prop.classic` (this one not for `C95_outside_range_refuted`).  (`coqchk` also lists the
  axioms of `Coq.ssr.ssrunder`, which the standard library loads through `lia`
  and `ssreflect`-based files; no theorem here depends on them.)
* The correspondence between the Gallina definitions and the C++ text, as given
  by the comments on each definition and the simplifications above.
