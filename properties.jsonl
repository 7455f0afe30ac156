{"id": "C01", "title": "Per-gate half-gate correctness", "statement": "For each of the eight non-linear gate types, if the evaluator holds, for each input wire, the label that encodes the wire's bit, and uses the two-row table the garbler produced for that gate, cycle and key, then the label it computes is exactly the garbler's output label encoding the gate's Boolean result.", "quantifier": "all gate types, all 128-bit labels and offsets with odd offset, all gate/cycle numbers, every cipher (any function from blocks to blocks)", "why_tests_cant": "2^400 label/offset/key combinations per gate; a point-and-permute or masking error can show up for one colour pattern of one gate type only", "anchors": ["garbled_circuit/garbled_circuit_util.cpp: GarbleGate, EvalGate", "util/util.cpp: Type2V, GateOperator"]}
{"id": "C02", "title": "Cycle-level garbling correctness", "statement": "In every clock cycle, for every output wire: either both parties hold the same public bit and it is the bit plaintext evaluation gives, or both regard it as secret and the XOR of the garbler's colour bit of the 0-label and the evaluator's colour bit is the bit plaintext evaluation gives.", "quantifier": "all well-formed sequential circuits, all initial values and inputs of both parties and the public, any number of cycles, all label streams and keys that cause no accidental 64-bit label collision", "why_tests_cant": "unbounded circuits, cycles and label values; the interplay of known-value propagation, aliasing shortcuts, dropped tables and registers has no finite cover", "anchors": ["garbled_circuit/garbled_circuit_low_mem.cpp: GarbleLowMem, EvaluateLowMem", "garbled_circuit/garbled_circuit_high_mem.cpp: GarbleHighMem, EvaluateHighMem", "scd/scd_evaluator.cpp: EvalauatePlaintext"]}
{"id": "C03", "title": "Garbler and evaluator stay in step on garbled tables", "statement": "In every cycle the evaluator consumes exactly the tables the garbler sent, so the evaluator's 'number of garbled tables ... not equal' check never fires between honest parties (provided the evaluator's uninitialised table memory does not by chance contain a matching gate number).", "quantifier": "all well-formed circuits, inputs, cycles, label streams without accidental collisions", "why_tests_cant": "whether a table is sent depends on fan-out bookkeeping recomputed independently by two parties from different data", "anchors": ["garbled_circuit/garbled_circuit_low_mem.cpp: GarbleBNLowMem, EvaluateBNLowMem", "garbled_circuit/garbled_circuit_util.cpp: EvalGate, ReduceFanout"]}
{"id": "C04", "title": "Uninitialised table memory can abort an honest run", "statement": "(Refuted claim.) The evaluator's run never fails between honest parties whatever its freshly allocated table array happens to contain. Counter-example: a circuit whose only table is dropped by the garbler, with leftover memory holding the right gate number, makes the evaluator report a table-count mismatch.", "quantifier": "claim is over all circuits and all initial memory contents; refuted by a witness", "why_tests_cant": "depends on heap contents the tests never control", "anchors": ["garbled_circuit/garbled_circuit_util.cpp: EvalGate (gid comparison)", "garbled_circuit/garbled_circuit_low_mem.cpp: EvaluateBNLowMem (new GarbledTable[...])"]}
{"id": "C05", "title": "Skipping soundness: public wires are really public", "statement": "Whenever the protocol treats a wire as publicly known, the value it assigns is the plaintext value of the wire, and that value is the same for every choice of the secret inputs of both parties.", "quantifier": "all circuits, public inputs, all pairs of secret inputs, all cycles", "why_tests_cant": "needs all secret inputs simultaneously", "anchors": ["garbled_circuit/garbled_circuit_util.cpp: GarbleEvalGateKnownValue, HalfGarbleGate, GarbleGate"]}
{"id": "C06", "title": "Fan-out reduction never drops a needed gate", "statement": "After fan-out reduction, every gate whose secret value reaches an output, a register input or the terminate signal through live gates still has positive fan-out, so its table is transmitted; fan-outs never go negative and reduction terminates.", "quantifier": "all circuits in topological order, all patterns of known values", "why_tests_cant": "the reduction is a recursive graph walk whose effect depends on the whole history of removals", "anchors": ["garbled_circuit/garbled_circuit_util.cpp: FillFanout, ReduceFanout"]}
{"id": "C07", "title": "Communication bound", "statement": "The number of garbled tables sent in a cycle is at most the number of non-XOR/XNOR/NOT gates; linear gates never cost a table; a circuit whose inputs and initial values are all public sends no table at all.", "quantifier": "all circuits, inputs and cycles", "why_tests_cant": "universal over circuits", "anchors": ["garbled_circuit/garbled_circuit_util.cpp: NumOfNonXor, GarbleGate", "garbled_circuit/garbled_circuit_low_mem.cpp: GarbleLowMem"]}
{"id": "C08", "title": "No out-of-bounds access in garbling and evaluation", "statement": "For a circuit whose wire references are in range, garbling and evaluating any number of cycles never reads or writes outside the wire, latch, fan-out, label, output or table arrays.", "quantifier": "all well-formed circuits, inputs, cycles, labels", "why_tests_cant": "absence of memory errors on all executions cannot be sampled", "anchors": ["garbled_circuit/garbled_circuit_low_mem.cpp", "garbled_circuit/garbled_circuit_high_mem.cpp", "garbled_circuit/garbled_circuit_util.cpp"]}
{"id": "C09", "title": "Malformed SCD files reach out-of-bounds accesses", "statement": "(Refuted claim.) Any SCD file that is accepted by the reader can be garbled without an out-of-bounds access. Counter-example: an output index equal to the constant marker (-2), which the reader accepts.", "quantifier": "claim over all files; refuted by a witness", "why_tests_cant": "test circuits are all tool generated", "anchors": ["scd/scd.cpp: ReadSCD", "garbled_circuit/garbled_circuit_low_mem.cpp: GarbleLowMem (outputs loop)"]}
{"id": "C10", "title": "Fan-out initialisation accepts exactly the usable circuits", "statement": "Fan-out initialisation succeeds exactly when every gate reads only inputs, registers or earlier gates and every gate is used at least once by a gate, register, output or the terminate signal; on success each fan-out equals the number of uses.", "quantifier": "all circuits", "why_tests_cant": "universal over circuits", "anchors": ["garbled_circuit/garbled_circuit_util.cpp: FillFanout"]}
{"id": "C11", "title": "Low- and high-memory modes agree", "statement": "For the same circuit, inputs, cycle count and mask, running both parties in low-memory mode and in high-memory mode gives the same output bits to each party in consecutive and per-cycle modes, and the same final-cycle output in last-cycle mode when no public-1 output is hidden by the mask.", "quantifier": "all circuits, inputs, cycle counts, masks, output modes", "why_tests_cant": "cross-product of two unbounded executions", "anchors": ["garbled_circuit/garbled_circuit_low_mem.cpp", "garbled_circuit/garbled_circuit_high_mem.cpp", "util/util.cpp: OutputBN2StrHighMem, OutputBN2StrLowMem"]}
{"id": "C12", "title": "Secret outputs go to exactly one party", "statement": "With an output mask, each secret output bit is delivered to the garbler when its mask bit is 1 and to the evaluator when it is 0; the recipient's result bit equals the plaintext output and the other party's bit is 0; both parties agree on who sends and who receives.", "quantifier": "all masks, circuits, inputs, cycles", "why_tests_cant": "exponential in mask and outputs; direction errors deadlock only for particular masks", "anchors": ["garbled_circuit/garbled_circuit_low_mem.cpp: GarbleTransferOutputLowMem, EvaluateTransferOutputLowMem", "garbled_circuit/garbled_circuit_high_mem.cpp: GarbleTransferOutput, EvaluateTransferOutput"]}
{"id": "C13", "title": "Public outputs can be lost under a mask", "statement": "(Refuted claim.) Every output bit that is 1 is reported to at least one party. Counter-example: a public 1 at a position below the mask's bit length whose mask bit is 0 is reported to neither party.", "quantifier": "claim over all circuits/masks; refuted by a witness family: every such position", "why_tests_cant": "tests use only all-zero and all-one masks", "anchors": ["garbled_circuit/garbled_circuit_low_mem.cpp: EvaluateTransferOutputLowMem", "garbled_circuit/garbled_circuit_high_mem.cpp: EvaluateTransferOutput"]}
{"id": "C14", "title": "Termination agreement on public terminate signals", "statement": "If the terminate signal is publicly known at every inspected cycle, both parties stop in the same cycle as plaintext evaluation with the same terminate period, and report the same number of executed cycles.", "quantifier": "all circuits, inputs, periods, cycle limits", "why_tests_cant": "unbounded cycle counts", "anchors": ["garbled_circuit/garbled_circuit_util.cpp: GarbleTransferTerminate, EvaluateTransferTerminate"]}
{"id": "C15", "title": "Secret terminate signal deadlocks", "statement": "(Refuted claim.) Both parties always finish. If the terminate signal is secret at an inspected cycle, garbler and evaluator both end up waiting to receive, under every schedule, and neither returns.", "quantifier": "every circuit, input and schedule that reaches an inspected cycle with a secret terminate signal", "why_tests_cant": "a hang is not an observable of a finite test; needs all schedules", "anchors": ["garbled_circuit/garbled_circuit_util.cpp: GarbleTransferTerminate, EvaluateTransferTerminate"]}
{"id": "C16", "title": "Base oblivious transfer delivers exactly the chosen messages", "statement": "After a base OT of n message pairs between honest parties the receiver holds, for every index, the message selected by its choice bit.", "quantifier": "all message vectors, choice vectors, RSA keys that invert, all random coins", "why_tests_cant": "2^1024-size key and coin space", "anchors": ["crypto/OT.cpp: OTSendBN, OTRecvBN, OTSend, OTRecv"]}
{"id": "C17", "title": "Base OT hides the receiver's choice", "statement": "For every key, sender challenge pair and value v the sender may see, each choice bit is explained by exactly one blinding value, so the value sent by the receiver carries no information about the choice.", "quantifier": "all keys with invertible exponent, all challenges, all v", "why_tests_cant": "distributional statement over all coins", "anchors": ["crypto/OT.cpp: OTRecvBN (step 4)"]}
{"id": "C18", "title": "OT extension delivers exactly the chosen messages", "statement": "After OT extension of n pairs of 128-bit messages between honest parties the receiver holds, for every index, the message selected by its choice bit.", "quantifier": "all n, messages, choices, coins, every hash function", "why_tests_cant": "unbounded n and coin space; matrix transposition errors are data dependent", "anchors": ["crypto/OT_extension.cpp: OTExtSendBN, OTExtRecvBN, OTExtSend, OTExtRecv"]}
{"id": "C19", "title": "Row/column switching is an exact transpose and never fails", "statement": "Bit-matrix switching returns the transpose of its input for every matrix and never reports failure although clearing a bit beyond the top word is an error in the bignum library.", "quantifier": "all matrices of all sizes", "why_tests_cant": "word-boundary dependent failure", "anchors": ["crypto/OT_extension.cpp: SwitchRowColumnBN, SwitchRowColumnBNPair", "crypto/BN.cpp: BN_full_one"]}
{"id": "C20", "title": "OT-extension hash input is not injective", "statement": "(Refuted claim.) Distinct row values are hashed from distinct byte strings for the same tweak. Values v and 256*v below 2^128 are fed identically.", "quantifier": "claim over all pairs of values; refuted by an infinite family", "why_tests_cant": "collisions are never hit by random testing", "anchors": ["crypto/OT_extension.cpp: HashBN"]}
{"id": "C21", "title": "Bignum transmission round trip", "statement": "Receiving after sending a non-negative bignum yields the same number and leaves the stream exactly at the end of the encoding, for any following data.", "quantifier": "all non-negative integers whose byte length fits an int, all following bytes", "why_tests_cant": "unbounded integers", "anchors": ["crypto/BN.cpp: SendBN, RecvBN"]}
{"id": "C22", "title": "Block/bignum conversion", "statement": "Converting a block to a bignum and back is the identity; converting a bignum to a block keeps exactly its low 128 bits.", "quantifier": "all blocks, all bignums", "why_tests_cant": "2^128 blocks", "anchors": ["crypto/BN.cpp: BlockToBN, BNToBlock"]}
{"id": "C23", "title": "Exact transfer over a fragmenting socket", "statement": "If every read/write returns a positive count, sending len bytes delivers exactly those bytes in order and receiving len bytes returns exactly the next len bytes and leaves the rest; if a call returns 0 or -1 first, FAILURE is reported.", "quantifier": "all buffers, all fragmentations and failure points", "why_tests_cant": "fragmentation is chosen by the kernel", "anchors": ["tcpip/tcpip.cpp: SendData, RecvData"]}
{"id": "C24", "title": "Result is schedule independent", "statement": "For two parties connected by FIFO byte streams every interleaving that runs to completion yields the same pair of results, and if one interleaving completes then no interleaving gets stuck.", "quantifier": "all pairs of programs, all schedules", "why_tests_cant": "all interleavings", "anchors": ["tcpip/tcpip.cpp: SendData, RecvData", "garbled_circuit/garbled_circuit.cpp: GarbleStr, EvaluateStr"]}
{"id": "C25", "title": "End-to-end secure evaluation", "statement": "Between honest parties connected by sockets, running the garbler and evaluator entry points on the same circuit, public inputs, mask and cycle count makes both return SUCCESS, and the parties' result bits combined over the mask are the plaintext outputs of all executed cycles.", "quantifier": "all well-formed circuits without secret terminate, inputs, masks not hiding public ones, cycle counts, all schedules, label streams without accidental collisions", "why_tests_cant": "product of everything above", "anchors": ["garbled_circuit/garbled_circuit.cpp: GarbleStr, EvaluateStr"]}
{"id": "C26", "title": "Colour bits separate the two labels of a wire", "statement": "The two labels of each secret wire always differ in the colour bit and differ by the same global offset for all wires of a run.", "quantifier": "all circuits, cycles, labels", "why_tests_cant": "invariant over unbounded executions", "anchors": ["garbled_circuit/garbled_circuit.cpp: GarbleStr (R |= 1)", "garbled_circuit/garbled_circuit_util.cpp: GarbleGate"]}
{"id": "C27", "title": "Global offset is recoverable from the public key", "statement": "(Refuted confidentiality.) The global offset and hence the garbler's inputs stay hidden from the evaluator. For every seed, the offset is computable from the global key sent in clear, and with it the garbler's input bits from the labels sent.", "quantifier": "every generator state", "why_tests_cant": "statistical tests of outputs do not reveal an algebraic attack", "anchors": ["util/util.cpp: RandomBlock, SrandSSE", "garbled_circuit/garbled_circuit.cpp: GarbleStr"]}
{"id": "C28", "title": "Label comparison ignores half of the label", "statement": "(Refuted claim.) Two labels are treated as equal only if they are equal. Labels that differ only in the upper 64 bits are treated as equal, and a gate with such inputs is mis-garbled.", "quantifier": "claim over all pairs of blocks; refuted by witnesses", "why_tests_cant": "probability 2^-64 per pair in random tests", "anchors": ["crypto/block.h: CmpBlock", "garbled_circuit/garbled_circuit_util.cpp: GarbleGate"]}
{"id": "C29", "title": "Input labels alone hide the garbler's input", "statement": "For any two garbler inputs there is a bijection of the label randomness under which the labels sent to the evaluator are identical, so with uniformly chosen labels the transferred labels are independent of the garbler's input.", "quantifier": "all inputs, all sizes, all offsets", "why_tests_cant": "distributional statement", "anchors": ["garbled_circuit/garbled_circuit_low_mem.cpp: GarbleTransferInputLabels"]}
{"id": "C30", "title": "Plaintext evaluator computes the circuit", "statement": "The plaintext evaluator's output in cycle c is the value of the output wires under the standard synchronous semantics: registers take their D value of the previous cycle, gates their Boolean function of the current cycle.", "quantifier": "all well-formed circuits, inputs, cycles", "why_tests_cant": "unbounded", "anchors": ["scd/scd_evaluator.cpp: EvalauatePlaintext"]}
{"id": "C31", "title": "Topological sorting is correct", "statement": "Sorting a netlist either fails because there is a combinational loop, or returns a permutation of the gates in which every gate comes after the gates it reads.", "quantifier": "all netlists with in-range references", "why_tests_cant": "all graphs", "anchors": ["scd/scheduling.cpp: TopologicalSort, TopologicalSortVisit, SortNetlist"]}
{"id": "C32", "title": "Netlist sorting preserves circuit meaning", "statement": "The sorted netlist computes, cycle by cycle, the same outputs as the unsorted netlist.", "quantifier": "all loop-free netlists with at least one input or register and non-constant outputs, all inputs and cycles", "why_tests_cant": "semantic equivalence over all inputs", "anchors": ["scd/scheduling.cpp: SortNetlist"]}
{"id": "C33", "title": "Macro cell expansion is correct", "statement": "The gate sequences emitted for multiplexer, half adder and full adder cells compute the cell's function for all input values.", "quantifier": "all input values, all wire names without clash", "why_tests_cant": "cells occur in arbitrary contexts", "anchors": ["scd/parse_netlist.cpp: ParseNetlist (MUX, HADDER, FADDER)"]}
{"id": "C34", "title": "SCD write/read round trip", "statement": "Reading a written circuit yields the same sizes, the gates in schedule order, outputs and register connections.", "quantifier": "all circuits", "why_tests_cant": "all circuits", "anchors": ["scd/scd.cpp: WriteSCD, ReadSCD"]}
{"id": "C35", "title": "Constant outputs crash the translator", "statement": "(Refuted claim.) Every loop-free netlist accepted by id assignment can be sorted without an out-of-bounds access. An output tied to a constant indexes outside the renumbering table.", "quantifier": "claim over all netlists; refuted by a witness", "why_tests_cant": "no test netlist ties an output to a constant", "anchors": ["scd/scheduling.cpp: SortNetlist (output_list loop)", "scd/parse_netlist.cpp: IdAssignment"]}
{"id": "C36", "title": "Identifier assignment is consistent", "statement": "After id assignment the inputs occupy consecutive ranges in the order p_init, g_init, e_init, p_input, g_input, e_input, followed by registers and gates; distinct drivers get distinct ids and every reference resolves to its driver's id.", "quantifier": "all netlists with distinct driver names", "why_tests_cant": "all netlists", "anchors": ["scd/parse_netlist.cpp: IdAssignment, AddWireArray"]}
{"id": "C37", "title": "Output formatting loses nothing", "statement": "Consecutive mode prints the number whose bit c*n+i is output i of cycle c; per-cycle mode prints one number per cycle whose bits are that cycle's outputs; last-cycle mode prints the last cycle's outputs.", "quantifier": "all output sizes, cycles and values", "why_tests_cant": "unbounded", "anchors": ["util/util.cpp: OutputBN2StrHighMem, OutputBN2StrLowMem"]}
{"id": "C38", "title": "Binary/hex helpers are inverse", "statement": "Converting a bit string to hex and back gives the same number; formatting then parsing signed fields returns the fields.", "quantifier": "all strings of length below 2^16-4, all field widths 1..63 with total below 2^16 and fewer than 256 fields", "why_tests_cant": "all strings", "anchors": ["util/util.cpp: bin2hex, hex2bin, dec2bin, bin2dec, formatGCInputString, parseGCOutputString"]}
{"id": "C39", "title": "Generator never yields an even offset but alternates colour bits", "statement": "The low bit of successive label draws alternates deterministically, so the colour bits of consecutive 0-labels are predictable and the transferred labels' colour bits reveal the garbler's input bits up to one common bit.", "quantifier": "every seed", "why_tests_cant": "needs an argument over all seeds", "anchors": ["util/util.cpp: RandomBlock"]}
{"id": "C40", "title": "Errors are swallowed in builds without logging", "statement": "(Refuted claim.) A failed socket operation makes the caller return FAILURE in every build. In a build without logging the check macros drop the result.", "quantifier": "claim over all failure points and build options", "why_tests_cant": "build option dependent control flow", "anchors": ["util/log.h: CHECK, CHECK_EXPR"]}
{"id": "C41", "title": "An oversized table count overruns the evaluator's buffer", "statement": "(Refuted claim.) The evaluator only writes inside its table buffer whatever the peer sends. The received count is not compared with the number of non-XOR gates, for which the buffer was allocated.", "quantifier": "claim over all peer messages; refuted for every count above the capacity", "why_tests_cant": "honest garblers never send such a count", "anchors": ["garbled_circuit/garbled_circuit_low_mem.cpp: EvaluateBNLowMem", "garbled_circuit/garbled_circuit_high_mem.cpp: EvaluateBNHighMem"]}
{"id": "C42", "title": "Plaintext evaluation without a mapping file", "statement": "(Refuted claim.) EvalauatePlaintextStr reports failure when the evaluation fails. EvalauatePlaintext returns FAILURE when the mapping or trace file cannot be opened, but EvalauatePlaintextStr ignores the result and returns SUCCESS with an all-zero output.", "quantifier": "claim over all file system states", "why_tests_cant": "tests run with the file present", "anchors": ["scd/scd_evaluator.cpp: EvalauatePlaintextStr, ReadMapping"]}
{"id": "C43", "title": "Messages of 2^31 bytes or more vanish", "statement": "(Refuted claim.) SendData sends the whole message or reports failure. The length is an int, so 2^31..2^32-1 bytes become a negative length and the call succeeds without sending anything.", "quantifier": "all lengths in [2^31, 2^32), all contents and network behaviours", "why_tests_cant": "needs 45 million tables in one cycle", "anchors": ["tcpip/tcpip.cpp: SendData", "garbled_circuit/garbled_circuit_low_mem.cpp: GarbleBNLowMem"]}
{"id": "C44", "title": "OT extension leaks late choice bits", "statement": "(Refuted claim.) The extension hides the receiver's choices. The base OT masks by adding a residue modulo the RSA modulus, so for more than RSA_BITS transfers the bits beyond RSA_BITS of both columns, hence of the choice vector, are visible up to carries (four candidates).", "quantifier": "all choice vectors, lengths, keys, coins", "why_tests_cant": "confidentiality property", "anchors": ["crypto/OT_extension.cpp: OTExtRecvBN", "crypto/OT.cpp: OTSendBN"]}
{"id": "C45", "title": "The blinding value of the base OT is biased", "statement": "(Refuted claim.) The receiver's message has the same distribution for both choices. The blinding value has RSA_BITS bits and is reduced modulo a modulus of RSA_BITS bits, so some messages are twice as likely under one choice.", "quantifier": "all keys", "why_tests_cant": "distribution over 2^1024 coins", "anchors": ["crypto/OT.cpp: OTRecvBN"]}
{"id": "C46", "title": "Stale outputs in last-cycle mode", "statement": "(Refuted claim.) In last-cycle output mode the low-memory programs report the outputs of the last executed cycle. The output number is overwritten bit by bit and a public 1 that is not sent under the mask leaves the bit of an earlier cycle in place, so the evaluator reports a value from an earlier cycle and the two memory modes disagree.", "quantifier": "all circuits, inputs, masks, cycle counts", "why_tests_cant": "needs a wire that is secret in one cycle and public in a later one, together with a partial mask", "anchors": ["garbled_circuit/garbled_circuit_low_mem.cpp: EvaluateTransferOutputLowMem, GarbleTransferOutputLowMem"]}
{"id": "C47", "title": "Netlists without inputs and registers are translated wrongly", "statement": "(Refuted claim.) Every loop-free netlist whose outputs are driven by gates is translated to a circuit with the same meaning. The renumbering after sorting skips references to wire 0, so in a netlist without inputs and registers a gate that reads gate 0 keeps reading wire 0 although gate 0 has moved.", "quantifier": "claim over all netlists; refuted by a netlist that the translator accepts", "why_tests_cant": "the shipped netlists all have inputs", "anchors": ["scd/scheduling.cpp: SortNetlist"]}
{"id": "C48", "title": "No label is hashed twice with the same tweak", "statement": "For one label the blocks given to the cipher differ for different gates, cycles and input positions, and garbling a gate depends on the cipher only at its four blocks.", "quantifier": "all labels, cycles below 2^64, gate numbers below 2^63, all ciphers", "why_tests_cant": "a clash would need particular gate and cycle numbers", "anchors": ["garbled_circuit/garbled_circuit_util.cpp: HalfGarbleGateKnownValue, GarbleGate", "crypto/aes.cpp"]}
{"id": "C49", "title": "A table hides the values of its gate", "statement": "Whatever labels the evaluator holds for the inputs of a gate and whatever bits they stand for, every possible table occurs for exactly one pair of hash values at the two blocks the evaluator does not know.", "quantifier": "all ciphers, labels, gate types, tables", "why_tests_cant": "a statement about all hash functions, not about one run", "anchors": ["garbled_circuit/garbled_circuit_util.cpp: GarbleGate"]}
{"id": "C50", "title": "The order of assignments in a netlist does not matter", "statement": "(Refuted claim.) Two Verilog modules that differ in the order of their assign statements are translated to circuits with the same meaning. An assignment from a name that gets its driver later is dropped: with logging the translation fails, without it the output becomes wire 0.", "quantifier": "claim over all modules; refuted by a witness", "why_tests_cant": "synthesis tools usually write the statements in a convenient order", "anchors": ["scd/parse_netlist.cpp: IdAssignment"]}
{"id": "C51", "title": "Undriven nets are rejected", "statement": "(Refuted claim.) Without logging the translator rejects netlists that use a net without a driver. It takes the first wire, so a misspelt name can publish the garbler's first input bit.", "quantifier": "claim over all netlists; refuted by a witness", "why_tests_cant": "tests use netlists from the synthesis tool", "anchors": ["scd/parse_netlist.cpp: IdAssignment", "util/log.h: CHECK_EXPR"]}
{"id": "C52", "title": "The netlist parser ends", "statement": "With logging, and without it on every text that contains endmodule, the parser ends. (Refuted without that condition:) on every file that lacks endmodule the parser built without logging runs forever.", "quantifier": "all texts; all unfinished legal modules", "why_tests_cant": "non-termination on truncated files is not exercised", "anchors": ["scd/parse_netlist.cpp: ParseNetlist"]}
{"id": "C53", "title": "Verilog netlists are translated to circuits with the same meaning", "statement": "For every module written down in any layout, with one driver per net and without combinational loop, the translator writes a file from which the programs read a well-formed circuit with the declared port sizes whose outputs and terminate signal carry, for all inputs and in all cycles, the values the cell library and registers of the module demand.", "quantifier": "all modules of fewer than 2^60 statements, all texts of them, all inputs and cycles", "why_tests_cant": "a finite set of netlists cannot cover all structures, layouts and input sequences", "anchors": ["scd/v_2_scd.cpp: Verilog2SCD", "scd/parse_netlist.cpp", "scd/scheduling.cpp", "scd/scd.cpp"]}
{"id": "C54", "title": "Combinational loops are rejected", "statement": "For every module with a combinational loop the translator reports failure instead of writing a circuit.", "quantifier": "all modules with a loop", "why_tests_cant": "loops of every length and shape", "anchors": ["scd/scheduling.cpp: TopologicalSortVisit, TopologicalSort"]}
{"id": "C55", "title": "The two programs, from command line to printed text", "statement": "Both programs, started on the same SCD file with hexadecimal inputs, end on every schedule; the texts they print show every output of every executed cycle (or of the last one) to the party the mask assigns it to and 0 to the other, in all three output modes and both memory modes.", "quantifier": "all circuits, hexadecimal strings, masks that hide nothing, modes and schedules", "why_tests_cant": "strings, circuits and schedules are unbounded", "anchors": ["garbled_circuit/garbled_circuit.cpp: GarbleStr, EvaluateStr", "garbled_circuit/garbled_circuit_util.cpp: ParseInitInputStr", "util/util.cpp: OutputBN2StrLowMem, OutputBN2StrHighMem"]}
{"id": "C56", "title": "Secure and plaintext evaluation print the same text", "statement": "Without an output mask, the text the evaluator's program prints is character for character the one EvalauatePlaintextStr produces from all six inputs in clear.", "quantifier": "all circuits, inputs, cycle counts, periods, modes", "why_tests_cant": "comparison over all circuits and inputs", "anchors": ["garbled_circuit/garbled_circuit.cpp: EvaluateStr", "scd/scd_evaluator.cpp: EvalauatePlaintextStr"]}
{"id": "C57", "title": "From the Verilog text to the printed outputs", "statement": "For every well-built module without combinational loop, translating its text and running both programs on the file prints the values the module's own semantics gives its output nets, for the number of cycles until the module's terminate net is seen.", "quantifier": "all modules, inputs, runs and schedules", "why_tests_cant": "composition of unbounded stages", "anchors": ["scd/parse_netlist.cpp", "scd/scheduling.cpp", "scd/scd.cpp", "garbled_circuit/garbled_circuit.cpp"]}
{"id": "C58", "title": "Bristol files are translated faithfully", "statement": "Every Bristol-format file whose gates read inputs or earlier gates and whose outputs are driven by gates is translated to an SCD file whose circuit computes, in every cycle, what executing the gates in the order of the file computes; outputs that are input wires are connected elsewhere (refuted).", "quantifier": "all Bristol circuits, white space, inputs, cycles, build variants", "why_tests_cant": "circuits and inputs are unbounded", "anchors": ["scd/parse_netlist.cpp: GetBristWire, ParseBrisNetlist", "scd/v_2_scd.cpp: Bris2SCD"]}
{"id": "C59", "title": "Truncated Bristol files are rejected", "statement": "A Bristol file cut at any byte after its first and before its last visible character makes ParseBrisNetlist return FAILURE, whatever the uninitialised variables hold.", "quantifier": "all files, all cut positions, all contents of uninitialised variables", "why_tests_cant": "cut positions and stack contents cannot be enumerated", "anchors": ["scd/parse_netlist.cpp: ParseBrisNetlist"]}
{"id": "C60", "title": "From the Bristol file to the printed outputs", "statement": "Translating a Bristol file and running both programs on the result prints, for all cycles, the outputs of executing the file's gates, split by the mask.", "quantifier": "all valid Bristol circuits, inputs, runs and schedules", "why_tests_cant": "composition of unbounded stages", "anchors": ["scd/parse_netlist.cpp: ParseBrisNetlist", "garbled_circuit/garbled_circuit.cpp: GarbleStr, EvaluateStr"]}
{"id": "C61", "title": "The mapping file names the wires of the circuit", "statement": "For every netlist without combinational loop the mapping file lists each register and gate exactly once, in the order of the wire numbers and registers first, and in the SCD file's circuit the wire beside a name carries, in every cycle, the value of the net of that name.", "quantifier": "all netlists, inputs, cycles, build variants", "why_tests_cant": "netlists and inputs are unbounded", "anchors": ["scd/scheduling.cpp: WriteMapping, SortNetlist", "scd/parse_netlist.cpp: IdAssignment"]}
{"id": "C62", "title": "The trace of the plaintext evaluator", "statement": "With a mapping file, EvalauatePlaintext writes a header with the names and for each cycle a row with the values the plain semantics gives the named wires, and computes the same result as without; the terminating cycle has no row, and names after a gate called terminate have no column (both refuted).", "quantifier": "all circuits, mapping files, inputs, cycle counts and periods", "why_tests_cant": "unbounded circuits, inputs and cycle counts", "anchors": ["scd/scd_evaluator.cpp: EvalauatePlaintext"]}
{"id": "C63", "title": "From the netlist to the trace", "statement": "Translating a Verilog module or a Bristol file gives a mapping file with which the plaintext evaluator's trace shows the values of the module's nets (of the file's wires) cycle by cycle.", "quantifier": "all modules and Bristol circuits, inputs, cycle counts and periods", "why_tests_cant": "composition of unbounded stages", "anchors": ["scd/v_2_scd.cpp: Verilog2SCD, Bris2SCD", "scd/scheduling.cpp: WriteMapping", "scd/scd_evaluator.cpp: EvalauatePlaintext"]}
{"id": "C64", "title": "The tables of all cycles do not depend on the secret inputs", "statement": "For every circuit, number of cycles and two assignments of secret inputs with the same public inputs, there is a bijection (its own inverse with the assignments exchanged) on the garbler's coins without accidents that keeps the offset and changes the cipher only at blocks for which the evaluator holds no label, under which the evaluator's input labels and the garbled tables sent in every cycle are identical, the label pairs of an output are equal when its bit is the same and exchanged when not, and which wires are public is the same.", "quantifier": "all circuits, cycle counts, secret inputs, coins without accidents, contents of fresh memory, both memory modes", "why_tests_cant": "no test can compare all inputs and all coins", "anchors": ["garbled_circuit/garbled_circuit_util.cpp: GarbleGate", "garbled_circuit/garbled_circuit_low_mem.cpp: GarbleLowMem", "garbled_circuit/garbled_circuit_high_mem.cpp: GarbleHighMem"]}
{"id": "C65", "title": "The evaluator's whole computation does not depend on the garbler's secrets", "statement": "Under the bijection of C64, unless the evaluator by accident encrypts a block that belongs to a label it does not hold, its memory after any number of cycles and everything it receives and decodes is identical for the two assignments of secret inputs.", "quantifier": "all circuits, cycle counts, secret inputs, coins without accidents, contents of fresh memory, both memory modes", "why_tests_cant": "no test can compare all inputs and all coins", "anchors": ["garbled_circuit/garbled_circuit_util.cpp: EvalGate", "garbled_circuit/garbled_circuit_low_mem.cpp: EvaluateLowMem", "garbled_circuit/garbled_circuit_high_mem.cpp: EvaluateHighMem"]}
{"id": "C66", "title": "Inputs in a file reach the circuit cycle by cycle", "statement": "When an input option names a file with one line of d hexadecimal digits per clock cycle, bit i of line cy is input i of cycle cy of a circuit with 4*d such inputs, for every number of lines. (A value given directly is not always used: a file of that name shadows it.)", "quantifier": "all files of lines with d digits, all circuits, cycles and wires", "why_tests_cant": "a test uses a few files; the order in which the lines are joined and the digits parsed matters for every length", "anchors": ["util/util.cpp: ReadFileOrPassHex"]}
{"id": "C67", "title": "The two main programs print the outputs", "statement": "When both programs are started with command lines for the same run and no output is kept secret by the mask mechanism, under every interleaving both end with status SUCCESS and print exactly the output bits that the mask assigns to them, in the chosen output mode.", "quantifier": "all circuits, command lines, files, coins, interleavings, both memory modes, all output modes", "why_tests_cant": "a test runs a few circuits and one interleaving", "anchors": ["garbled_circuit/garbled_circuit_main.cpp: main", "garbled_circuit/garbled_circuit.cpp: GarbleStr, EvaluateStr"]}
{"id": "C68", "title": "The exit status tells whether the run failed", "statement": "In a build with logging the garbler's program ends with SUCCESS exactly when GarbleStr succeeded. In a build without logging it always ends with SUCCESS, so a failure is not visible.", "quantifier": "all command lines, files, messages received", "why_tests_cant": "a failure in a release build looks like an empty result to a test", "anchors": ["garbled_circuit/garbled_circuit_main.cpp: main", "util/log.h: CHECK"]}
{"id": "C69", "title": "The exchange of options detects a difference", "statement": "CheckOptionsAlice and CheckOptionsBob end with the same status under every interleaving, SUCCESS exactly when both have the same options, provided the byte behind Bob's receive buffers happens to be zero; otherwise Bob reads beyond the buffer.", "quantifier": "all pairs of options, all contents of the memory behind the buffers", "why_tests_cant": "whether the byte behind the buffer is zero depends on the allocator", "anchors": ["garbled_circuit/garbled_circuit_main.cpp: CheckOptionsAlice, CheckOptionsBob"]}
{"id": "C70", "title": "Different output masks are noticed", "statement": "Two programs that are given different output masks do not both end with SUCCESS. (Refuted: main does not call the exchange of options; an output that both masks give away is silently lost, one that both masks claim blocks both parties for ever.)", "quantifier": "all command lines that differ in the mask", "why_tests_cant": "the tests always give both parties the same mask", "anchors": ["garbled_circuit/garbled_circuit_main.cpp: main", "garbled_circuit/garbled_circuit_high_mem.cpp: GarbleTransferOutput, EvaluateTransferOutput"]}
{"id": "C71", "title": "Blocks written as text", "statement": "Str2Block reads 32 hexadecimal digits with spaces and underscores anywhere as the block with that value, and reads back what to_string_hex writes. (That it accepts nothing else is refuted.)", "quantifier": "all texts and blocks", "why_tests_cant": "2^128 blocks", "anchors": ["util/util.cpp: Str2Block, to_string_hex"]}
{"id": "C72", "title": "Comparison of hexadecimal results", "statement": "icompare of two hexadecimal numerals of the same length is true exactly when they have the same value.", "quantifier": "all numerals", "why_tests_cant": "infinitely many numerals", "anchors": ["util/util.cpp: icompare"]}
{"id": "C73", "title": "The oblivious transfer program", "statement": "For every key pair, choice of coins, pair of messages and selection, the two programs of OT_main end with SUCCESS and the receiver has exactly the selected message.", "quantifier": "all keys, coins, message texts and selections", "why_tests_cant": "a test draws a few keys", "anchors": ["crypto/OT_main.cpp: main"]}
{"id": "C74", "title": "The AES key schedule is the one of FIPS-197", "statement": "For every key of 128, 192 or 256 bits the round keys that AESSetEncryptKey writes are, byte for byte, the words of the key expansion of FIPS-197, in order, with the right number of rounds and without touching the rest of the array.", "quantifier": "all keys and prior contents of the key structure", "why_tests_cant": "2^128 to 2^256 keys", "anchors": ["crypto/aes.h: AESSetEncryptKey, AES128KeyExpansion, AES192KeyExpansion, AES256KeyExpansion"]}
{"id": "C75", "title": "Encryption is the cipher of FIPS-197", "statement": "For every key of the three lengths and all blocks, AESEncrypt of a block and AESEcbEncryptBlks of any array of blocks give the cipher of FIPS-197 on each block.", "quantifier": "all keys, blocks, numbers of blocks", "why_tests_cant": "too many keys and blocks", "anchors": ["crypto/aes.h: AESEncrypt, AESEcbEncryptBlks"]}
{"id": "C76", "title": "Decryption is the inverse cipher and undoes encryption", "statement": "With the key of AESSetDecryptKey, AESDecrypt and AESEcbDecryptBlks give the straightforward inverse cipher of FIPS-197, and decrypting the encryption of a block gives it back.", "quantifier": "all keys of the three lengths, all blocks", "why_tests_cant": "too many keys and blocks", "anchors": ["crypto/aes.h: AESSetDecryptKey, AESSetDecryptKeyFast, AESDecrypt, AESEcbDecryptBlks"]}
{"id": "C77", "title": "The cipher of the garbling code", "statement": "With the schedule of the global key as set up in the garbling code, encrypting the array of blocks in GarbleGate and EvalGate applies AES-128 of FIPS-197 under the global key to each block; this is a permutation of the 128-bit blocks. Runs of both programs with it meet the hypotheses of the theorems on whole runs.", "quantifier": "all global keys and blocks, whatever follows the key in memory", "why_tests_cant": "2^256 pairs", "anchors": ["garbled_circuit/garbled_circuit_low_mem.cpp: GarbleLowMem, EvaluateLowMem", "garbled_circuit/garbled_circuit_high_mem.cpp: GarbleHighMem, EvaluateHighMem", "garbled_circuit/garbled_circuit_util.cpp: GarbleGate, EvalGate"]}
{"id": "C78", "title": "AES keys of other lengths", "statement": "AESSetEncryptKey reads only the key. (Refuted for 192 bits: 8 bytes behind the key are read; they do not influence the result. Any length but 128, 192 and 256 is accepted and leaves the round keys uninitialised.)", "quantifier": "all keys and contents of memory", "why_tests_cant": "an over-read of 8 bytes is silent", "anchors": ["crypto/aes.h: AES192KeyExpansion, AESSetEncryptKey"]}
{"id": "C79", "title": "Arithmetic on blocks", "statement": "Double_Block and SlowDouble_Block multiply by x in GF(2^128) modulo x^128+x^7+x^2+x+1. (That LeftShift and RightShift shift by one bit is refuted.)", "quantifier": "all blocks", "why_tests_cant": "2^128 blocks", "anchors": ["crypto/block.h: Double_Block, SlowDouble_Block, LeftShift, RightShift"]}
{"id": "C80", "title": "The scheduler orders the gates by their level", "statement": "QuickSort sorts an array of at least one element into non-increasing order, moving the indices along; TopSort returns every gate once, those with the longer chains of later readers first. (Refuted: that the level counts readers that come earlier in the list; that an empty list of gates can be sorted.)", "quantifier": "all arrays, all lists of gates, any uninitialised memory", "why_tests_cant": "arrays and netlists are unbounded", "anchors": ["scd/scheduling.cpp: QuickSort, TopSort"]}
{"id": "C81", "title": "The scheduler places every gate once and after the gates it reads", "statement": "For any number of cores and any netlist without combinational loop, Schedule ends within as many rounds as there are gates, and deals out to the cores, in turn, an order in which every gate appears once and after the gates it reads; with a loop it never ends. (Refuted: that the cores can work through their slots at the same time.)", "quantifier": "all netlists, numbers of cores, contents of the arrays", "why_tests_cant": "non-termination cannot be observed, netlists are unbounded", "anchors": ["scd/scheduling.cpp: Schedule, GetMinIndex"]}
{"id": "C82", "title": "FindPath and combinational loops", "statement": "FindPath succeeds exactly when there is no combinational loop and every gate leads to an output or a register. (That failure means a loop is refuted.)", "quantifier": "all netlists with references in range", "why_tests_cant": "netlists are unbounded", "anchors": ["scd/scheduling.cpp: DFS, FindPath"]}
{"id": "C83", "title": "TopologicalSortMultiCore keeps the meaning of a netlist", "statement": "For every translatable netlist with at least one gate whose terminate wire, if any, is an input or a register, the renumbered netlist is a well-formed circuit with the same interface that computes the same outputs in every cycle. (Refuted when a gate drives the terminate wire.)", "quantifier": "all netlists, inputs and cycles", "why_tests_cant": "netlists and inputs are unbounded", "anchors": ["scd/scheduling.cpp: TopologicalSortMultiCore"]}
{"id": "C84", "title": "The translator writes the circuit and its mapping file", "statement": "For every loop-free netlist (Verilog cells or Bristol format) found under the given name, v_2_scd ends with SUCCESS in every build; the output file then describes a circuit that computes what the netlist says, the mapping file names its wires, and no other file has changed; a Verilog netlist takes precedence over a Bristol one. A Verilog netlist with a combinational loop gives FAILURE and leaves the disk as it was.", "quantifier": "all netlists, file names, disks and builds", "why_tests_cant": "netlists and disks are unbounded", "anchors": ["scd/v_2_scd_main.cpp: main", "scd/v_2_scd.cpp: Verilog2SCD, Bris2SCD", "scd/scheduling.cpp: WriteMapping", "scd/scd.cpp: WriteSCD"]}
{"id": "C85", "title": "From a netlist file to the outputs on the screen", "statement": "On any disk with the two files that the translator wrote for a Verilog netlist, the plaintext evaluator prints the values of the netlist's outputs, ends with SUCCESS and writes a trace of the netlist's nets, changing no other file; and the garbled run of both parties' main programs with the circuit file prints each party's share of the netlist's outputs.", "quantifier": "all netlists, inputs, disks, options and interleavings", "why_tests_cant": "netlists, inputs and schedules are unbounded", "anchors": ["scd/scd_evaluator_main.cpp: main", "scd/scd_evaluator.cpp: EvalauatePlaintext", "garbled_circuit/garbled_circuit_main.cpp: main"]}
{"id": "C86", "title": "The exit status of the translator", "statement": "If v_2_scd ends, only the output file and its mapping file may have changed; SUCCESS is returned only if both could be opened and the netlist was translated, and on FAILURE the output file is as before. (Refuted: that a failed run leaves the disk as it was, or leaves what could be evaluated before evaluable; that SUCCESS means that the files are complete.)", "quantifier": "all command lines, disks and netlists", "why_tests_cant": "needs full disks and files that cannot be written", "anchors": ["scd/v_2_scd_main.cpp: main", "scd/v_2_scd.cpp: Verilog2SCD"]}
{"id": "C87", "title": "Bubble sort on the garbled processor", "statement": "For every number of elements gc_main leaves in the output array the xor of the two inputs, rearranged into ascending order, without access outside the arrays.", "quantifier": "all lengths and contents", "why_tests_cant": "unbounded lengths and contents; the repository has one test vector", "anchors": ["a23/bubble-sort/bubble-sort.c: gc_main, bubble_sort"]}
{"id": "C88", "title": "Merge sort on the garbled processor", "statement": "gc_main leaves in the output array the xor of the two inputs in ascending order. (Refuted, already for the three numbers 1, 2, 0 and for the test vector in the repository; what holds is that the output is a rearrangement.)", "quantifier": "all lengths and contents", "why_tests_cant": "the shipped test was evidently never run against the expected result", "anchors": ["a23/merge-sort/merge-sort.c: gc_main, mergesort"]}
{"id": "C89", "title": "Shortest paths on the garbled processor", "statement": "For every graph, given by the xor of the two inputs with 0 for no edge, gc_main computes the distance of every node from node 0 (32767 when there is no shorter path), for both meanings of an overflow of int; the static array need not be zero at the start. (Refuted for weights near 2^31.)", "quantifier": "all graphs with weights from 0 to 2^31 - 32768", "why_tests_cant": "graphs are unbounded", "anchors": ["a23/dijkstra/dijkstra.c: gc_main, dijkstra, minDistance"]}
{"id": "C90", "title": "Sum and comparison of long numbers on the garbled processor", "statement": "The assembly versions add two numbers of n words modulo 2^(32 n) and decide whether the first is less than the second. The versions in C agree as long as no sum of two words overflows int, and for words of equal sign. (Refuted: that the two versions always agree.)", "quantifier": "all numbers of words and contents", "why_tests_cant": "2^64 pairs for one word already; undefined behaviour is invisible to tests", "anchors": ["a23/sum/sum.c: sum_array", "a23/compare/compare.c: compare_array"]}
{"id": "C91", "title": "Hamming distance on the garbled processor", "statement": "For n words the result is the number of differing bits among the first 2^floor(log2(32 n)), modulo 256; for 1, 2 and 4 words this is the Hamming distance. (Refuted for other sizes.)", "quantifier": "all sizes below 2^27 words and contents", "why_tests_cant": "inputs are unbounded; only one size is compiled", "anchors": ["a23/hamming/hamming.c: gc_main, log2"]}
{"id": "C92", "title": "The S-box circuit on the garbled processor", "statement": "The 115 Boolean statements of getSBoxValue compute the S-box of FIPS-197 if their arrays have nine and three elements. (Refuted as declared, with eight and two elements: the code writes outside.)", "quantifier": "all bytes", "why_tests_cant": "writes outside a local array may stay unnoticed", "anchors": ["a23/sbox/sbox.c: getSBoxValue, gc_main", "a23/aes/aes.c: getSBoxValue"]}
{"id": "C93", "title": "AES-128 on the garbled processor", "statement": "gc_main encrypts the second input under the first as FIPS-197 says, whatever the round keys and the output held before.", "quantifier": "all keys and blocks, given room for the S-box circuit", "why_tests_cant": "2^256 pairs", "anchors": ["a23/aes/aes.c: gc_main, AES128_ECB_encrypt, KeyExpansion, Cipher"]}
{"id": "C94", "title": "SHA3-256 on the garbled processor", "statement": "For every message of fewer than 136 bytes, handed over in any number of pieces, the digest is SHA3-256 of FIPS 202. With exactly 136 bytes the padding is written outside the buffer; longer messages collide.", "quantifier": "all messages and ways to cut them", "why_tests_cant": "messages and cuts are unbounded in number", "anchors": ["a23/sha3/sha3.c: rhash_sha3_update, rhash_sha3_final, rhash_sha3_permutation, gc_main", "a23/sha3/byte_order.h: ROTL64"]}
{"id": "C95", "title": "Sine and cosine on the garbled processor", "statement": "For every angle, in units of 2^-30, cordic computes without overflow of int; for angles between -PI/2 and PI/2, the range the code documents, both results differ from 2^30 times the sine and cosine by at most 72, that is 2^-23. (Refuted for angles outside this range.)", "quantifier": "all angles, both meanings of overflow", "why_tests_cant": "2^32 angles; the expected output in the repository belongs to another program", "anchors": ["a23/cordic/cordic.c: cordic, gc_main"]}
{"id": "C96", "title": "Products on the garbled processor", "statement": "The product of two words is right modulo 2^32, and exact when overflow is undefined and does not happen; likewise every entry of the product of two n by n matrices.", "quantifier": "all n and contents, both meanings of overflow", "why_tests_cant": "contents are unbounded", "anchors": ["a23/mul/mul.c: gc_main", "a23/matrix-mul/matrix-mul.c: gc_main"]}
{"id": "C97", "title": "The functional test of the programs for the processor", "statement": "For every program under test and all input files that hold hexadecimal numbers, whatever the uninitialised arrays contain, the program is run on the 64 low words of the two numbers and the number in the output array is printed; for sum and mul this is the sum modulo 2^(32 n) and the product modulo 2^32. (Refuted: that missing input files are reported; the test then runs on zeros.)", "quantifier": "all programs, files, contents of uninitialised memory", "why_tests_cant": "it is the test itself", "anchors": ["a23/lib/a23_main_testing.cpp: main, BNtoByteLittleEndian, ByteLittleEndiantoBN", "util/util.cpp: ReadFileOrPassHex"]}
{"id": "C98", "title": "Two small programs for the garbled processor", "statement": "temp.c adds two numbers of n words modulo 2^(32 n) if the output array has n words, leaving the rest of it alone, and writes outside the array if it has fewer, as the sizes in the file say; mem-test.c fills the array with its indices.", "quantifier": "all sizes and contents", "why_tests_cant": "contents are unbounded; a write outside the array may stay unnoticed", "anchors": ["a23/temp/temp.c: gc_main, hasCarry", "a23/mem-test/mem-test.c: gc_main"]}
{"id": "C99", "title": "The test of the garbled processor", "statement": "For every netlist, test directory and schedule for which the protocol's requirements hold, a23_test ends with SUCCESS: Alice prints 0, Bob prints what the plaintext evaluation of the netlist prints, and the run of both processes is reported as successful. In general the test run succeeds exactly if both parties print the expected texts and opening the port (one of 20 attempts), fork, accept, connect and close work and the child is not killed. (Refuted: that the program's exit status tells; without logging it is SUCCESS even if the netlist does not exist.)", "quantifier": "all netlists, files, expected texts, answers of the operating system and schedules", "why_tests_cant": "it is the test itself; schedules and system failures cannot be enumerated", "anchors": ["garbled_circuit/a23_test_main.cpp: main", "garbled_circuit/garbled_circuit_testing.cpp: Alice, Bob", "tcpip/tcpip_testsuit.cpp: TcpipTestRun"]}
{"id": "C100", "title": "From the linked program to the processor's memory", "statement": "For every ELF file for the ARM whose section contents and names lie in the file and whose image, with six bytes to spare, is not longer than twice the file, amber-elfsplitter and amber-code32.sh end without undefined behaviour, and the number that TinyGarble reads from the resulting p.txt has at every address the byte that the last section occupying it wants there: the file's byte for program text and data, 0 for cleared memory. Other files are refused. (Refuted: that the output is determined by the file; an image that ends at a word boundary is followed by a word of uninitialised memory, as are gaps. Refuted: memory safety; a section beyond twice the file's size always overruns the buffer.)", "quantifier": "all ELF files, section tables, contents of uninitialised memory", "why_tests_cant": "the set of files is unbounded; overruns and uninitialised memory may stay unnoticed", "anchors": ["a23/tools/amber-elfsplitter.c: main, pSHT, fsize", "a23/tools/amber-code32.sh", "util/util.cpp: ReadFileOrPassHex"]}
{"id": "C101", "title": "Adders, subtracters, comparator and multiplexer in Verilog", "statement": "For all widths (also above and at multiples of the 512 steps into which the loops are cut) ADD, SUB, COMP, MUX, TwosComplement compute sum with carry, difference with borrow, greater-or-equal, choice and negation modulo 2^N, and ADD_ and SUB_ the exact signed sum and difference; the equations of each module have a solution.", "quantifier": "all widths and inputs", "why_tests_cant": "widths and inputs are unbounded; synthesised for a few sizes only", "anchors": ["circuit_synthesis/syn_lib/ADD.v", "circuit_synthesis/syn_lib/SUB.v", "circuit_synthesis/syn_lib/COMP.v", "circuit_synthesis/syn_lib/MUX.v", "circuit_synthesis/syn_lib/FA.v", "circuit_synthesis/syn_lib/TwosComplement.v", "circuit_synthesis/syn_lib/ADD_.v", "circuit_synthesis/syn_lib/SUB_.v"]}
{"id": "C102", "title": "Multipliers in Verilog", "statement": "MULT computes the exact product of an N-bit and an M-bit number, MULT_ that of signed numbers.", "quantifier": "all widths and inputs", "why_tests_cant": "widths and inputs are unbounded", "anchors": ["circuit_synthesis/syn_lib/MULT.v", "circuit_synthesis/syn_lib/MULT_.v"]}
{"id": "C103", "title": "Dividers in Verilog", "statement": "DIV gives the quotient and, for divisor 0, all ones; DIV_ rounds towards zero.", "quantifier": "all widths and inputs", "why_tests_cant": "widths and inputs are unbounded", "anchors": ["circuit_synthesis/syn_lib/DIV.v", "circuit_synthesis/syn_lib/DIV_.v"]}
{"id": "C104", "title": "Counting ones in Verilog", "statement": "COUNT gives the number of ones of a vector of any width, in as few bits as log2 says.", "quantifier": "all widths below 2^32 and inputs", "why_tests_cant": "widths and inputs are unbounded", "anchors": ["circuit_synthesis/syn_lib/COUNT.v"]}
{"id": "C105", "title": "Shifters in Verilog", "statement": "SHIFT_LEFT multiplies and SHIFT_RIGHT divides by a power of two. (Refuted: it is the other way round.)", "quantifier": "all widths and inputs", "why_tests_cant": "no circuit of the repository uses them", "anchors": ["circuit_synthesis/syn_lib/SHIFT_LEFT.v", "circuit_synthesis/syn_lib/SHIFT_RIGHT.v"]}
{"id": "C106", "title": "Square root in Verilog", "statement": "square_root_comb gives the integer part of the square root.", "quantifier": "all widths and inputs", "why_tests_cant": "widths and inputs are unbounded", "anchors": ["circuit_synthesis/syn_lib/square_root_comb.v"]}
{"id": "C107", "title": "Sum, comparison and Hamming distance in any number of cycles", "statement": "Fed N/CC bits in each of CC cycles, lowest first, sum puts out the sum modulo 2^N, compare ends with whether the first number is at least the second, and hamming with the number of differing bits; every run exists.", "quantifier": "all N, CC and inputs", "why_tests_cant": "N, CC and inputs are unbounded", "anchors": ["circuit_synthesis/sum/sum.v", "circuit_synthesis/compare/compare.v", "circuit_synthesis/hamming/hamming.v"]}
{"id": "C108", "title": "Multiplication in any number of cycles", "statement": "mult gives the product modulo 2^N. (Refuted for more than one cycle: only N/CC bits of the second number are used and nothing is accumulated.)", "quantifier": "all N, CC and inputs", "why_tests_cant": "N, CC and inputs are unbounded", "anchors": ["circuit_synthesis/mult/mult.v"]}
{"id": "C109", "title": "Matrix multiplication in Verilog", "statement": "The version 0 gives all elements of the product at once, version 3 one element after N cycles, modulo 2^M. (Refuted: that version 1 gives the rows and version 2 the elements of the product one after the other; their sums are never cleared and appear a cycle late.)", "quantifier": "all sizes, widths and matrices", "why_tests_cant": "sizes and contents are unbounded", "anchors": ["circuit_synthesis/matrix_mult/matrix_mult_N_M_0.v", "circuit_synthesis/matrix_mult/matrix_mult_N_M_1.v", "circuit_synthesis/matrix_mult/matrix_mult_N_M_2.v", "circuit_synthesis/matrix_mult/matrix_mult_N_M_3.v"]}
{"id": "C110", "title": "Maximum, encoder and city block distance in Verilog", "statement": "argmax gives the greatest number and the last place where it stands, the encoder the number of the only set bit (in general the or of the numbers of all set bits), taxicab_distance the sum of the two absolute differences without overflow.", "quantifier": "all sizes, widths and inputs", "why_tests_cant": "sizes and inputs are unbounded", "anchors": ["circuit_synthesis/argmax/argmax.v", "circuit_synthesis/encoder/encoder.v", "circuit_synthesis/stable_match/encoder.v", "circuit_synthesis/knns_td/taxicab_distance.v"]}
{"id": "C111", "title": "The first nearest neighbour in Verilog", "statement": "The circuits give an element of the smallest distance to the query. (Refuted: the combinational ones give an element of the greatest distance, the sequential ones always 0.)", "quantifier": "all sizes, widths and inputs", "why_tests_cant": "sizes and inputs are unbounded", "anchors": ["circuit_synthesis/knns/first_nns_comb.v", "circuit_synthesis/knns/first_nns_seq.v", "circuit_synthesis/knns_td/first_nns_comb_td.v", "circuit_synthesis/knns_td/first_nns_seq_td.v"]}
{"id": "C112", "title": "The k nearest neighbours in Verilog", "statement": "After every cycle the output of k_nns_seq and k_nns_seq_td shows, in ascending order of distance, K of the elements seen so far such that no other one is nearer, and zeros while fewer than K have been seen.", "quantifier": "all K, widths, numbers of cycles and inputs", "why_tests_cant": "K, runs and inputs are unbounded", "anchors": ["circuit_synthesis/knns/k_nns_seq.v", "circuit_synthesis/knns_td/k_nns_seq_td.v"]}
{"id": "C113", "title": "Two test circuits in Verilog", "statement": "non_secret_test adds in the even and subtracts in the odd cycles (the comment in the file has them exchanged); public_test shows in every cycle the exclusive or of the initial values and all inputs so far.", "quantifier": "all widths, numbers of cycles and inputs", "why_tests_cant": "runs and inputs are unbounded", "anchors": ["circuit_synthesis/non_secret_test/non_secret_test.v", "circuit_synthesis/public_test/public_test.v"]}
{"id": "C114", "title": "Stack machine and memory in Verilog", "statement": "For every program that neither pops an empty stack nor needs more than S places, the stack machine shows after every instruction the top of a stack of unbounded depth; reading the memory gives what was last written, ports of lower number taking precedence. (Refuted: that there is an instruction for the exclusive or; its code 3'd8 is the one of nop.)", "quantifier": "all programs, widths, depths, sizes, numbers of cycles", "why_tests_cant": "programs are unbounded", "anchors": ["circuit_synthesis/stack_machine/stackMachine.v", "circuit_synthesis/select/select.v"]}
{"id": "C115", "title": "AES-128 in Verilog", "statement": "aes_1cc, and aes_11cc in its eleventh cycle, put out the encryption of e_input under the key g_input as FIPS-197 says, the byte 0 of key, block and result being the lowest; sbox is the S-box and KeyExpansion the key schedule of the standard; the equations have a solution for all inputs.", "quantifier": "all keys and blocks", "why_tests_cant": "2^256 pairs", "anchors": ["circuit_synthesis/aes/aes_1cc.v", "circuit_synthesis/aes/aes_11cc.v", "circuit_synthesis/aes/SubBytes.v", "circuit_synthesis/aes/ShiftRows.v", "circuit_synthesis/aes/MixColumns.v", "circuit_synthesis/aes/AddRoundKey.v", "circuit_synthesis/aes/KeyExpansion.v", "circuit_synthesis/aes/KeyExpansionSeq.v"]}
{"id": "C116", "title": "SHA3 in Verilog", "statement": "round with rconst is a round of Keccak (FIPS 202), sha3_comb computes Keccak-f of the two inputs placed in the last nine lanes of the state, and sha3_seq in 24/m cycles likewise. (Refuted: that the inputs are in the place of the message block, for all inputs but 0; that sha3_seq gives Keccak-f after CC cycles: the first cycle runs rounds without constants, so that after one cycle more the result is that for another input. The output, the whole state, determines both parties' inputs.)", "quantifier": "all inputs, all CC", "why_tests_cant": "2^576 inputs; the test bench only prints", "anchors": ["circuit_synthesis/sha3/rconst.v", "circuit_synthesis/sha3/round.v", "circuit_synthesis/sha3/sha3_comb.v", "circuit_synthesis/sha3/sha3_seq.v"]}
{"id": "C117", "title": "RSA in Verilog", "statement": "modmult gives the product and modexp_2N_NN and modexp_1_N the power modulo n. (Refuted: every multiplexer is used with its data inputs exchanged, so that 0 times 0 modulo 3 gives a power of two at every width; with them put right modmult gives a number congruent to the product and at most n, that is n in place of 0 for some inputs, modexp_2N_NN likewise for CC = 2N but is still wrong for CC = 4N, 8N, 16N at width 8; modexp_1_N then holds the power in a register but never drives its output.)", "quantifier": "all widths, numbers of cycles and inputs", "why_tests_cant": "widths and inputs are unbounded", "anchors": ["circuit_synthesis/rsa/modmult.v", "circuit_synthesis/rsa/modexp_2N_NN.v", "circuit_synthesis/rsa/modexp_1_N.v"]}
{"id": "C118", "title": "The processor Lite_MIPS", "statement": "For every program, every data and every number t of cycles, Lite_MIPS shows after t cycles the memory that executing t instructions of MIPS I leaves, as long as no instruction executed is one of those where it differs from the architecture. (Refuted, each with a program: targets of branches are counted from the branch itself; the immediate operand of SLTIU is not sign-extended; LB and LH take the sign from another bit unless the address is a multiple of 4; multiplication, division, HI and LO have no effect; overflow does not trap. With these changes the claim holds for all programs. Mult, by itself, multiplies right and does not divide.)", "quantifier": "all programs, data, sizes of memory up to 2^28 words, numbers of cycles", "why_tests_cant": "programs and runs are unbounded; the test bench only waits", "anchors": ["circuit_synthesis/mips/ALU.v", "circuit_synthesis/mips/Shifter.v", "circuit_synthesis/mips/Control.v", "circuit_synthesis/mips/Bus_Mux.v", "circuit_synthesis/mips/PC_Next.v", "circuit_synthesis/mips/Inst_Mem.v", "circuit_synthesis/mips/Data_Mem.v", "circuit_synthesis/mips/Reg_Bank.v", "circuit_synthesis/mips/Lite_MIPS.v", "circuit_synthesis/mips/Mult.v"]}
{"id": "C119", "title": "hamming.s on Lite_MIPS", "statement": "Run on Lite_MIPS, mips/test/benchmarks/hamming.s writes to word 1 the number of positions in which the arrays A and B differ, leaves all other words, and from at most 7+9l cycles on nothing changes. (Refuted if branches are assembled as the architecture has them: then no answer is ever written.)", "quantifier": "all lengths, arrays and sizes of memory that hold them, all times after", "why_tests_cant": "arrays are unbounded; the test bench only waits", "anchors": ["circuit_synthesis/mips/test/benchmarks/hamming.s", "circuit_synthesis/mips/ALU.v", "circuit_synthesis/mips/Shifter.v", "circuit_synthesis/mips/Control.v", "circuit_synthesis/mips/Bus_Mux.v", "circuit_synthesis/mips/PC_Next.v", "circuit_synthesis/mips/Inst_Mem.v", "circuit_synthesis/mips/Data_Mem.v", "circuit_synthesis/mips/Reg_Bank.v", "circuit_synthesis/mips/Lite_MIPS.v", "circuit_synthesis/mips/Mult.v"]}
{"id": "C120", "title": "Stable matching in Verilog", "statement": "For all complete preferences of n suitors and n reviewers, the list that stable_match_seq shows from cycle 2*n*n on is a stable matching, the one best for every suitor, and all suitors are marked as matched. (Refuted: that finish is ever set; it never is, for any parameters and inputs.)", "quantifier": "all n from 2 to 2^32 - 1, all complete preferences, all times after", "why_tests_cant": "n and the preferences are unbounded", "anchors": ["circuit_synthesis/stable_match/stable_match_seq.v", "circuit_synthesis/stable_match/encoder.v"]}
{"id": "C121", "title": "Stable matching with memories in Verilog", "statement": "The list that stable_match shows is a stable matching. (Refuted for all inputs, all times and all sizes 2^l from 4 on: it is not even a matching, since all have one list of preferences, and only the entry of the woman named first in it can ever change.)", "quantifier": "all inputs, sizes 2^l and times", "why_tests_cant": "inputs and runs are unbounded", "anchors": ["circuit_synthesis/stable_match/stable_match.v"]}
{"id": "C122", "title": "CORDIC in Verilog", "statement": "In the rotating direction cordic computes, from cycle 15 on and marked by terminate, the fifteen rotations of integers by the angles of its table, as long as x and y stay not negative; for x = 9949 (the factor of CORDIC), y = 0 and all angles from 1258 to 24477 (over 2^14) they do and the result is a point of the unit circle up to 148044/2^28 in the square of the radius; the linear mode gives y + x z up to 15 units and x/2^14, for all x not negative, all y and z. (Refuted: the angle 0, a negative x, the vectoring direction; and in the hyperbolic mode both results are equal for every angle not negative.)", "quantifier": "all 16-bit inputs and all numbers of cycles as stated", "why_tests_cant": "2^48 inputs; that the unit circle's point is the one of the angle is not claimed beyond the equality with the integer iteration", "anchors": ["circuit_synthesis/cordic/cordic.v", "circuit_synthesis/cordic/alpha_table.v", "circuit_synthesis/cordic/barrel_shifter_left.v"]}
{"id": "C123", "title": "The barrel shifter of a23", "statement": "For every type of shift, word, carry and amount below 32 (ROR: below 256) a23_barrel_shift gives the word shifted and the last bit shifted out, as ARM has it. (Refuted for amounts of 32 and more, and for LSR #32, which moves the register as it is.)", "quantifier": "all words, amounts, types", "why_tests_cant": "2^32 words times 2^8 amounts", "anchors": ["circuit_synthesis/a23/a23_barrel_shift.v", "circuit_synthesis/a23/a23_ror.v", "circuit_synthesis/a23/a23_decode.v"]}
{"id": "C124", "title": "The arithmetic unit of a23", "statement": "With the settings of the decoder a23_alu gives for each of the sixteen operations the result and the carry of ARM, and for those without carry in all four flags. (Refuted: the flags N, Z, V of ADC, SBC, RSC with S are always 0; ANDS and TST with a register that is not shifted clear the carry.)", "quantifier": "all operands, flags, operations", "why_tests_cant": "2^64 pairs of operands", "anchors": ["circuit_synthesis/a23/a23_alu.v", "circuit_synthesis/a23/a23_decode.v", "circuit_synthesis/a23/a23_execute.v"]}
{"id": "C125", "title": "The conditions of a23", "statement": "An instruction is executed exactly when its condition holds for the flags as ARM has it; after CMP the conditions are the orders of signed and unsigned numbers.", "quantifier": "all flags, conditions, operands", "why_tests_cant": "2^64 pairs of operands", "anchors": ["circuit_synthesis/a23/a23_functions.vh", "circuit_synthesis/a23/a23_localparams.vh"]}
{"id": "C126", "title": "The memory of a23", "statement": "A word read is the four bytes at its address, zero beyond the five arrays; storing a word or a byte changes exactly these bytes, if they are code, output or stack and within the array, and nothing else.", "quantifier": "all memories, addresses, words, sizes", "why_tests_cant": "memory and addresses are unbounded or 2^32", "anchors": ["circuit_synthesis/a23/a23_mem.v"]}
{"id": "C127", "title": "Data processing on a23", "statement": "After the reset the processor is ready to execute the instruction at address 0. If it is ready to execute at A in a state of the architecture and finds there an instruction of data processing (any of the sixteen operations, any operand, any condition; the destination not r15, the shift one that C123 covers), then a cycle later it is ready to execute at A + 4 in the state that ARM says, but for the flags as in C124.", "quantifier": "all processor states, memories, instructions", "why_tests_cant": "states and programs are unbounded; the test benches run a few programs", "anchors": ["circuit_synthesis/a23/a23_core.v", "circuit_synthesis/a23/a23_decode.v", "circuit_synthesis/a23/a23_execute.v", "circuit_synthesis/a23/a23_fetch.v", "circuit_synthesis/a23/a23_register_bank.v", "circuit_synthesis/a23/a23_gc_main.v"]}
{"id": "C128", "title": "Jumps on a23", "statement": "Likewise, three cycles after a branch, or an instruction of data processing with destination r15, the processor is ready at the target, with the return address and the flags in r14 for BL, or at A + 4 if the condition of a branch does not hold. (Refuted for other jumps: data processing with destination r15 jumps although its condition does not hold, as movle pc, lr in the shipped merge-sort.)", "quantifier": "all processor states, memories, instructions", "why_tests_cant": "states and programs are unbounded", "anchors": ["circuit_synthesis/a23/a23_decode.v", "circuit_synthesis/a23/a23_execute.v", "circuit_synthesis/a23/a23_register_bank.v", "a23/merge-sort/p.txt"]}
{"id": "C129", "title": "Loads and stores on a23", "statement": "Likewise, three cycles after LDR, LDRB, STR or STRB (any offset, any way of indexing, any condition; the register not r15) the processor is ready at A + 4 with registers and memory as ARM has it, provided a store leaves the next instruction as it is. (Refuted if it does not: the next instruction has already been fetched.)", "quantifier": "all processor states, memories, instructions", "why_tests_cant": "states and programs are unbounded", "anchors": ["circuit_synthesis/a23/a23_decode.v", "circuit_synthesis/a23/a23_execute.v", "circuit_synthesis/a23/a23_mem.v"]}
{"id": "C130", "title": "Multiplication on a23", "statement": "Likewise, four cycles after MUL or MULS the processor is ready at A + 4 with the product modulo 2^32 in the register, if the instruction before was not a multiplication. (Refuted: MLA does not add; a multiplication right after another one gives the product of the first.)", "quantifier": "all processor states, memories, instructions", "why_tests_cant": "states and programs are unbounded", "anchors": ["circuit_synthesis/a23/a23_multiply.v", "circuit_synthesis/a23/a23_decode.v", "circuit_synthesis/a23/a23_execute.v"]}
{"id": "C131", "title": "Loads and stores of several registers on a23", "statement": "If the processor is ready to execute LDM or STM (any list of registers, any of the four ways of counting, with or without write-back, any condition), then as many cycles later as there are registers, and two more, or four if r15 is loaded, it is ready at the next instruction, or the one loaded, in the state that ARM says.", "quantifier": "all processor states, memories, instructions", "why_tests_cant": "states and programs are unbounded", "anchors": ["circuit_synthesis/a23/a23_decode.v", "circuit_synthesis/a23/a23_execute.v", "circuit_synthesis/a23/a23_mem.v", "circuit_synthesis/a23/a23_register_bank.v"]}
{"id": "C132", "title": "The shipped program sum on a23", "statement": "Started with a23/sum/p.txt in its memory and two numbers of 32 words as inputs, the processor a23 sets terminate after 600 cycles and every third cycle after, and its output is the sum of the numbers modulo 2^1024.", "quantifier": "all pairs of numbers of 1024 bits, sizes of the memory that suffice, numbers of cycles", "why_tests_cant": "2^2048 pairs", "anchors": ["a23/sum/p.txt", "a23/sum/sum.c", "circuit_synthesis/a23/a23_gc_main.v"]}
{"id": "C133", "title": "The shipped program mul on a23", "statement": "Started with a23/mul/p.txt and two words, the processor sets terminate after 32 cycles and every third cycle after, and its output is the product modulo 2^32.", "quantifier": "all pairs of words", "why_tests_cant": "2^64 pairs", "anchors": ["a23/mul/p.txt", "a23/mul/mul.c", "circuit_synthesis/a23/a23_gc_main.v"]}
{"id": "C134", "title": "The shipped program compare on a23", "statement": "Started with a23/compare/p.txt and two numbers of 32 words, the processor sets terminate after 515 cycles and every third cycle after, and its output is 1 if the first number is less than the second and 0 otherwise.", "quantifier": "all pairs of numbers of 1024 bits", "why_tests_cant": "2^2048 pairs", "anchors": ["a23/compare/p.txt", "a23/compare/compare.c", "circuit_synthesis/a23/a23_gc_main.v"]}
{"id": "C135", "title": "The shipped program mem-test on a23", "statement": "Started with a23/mem-test/p.txt, the processor sets terminate after 532 cycles and every third cycle after, and word k of its output is k, for k below 64.", "quantifier": "all inputs, sizes of the memory that suffice, numbers of cycles", "why_tests_cant": "the runs are unbounded", "anchors": ["a23/mem-test/p.txt", "a23/mem-test/mem-test.c", "circuit_synthesis/a23/a23_gc_main.v"]}
{"id": "C136", "title": "The shipped program matrix-mul on a23", "statement": "Started with a23/matrix-mul/p.txt and two matrices of three rows and columns, the output is their product modulo 2^32. (Refuted, on the test vector of the repository: the processor does not add in MLA, so that each element is the last of its three products, which is proved for all matrices.)", "quantifier": "all pairs of matrices, numbers of cycles", "why_tests_cant": "2^576 pairs", "anchors": ["a23/matrix-mul/p.txt", "a23/matrix-mul/matrix-mul.c", "circuit_synthesis/a23/a23_multiply.v", "circuit_synthesis/a23/a23_decode.v"]}
{"id": "C137", "title": "The load of the program counter on a23", "statement": "If the processor is ready to execute LDR with destination r15 (any base, offset, way of indexing) and its condition holds, then five cycles later it is ready at the address loaded, with the base register written as ARM says and all else as it was.", "quantifier": "all processor states, memories, instructions", "why_tests_cant": "states and programs are unbounded", "anchors": ["circuit_synthesis/a23/a23_decode.v", "circuit_synthesis/a23/a23_execute.v", "circuit_synthesis/a23/a23_mem.v"]}
{"id": "C138", "title": "The shipped program bubble-sort on a23", "statement": "Started with a23/bubble-sort/p.txt and two arrays of 32 words, the processor sets terminate after 10736 cycles and every third cycle after, and its output is a permutation of the exclusive or of the arrays in ascending order as signed numbers.", "quantifier": "all pairs of arrays, numbers of cycles", "why_tests_cant": "2^2048 pairs", "anchors": ["a23/bubble-sort/p.txt", "a23/bubble-sort/bubble-sort.c", "circuit_synthesis/a23/a23_gc_main.v"]}
{"id": "C139", "title": "A connection is opened as asked and closed again", "statement": "If the kernel grants every call, ServerInit returns a connection with TCP_NODELAY accepted from a socket that listens on the port given; ClientInit returns one connected to the address found and the port given; ServerClose and ClientClose after them restore every descriptor and its state as before. (Refuted for ports: numbers 65536 apart are the same port; below 65536 they differ.)", "quantifier": "all processes, descriptors, ports, addresses", "why_tests_cant": "the kernel's answers and the state of the process are unbounded", "anchors": ["tcpip/tcpip.cpp:30-137"]}
{"id": "C140", "title": "Failures to connect", "statement": "ServerInit and ClientInit return FAILURE exactly if some call failed, and then leave no descriptor open. (Refuted: the descriptors that stay open are stated exactly, each failed attempt of TcpipTestRun leaves one; a failure of listen is not noticed; a host address longer than twelve bytes is written beyond the structure.)", "quantifier": "all answers of the kernel, numbers of attempts", "why_tests_cant": "failures of the kernel are hard to provoke", "anchors": ["tcpip/tcpip.cpp:30-137", "tcpip/tcpip_testsuit.cpp:40-53"]}
{"id": "C141", "title": "The shipped program hamming on a23", "statement": "Started with a23/hamming/p.txt and two words, the processor sets terminate after 1278 cycles and every third cycle after, and its output is the number of bits in which the words differ.", "quantifier": "all pairs of words, numbers of cycles", "why_tests_cant": "2^64 pairs", "anchors": ["a23/hamming/p.txt", "a23/hamming/hamming.c: gc_main, log2", "circuit_synthesis/a23/a23_gc_main.v"]}
{"id": "C142", "title": "The shipped program cordic on a23", "statement": "Started with a23/cordic/p.txt and two words, the processor sets terminate after 627 cycles and every third cycle after, and its output is what cordic.c with wrapping integers gives for the exclusive or of the words. If that is an angle of at most pi/2 in units of 2^-30, the outputs as signed numbers are within 72 of 2^30 sin and 2^30 cos.", "quantifier": "all pairs of words, numbers of cycles", "why_tests_cant": "2^64 pairs; sine and cosine are real functions", "anchors": ["a23/cordic/p.txt", "a23/cordic/cordic.c", "circuit_synthesis/a23/a23_gc_main.v"]}
{"id": "C143", "title": "The shipped program temp on a23", "statement": "Started with a23/temp/p.txt and two numbers of 32 words, the processor sets terminate after 1024 cycles and every third cycle after, and its output is the sum of the numbers modulo 2^1024, if the memory for the output has the 32 words that temp.c writes (it declares one).", "quantifier": "all pairs of numbers, numbers of cycles", "why_tests_cant": "2^2048 pairs", "anchors": ["a23/temp/p.txt", "a23/temp/temp.c: gc_main, hasCarry", "circuit_synthesis/a23/a23_gc_main.v"]}
{"id": "C144", "title": "The timing evaluation runs each benchmark as asked, with matching commands for the two parties", "statement": "For a file of records followed by terminate, each of the two processes starts for every record num_eval runs with its netlist, cycles and output mode on ports ten apart, and leaves the loop. Whatever the file, the commands of Bob are those of Alice with the role exchanged. The ports of up to 32768 runs of a record differ in sixteen bits. (Refuted: runs of different records use the same ports.)", "quantifier": "all files, options, numbers of runs", "why_tests_cant": "files are unbounded; the program only runs if TIMING_EVAL is set to 1", "anchors": ["garbled_circuit/eval_garbled_circuit.cpp: main"]}
{"id": "C145", "title": "The timing evaluation ends and averages what was measured", "statement": "If every run prints three numbers the sums over the runs are exact (as integers). The loop ends only for well-formed files: without terminate the last record is repeated for ever, and after a word that should be a number and is not the loop does not end, whatever follows: the name before it is run again and again with zero cycles and the output mode of the record before. (Refuted: not every file ends; a run that prints nothing counts with the numbers of the run before, or with uninitialised variables.)", "quantifier": "all files, outputs of runs, numbers of rounds", "why_tests_cant": "an endless loop cannot be observed", "anchors": ["garbled_circuit/eval_garbled_circuit.cpp: main, exec"]}
{"id": "C146", "title": "A printed block can be read back", "statement": "Printing a block of 128 bits to a stream that pads on the left adds 35 characters, the numeral of the block in groups of eight digits, restores the flags of the stream, and Str2Block reads the block from them. (Refuted: the fill character is not restored; on a stream with the flag left different blocks are printed alike.)", "quantifier": "all blocks, streams, flags", "why_tests_cant": "2^128 blocks", "anchors": ["util/log.cpp: operator<<"]}
{"id": "C147", "title": "Logs and dumps go to their files", "statement": "After LogInitial, for every sequence of uses of the five dumps and the two logs: every dump file holds exactly what was dumped under its name, and is made only if something was; the logs hold what was logged, in files or on the terminal as the options say; no other file is touched; the two parties never dump into the same file. What is dumped under another name or logged under another code goes to cerr, with a message in the log of errors or on cerr, and touches no other file. After LogFinish a log or dump that is a file cannot be used and LogFinish cannot be called again. (Refuted: the logs of two parties with the same program name, started in the same second, are the same files and the later one empties them; a dump is in the directory of the option.)", "quantifier": "all options, names, files, sequences of uses", "why_tests_cant": "sequences and names are unbounded", "anchors": ["util/log.cpp: LogInitial, LogFinish, Dump, LogStream"]}
{"id": "C148", "title": "The gates before a gate are printed", "statement": "For circuits whose gates come after the gates that drive them, PrintPredecessorsGarble and PrintPredecessorsEval end within as many nested calls as the gate has number plus two, read no array outside its bounds, print exactly the gates from which the gate is reached through labels with a lower half other than zero, and print their labels: first the gate, then all that is before its first input, then all that is before its second one. (Refuted: a gate is printed once - in a chain of n gates the last one takes 2^n - 1 entries; the recursion ends for every circuit; a gate is left out only if its label is zero.)", "quantifier": "all circuits, labels, gates, lengths of chains", "why_tests_cant": "circuits are unbounded", "anchors": ["garbled_circuit/garbled_circuit_util.cpp: PrintPredecessorsGarble, PrintPredecessorsEval"]}
{"id": "C149", "title": "The cells for sums, differences and comparisons compute them", "statement": "For all widths and operands, with the extension of a signed operand by its sign and of an unsigned one by zero: the full adder is correct; $add, $sub and $neg give sum (with the carry input), difference and negation modulo 2^Y_WIDTH; $lt, $le, $gt, $ge, $eq and $ne compare the two numbers if both operands are signed or neither is. If only one operand is signed, $lt and $le compare both modulo 2^WIDTH, WIDTH being the larger width. (Refuted: they compare the numbers then.)", "quantifier": "all widths, operands, signs", "why_tests_cant": "widths are unbounded", "anchors": ["circuit_synthesis/lib/stdcells_S.v: $__fulladd, $__alu, $add, $sub, $neg, $lt, $le, $gt, $ge, $eq, $ne"]}
{"id": "C150", "title": "The cells for products, quotients and shifts compute them", "statement": "For all widths and operands: $mul gives the product modulo 2^Y_WIDTH; $div and $mod give quotient and remainder, rounded towards zero, if both operands are signed or neither is and the divisor is not zero, and all ones and the dividend for an unsigned divisor of zero; $__shift moves the bits by a constant, filling with 0 from below and with X from above; $shl, $sshl, $shr and $sshr with at most 2^29 bits shift by the whole number B, however wide it is, though they have only clog2(WIDTH)+2 stages.", "quantifier": "all widths, operands, signs", "why_tests_cant": "widths are unbounded", "anchors": ["circuit_synthesis/lib/stdcells_S.v: $__arraymul, $mul, $__div_mod_u, $__div_mod, $div, $mod, $__shift, $shl, $sshl, $shr, $sshr"]}
{"id": "C151", "title": "The multiplexers with one select bit per input", "statement": "For all widths and numbers of inputs: $pmux and $safe_pmux give A if no select bit is set and input j of B if only bit j of S is; if several are set, $pmux gives the OR of the selected inputs and $safe_pmux gives A. (Refuted: the output of $pmux is always one of the inputs.)", "quantifier": "all widths, numbers of inputs, inputs, select bits", "why_tests_cant": "widths and numbers of inputs are unbounded", "anchors": ["circuit_synthesis/lib/stdcells_S.v: $pmux, $safe_pmux"]}
{"id": "C152", "title": "The cells of the libraries handed to yosys mean what the translator takes them for", "statement": "Every combinational cell of asic_cell_yosys_extended.lib has the name and pins of a cell the translator of netlists knows, and for all pin values its functions give what the translator takes them for; of the combinational cells the translator knows, only MUX and HADDER are missing. The flip-flop of the library is the translator's register (I first, then D of the cycle before) if I is 0; if I is 1 it stays 1 whatever D is. A cell of asic_cell_yosys.lib, whose output is Y, makes the translator fail wherever it stands and whatever it is connected to. (Refuted: the flip-flop of the library is the register for every I; the cells of both libraries have pins the translator knows.)", "quantifier": "all cells, pin values, sequences of D, netlists containing a cell of the small library", "why_tests_cant": "the inputs and netlists are unbounded", "anchors": ["circuit_synthesis/lib/asic_cell_yosys_extended.lib", "circuit_synthesis/lib/asic_cell_yosys.lib", "scd/parse_netlist.cpp: ParseNetlist"]}
