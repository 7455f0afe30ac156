{
 "claims": [
  {
   "property": "C01",
   "status": "proved",
   "theorems": [
    "C01_gate",
    "C01_not_gate",
    "C01_half_gates"
   ],
   "note": "Any cipher function, cycle, gate number, labels and offset with low bit 1; C01_gate covers the public, half-public, equal, opposite and unrelated-label branches of GarbleGate and EvalGate."
  },
  {
   "property": "C02",
   "status": "proved",
   "theorems": [
    "C02_cycles"
   ],
   "note": "Any well-formed sequential circuit, inputs, number of cycles, both memory modes; hypothesis no_collisions excludes accidental equality of 64-bit label halves (C28 shows it is needed)."
  },
  {
   "property": "C03",
   "status": "proved",
   "theorems": [
    "C03_table_sync"
   ],
   "note": ""
  },
  {
   "property": "C04",
   "status": "proved",
   "theorems": [
    "C04_uninitialised_tables_refuted"
   ],
   "note": "The claim is refuted with a concrete honest session."
  },
  {
   "property": "C05",
   "status": "proved",
   "theorems": [
    "C05_public_wires"
   ],
   "note": ""
  },
  {
   "property": "C06",
   "status": "proved",
   "theorems": [
    "C06_needed_gates"
   ],
   "note": ""
  },
  {
   "property": "C07",
   "status": "proved",
   "theorems": [
    "C07_tables",
    "C07_public_circuit"
   ],
   "note": ""
  },
  {
   "property": "C08",
   "status": "proved",
   "theorems": [
    "C08_memory_safe"
   ],
   "note": ""
  },
  {
   "property": "C09",
   "status": "proved",
   "theorems": [
    "C09_malformed_file_refuted"
   ],
   "note": "The claim is refuted by a file; garbler (both memory modes) and plaintext evaluator access memory out of bounds."
  },
  {
   "property": "C10",
   "status": "proved",
   "theorems": [
    "C10_fill_fanout"
   ],
   "note": ""
  },
  {
   "property": "C100",
   "status": "proved",
   "theorems": [
    "C100_program_memory",
    "C100_words",
    "C100_output_determined_refuted",
    "C100_memory_safety_refuted",
    "C100_refused"
   ],
   "note": "The ELF files that the linker writes are described by the predicates elf and fits; the compiler, linker and objcopy are not modelled. That the output depends on the file only, and that the program stays within its buffer, are refuted."
  },
  {
   "property": "C101",
   "status": "proved",
   "theorems": [
    "C101_add",
    "C101_sub",
    "C101_comp",
    "C101_mux",
    "C101_negate",
    "C101_add_signed",
    "C101_sub_signed",
    "C101_consistent"
   ],
   "note": "Every width; the loops cut at 512 included."
  },
  {
   "property": "C102",
   "status": "proved",
   "theorems": [
    "C102_mult",
    "C102_mult_signed",
    "C102_consistent"
   ],
   "note": "Unsigned and signed."
  },
  {
   "property": "C103",
   "status": "proved",
   "theorems": [
    "C103_div",
    "C103_div_signed",
    "C103_div_signed_by_zero",
    "C103_consistent"
   ],
   "note": "Division by zero stated separately."
  },
  {
   "property": "C104",
   "status": "proved",
   "theorems": [
    "C104_count",
    "C104_width",
    "C104_consistent"
   ],
   "note": "Width as the code's log2, shown to be the least."
  },
  {
   "property": "C105",
   "status": "proved",
   "theorems": [
    "C105_left",
    "C105_right",
    "C105_names_refuted",
    "C105_consistent"
   ],
   "note": "The names are exchanged; what the modules do is proved, that they do what they are called is refuted."
  },
  {
   "property": "C106",
   "status": "proved",
   "theorems": [
    "C106_square_root",
    "C106_consistent"
   ],
   "note": "Even widths 2n with at least n steps (the module halves the width)."
  },
  {
   "property": "C107",
   "status": "proved",
   "theorems": [
    "C107_sum",
    "C107_compare",
    "C107_hamming",
    "C107_sum_runs",
    "C107_compare_runs",
    "C107_hamming_runs"
   ],
   "note": "One cycle and several."
  },
  {
   "property": "C108",
   "status": "proved",
   "theorems": [
    "C108_mult",
    "C108_mult_cycles",
    "C108_cycles_refuted",
    "C108_runs"
   ],
   "note": "Proved for one cycle; for more the claim is refuted and what is computed is proved."
  },
  {
   "property": "C109",
   "status": "proved",
   "theorems": [
    "C109_parallel",
    "C109_serial",
    "C109_serial_element",
    "C109_by_row",
    "C109_by_row_refuted",
    "C109_by_element",
    "C109_by_element_refuted",
    "C109_parallel_runs",
    "C109_by_row_runs",
    "C109_by_element_runs",
    "C109_serial_runs"
   ],
   "note": "Versions 0 and 3; for 1 and 2 the claim is refuted and what is computed is proved."
  },
  {
   "property": "C11",
   "status": "proved",
   "theorems": [
    "C11_modes_agree"
   ],
   "note": "Separate randomness for the two modes; in last-cycle mode the low-memory result is compared with the last row of the high-memory result, except where C46 applies."
  },
  {
   "property": "C110",
   "status": "proved",
   "theorems": [
    "C110_argmax",
    "C110_encoder",
    "C110_encoder_any",
    "C110_taxicab",
    "C110_argmax_runs",
    "C110_encoder_runs",
    "C110_taxicab_runs"
   ],
   "note": "argmax, both copies of the encoder, taxicab_distance."
  },
  {
   "property": "C111",
   "status": "proved",
   "theorems": [
    "C111_farthest",
    "C111_farthest_taxicab",
    "C111_nearest_refuted",
    "C111_zero",
    "C111_zero_taxicab",
    "C111_sequential_refuted",
    "C111_sequential_taxicab_refuted",
    "C111_runs",
    "C111_taxicab_runs",
    "C111_sequential_runs",
    "C111_sequential_taxicab_runs"
   ],
   "note": "Refuted; what is computed is proved (for k nearest neighbours see C112)."
  },
  {
   "property": "C112",
   "status": "proved",
   "theorems": [
    "C112_nearest",
    "C112_nearest_taxicab",
    "C112_runs",
    "C112_taxicab_runs"
   ],
   "note": "Both metrics; the assign of o in k_nns_seq_td is read as an equation."
  },
  {
   "property": "C113",
   "status": "proved",
   "theorems": [
    "C113_non_secret",
    "C113_public",
    "C113_non_secret_runs",
    "C113_public_runs"
   ],
   "note": "Every number of cycles."
  },
  {
   "property": "C114",
   "status": "proved",
   "theorems": [
    "C114_stack",
    "C114_xor_refuted",
    "C114_memory",
    "C114_addresses",
    "C114_stack_runs",
    "C114_memory_runs"
   ],
   "note": "Exclusive or refuted."
  },
  {
   "property": "C115",
   "status": "proved",
   "theorems": [
    "C115_one_cycle",
    "C115_eleven_cycles",
    "C115_sbox",
    "C115_key_schedule",
    "C115_one_cycle_runs",
    "C115_eleven_cycles_runs"
   ],
   "note": "Both circuits; the example is the one of FIPS-197, C.1."
  },
  {
   "property": "C116",
   "status": "proved",
   "theorems": [
    "C116_state",
    "C116_round",
    "C116_rounds",
    "C116_permutation",
    "C116_block_refuted",
    "C116_reveals",
    "C116_sequential",
    "C116_sequential_refuted",
    "C116_sequential_next",
    "C116_sequential_next_refuted",
    "C116_runs",
    "C116_sequential_runs"
   ],
   "note": "sha3_comb computes Keccak-f; for sha3_seq the claim is refuted and what is computed is proved. That the output determines the inputs follows from the proof that Keccak's rounds are injective."
  },
  {
   "property": "C117",
   "status": "proved",
   "theorems": [
    "C117_product_refuted",
    "C117_power_refuted",
    "C117_product",
    "C117_product_cycles",
    "C117_power",
    "C117_residue_refuted",
    "C117_register",
    "C117_undriven",
    "C117_product_runs",
    "C117_product_cycles_runs",
    "C117_power_runs",
    "C117_register_runs"
   ],
   "note": "Refuted as the files are; what holds with the multiplexers' inputs exchanged is proved. modexp_2N_NN for CC > 2N only refuted at width 8."
  },
  {
   "property": "C118",
   "status": "proved",
   "theorems": [
    "C118_run",
    "C118_standard",
    "C118_branch_refuted",
    "C118_sltiu_refuted",
    "C118_lb_refuted",
    "C118_lh_refuted",
    "C118_mult_refuted",
    "C118_overflow_refuted",
    "C118_multiplier",
    "C118_divider_refuted",
    "C118_runs"
   ],
   "note": "LWL, LWR, SWL, SWR and undefined codes are left open by the specification; there are no delay slots."
  },
  {
   "property": "C119",
   "status": "proved",
   "theorems": [
    "C119_hamming",
    "C119_standard_refuted",
    "C119_code"
   ],
   "note": "Assembled by hand; the words are checked against the decoding of the specification."
  },
  {
   "property": "C12",
   "status": "proved",
   "theorems": [
    "C12_secret_outputs"
   ],
   "note": ""
  },
  {
   "property": "C120",
   "status": "proved",
   "theorems": [
    "C120_stable",
    "C120_finish_refuted",
    "C120_runs"
   ],
   "note": "finish refuted; the rest holds for all n."
  },
  {
   "property": "C121",
   "status": "proved",
   "theorems": [
    "C121_refuted",
    "C121_shows",
    "C121_runs"
   ],
   "note": "Refuted for all inputs, with what is shown instead."
  },
  {
   "property": "C122",
   "status": "proved",
   "theorems": [
    "C122_rotates",
    "C122_unit",
    "C122_multiplies",
    "C122_zero_refuted",
    "C122_sign_refuted",
    "C122_vector_refuted",
    "C122_hyperbolic_refuted",
    "C122_runs"
   ],
   "note": "Width 16. Shifts are logical, hence wrong for negative numbers."
  },
  {
   "property": "C123",
   "status": "proved",
   "theorems": [
    "C123_shift",
    "C123_shift_32_refuted",
    "C123_lsr_32_refuted"
   ],
   "note": "Amounts from 32 on refuted."
  },
  {
   "property": "C124",
   "status": "proved",
   "theorems": [
    "C124_alu",
    "C124_adc_flags_refuted",
    "C124_and_carry_refuted"
   ],
   "note": "Flags of operations with carry, and the carry of AND and TST, refuted."
  },
  {
   "property": "C125",
   "status": "proved",
   "theorems": [
    "C125_conditions",
    "C125_after_compare"
   ],
   "note": "All sixteen conditions."
  },
  {
   "property": "C126",
   "status": "proved",
   "theorems": [
    "C126_load_word",
    "C126_store_word",
    "C126_store_byte"
   ],
   "note": "Sizes of the arrays are arbitrary."
  },
  {
   "property": "C127",
   "status": "proved",
   "theorems": [
    "C127_reset",
    "C127_data_processing"
   ],
   "note": "ready is a relation between a state of the pipeline and a state of the architecture."
  },
  {
   "property": "C128",
   "status": "proved",
   "theorems": [
    "C128_branch",
    "C128_to_pc",
    "C128_condition_refuted"
   ],
   "note": "Conditional jumps other than branches refuted."
  },
  {
   "property": "C129",
   "status": "proved",
   "theorems": [
    "C129_transfer",
    "C129_next_instruction_refuted"
   ],
   "note": "LDR to r15 is C137; STR of r15 is not covered."
  },
  {
   "property": "C13",
   "status": "proved",
   "theorems": [
    "C13_public_output_lost",
    "C13_every_one_reported_refuted"
   ],
   "note": "The claim is refuted; the first theorem gives all affected cases."
  },
  {
   "property": "C130",
   "status": "proved",
   "theorems": [
    "C130_multiply",
    "C130_product",
    "C130_accumulate_refuted",
    "C130_again_refuted"
   ],
   "note": "MLA and multiplications in succession refuted."
  },
  {
   "property": "C131",
   "status": "proved",
   "theorems": [
    "C131_multiple"
   ],
   "note": "Not covered: the form with ^, r15 as base or stored, the base in the list of a store with write-back, a conditional load of r15 whose condition fails."
  },
  {
   "property": "C132",
   "status": "proved",
   "theorems": [
    "C132_sum"
   ],
   "note": "The machine code, on the model of the processor."
  },
  {
   "property": "C133",
   "status": "proved",
   "theorems": [
    "C133_product"
   ],
   "note": "The machine code, on the model of the processor."
  },
  {
   "property": "C134",
   "status": "proved",
   "theorems": [
    "C134_compare"
   ],
   "note": "The machine code, on the model of the processor."
  },
  {
   "property": "C135",
   "status": "proved",
   "theorems": [
    "C135_fill"
   ],
   "note": "The machine code, on the model of the processor."
  },
  {
   "property": "C136",
   "status": "proved",
   "theorems": [
    "C136_last_products",
    "C136_product_refuted"
   ],
   "note": "Refuted; what is computed is proved."
  },
  {
   "property": "C137",
   "status": "proved",
   "theorems": [
    "C137_load_pc"
   ],
   "note": "The base is not r15 if it is written; what happens if the condition does not hold is not covered."
  },
  {
   "property": "C138",
   "status": "proved",
   "theorems": [
    "C138_sort"
   ],
   "note": "The machine code, on the model of the processor."
  },
  {
   "property": "C139",
   "status": "proved",
   "theorems": [
    "C139_server_opens",
    "C139_server_closes",
    "C139_client_connects",
    "C139_client_closes",
    "C139_server_address",
    "C139_client_address",
    "C139_port",
    "C139_port_injective",
    "C139_ports_refuted"
   ],
   "note": "The kernel is represented by its answers and a table of descriptors."
  },
  {
   "property": "C14",
   "status": "proved",
   "theorems": [
    "C14_same_cycles"
   ],
   "note": ""
  },
  {
   "property": "C140",
   "status": "proved",
   "theorems": [
    "C140_server_fails",
    "C140_client_fails",
    "C140_leak_refuted",
    "C140_listen_refuted",
    "C140_attempts",
    "C140_address_overflow_refuted"
   ],
   "note": "Refuted; what stays open is proved."
  },
  {
   "property": "C141",
   "status": "proved",
   "theorems": [
    "C141_distance"
   ],
   "note": "The machine code, on the model of the processor."
  },
  {
   "property": "C142",
   "status": "proved",
   "theorems": [
    "C142_as_in_c",
    "C142_angles"
   ],
   "note": "The machine code, on the model of the processor."
  },
  {
   "property": "C143",
   "status": "proved",
   "theorems": [
    "C143_sum"
   ],
   "note": "The machine code, on the model of the processor."
  },
  {
   "property": "C144",
   "status": "proved",
   "theorems": [
    "C144_runs",
    "C144_parties",
    "C144_ports",
    "C144_ports_refuted"
   ],
   "note": "With TIMING_EVAL 1; the files are lists of words."
  },
  {
   "property": "C145",
   "status": "proved",
   "theorems": [
    "C145_without_end",
    "C145_bad_number",
    "C145_zero_cycles",
    "C145_ends_refuted",
    "C145_sums",
    "C145_empty_run_refuted"
   ],
   "note": "Refuted for other files and outputs; the arithmetic of type double is not modelled."
  },
  {
   "property": "C146",
   "status": "proved",
   "theorems": [
    "C146_printed",
    "C146_fill_refuted",
    "C146_left_refuted"
   ],
   "note": "For streams without the flag left; the flags showbase and uppercase are off. Refuted: the fill character is not restored."
  },
  {
   "property": "C147",
   "status": "proved",
   "theorems": [
    "C147_dumps",
    "C147_logs",
    "C147_others",
    "C147_parties",
    "C147_unknown_dump",
    "C147_unknown_code",
    "C147_finish",
    "C147_same_second_refuted",
    "C147_directory_refuted"
   ],
   "note": "With ENABLE_DUMP and ENABLE_LOG; which files can be opened does not change during a run."
  },
  {
   "property": "C148",
   "status": "proved",
   "theorems": [
    "C148_garble",
    "C148_eval",
    "C148_once_refuted",
    "C148_ends_refuted",
    "C148_half_refuted"
   ],
   "note": "The text printed for a gate is a record of its number and labels; nothing in /repo calls the two functions."
  },
  {
   "property": "C149",
   "status": "proved",
   "theorems": [
    "C149_fulladd",
    "C149_add",
    "C149_sub",
    "C149_neg",
    "C149_compare",
    "C149_equal",
    "C149_mixed",
    "C149_mixed_refuted"
   ],
   "note": "$pos and $bu0, which yosys maps itself, extend by the sign or by zero."
  },
  {
   "property": "C15",
   "status": "proved",
   "theorems": [
    "C15_secret_terminate_deadlocks",
    "C15_never_returns",
    "C15_always_finish_refuted"
   ],
   "note": "The claim is refuted; every circuit with a secret terminate signal deadlocks."
  },
  {
   "property": "C150",
   "status": "proved",
   "theorems": [
    "C150_mul",
    "C150_div",
    "C150_div_zero",
    "C150_shift",
    "C150_shl",
    "C150_shr",
    "C150_sshr"
   ],
   "note": "The operators + and - inside $__arraymul and $__div_mod_u are arithmetic modulo 2^WIDTH, the comparison there is exact."
  },
  {
   "property": "C151",
   "status": "proved",
   "theorems": [
    "C151_none",
    "C151_some",
    "C151_one",
    "C151_safe_none",
    "C151_safe_one",
    "C151_safe_many",
    "C151_two_refuted"
   ],
   "note": ""
  },
  {
   "property": "C152",
   "status": "proved",
   "theorems": [
    "C152_cells",
    "C152_lacks",
    "C152_small",
    "C152_small_refuted",
    "C152_dff_zero",
    "C152_dff_one",
    "C152_dff_refuted"
   ],
   "note": "C152_small is about a program built with ENABLE_LOG; C152_small_case shows what happens without. The attribute function is read as the Liberty format says, by a reader of the model: those of yosys and abc are not in /repo. The flip-flop is compared with I held and RST active before the first cycle."
  },
  {
   "property": "C16",
   "status": "proved",
   "theorems": [
    "C16_base_ot",
    "C16_rsa_keys"
   ],
   "note": "Two processes over FIFO byte streams; any working RSA key of at most 1024 bits (C16_rsa_keys: every RSA key works), any draws, any number of messages below 2^32."
  },
  {
   "property": "C17",
   "status": "proved",
   "theorems": [
    "C17_choice_hidden"
   ],
   "note": "Each choice is explained by exactly one residue; see C45 for the distribution of the draws."
  },
  {
   "property": "C18",
   "status": "proved",
   "theorems": [
    "C18_ot_extension"
   ],
   "note": "Any digest function; covers more than 1024 transfers as well."
  },
  {
   "property": "C19",
   "status": "proved",
   "theorems": [
    "C19_transpose",
    "C19_transpose_pairs"
   ],
   "note": ""
  },
  {
   "property": "C20",
   "status": "proved",
   "theorems": [
    "C20_hash_input_refuted"
   ],
   "note": "The claim is refuted."
  },
  {
   "property": "C21",
   "status": "proved",
   "theorems": [
    "C21_send_recv_bn"
   ],
   "note": "The sign is lost, every magnitude below 2^30 bytes arrives."
  },
  {
   "property": "C22",
   "status": "proved",
   "theorems": [
    "C22_block_bn",
    "C22_bn_block"
   ],
   "note": ""
  },
  {
   "property": "C23",
   "status": "proved",
   "theorems": [
    "C23_send_ok",
    "C23_send_exact",
    "C23_send_fail",
    "C23_recv_ok",
    "C23_recv_exact",
    "C23_recv_fail",
    "C23_programs",
    "C23_programs_sound"
   ],
   "note": ""
  },
  {
   "property": "C24",
   "status": "proved",
   "theorems": [
    "C24_schedule_independent",
    "C24_outcome_unique"
   ],
   "note": ""
  },
  {
   "property": "C25",
   "status": "proved",
   "theorems": [
    "C25_end_to_end",
    "C25_no_mask",
    "C25_full_mask"
   ],
   "note": "Over arbitrary AES and SHA functions, under every schedule, given no label collision in the run."
  },
  {
   "property": "C26",
   "status": "proved",
   "theorems": [
    "C06_needed_gates",
    "C26_colour_bits"
   ],
   "note": ""
  },
  {
   "property": "C27",
   "status": "proved",
   "theorems": [
    "C27_inputs_recoverable_refuted",
    "C27_labels_sent"
   ],
   "note": "The confidentiality claim is refuted: the stated procedure recovers the garbler's inputs."
  },
  {
   "property": "C28",
   "status": "proved",
   "theorems": [
    "C28_half_comparison_refuted"
   ],
   "note": "The claim is refuted with a concrete honest session."
  },
  {
   "property": "C29",
   "status": "proved",
   "theorems": [
    "C29_labels_hide",
    "C27_labels_sent"
   ],
   "note": "For uniform label draws independent of the key, which the shipped generator does not give (C27)."
  },
  {
   "property": "C30",
   "status": "proved",
   "theorems": [
    "C30_plaintext",
    "C30_semantics_exists",
    "C30_semantics_unique"
   ],
   "note": ""
  },
  {
   "property": "C31",
   "status": "proved",
   "theorems": [
    "C31_topological_sort"
   ],
   "note": ""
  },
  {
   "property": "C32",
   "status": "proved",
   "theorems": [
    "C32_sorting_keeps_meaning"
   ],
   "note": "translatable excludes constant outputs (C35) and netlists without input or register (C47)."
  },
  {
   "property": "C33",
   "status": "proved",
   "theorems": [
    "C33_cells",
    "C53_verilog"
   ],
   "note": "Stated for the parser on whole modules: valuations of the gates emitted are exactly the valuations of the cells."
  },
  {
   "property": "C34",
   "status": "proved",
   "theorems": [
    "C34_round_trip"
   ],
   "note": "Numbers within the ranges of their C types."
  },
  {
   "property": "C35",
   "status": "proved",
   "theorems": [
    "C35_constant_output",
    "C35_constant_output_refuted"
   ],
   "note": "The claim is refuted; the first theorem covers every netlist with a constant output."
  },
  {
   "property": "C36",
   "status": "proved",
   "theorems": [
    "C36_numbering"
   ],
   "note": ""
  },
  {
   "property": "C37",
   "status": "proved",
   "theorems": [
    "C37_consecutive",
    "C37_separated_clock",
    "C37_last_clock"
   ],
   "note": "Outputs of all cycles together below 2^31 bits in the two modes that shift (the shift distance is an int)."
  },
  {
   "property": "C38",
   "status": "proved",
   "theorems": [
    "C38_hex2bin",
    "C38_bin2hex",
    "C38_format",
    "C38_parse",
    "C38_round_trip",
    "C38_mask",
    "C38_long_strings_refuted",
    "C38_least_number_refuted"
   ],
   "note": "Proved for strings below 2^16-4 bits; refuted for longer ones and for the least 64-bit number."
  },
  {
   "property": "C39",
   "status": "proved",
   "theorems": [
    "C39_low_bit_alternates",
    "C39_colours_leak"
   ],
   "note": "The confidentiality claim is refuted."
  },
  {
   "property": "C40",
   "status": "proved",
   "theorems": [
    "C40_logged_recv_bn",
    "C40_unlogged_refuted"
   ],
   "note": "The claim is refuted at RecvBN; with logging it holds."
  },
  {
   "property": "C41",
   "status": "proved",
   "theorems": [
    "C41_oversized_count",
    "C41_buffer_safe_refuted"
   ],
   "note": "The claim is refuted."
  },
  {
   "property": "C42",
   "status": "proved",
   "theorems": [
    "C42_failure_reported_refuted",
    "C42_zeros_printed"
   ],
   "note": "The claim is refuted; without the files every valid call prints zeros."
  },
  {
   "property": "C43",
   "status": "proved",
   "theorems": [
    "C43_long_message_refuted"
   ],
   "note": "The claim is refuted."
  },
  {
   "property": "C44",
   "status": "proved",
   "theorems": [
    "C44_extension_leak_refuted"
   ],
   "note": "The claim is refuted."
  },
  {
   "property": "C45",
   "status": "proved",
   "theorems": [
    "C45_choice_biased_refuted"
   ],
   "note": "The claim is refuted."
  },
  {
   "property": "C46",
   "status": "proved",
   "theorems": [
    "C46_modes_agree_last_cycle_refuted"
   ],
   "note": "The claim is refuted."
  },
  {
   "property": "C47",
   "status": "proved",
   "theorems": [
    "C47_wire_zero_refuted"
   ],
   "note": "The claim is refuted by a Verilog text."
  },
  {
   "property": "C48",
   "status": "proved",
   "theorems": [
    "C48_tweaks_distinct",
    "C48_garbling_points"
   ],
   "note": ""
  },
  {
   "property": "C49",
   "status": "proved",
   "theorems": [
    "C49_table_hides"
   ],
   "note": "For one gate; the four blocks hashed are distinct."
  },
  {
   "property": "C50",
   "status": "proved",
   "theorems": [
    "C50_assign_order_refuted",
    "C50_assignment"
   ],
   "note": "The claim is refuted; what a single assignment does is proved."
  },
  {
   "property": "C51",
   "status": "proved",
   "theorems": [
    "C51_undriven_net_refuted"
   ],
   "note": "The claim is refuted."
  },
  {
   "property": "C52",
   "status": "proved",
   "theorems": [
    "C52_parser_ends",
    "C52_unfinished_file_refuted"
   ],
   "note": "Positive part and refutation, both for all texts."
  },
  {
   "property": "C53",
   "status": "proved",
   "theorems": [
    "C53_verilog"
   ],
   "note": ""
  },
  {
   "property": "C54",
   "status": "proved",
   "theorems": [
    "C54_loops"
   ],
   "note": ""
  },
  {
   "property": "C55",
   "status": "proved",
   "theorems": [
    "C55_programs"
   ],
   "note": "Hypotheses of C25 (no 64-bit label collisions, public terminate signal, no public 1 hidden by the mask) and fewer than 2^31 output bits."
  },
  {
   "property": "C56",
   "status": "proved",
   "theorems": [
    "C56_same_text",
    "C56_plain_program"
   ],
   "note": "Hypotheses as for C55, mask 0."
  },
  {
   "property": "C57",
   "status": "proved",
   "theorems": [
    "C57_verilog_to_output"
   ],
   "note": "C53 composed with C55."
  },
  {
   "property": "C58",
   "status": "proved",
   "theorems": [
    "C58_bristol",
    "C58_passthrough_refuted"
   ],
   "note": "For circuits whose outputs are gates; refuted when an output is an input wire."
  },
  {
   "property": "C59",
   "status": "proved",
   "theorems": [
    "C59_cut"
   ],
   "note": "Numbers in the file below 2^64."
  },
  {
   "property": "C60",
   "status": "proved",
   "theorems": [
    "C60_bristol_to_output"
   ],
   "note": "C58 composed with C55."
  },
  {
   "property": "C61",
   "status": "proved",
   "theorems": [
    "C61_mapping"
   ],
   "note": "For well named netlists without combinational loop, as for the translator."
  },
  {
   "property": "C62",
   "status": "proved",
   "theorems": [
    "C62_trace",
    "C62_same_result",
    "C62_every_cycle_refuted",
    "C62_every_net_refuted"
   ],
   "note": "The rows and columns that are written are proved right; that every executed cycle and every net is in the trace is refuted."
  },
  {
   "property": "C63",
   "status": "proved",
   "theorems": [
    "C63_verilog",
    "C63_bristol"
   ],
   "note": "Fewer than 2^31 wires (atoi reads an int)."
  },
  {
   "property": "C64",
   "status": "proved",
   "theorems": [
    "C64_tables_independent"
   ],
   "note": "The cipher is an arbitrary function and part of the coins. Usable coins: odd offset, no 64-bit label collision seen by the garbler, no block encrypted twice."
  },
  {
   "property": "C65",
   "status": "proved",
   "theorems": [
    "C65_evaluator_independent",
    "C65_sessions_honest"
   ],
   "note": "With the hypothesis that no block the evaluator encrypts is one of an inactive label."
  },
  {
   "property": "C66",
   "status": "proved",
   "theorems": [
    "C66_input_file",
    "C66_circuit_inputs",
    "C66_direct_value",
    "C66_direct_value_refuted"
   ],
   "note": "Lines ended by LF, all of the same number of digits, fewer than 2^29 digits in all; an example shows what happens with CR LF. A value given directly is used as it is if no file has that name, and is refuted otherwise."
  },
  {
   "property": "C67",
   "status": "proved",
   "theorems": [
    "C67_mains",
    "C67_plain_main"
   ],
   "note": "Same hypotheses on the run as C55. Option parsing by boost and the socket set-up are not modelled."
  },
  {
   "property": "C68",
   "status": "proved",
   "theorems": [
    "C68_status_with_log",
    "C68_status_without_log",
    "C68_status_refuted",
    "C68_plain_status_refuted"
   ],
   "note": "Proved for the build with logging, refuted for the build without."
  },
  {
   "property": "C69",
   "status": "proved",
   "theorems": [
    "C69_check",
    "C69_reads_beyond_buffer",
    "C69_check_refuted"
   ],
   "note": "Under the hypothesis that a zero byte follows the buffer; refuted without it."
  },
  {
   "property": "C70",
   "status": "proved",
   "theorems": [
    "C70_mismatch_noticed_refuted",
    "C70_output_lost",
    "C70_output_stuck"
   ],
   "note": "Refuted, with what happens instead."
  },
  {
   "property": "C71",
   "status": "proved",
   "theorems": [
    "C71_block_text",
    "C71_round_trip",
    "C71_only_numerals_refuted"
   ],
   "note": "Reading is proved right on proper texts; rejection of other texts is refuted."
  },
  {
   "property": "C72",
   "status": "proved",
   "theorems": [
    "C72_icompare",
    "C72_icompare_text"
   ],
   "note": ""
  },
  {
   "property": "C73",
   "status": "proved",
   "theorems": [
    "C73_ot_main"
   ],
   "note": "Selections written in decimal below 2^31, key and draws of the sizes that the code produces, RSA as permutation of the residues (key_ok)."
  },
  {
   "property": "C74",
   "status": "proved",
   "theorems": [
    "C74_key_schedule"
   ],
   "note": "The memory behind a 192-bit key must be readable for 8 bytes (see C78)."
  },
  {
   "property": "C75",
   "status": "proved",
   "theorems": [
    "C75_encryption"
   ],
   "note": ""
  },
  {
   "property": "C76",
   "status": "proved",
   "theorems": [
    "C76_decryption"
   ],
   "note": ""
  },
  {
   "property": "C77",
   "status": "proved",
   "theorems": [
    "C77_blocks",
    "C77_permutation"
   ],
   "note": "Permutation as injectivity on a finite set."
  },
  {
   "property": "C78",
   "status": "proved",
   "theorems": [
    "C78_key_192_in_bounds_refuted",
    "C78_key_192_rest",
    "C78_other_length"
   ],
   "note": "Refuted for 192 bits, with what does hold."
  },
  {
   "property": "C79",
   "status": "proved",
   "theorems": [
    "C79_double",
    "C79_shifts_refuted"
   ],
   "note": "Doubling proved, shifts refuted. None of these functions is used by the rest of the code."
  },
  {
   "property": "C80",
   "status": "proved",
   "theorems": [
    "C80_quick_sort",
    "C80_level_exists",
    "C80_top_sort",
    "C80_level_refuted",
    "C80_no_gates_refuted"
   ],
   "note": "Sorting proved; two expectations refuted. Levels as int64 without overflow."
  },
  {
   "property": "C81",
   "status": "proved",
   "theorems": [
    "C81_schedule",
    "C81_loop",
    "C81_parallel_refuted"
   ],
   "note": "Arrays of cores large enough; references of gates, registers and outputs in range."
  },
  {
   "property": "C82",
   "status": "proved",
   "theorems": [
    "C82_find_path",
    "C82_dead_refuted"
   ],
   "note": "The exact condition is proved; the reading as a test for loops is refuted."
  },
  {
   "property": "C83",
   "status": "proved",
   "theorems": [
    "C83_keeps_meaning",
    "C83_terminate_refuted"
   ],
   "note": "Proved for terminate wires that are not driven by a gate, refuted otherwise. Nothing in the repository calls this function."
  },
  {
   "property": "C84",
   "status": "proved",
   "theorems": [
    "C84_verilog",
    "C84_bristol",
    "C84_loop"
   ],
   "note": "Both files can be opened and there is room for them; fewer than 2^31 wires."
  },
  {
   "property": "C85",
   "status": "proved",
   "theorems": [
    "C85_plain",
    "C85_mains"
   ],
   "note": "The garbled run under the conditions of C67."
  },
  {
   "property": "C86",
   "status": "proved",
   "theorems": [
    "C86_status",
    "C86_failure_clean_refuted",
    "C86_after_failure_refuted",
    "C86_success_written_refuted"
   ],
   "note": "The mapping file is written first and stays if the circuit cannot be written; write errors are not checked."
  },
  {
   "property": "C87",
   "status": "proved",
   "theorems": [
    "C87_bubble_sort"
   ],
   "note": "Any number of elements."
  },
  {
   "property": "C88",
   "status": "proved",
   "theorems": [
    "C88_merge_sort_refuted",
    "C88_merge_rearranges"
   ],
   "note": "That the result is sorted is refuted, also by the test vector in the repository; that it is a rearrangement of the input, without access outside the arrays, is proved for any length, given enough stack."
  },
  {
   "property": "C89",
   "status": "proved",
   "theorems": [
    "C89_distances",
    "C89_large_weights_refuted"
   ],
   "note": "Weights from 0 to 2^31 - 32768; 0 stands for no edge and 32767 for unreachable. Larger weights overflow (refuted)."
  },
  {
   "property": "C90",
   "status": "proved",
   "theorems": [
    "C90_sum_arm",
    "C90_sum_c",
    "C90_sum_c_undefined",
    "C90_compare_arm",
    "C90_compare_c",
    "C90_versions_agree_refuted"
   ],
   "note": "The inline assembly is modelled by the meaning of its four instructions. The versions in C: sum up to overflow of int, comparison where the words have equal signs; beyond that refuted."
  },
  {
   "property": "C91",
   "status": "proved",
   "theorems": [
    "C91_hamming",
    "C91_hamming_small",
    "C91_any_size_refuted"
   ],
   "note": "Exact result for all sizes; the distance for 1, 2 or 4 words (the file has 1), refuted for other sizes."
  },
  {
   "property": "C92",
   "status": "proved",
   "theorems": [
    "C92_sbox",
    "C92_sbox_main",
    "C92_arrays_too_small",
    "C92_as_declared_refuted"
   ],
   "note": "The circuit is the S-box of FIPS-197 if the arrays have room; as declared, the code writes outside two of them."
  },
  {
   "property": "C93",
   "status": "proved",
   "theorems": [
    "C93_aes",
    "C93_aes_arrays_too_small"
   ],
   "note": "Given room in the arrays of the S-box, see C92."
  },
  {
   "property": "C94",
   "status": "proved",
   "theorems": [
    "C94_sha3",
    "C94_sha3_main",
    "C94_whole_block",
    "C94_long_collides"
   ],
   "note": "Messages of fewer than 136 bytes, which is what the comment in the code promises; what happens from 136 bytes on is proved too."
  },
  {
   "property": "C95",
   "status": "proved",
   "theorems": [
    "C95_cordic",
    "C95_cordic_main",
    "C95_outside_range_refuted"
   ],
   "note": "Sine and cosine are those of Coq's library of the reals, with its four axioms. Accuracy for angles up to PI/2, absence of overflow for all; accuracy beyond refuted."
  },
  {
   "property": "C96",
   "status": "proved",
   "theorems": [
    "C96_mul",
    "C96_matrix"
   ],
   "note": "With and without wrap-around of int."
  },
  {
   "property": "C97",
   "status": "proved",
   "theorems": [
    "C97_functional_test",
    "C97_test_of_sum",
    "C97_test_of_mul",
    "C97_missing_files",
    "C97_missing_reported_refuted"
   ],
   "note": "For an arbitrary program under test, with sum and mul as instances. That missing files are noticed is refuted."
  },
  {
   "property": "C98",
   "status": "proved",
   "theorems": [
    "C98_temp",
    "C98_temp_outside",
    "C98_mem_test"
   ],
   "note": "temp.c as declared (32 words into an array of one) writes outside."
  },
  {
   "property": "C99",
   "status": "proved",
   "theorems": [
    "C99_test_passes",
    "C99_test_compares",
    "C99_run",
    "C99_status_with_log",
    "C99_missing_netlist",
    "C99_reports_refuted"
   ],
   "note": "Requirements of the protocol as in C56. That the exit status tells in builds without logging is refuted."
  }
 ]
}