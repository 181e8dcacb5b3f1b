{
 "claims": [
  {
   "property": "C01",
   "status": "proved",
   "theorems": [
    "C01_gf256_is_the_aes_field"
   ],
   "note": ""
  },
  {
   "property": "C02",
   "status": "proved",
   "theorems": [
    "C02_threshold_shares_recover_secret",
    "C02_shares_are_polynomial_values"
   ],
   "note": ""
  },
  {
   "property": "C03",
   "status": "proved",
   "theorems": [
    "C03_fewer_shares_reveal_nothing"
   ],
   "note": ""
  },
  {
   "property": "C04",
   "status": "proved",
   "theorems": [
    "C04_share_creation_errors",
    "C04_share_recovery_accepts_exactly",
    "C04_share_recovery_error_kinds"
   ],
   "note": "Release-build semantics: share index 2^64-1 wraps to evaluation point 0 instead of being refused; the acceptance condition states this exactly."
  },
  {
   "property": "C05",
   "status": "proved",
   "theorems": [
    "C05_split_acceptance",
    "C05_recombination"
   ],
   "note": ""
  },
  {
   "property": "C06",
   "status": "proved",
   "theorems": [
    "C06_and_parts_are_individually_useless"
   ],
   "note": ""
  },
  {
   "property": "C07",
   "status": "proved",
   "theorems": [
    "C07_sufficient_credentials_open"
   ],
   "note": ""
  },
  {
   "property": "C08",
   "status": "proved",
   "theorems": [
    "C08_insufficient_credentials_are_refused"
   ],
   "note": ""
  },
  {
   "property": "C09",
   "status": "proved",
   "theorems": [
    "C09_order_and_repetition_do_not_matter",
    "C09_extra_credentials_do_not_hurt"
   ],
   "note": ""
  },
  {
   "property": "C10",
   "status": "proved",
   "theorems": [
    "C10_nonces_are_never_reused"
   ],
   "note": ""
  },
  {
   "property": "C11",
   "status": "proved",
   "theorems": [
    "C11_header_hides_recipient_types"
   ],
   "note": ""
  },
  {
   "property": "C12",
   "status": "proved",
   "theorems": [
    "C12_protected_header_has_constant_size"
   ],
   "note": ""
  },
  {
   "property": "C13",
   "status": "proved",
   "theorems": [
    "C13_framed_header_is_read_back",
    "C13_write_header_writes_the_frame",
    "C13_oversized_header_is_refused"
   ],
   "note": ""
  },
  {
   "property": "C14",
   "status": "proved",
   "theorems": [
    "C14_accepted_framing_is_canonical",
    "C14_other_framing_is_rejected",
    "C14_reading_never_panics",
    "C14_frames_are_unambiguous"
   ],
   "note": ""
  },
  {
   "property": "C15",
   "status": "proved",
   "theorems": [
    "C15_file_header_round_trips",
    "C15_protected_header_round_trips",
    "C15_encodings_are_distinct"
   ],
   "note": ""
  },
  {
   "property": "C16",
   "status": "proved",
   "theorems": [
    "C16_generated_chunk_sizes_are_valid",
    "C16_every_size_in_the_range_occurs",
    "C16_decryption_refuses_invalid_chunk_sizes",
    "C16_every_size_is_equally_likely",
    "C16_drawn_numbers_are_admissible",
    "C16_ranges_are_drawn_without_bias"
   ],
   "note": ""
  },
  {
   "property": "C17",
   "status": "proved",
   "theorems": [
    "C17_reader_emits_the_split",
    "C17_read_error_keeps_complete_chunks",
    "C17_split_exists_and_is_unique",
    "C17_converter_sees_the_split"
   ],
   "note": ""
  },
  {
   "property": "C18",
   "status": "proved",
   "theorems": [
    "C18_stream_round_trip",
    "C18_encryption_succeeds"
   ],
   "note": ""
  },
  {
   "property": "C19",
   "status": "proved",
   "theorems": [
    "C19_encrypted_size"
   ],
   "note": ""
  },
  {
   "property": "C20",
   "status": "proved",
   "theorems": [
    "C20_tampering_is_detected",
    "C20_only_authentic_prefixes_are_written_at_any_moment",
    "C20_modified_streams_are_refused"
   ],
   "note": ""
  },
  {
   "property": "C21",
   "status": "proved",
   "theorems": [
    "C21_modified_files_are_detected"
   ],
   "note": ""
  },
  {
   "property": "C22",
   "status": "proved",
   "theorems": [
    "C22_file_round_trip",
    "C22_insufficient_credentials_write_nothing",
    "C22_encryption_writes_a_file"
   ],
   "note": ""
  },
  {
   "property": "C23",
   "status": "proved",
   "theorems": [
    "C23_output_is_always_a_prefix_of_the_sequential_output",
    "C23_final_output_is_the_sequential_output"
   ],
   "note": ""
  },
  {
   "property": "C24",
   "status": "proved",
   "theorems": [
    "C24_no_deadlock",
    "C24_every_execution_is_finite",
    "C24_call_always_returns"
   ],
   "note": ""
  },
  {
   "property": "C25",
   "status": "proved",
   "theorems": [
    "C25_memory_is_bounded",
    "C25_main_loop_never_panics"
   ],
   "note": ""
  },
  {
   "property": "C26",
   "status": "proved",
   "theorems": [
    "C26_success_iff_no_stage_fails",
    "C26_error_comes_from_a_failing_stage",
    "C26_write_loops",
    "C26_write_loops_success",
    "C26_every_room"
   ],
   "note": ""
  },
  {
   "property": "C27",
   "status": "proved",
   "theorems": [
    "C27_progress_never_exceeds_the_input",
    "C27_progress_sums_to_the_input"
   ],
   "note": ""
  },
  {
   "property": "C28",
   "status": "proved",
   "theorems": [
    "C28_existing_files_survive",
    "C28_command_lines"
   ],
   "note": "Interruption means the death of the process at any moment; loss of power (missing fsync) and other processes are outside the model."
  },
  {
   "property": "C29",
   "status": "proved",
   "theorems": [
    "C29_failed_conversions_leave_nothing",
    "C29_aborts_leave_nothing_refuted",
    "C29_only_outputs_are_created"
   ],
   "note": "For every result but a panic. Aborts of the progress display (C44) leave the unfinished output: see the refutation."
  },
  {
   "property": "C30",
   "status": "proved",
   "theorems": [
    "C30_original_or_conversion_at_every_moment",
    "C30_chains_of_files_refuted"
   ],
   "note": "For runs in which no file is both input and output, as in the quantifier; a witness shows that the condition is needed."
  },
  {
   "property": "C31",
   "status": "proved",
   "theorems": [
    "C31_success_means_all_converted",
    "C31_failure_means_some_not_converted",
    "C31_only_failures_are_reported",
    "C31_failures_do_not_matter_to_others",
    "C31_exit_status"
   ],
   "note": "The converse holds for outputs with distinct names; the removal of inputs does not count."
  },
  {
   "property": "C32",
   "status": "proved",
   "theorems": [
    "C32_only_plain_files_are_processed",
    "C32_directories_are_refused",
    "C32_stream_mode_changes_no_file",
    "C32_command_lines"
   ],
   "note": "Open and symlink_metadata are separate calls in the code; replacement of the file between them by other processes is outside the model."
  },
  {
   "property": "C33",
   "status": "proved",
   "theorems": [
    "C33_encrypted_name",
    "C33_names_come_back",
    "C33_encrypted_names_differ",
    "C33_decrypted_name",
    "C33_decrypted_names_differ",
    "C33_encrypted_names_differ_refuted",
    "C33_output_is_not_the_input_refuted",
    "C33_names_come_back_refuted"
   ],
   "note": "The statement without conditions on dots and suffixes is refuted by three witnesses; proved under the conditions in the statement."
  },
  {
   "property": "C34",
   "status": "proved",
   "theorems": [
    "C34_no_ciphertext_on_a_terminal",
    "C34_refused_only_for_terminals"
   ],
   "note": ""
  },
  {
   "property": "C35",
   "status": "proved",
   "theorems": [
    "C35_last_mode_wins",
    "C35_greatest_position_wins",
    "C35_help_without_arguments",
    "C35_order_within_an_argument_refuted"
   ],
   "note": "Refuted only for mode flags that share an argument."
  },
  {
   "property": "C36",
   "status": "proved",
   "theorems": [
    "C36_spelled_credentials_are_accepted",
    "C36_accepted_arguments_spell_the_credential",
    "C36_never_aborts",
    "C36_accepted_credentials_are_wf_refuted"
   ],
   "note": "The unconditional converse is refuted by a witness (share counts that overflow usize); proved for counts that fit."
  },
  {
   "property": "C37",
   "status": "proved",
   "theorems": [
    "C37_accepted_lists_are_flat",
    "C37_flat_lists_are_accepted",
    "C37_combinators_and_public_keys_are_refused",
    "C37_only_private_key_files_crash"
   ],
   "note": ""
  },
  {
   "property": "C38",
   "status": "proved",
   "theorems": [
    "C38_password_confirmed",
    "C38_every_confirmed_password_is_accepted",
    "C38_no_prompt_without_terminal"
   ],
   "note": ""
  },
  {
   "property": "C39",
   "status": "proved",
   "theorems": [
    "C39_prompt_reads_one_line",
    "C39_every_line_is_accepted",
    "C39_prompt_never_aborts"
   ],
   "note": ""
  },
  {
   "property": "C40",
   "status": "proved",
   "theorems": [
    "C40_accepts_exactly_the_checksummed_text",
    "C40_printed_keys_read_back",
    "C40_altered_letter_case_is_refused",
    "C40_unchecked_parsing"
   ],
   "note": ""
  },
  {
   "property": "C41",
   "status": "proved",
   "theorems": [
    "C41_generated_key_files_read_back"
   ],
   "note": ""
  },
  {
   "property": "C42",
   "status": "proved",
   "theorems": [
    "C42_existing_files_survive",
    "C42_public_files_are_public",
    "C42_coinciding_names_refuted"
   ],
   "note": "Refuted when a private key name coincides with a public one and force is given; proved otherwise."
  },
  {
   "property": "C43",
   "status": "proved",
   "theorems": [
    "C43_durations_denote_the_seconds",
    "C43_sizes_denote_the_bytes"
   ],
   "note": "The exact value lies in [1,1024) of its unit; the printed, rounded number can still read 1024.00."
  },
  {
   "property": "C44",
   "status": "proved",
   "theorems": [
    "C44_progress_never_aborts_refuted",
    "C44_progress_never_aborts_while_data_flows"
   ],
   "note": "The unconditional claim is refuted by a family of witnesses (division by zero when the measured speed is 0); proved: no abort while data flows or when the size is unknown."
  },
  {
   "property": "C45",
   "status": "proved",
   "theorems": [
    "C45_malformed_private_keys_are_rejected_refuted",
    "C45_only_split_characters_crash",
    "C45_other_key_files_never_crash",
    "C45_accepted_keys_have_the_right_length"
   ],
   "note": "The unconditional claim is refuted by a witness (split_at inside a character); proved instead: exactly which lines crash, and that no other key file does."
  },
  {
   "property": "C46",
   "status": "proved",
   "theorems": [
    "C46_malformed_headers_refuted",
    "C46_panics_only_on_malformed_groups",
    "C46_no_panic_when_nothing_opens",
    "C46_honest_headers_never_panic"
   ],
   "note": "The unconditional claim is refuted (C46_malformed_headers_refuted); proved instead: the only causes of a panic, no panic when nothing opens, no panic on honest headers. Stack exhaustion by deeply nested messages is outside the model."
  },
  {
   "property": "C47",
   "status": "proved",
   "theorems": [
    "C47_files_are_kept_unless_requested",
    "C47_yes_must_be_typed",
    "C47_every_answer_is_understood",
    "C47_no_question_without_terminal"
   ],
   "note": ""
  },
  {
   "property": "C48",
   "status": "proved",
   "theorems": [
    "C48_arguments_in_order",
    "C48_merged_arguments_are_refused_or_unordered"
   ],
   "note": "Options that share one argument are refused, or all of them are in a single argument and then the result does not depend on the order."
  },
  {
   "property": "C49",
   "status": "proved",
   "theorems": [
    "C49_oversized_schemes_are_refused_refuted",
    "C49_oversized_schemes_are_refused_without_overflow"
   ],
   "note": "The unconditional claim is refuted by a witness; proved when the product does not overflow."
  },
  {
   "property": "C50",
   "status": "proved",
   "theorems": [
    "C50_encryption_accepts_exactly_realisable_expressions"
   ],
   "note": ""
  },
  {
   "property": "C51",
   "status": "proved",
   "theorems": [
    "C51_progress_lines_are_truthful"
   ],
   "note": ""
  },
  {
   "property": "C52",
   "status": "proved",
   "theorems": [
    "C52_passwords_stay_hidden",
    "C52_killed_during_the_dialogue_refuted"
   ],
   "note": ""
  },
  {
   "property": "C53",
   "status": "proved",
   "theorems": [
    "C53_progress_does_not_mix_with_data",
    "C53_with_verbosity_refuted"
   ],
   "note": "Refuted when -v is given, where the code leaves progress enabled."
  },
  {
   "property": "C54",
   "status": "proved",
   "theorems": [
    "C54_force_touches_only_named_files",
    "C54_key_generation_touches_only_named_files"
   ],
   "note": ""
  },
  {
   "property": "C55",
   "status": "proved",
   "theorems": [
    "C55_generated_pairs_are_complete"
   ],
   "note": ""
  },
  {
   "property": "C56",
   "status": "proved",
   "theorems": [
    "C56_every_run_ends",
    "C56_nothing_fails_without_reason",
    "C56_encryption_does_not_depend_on_the_file",
    "C56_exit_status",
    "C56_streams_do_not_fail_without_reason"
   ],
   "note": "Success is relative to an operating system that does what it is asked (faulty = false) and to progress reports in range (stalls = false)."
  },
  {
   "property": "C57",
   "status": "proved",
   "theorems": [
    "C57_there_and_back",
    "C57_decryption_restores_files"
   ],
   "note": "Up to accidental collisions of key encapsulations (no_accident), as in C05."
  },
  {
   "property": "C58",
   "status": "proved",
   "theorems": [
    "C58_crashes_have_known_reasons",
    "C58_encryption_never_crashes"
   ],
   "note": "The interface owns the standard input at the start of the program (u_input is not None), as main.rs arranges."
  },
  {
   "property": "C59",
   "status": "proved",
   "theorems": [
    "C59_insufficient_credentials_reveal_nothing",
    "C59_needs_insufficient_credentials"
   ],
   "note": "In the ideal world of HideSpec: under unknown keys the ciphers encrypt zeros. The step from real ciphers to this world is the cryptographic assumption and is not proved."
  },
  {
   "property": "C60",
   "status": "proved",
   "theorems": [
    "C60_only_the_length_is_revealed"
   ],
   "note": "In the same ideal world as C59, for an unknown payload key."
  },
  {
   "property": "C61",
   "status": "proved",
   "theorems": [
    "C61_files_use_the_keys_drawn_for_them"
   ],
   "note": "That the random number generator is unpredictable is outside the model."
  },
  {
   "property": "C62",
   "status": "proved",
   "theorems": [
    "C62_accepted_headers"
   ],
   "note": ""
  },
  {
   "property": "C63",
   "status": "proved",
   "theorems": [
    "C63_file_headers_follow_the_schema",
    "C63_protected_headers_follow_the_schema",
    "C63_written_headers_follow_the_schema",
    "C63_unknown_fields_are_ignored"
   ],
   "note": "The protobuf wire format is specified in WireSpec.v independently of the codec; prost itself is external and modelled in Proto.v."
  },
  {
   "property": "C64",
   "status": "proved",
   "theorems": [
    "C64_wrapper_keeps_the_contract",
    "C64_available_algorithms",
    "C64_round_trip_with_libsodium"
   ],
   "note": "The promises are those of the record sodium_ok in ContractSpec.v; the C code of libsodium is not modelled. Failure of crypto_pwhash for lack of memory, on which the wrapper panics, is outside the model."
  },
  {
   "property": "C65",
   "status": "proved",
   "theorems": [
    "C65_only_the_contract_matters",
    "C65_the_contract_suffices",
    "C65_streams_keep_the_contract"
   ],
   "note": "For passwords below 4 GiB (libsodium refuses longer ones and the wrapper panics); keys of the right size are guaranteed by the command line (proved) and by Rust types."
  },
  {
   "property": "C66",
   "status": "proved",
   "theorems": [
    "C66_creations",
    "C66_conversions",
    "C66_removals",
    "C66_inputs",
    "C66_key_pairs",
    "C66_command_lines",
    "C66_runs_of_the_commands"
   ],
   "note": "A conversion is one event here: what was read, what was written and its result; C17-C27 are about its parts."
  },
  {
   "property": "C67",
   "status": "proved",
   "theorems": [
    "C67_each_call",
    "C67_reported_success",
    "C67_each_call_while_originals_change_refuted",
    "C67_each_call_whatever_others_do"
   ],
   "note": "Other processes act between the calls of the run, and a conversion counts as one call. If others also replace the originals, one that was never converted can be removed (refuted by a witness: the window between conversion and removal); what remains is proved for arbitrary other processes."
  },
  {
   "property": "C68",
   "status": "proved",
   "theorems": [
    "C68_accepted_lines",
    "C68_refused_lines",
    "C68_one_meaning",
    "C68_files_after_dashes",
    "C68_refused_lines_do_nothing"
   ],
   "note": "The parser is that of the crate getopts, modelled from its documented behaviour; arguments that are not valid Unicode are left out. Values in arguments of their own are not counted in the position of an option."
  },
  {
   "property": "C69",
   "status": "proved",
   "theorems": [
    "C69_options_have_their_effect",
    "C69_encrypted_names",
    "C69_decrypted_names",
    "C69_without_keys_a_password",
    "C69_key_pairs",
    "C69_verbosity",
    "C69_refusals_have_reasons"
   ],
   "note": "Soundness: what follows from acceptance. C69_refusals_have_reasons gives what follows from refusal, for six errors. Which credentials the key options stand for is C36, C37 and C48, which mode is chosen is C35. The name of an encrypted file is given for names that do not end in a dot and suffixes without a slash (see the refutations of C33)."
  },
  {
   "property": "C70",
   "status": "proved",
   "theorems": [
    "C70_terminal_shows_no_secrets",
    "C70_character_of_a_secret_refuted"
   ],
   "note": "Error messages are one constructor per message in the model (CliErrors.v cites the lines); besides the character they contain only names and texts of the command line and numbers. That a file given as key by mistake is shown by one character is proved by a witness (refuted). A process killed while a password is typed leaves the echo off (see C52)."
  },
  {
   "property": "C71",
   "status": "proved",
   "theorems": [
    "C71_no_key_and_nonce_used_twice"
   ],
   "note": "Clashes are stated for the concrete inputs of the two files (FreshSpec.clash), so the claim reduces to collision resistance and fresh random values. Interrupted encryptions are not part of a history: what they wrote is the beginning of a file."
  },
  {
   "property": "C72",
   "status": "proved",
   "theorems": [
    "C72_existing_files_survive",
    "C72_other_files_survive",
    "C72_key_pairs",
    "C72_command_lines",
    "C72_original_or_conversion_refuted"
   ],
   "note": "Files changed during the run may have any content afterwards; nothing is assumed of the order of writes, since the code never asks the operating system to finish them. For originals that are removed, refuted by a witness: rypt -D reports success, and after a loss of power the original is gone and the encrypted file empty."
  },
  {
   "property": "C73",
   "status": "proved",
   "theorems": [
    "C73_each_call",
    "C73_reported_success",
    "C73_original_or_conversion"
   ],
   "note": "The calls of different runs are interleaved at the granularity of system calls; a whole conversion (reads and writes of one stream) is one step, as in C67. Runs on the same files are not covered: files are removed by name, so that a race as in C67_each_call_while_originals_change_refuted is possible."
  },
  {
   "property": "C74",
   "status": "proved",
   "theorems": [
    "C74_key_pairs",
    "C74_passwords",
    "C74_key_generation_succeeds",
    "C74_encryption_succeeds",
    "C74_decryption_succeeds",
    "C74_encryption_with_a_typed_password_succeeds",
    "C74_decryption_with_a_typed_password_succeeds"
   ],
   "note": "Key and password files are read from the modelled file system (regular files only). For --fast the theorem assumes that both algorithms have the same key pairs, which holds in the code (libsodium.rs:251-259). The runs are sequential; several runs at once are in C73. That the commands succeed is proved for the five literal command lines of the manual (rypt -g KEY and so on), the round trip for all accepted ones."
  },
  {
   "property": "C75",
   "status": "proved",
   "theorems": [
    "C75_very_quiet",
    "C75_quiet",
    "C75_quiet_in_scripts",
    "C75_failures_are_explained"
   ],
   "note": "The message of a panic is printed by the runtime and is not part of the model; status 101 is therefore not covered by the last part. Refused options are reported even with -qq, since the options have not been read then (the premise of the first part is that the line is accepted)."
  },
  {
   "property": "C76",
   "status": "proved",
   "theorems": [
    "C76_a_line_says_how_far_the_file_has_come",
    "C76_one_line_is_left",
    "C76_the_latest_line_is_shown",
    "C76_narrow_terminals_refuted"
   ],
   "note": "The terminal is a small model of its own (line feed, carriage return, erase line, wrapping at the last column). How std breaks ties when it prints a rounded number is a parameter. On terminals of 50 columns refuted by a witness: three lines of progress leave four lines on the screen."
  },
  {
   "property": "C77",
   "status": "proved",
   "theorems": [
    "C77_loudness_changes_no_effect",
    "C77_no_arguments_refuted"
   ],
   "note": "Assumes that standard error can be written: println fails otherwise, and only at the levels that print. Without -K and -D at a terminal the question about the originals is asked at some levels and not at others, so the effect may depend on the answer; the premise excludes that. With two -q more than -v passwords cannot be typed; that level is excluded too."
  },
  {
   "property": "C78",
   "status": "proved",
   "theorems": [
    "C78_what_is_counted",
    "C78_passwords_are_stretched_once",
    "C78_work_is_bounded",
    "C78_no_work_for_garbage",
    "C78_depth_refuted"
   ],
   "note": "The program with explicit requests (Work) is proved to compute what decrypt_header computes; that it requests what the code requests is by reading, as for the rest of the model. The arithmetic of secret sharing is not counted. Stack exhaustion itself is not modelled; the refuted part shows that the depth is not bounded by the program."
  },
  {
   "property": "C79",
   "status": "proved",
   "theorems": [
    "C79_encrypting_takes_less_than_10_megabytes",
    "C79_decrypting_takes_less_than_10_megabytes",
    "C79_decrypting_is_bounded",
    "C79_buffers_are_allocated_first",
    "C79_less_than_10_megabytes_refuted"
   ],
   "note": "Counted are the buffers of the pipeline, which make up nearly all of the memory; the header (at most 16 MiB), the stacks of the threads and the password stretching are not. For files that others made the claim of the README is refuted by a witness: their chunk size may be up to 1 GiB."
  },
  {
   "property": "C80",
   "status": "proved",
   "theorems": [
    "C80_key_pairs_through_pipes",
    "C80_passwords_through_pipes",
    "C80_encryption_for_a_key_succeeds",
    "C80_decryption_with_a_key_succeeds",
    "C80_encryption_with_passwords_succeeds",
    "C80_decryption_with_passwords_succeeds"
   ],
   "note": "That no other credential opens a recipient by accident is the premise no_accident (as in C02); with --fast key pairs of both ciphers are assumed to be made alike, as they are in libsodium."
  },
  {
   "property": "C81",
   "status": "proved",
   "theorems": [
    "C81_header_size",
    "C81_file_size",
    "C81_one_recipient_costs_184_bytes",
    "C81_recipients_cost_52_bytes",
    "C81_what_can_be_encrypted"
   ],
   "note": "The premise convertible of the input (no read error) and a standard output that takes everything are those of C56. Between about 322600 and 524287 recipients the options are accepted but encryption is impossible."
  },
  {
   "property": "C82",
   "status": "proved",
   "theorems": [
    "C82_settings_are_restored",
    "C82_passwords_are_hidden_and_answers_shown",
    "C82_settings_are_restored_refuted"
   ],
   "note": "The Linux termios calls; a call for something that is no terminal fails and changes nothing. Every moment of a run is a prefix of its trace, so a run killed at a password prompt leaves the echo off (only the end of a run restores it). For a terminal whose echo was off beforehand the claim is refuted by a witness: the code switches the echo on, not back."
  },
  {
   "property": "C83",
   "status": "proved",
   "theorems": [
    "C83_the_display_is_not_ahead",
    "C83_conversions",
    "C83_success_shows_the_whole_file",
    "C83_success_shows_the_length_of_a_stream",
    "C83_whole_empty_files_refuted",
    "C83_whole_files_through_links_refuted"
   ],
   "note": "About one conversion whose input does not change between opening and reading (others: C67); C83_conversions says that these are the conversions of Commands. That progress reporting does not panic is a premise (C44). Refuted by witnesses for empty files (0.0 % at the end) and for links (the length of the name in the link is announced)."
  },
  {
   "property": "C84",
   "status": "proved",
   "theorems": [
    "C84_permissions",
    "C84_existing_files_keep_their_permissions",
    "C84_runs",
    "C84_private_umask",
    "C84_private_keys_are_private_refuted",
    "C84_outputs_are_as_private_refuted"
   ],
   "note": "No other process changes the files during the run. That private keys and decrypted files are private is refuted by witnesses."
  },
  {
   "property": "C85",
   "status": "proved",
   "theorems": [
    "C85_sections_of_a_run",
    "C85_names_name_the_files",
    "C85_sections_of_key_pairs"
   ],
   "note": "The terminal accepts all output. The run is not aborted (status 101, see C58). That a section tells the truth is for runs without -f."
  },
  {
   "property": "C86",
   "status": "proved",
   "theorems": [
    "C86_when_standard_output_is_written",
    "C86_when_standard_input_is_data",
    "C86_arguments_must_be_text",
    "C86_processes_are_runs",
    "C86_only_three_variables_matter",
    "C86_questions_need_terminals"
   ],
   "note": "isatty itself and the conversion of arguments by std are modelled by their documentation. Only the number of bytes on standard output of help and version is left open."
  },
  {
   "property": "C87",
   "status": "proved",
   "theorems": [
    "C87_no_history_loses_data",
    "C87_other_entries_stay"
   ],
   "note": "A stop is a stop of the process; that the operating system keeps what was written is assumed (no power failure)."
  },
  {
   "property": "C88",
   "status": "proved",
   "theorems": [
    "C88_chance_does_not_matter",
    "C88_one_content",
    "C88_one_content_always_refuted"
   ],
   "note": "The unconditional second part is refuted by a witness (a library that meets the assumptions but whose tag does not depend on the whole key); proved with the exception tied to the presented file."
  },
  {
   "property": "C89",
   "status": "proved",
   "theorems": [
    "C89_help_and_version_do_nothing_else"
   ],
   "note": "The text that is printed is arbitrary in the model."
  },
  {
   "property": "C90",
   "status": "proved",
   "theorems": [
    "C90_forced_runs_keep_the_originals",
    "C90_finished_files_are_left_alone",
    "C90_success_is_complete",
    "C90_attempts_lose_nothing",
    "C90_a_successful_run_completes_the_attempts",
    "C90_force_succeeds",
    "C90_repeated_inputs_refuted",
    "C90_colliding_names_refuted"
   ],
   "note": "C90_repeated_inputs_refuted and C90_colliding_names_refuted show that the condition that outputs are distinct is needed."
  },
  {
   "property": "C91",
   "status": "proved",
   "theorems": [
    "C91_no_file_is_lost",
    "C91_nothing_else_changes",
    "C91_success_is_complete"
   ],
   "note": "The conditions on names are needed: C90_colliding_names_refuted, C90_repeated_inputs_refuted, C30_chains_of_files_refuted."
  },
  {
   "property": "C92",
   "status": "proved",
   "theorems": [
    "C92_pairs_at_every_moment",
    "C92_success_leaves_complete_pairs",
    "C92_nothing_else_changes",
    "C92_failures_leave_complete_pairs_refuted",
    "C92_public_keys_have_private_keys_refuted"
   ],
   "note": "Failed runs can leave a public key without its private key: C92_failures_leave_complete_pairs_refuted (with --force, the private file cannot be written) and C92_public_keys_have_private_keys_refuted (without --force, the private file exists)."
  },
  {
   "property": "C93",
   "status": "proved",
   "theorems": [
    "C93_truncated_key_files_give_the_first_keys",
    "C93_parts_of_generated_files",
    "C93_interrupted_generation",
    "C93_truncated_password_files_refuted",
    "C93_parts_of_private_keys_are_no_public_keys_refuted"
   ],
   "note": "Not so for passwords (C93_truncated_password_files_refuted), and the first half of a private key is accepted as a public key (C93_parts_of_private_keys_are_no_public_keys_refuted)."
  },
  {
   "property": "C94",
   "status": "proved",
   "theorems": [
    "C94_shared_files",
    "C94_k_of_n",
    "C94_encryption_succeeds",
    "C94_decryption_succeeds"
   ],
   "note": "For typed passwords see C74 and C80. Assumes that no key opens by accident a part of the header meant for another key, as C02 does."
  },
  {
   "property": "C95",
   "status": "proved",
   "theorems": [
    "C95_fast_encryption_needs_hardware",
    "C95_fast_decryption_needs_hardware",
    "C95_other_files",
    "C95_wrong_keys",
    "C95_fast_runs_without_hardware",
    "C95_hopeless_files",
    "C95_hopeless_file_among_others",
    "C95_hopeless_streams",
    "C95_unopenable_streams",
    "C95_wrong_keys_open_nothing",
    "C95_other_files_open_nothing",
    "C95_fast_files_open_nothing"
   ],
   "note": "Assumes for wrong keys that no key opens by accident a part of the header meant for another key, as C08 does. After a crash of the program an unfinished output can stay: C29_aborts_leave_nothing_refuted."
  }
 ]
}