# Formal model of rypt in Rocq: design

Source: `/repo` (ashtuchkin/rypt at a pinned commit), read as text and not run. The model is in `rocq/theories`
(logical name `Verif`), for Coq 8.16.1; it uses nothing but Coq's standard library.

## 1. Approach

* **One model file per Rust module.** Every definition cites the lines it models and says where it simplifies.
  Functions are total and computable where the code is deterministic, with the outcome `Ok v | Err e | Panic`.
  `Panic` is a Rust panic: a failed assertion, an `unwrap` of nothing, a slice out of range, a division by zero.
* **Machine words** (`u64`, `usize`, `u32`) are `N`, reduced modulo 2^64 or 2^32 wherever Rust's release build wraps.
  Bytes are `Coq.Init.Byte.byte`, texts are lists of Unicode scalar values with UTF-8 modelled separately.
* **Reading and writing.** A source is an arbitrary list of read events (data in any pieces, interruptions, errors), a
  sink has an arbitrary amount of room and may refuse to flush. Theorems quantify over them.
* **Randomness** is a universally quantified argument. Secrecy is a bijection between random choices, which is the
  counting form of perfect secrecy.
* **The crypto library** is a record of functions (`cryptosys`). Theorems assume `crypto_ok`: lengths are right,
  decryption reverses encryption, generated keys agree. A toy instance shows that this can be met. C64 and C65 replace
  this by the promises libsodium makes for admissible arguments only, and show that the program stays within them.
* **Security claims are reductions.** The conclusion holds, or the input at hand contains a forgery, a hash collision or
  an accidental opening, spelled out as a concrete event about that input. No idealisation is assumed that no function
  can meet. Secrecy (C59, C60) is stated in an ideal world in which ciphers under unknown keys encrypt zeros.
* **The pipeline** is a transition system of four threads and four channels. Theorems hold in all reachable states and
  for all schedules.
* **The file system** has directory entries (files, symbolic links, directories) and inodes (content, number of links,
  regular or not). A computation is a relation between a world, a result and a world, because every system call may
  fail. A world keeps all its earlier file systems (`w_past`), so a statement about all `moments` of a run is a statement
  about a crash at any time.
* **Statements** are in `Prop*.v`, against small specifications in `*Spec.v` that do not use the helpers of the model.
  Proofs are in `*Proofs*.v`. Beside each theorem an `Example` shows a case that meets its hypotheses.
* **Violated properties.** Where the code violates a property, `..._refuted` proves the existence of a counterexample,
  and a second theorem proves what does hold, with the condition in its statement. These properties have the status
  "proved", with a note in MANIFEST.json.

## 2. Properties

Model: files modelled. Specification: what the statement is about, independently of the model. Proof: the main idea.

| id | property | model | specification | proof | theorems |
|----|----------|-------|---------------|-------|----------|
| C01 | GF(256) arithmetic is the AES field | Gf256 | GfSpec (carry-less multiplication and long division) | the table of 256 x 256 products is checked by kernel computation; the field laws follow from linearity in the bits and from the logarithm tables | `C01_gf256_is_the_aes_field` |
| C02 | Any threshold-many shares recover the secret | Shamir | ShamirSpec (polynomials) | shares are values of a polynomial of degree below the threshold; Lagrange interpolation at 0 over the field of C01 | `C02_threshold_shares_recover_secret`, `C02_shares_are_polynomial_values` |
| C03 | Fewer than threshold shares reveal nothing | Shamir | bijection between random bytes and views | unique interpolation through the secret and the known shares | `C03_fewer_shares_reveal_nothing` |
| C04 | Share creation and recovery reject exactly the invalid requests and never panic | Shamir | explicit list of refused requests | cases of the argument checks; loop invariant that excludes division by zero | `C04_share_creation_errors`, `C04_share_recovery_accepts_exactly`, `C04_share_recovery_error_kinds` |
| C05 | Key splitting and recombination agree for OR / AND / threshold groups | HeaderCrypto (splitting and recombining) | any-of / all-of / threshold groups | cases; C02 for thresholds | `C05_split_acceptance`, `C05_recombination` |
| C06 | AND-group parts are individually useless | HeaderCrypto | bijection between random bytes and views | algebra of exclusive or | `C06_and_parts_are_individually_useless` |
| C07 | Sufficient credentials always open the header | HeaderCrypto, Proto | CredSpec.sat: satisfaction of a credential expression | induction over the expression with the key index threaded through | `C07_sufficient_credentials_open` |
| C08 | Insufficient credentials never open the header | same | negation of sat, up to accidental openings (no_accident) | same induction | `C08_insufficient_credentials_are_refused` |
| C09 | Order, repetition and extra credentials do not matter on decryption | same | sets of credentials | consequence of C07 and C08 | `C09_order_and_repetition_do_not_matter`, `C09_extra_credentials_do_not_hurt` |
| C10 | No nonce is ever used twice within one file | HeaderCrypto, StreamCrypto, Pipeline | FileSpec: list of all (key, nonce) uses of a file | leaf indices are consecutive, the header limit keeps them below 2^32, injectivity of little-endian encodings | `C10_nonces_are_never_reused` |
| C11 | The header does not reveal recipient types | HeaderCrypto, Proto | shape of the recipients | induction over the expression | `C11_header_hides_recipient_types` |
| C12 | The protected header has constant size | HeaderCrypto, Proto | byte lengths | computation of encoded sizes | `C12_protected_header_has_constant_size` |
| C13 | Header framing round-trips | HeaderIo, Io | HeaderIoSpec.is_frame; sources with arbitrary segmentation | case analysis over bytes | `C13_framed_header_is_read_back`, `C13_write_header_writes_the_frame`, `C13_oversized_header_is_refused` |
| C14 | Header framing is canonical | HeaderIo, Io | HeaderIoSpec.is_frame | inversion of a successful read | `C14_accepted_framing_is_canonical`, `C14_other_framing_is_rejected`, `C14_reading_never_panics`, `C14_frames_are_unambiguous` |
| C15 | Header serialization round-trips | Proto | ProtoSpec.header_u64 | variable-length numbers, independence of fuel, induction over messages | `C15_file_header_round_trips`, `C15_protected_header_round_trips`, `C15_encodings_are_distinct` |
| C16 | Generated chunk sizes are valid | HeaderCrypto, Rng | range and alignment; intervals of draws | arithmetic | `C16_generated_chunk_sizes_are_valid`, `C16_every_size_in_the_range_occurs`, `C16_decryption_refuses_invalid_chunk_sizes`, `C16_every_size_is_equally_likely`, `C16_drawn_numbers_are_admissible`, `C16_ranges_are_drawn_without_bias` |
| C17 | Chunking does not depend on how reads are segmented | Pipeline (reader) | StreamSpec: cutting of a byte string | induction over read events, invariant for the byte read ahead | `C17_reader_emits_the_split`, `C17_read_error_keeps_complete_chunks`, `C17_split_exists_and_is_unique`, `C17_converter_sees_the_split` |
| C18 | Stream encryption round-trips | StreamCrypto, Pipeline | byte strings | induction over chunks | `C18_stream_round_trip`, `C18_encryption_succeeds` |
| C19 | Encrypted size formula | StreamCrypto, Pipeline, HeaderIo | arithmetic formula | sum over chunks | `C19_encrypted_size` |
| C20 | Any change to the encrypted data is detected, and only authentic prefixes are released | StreamCrypto, Pipeline | AuthSpec.forgery | the first differing chunk is a forgery | `C20_tampering_is_detected`, `C20_only_authentic_prefixes_are_written_at_any_moment`, `C20_modified_streams_are_refused` |
| C21 | Any change to the header is detected | FileCrypto | FileSpec: forgery or hash collision presented by the modified file | C20 with the header hash in the associated data | `C21_modified_files_are_detected` |
| C22 | Whole-file round trip | FileCrypto | byte strings, sat | C07, C13, C15 and C18 combined | `C22_file_round_trip`, `C22_insufficient_credentials_write_nothing`, `C22_encryption_writes_a_file` |
| C23 | The parallel pipeline computes what a sequential loop computes | Pipeline (transition system) | StreamSpec: sequential loop | inductive invariant on the contents of the channels, all schedules | `C23_output_is_always_a_prefix_of_the_sequential_output`, `C23_final_output_is_the_sequential_output` |
| C24 | The pipeline never deadlocks and always terminates | Pipeline | reachability | a thread can always move; decreasing measure | `C24_no_deadlock`, `C24_every_execution_is_finite`, `C24_call_always_returns` |
| C25 | Pipeline memory is bounded and buffers are never reallocated | Pipeline | PipelineSpec: memory in use | invariant on buffers | `C25_memory_is_bounded`, `C25_main_loop_never_panics` |
| C26 | Pipeline errors are always reported, success means everything was written and flushed | Pipeline | results of reader, converter and writer | invariant | `C26_success_iff_no_stage_fails`, `C26_error_comes_from_a_failing_stage`, `C26_write_loops`, `C26_write_loops_success`, `C26_every_room` |
| C27 | Progress callbacks account for every byte | Pipeline | sum of the notifications | invariant | `C27_progress_never_exceeds_the_input`, `C27_progress_sums_to_the_input` |
| C28 | Existing files are never overwritten or deleted without --force | Fs, Commands, Cli | FsSpec: files at all moments of a run | invariant over all system calls of a run | `C28_existing_files_survive`, `C28_command_lines` |
| C29 | A failed conversion leaves no output file | Fs, Commands | FsSpec.has_conversion | same; witness for the refutation | `C29_failed_conversions_leave_nothing`, `C29_aborts_leave_nothing_refuted`, `C29_only_outputs_are_created` |
| C30 | Inputs are deleted only after success and only when asked; crash safety | Fs, Commands | FsSpec: original or complete conversion present | same | `C30_original_or_conversion_at_every_moment`, `C30_chains_of_files_refuted` |
| C31 | Files are processed independently and the exit status is truthful | Fs, Commands | exit status, simulation | simulation of runs that differ in one file | `C31_success_means_all_converted`, `C31_failure_means_some_not_converted`, `C31_only_failures_are_reported`, `C31_failures_do_not_matter_to_others`, `C31_exit_status` |
| C32 | Only plain single-link regular files are processed in file mode without --force | Fs, Commands | types and link counts | inversion of opening | `C32_only_plain_files_are_processed`, `C32_directories_are_refused`, `C32_stream_mode_changes_no_file`, `C32_command_lines` |
| C33 | Encrypted names map back to the original names | Paths, Cli | PathSpec: names as texts | component lists; witnesses for the limits | `C33_encrypted_name`, `C33_names_come_back`, `C33_encrypted_names_differ`, `C33_decrypted_name`, `C33_decrypted_names_differ`, `C33_encrypted_names_differ_refuted`, `C33_output_is_not_the_input_refuted`, `C33_names_come_back_refuted` |
| C34 | Encrypted data never goes to or comes from a terminal without --force | Cli | PathSpec | cases; every error of the other checks differs | `C34_no_ciphertext_on_a_terminal`, `C34_refused_only_for_terminals` |
| C35 | The last mode flag wins | Cli, Getopts | positions of mode flags | greatest position; induction over arguments | `C35_last_mode_wins`, `C35_greatest_position_wins`, `C35_help_without_arguments`, `C35_order_within_an_argument_refuted` |
| C36 | Credential arguments denote the credential expression they spell | CliCreds, Getopts | CliSpec.spells: grammar of credential arguments | printer and parser inverse to each other; induction on fuel | `C36_spelled_credentials_are_accepted`, `C36_accepted_arguments_spell_the_credential`, `C36_never_aborts`, `C36_accepted_credentials_are_wf_refuted` |
| C37 | Decryption accepts only flat credential lists | CliCreds | CliSpec | same | `C37_accepted_lists_are_flat`, `C37_flat_lists_are_accepted`, `C37_combinators_and_public_keys_are_refused`, `C37_only_private_key_files_crash` |
| C38 | Interactive passwords are non-empty and confirmed | Ui | UiSpec: dialogue | induction over replies | `C38_password_confirmed`, `C38_every_confirmed_password_is_accepted`, `C38_no_prompt_without_terminal` |
| C39 | A prompt consumes exactly one line of standard input | Ui, Text, Io | UiSpec: lines of input | UTF-8 decoding byte by byte | `C39_prompt_reads_one_line`, `C39_every_line_is_accepted`, `C39_prompt_never_aborts` |
| C40 | Checksummed hex keys round-trip and reject any altered letter case | Util | UtilSpec: text with capital letters by hash digits | induction over texts | `C40_accepts_exactly_the_checksummed_text`, `C40_printed_keys_read_back`, `C40_altered_letter_case_is_refused`, `C40_unchecked_parsing` |
| C41 | Generated key files can be read back | KeyFiles, Util | keys as bytes | C40 | `C41_generated_key_files_read_back` |
| C42 | Key generation never overwrites files without --force and never exposes the private key in the public file | Commands | FsSpec; contents of public files | invariant over the run; witness | `C42_existing_files_survive`, `C42_public_files_are_public`, `C42_coinciding_names_refuted` |
| C43 | Human-readable durations and sizes | Util | UtilSpec: value denoted by a text | arithmetic | `C43_durations_denote_the_seconds`, `C43_sizes_denote_the_bytes` |
| C44 | Progress reporting never aborts the operation | Progress | ProgressSpec: clock and data rate | arithmetic; witness | `C44_progress_never_aborts_refuted`, `C44_progress_never_aborts_while_data_flows` |
| C45 | Malformed key files are rejected with an error, not a crash | KeyFiles, Text | list of crashing inputs | cases; witness | `C45_malformed_private_keys_are_rejected_refuted`, `C45_only_split_characters_crash`, `C45_other_key_files_never_crash`, `C45_accepted_keys_have_the_right_length` |
| C46 | Malformed headers are rejected with an error, not a crash | HeaderCrypto, Proto | list of crashing groups | characterisation of panics; witness | `C46_malformed_headers_refuted`, `C46_panics_only_on_malformed_groups`, `C46_no_panic_when_nothing_opens`, `C46_honest_headers_never_panic` |
| C47 | Deletion prompt defaults to keeping files | Ui, Commands, Cli | UiSpec: answers | inversion of runs | `C47_files_are_kept_unless_requested`, `C47_yes_must_be_typed`, `C47_every_answer_is_understood`, `C47_no_question_without_terminal` |
| C48 | Credential arguments are taken in command-line order | CliCreds, Getopts | CliSpec: order of arguments | stable sorting | `C48_arguments_in_order`, `C48_merged_arguments_are_refused_or_unordered` |
| C49 | The limit on the size of key schemes | HeaderCrypto | number of bytes of all parts | arithmetic; witness of an overflow | `C49_oversized_schemes_are_refused_refuted`, `C49_oversized_schemes_are_refused_without_overflow` |
| C50 | Encryption accepts exactly the realisable credential expressions | HeaderCrypto | CredSpec: realisable expressions | both directions by induction | `C50_encryption_accepts_exactly_realisable_expressions` |
| C51 | Progress lines are truthful | Progress | ProgressSpec: what a line should say | arithmetic, invariant on the stamps | `C51_progress_lines_are_truthful` |
| C52 | Passwords are never echoed | Ui | UiSpec: echo state of every typed line, texts printed | invariant over the trace | `C52_passwords_stay_hidden`, `C52_killed_during_the_dialogue_refuted` |
| C53 | Progress does not mix with data on a terminal | Cli, Ui | PathSpec | cases; witness | `C53_progress_does_not_mix_with_data`, `C53_with_verbosity_refuted` |
| C54 | Even with --force only named files are touched | Fs, Commands | FsSpec: names reachable from the command line | invariant | `C54_force_touches_only_named_files`, `C54_key_generation_touches_only_named_files` |
| C55 | Successful key generation leaves complete matching pairs | Commands, KeyFiles | contents of both files | inversion | `C55_generated_pairs_are_complete` |
| C56 | Nothing fails without a reason | Fs, Commands | conditions under which a run must succeed | existence of runs, inversion | `C56_every_run_ends`, `C56_nothing_fails_without_reason`, `C56_encryption_does_not_depend_on_the_file`, `C56_exit_status`, `C56_streams_do_not_fail_without_reason` |
| C57 | Encrypting and decrypting restores files | Fs, Commands, FileCrypto | content of the restored file; the same entries and contents in the whole file system | C22 on the file system; outputs are new and inputs are removed, so the two runs cancel | `C57_there_and_back`, `C57_decryption_restores_files` |
| C58 | The program crashes for known reasons only | all of the program | list of reasons | inversion of panicking runs | `C58_crashes_have_known_reasons`, `C58_encryption_never_crashes` |
| C59 | Insufficient credentials reveal nothing about the payload key | HeaderCrypto | HideSpec: ideal ciphers, bijection of random bytes | linearity of splitting | `C59_insufficient_credentials_reveal_nothing`, `C59_needs_insufficient_credentials` |
| C60 | Encrypted files reveal only the length of the data | FileCrypto | HideSpec | lock-step runs | `C60_only_the_length_is_revealed` |
| C61 | A file is encrypted under the keys drawn for it | HeaderCrypto, StreamCrypto | HideSpec: layout of a file | inversion | `C61_files_use_the_keys_drawn_for_them` |
| C62 | What an accepted header says | HeaderCrypto | list of conditions | inversion | `C62_accepted_headers` |
| C63 | Headers follow the published format | Proto | WireSpec: published schema | decoder accepts exactly the messages of the schema | `C63_file_headers_follow_the_schema`, `C63_protected_headers_follow_the_schema`, `C63_written_headers_follow_the_schema`, `C63_unknown_fields_are_ignored` |
| C64 | rypt on libsodium: the promises of the library suffice | LibSodium, Crypto | ContractSpec.sodium_ok | field by field; round trip through a completed library | `C64_wrapper_keeps_the_contract`, `C64_available_algorithms`, `C64_round_trip_with_libsodium` |
| C65 | rypt only calls the crypto library with admissible arguments | whole program | ContractSpec.same_within | lock-step runs of the program with two libraries | `C65_only_the_contract_matters`, `C65_the_contract_suffices`, `C65_streams_keep_the_contract` |
| C66 | What a run asks of the operating system is justified by what it did before, whatever the answers | Program, Calls (whole program; answers arbitrary) | CallSpec: which calls came before with which answers | Hoare logic over sequences of calls | `C66_creations`, `C66_conversions`, `C66_removals`, `C66_inputs`, `C66_key_pairs`, `C66_command_lines`, `C66_runs_of_the_commands` |
| C67 | Files are safe in a file system that other processes use | Program, Calls, Fs | CallSpec.allowed_step, leave_alone | rely-guarantee logic; witness for the race | `C67_each_call`, `C67_reported_success`, `C67_each_call_while_originals_change_refuted`, `C67_each_call_whatever_others_do` |
| C68 | Command lines are read as documented | Getopts, Cli, Commands | OptSpec: documented options, grammar of command lines | both directions, by induction on the arguments | `C68_accepted_lines`, `C68_refused_lines`, `C68_one_meaning`, `C68_files_after_dashes`, `C68_refused_lines_do_nothing` |
| C69 | An accepted command line asks for what it says | Cli, Getopts, Paths | CmdSpec: options given, suffix, sources, key files | inversion of accepted command lines; for refusals, each other step is shown not to give the error | `C69_options_have_their_effect`, `C69_encrypted_names`, `C69_decrypted_names`, `C69_without_keys_a_password`, `C69_key_pairs`, `C69_verbosity`, `C69_refusals_have_reasons` |
| C70 | The terminal shows no secrets | Ui, Cli, CliCreds, KeyFiles, Commands | ShowSpec: the list of messages | a predicate on what computations show, closed under sequencing; one lemma per function | `C70_terminal_shows_no_secrets`, `C70_character_of_a_secret_refuted` |
| C71 | No key is used twice with the same nonce, in however many files | HeaderCrypto, StreamCrypto, Pipeline | FreshSpec: key and nonce of every part of a file | C61 gives the parts, distinct nonces within a file, distinct keys between files | `C71_no_key_and_nonce_used_twice` |
| C72 | A loss of power does not damage existing files | Fs, Commands | LossSpec: states of the disk after a loss of power | what is intact at all moments stays (C28, C42, C47) | `C72_existing_files_survive`, `C72_other_files_survive`, `C72_key_pairs`, `C72_command_lines`, `C72_original_or_conversion_refuted` |
| C73 | Runs at the same time on different files are safe | Calls | ParSpec: several runs, their calls in any order | invariant over schedules: for each run the others are processes that leave its files alone (C67) | `C73_each_call`, `C73_reported_success`, `C73_original_or_conversion` |
| C74 | What the manual describes works from end to end | Commands, Cli, Fs | FlowSpec: successful runs, what the options ask for, copies of files | composition of C55-C57, C66 and C69; header size by C11 against one known header | `C74_key_pairs`, `C74_passwords`, `C74_key_generation_succeeds`, `C74_encryption_succeeds`, `C74_decryption_succeeds`, `C74_encryption_with_a_typed_password_succeeds`, `C74_decryption_with_a_typed_password_succeeds` |
| C75 | Quiet runs are quiet, and failures are explained | Commands, Cli, Ui | QuietSpec: errors, password dialogue, counts of -q and -v | every event is allowed by the settings, which do not change after reading the command line; induction over the streams for the failures | `C75_very_quiet`, `C75_quiet`, `C75_quiet_in_scripts`, `C75_failures_are_explained` |
| C76 | The progress display is one line that says how far the file has come | Layout, Progress | LayoutSpec: fields of a line as decimal numerals; a terminal with lines, a cursor and a width | error bounds of the four roundings of the percentage, lengths of numerals, induction over the lines of a report | `C76_a_line_says_how_far_the_file_has_come`, `C76_one_line_is_left`, `C76_the_latest_line_is_shown`, `C76_narrow_terminals_refuted` |
| C77 | -v and -q change what is said, not what is done | Commands, Cli, Getopts, Ui | LoudSpec: removing arguments made of -v and -q from a command line; equality of files, output and input | simulation between terminals that differ only in verbosity and trace; positions of the remaining options are renumbered by a monotone map | `C77_loudness_changes_no_effect`, `C77_no_arguments_refuted` |
| C78 | Opening a file costs no more than its header and the credentials warrant | Work (HeaderCrypto with explicit requests), Proto | WorkSpec: counting requests, passwords and bytes; depth of a key tree | erasure to HeaderCrypto; size of a decoded message is at most its length; induction over the key tree | `C78_what_is_counted`, `C78_passwords_are_stretched_once`, `C78_work_is_bounded`, `C78_no_work_for_garbage`, `C78_depth_refuted` |
| C79 | The buffers take less than 10 MB | Pipeline, HeaderCrypto | MemorySpec: sum of the capacities of all buffers | C25 with the bounds of C16; six steps of the calling thread | `C79_encrypting_takes_less_than_10_megabytes`, `C79_decrypting_takes_less_than_10_megabytes`, `C79_decrypting_is_bounded`, `C79_buffers_are_allocated_first`, `C79_less_than_10_megabytes_refuted` |
| C80 | Encrypted through a pipe, decrypted through a pipe | Program, Commands, Cli, HeaderCrypto | PipeSpec: filters, supplied bytes, passwords in files, how many, enough | C56 for the runs, C02/C05 for the content, C41 for the lines | `C80_key_pairs_through_pipes`, `C80_passwords_through_pipes`, `C80_encryption_for_a_key_succeeds`, `C80_decryption_with_a_key_succeeds`, `C80_encryption_with_passwords_succeeds`, `C80_decryption_with_passwords_succeeds` |
| C81 | How large the encrypted file is | HeaderCrypto, Proto, HeaderIo | SizeSpec: length of varints, fields, counts | lengths of the serialisation by induction over the recipients | `C81_header_size`, `C81_file_size`, `C81_one_recipient_costs_184_bytes`, `C81_recipients_cost_52_bytes`, `C81_what_can_be_encrypted` |
| C82 | The settings of the terminal come back | Terminal, Ui, Commands | TerminalSpec: echo bit, other settings | grammar of the events of a whole run | `C82_settings_are_restored`, `C82_passwords_are_hidden_and_answers_shown`, `C82_settings_are_restored_refuted` |
| C83 | The display shows how much of the file has been written | Meter, Pipeline, Progress, Layout | literal text of the last line; lengths | invariant relating reports to written bytes | `C83_the_display_is_not_ahead`, `C83_conversions`, `C83_success_shows_the_whole_file`, `C83_success_shows_the_length_of_a_stream`, `C83_whole_empty_files_refuted`, `C83_whole_files_through_links_refuted` |
| C84 | The permissions of files | Modes, Calls | permission bits, one by one | induction over the calls of a run; witnesses | `C84_permissions`, `C84_existing_files_keep_their_permissions`, `C84_runs`, `C84_private_umask`, `C84_private_keys_are_private_refuted`, `C84_outputs_are_as_private_refuted` |
| C85 | The output is divided into numbered sections, and they tell the truth | Commands, Cli, Ui | literal headings, decimal numerals, file systems before and after | what each action prints, by induction over the streams; joined with the effects of each stream | `C85_sections_of_a_run`, `C85_names_name_the_files`, `C85_sections_of_key_pairs` |
| C86 | Standard streams carry data only when asked for, whatever the environment | Process, Commands, Cli, Getopts, Text | the documented syntax of the command line, UTF-8, literal variable names | an invariant of all actions: standard output and the input of the dialogue are unchanged unless a stream uses them | `C86_when_standard_output_is_written`, `C86_when_standard_input_is_data`, `C86_arguments_must_be_text`, `C86_processes_are_runs`, `C86_only_three_variables_matter`, `C86_questions_need_terminals` |
| C87 | No history of commands without --force loses data, even with crashes | Fs, Commands, Cli | histories of runs stopped at any moment, descent of contents by complete conversions | consistency is an invariant of every elementary change; in a run outputs are new, so the chain from each removed original ends in a file that is left; induction over the history | `C87_no_history_loses_data`, `C87_other_entries_stay` |
| C88 | The result of a conversion is determined by the bytes and the credentials; all who can open a file get the same content | FileCrypto, Pipeline, HeaderCrypto, HeaderIo | two sources with the same bytes; the same output and verdict; a header that opens under two keys | output and verdict of the pipeline are those of the sequential loop, which sees only the bytes; the header reader sees only the bytes; with equal payload keys the codecs are equal | `C88_chance_does_not_matter`, `C88_one_content`, `C88_one_content_always_refuted` |
| C89 | Asking for help or the version does nothing else | Cli, Getopts, Commands | the documented syntax of the command line and which option decides; equality of the worlds before and after | evaluation of the command line up to the mode, which comes before everything that has effects | `C89_help_and_version_do_nothing_else` |
| C90 | Interrupted conversions can be repeated with --force | Fs, Commands | the states that sequences of interrupted runs lead to, as an inductive relation; intactness of entries; conversions as in C30 | the invariant that outputs are ordinary files or nothing and inputs unchanged or converted is kept by every step, with force or without | `C90_forced_runs_keep_the_originals`, `C90_finished_files_are_left_alone`, `C90_success_is_complete`, `C90_attempts_lose_nothing`, `C90_a_successful_run_completes_the_attempts`, `C90_force_succeeds`, `C90_repeated_inputs_refuted`, `C90_colliding_names_refuted` |
| C91 | Commands that name their files without ambiguity lose no file | Cli, Paths, Fs, Commands | names of conversions as names with a dot and the suffix added or taken off; conditions on the named paths only | the conditions on names imply that outputs are distinct and apart from the inputs (C33), then C30, C32 and C90 | `C91_no_file_is_lost`, `C91_nothing_else_changes`, `C91_success_is_complete` |
| C92 | Key pairs are replaced in order, and successful runs leave complete pairs | Commands, Fs, Cli | names of the pairs as in C69; stages of the two files of a pair, in terms of their contents | one file is opened and written in steps that are prefixes; then induction over the pairs, whose entries are disjoint by the conditions on names | `C92_pairs_at_every_moment`, `C92_success_leaves_complete_pairs`, `C92_nothing_else_changes`, `C92_failures_leave_complete_pairs_refuted`, `C92_public_keys_have_private_keys_refuted` |
| C93 | Key files that end too early are not taken for other keys | KeyFiles, Text, Util, Commands | prefixes of lists of bytes and of keys | the entries of a cut text are those of the text, the last one possibly cut; keys have a fixed number of digits; then C41 and C92 | `C93_truncated_key_files_give_the_first_keys`, `C93_parts_of_generated_files`, `C93_interrupted_generation`, `C93_truncated_password_files_refuted`, `C93_parts_of_private_keys_are_no_public_keys_refuted` |
| C94 | Files shared between several keys are restored with enough of them, from command lines to files | Cli, CliCreds, KeyFiles, HeaderCrypto, Commands | the credential an expression over key files asks for, the keys in files, matching k of n | reading key files does not depend on the terminal, so C36 and C37 determine the credentials of both runs; then C57 and C69 | `C94_shared_files`, `C94_k_of_n`, `C94_encryption_succeeds`, `C94_decryption_succeeds` |
| C95 | Runs that cannot succeed do no harm, and say so | Commands, FileCrypto, HeaderCrypto, Cli, Fs | contents without conversion, untouched files, no new files | all conversions of hopeless contents fail, hence no input is cleaned up (C28) and no output stays (C29); induction over the files for --fast, with force and on standard output | `C95_fast_encryption_needs_hardware`, `C95_fast_decryption_needs_hardware`, `C95_other_files`, `C95_wrong_keys`, `C95_fast_runs_without_hardware`, `C95_hopeless_files`, `C95_hopeless_file_among_others`, `C95_hopeless_streams`, `C95_unopenable_streams`, `C95_wrong_keys_open_nothing`, `C95_other_files_open_nothing`, `C95_fast_files_open_nothing` |

## 3. Findings

Properties one would expect of rypt, that the code does not have (all are theorems):

* `C29_aborts_leave_nothing_refuted`: a panic of the progress display leaves an unfinished output file.
* `C30_chains_of_files_refuted`: if one file is both an input and an output of the same command, data can be lost.
* `C33_*_refuted`: `a` and `a.` are both encrypted to `a.rypt`; `rypt -f -S "" a` writes over its input; with a suffix
  that has a dot inside, the encrypted name is refused on decryption.
* `C35_order_within_an_argument_refuted`: for `-de` and `-ed` the same mode wins.
* `C36_accepted_credentials_are_wf_refuted`, `C49_oversized_schemes_are_refused_refuted`: share counts whose sum or
  product wraps modulo 2^64 pass the checks of the parser and of key splitting.
* `C42_coinciding_names_refuted`: `rypt -f -g me.pub` writes the private key into the file of the public key.
* `C44_progress_never_aborts_refuted`: an operation that stands still for more than a second panics with a division by zero.
* `C45_malformed_private_keys_are_rejected_refuted`: a private key with a multi-byte character in its middle panics.
* `C46_malformed_headers_refuted`: whoever knows a public key can write a header that makes the owner's program panic.
* `C52_killed_during_the_dialogue_refuted`: control-C at a password prompt leaves the terminal without echo.
* `C53_with_verbosity_refuted`: with `-v` progress and data may share the terminal.
* `C67_each_call_while_originals_change_refuted`: an original replaced during the run is removed though it was not converted.
* `C70_character_of_a_secret_refuted`: an error message can show one character of a file given as key.
* `C78_depth_refuted`: a header of 16 MiB can nest groups 762000 deep, and decoding and opening recurse on the stack.
* `C79_less_than_10_megabytes_refuted`: a file of less than 1000 bytes makes decryption allocate 6 GiB of buffers.
* `C84_private_keys_are_private_refuted`, `C84_outputs_are_as_private_refuted`: new files get the usual permissions,
  so with the umask 022 everybody can read private keys, and what was decrypted from a private file.
* `C83_whole_empty_files_refuted`, `C83_whole_files_through_links_refuted`: for empty files the display ends with 0.0 %, and
  for links the size of the link is taken for that of the file.
* `C82_settings_are_restored_refuted`: a terminal whose echo was off is left with echo on after a question for a password.
* `C88_one_content_always_refuted`: nothing commits a file to one payload key, so with an authenticated encryption that is not
  committing (neither AES-GCM nor ChaCha20-Poly1305 is) a hostile file can show two recipients different contents.
* `C90_colliding_names_refuted`, `C90_repeated_inputs_refuted`: `rypt -f --discard-inputs notes notes.` encrypts both files to
  `notes.rypt`, removes both, and succeeds, so the first is lost; naming one file twice can lose it if reading fails.
* `C72_original_or_conversion_refuted`: nothing is flushed to disk before originals are removed, so after a loss of power
  both the original and its conversion may be gone.
* `C92_failures_leave_complete_pairs_refuted`, `C92_public_keys_have_private_keys_refuted`: the public key is written before
  the private file is opened. If that fails (`rypt -f -g me` with a read-only `me`; `rypt -g me` where `me` exists and `me.pub`
  does not), the exit status is 1, but `me.pub` is the key of a private key that is nowhere: what is encrypted for it is lost.
* `C93_parts_of_private_keys_are_no_public_keys_refuted`: the two halves of a private key have checksums of their own, so the
  first half, as an interrupted `rypt -g` may leave it, is accepted as a public key. Nobody has a private key for it.
  `C93_truncated_password_files_refuted`: a part of a password is a password.

Behaviour worth knowing that is no violation: with more than about 322,600 recipients the header exceeds 16 MiB and
nothing can be encrypted although the options are accepted (C81); on a terminal narrower than a progress line every update leaves a line on
the screen (C76); input files that cannot be removed do not change the exit status; with `-f`
a failing decryption empties and then removes an existing output; a chunk size of 0 passes `check_chunk_size`; a
`--key-shares` at the end of a group is ignored; a truncated file makes the converter thread panic, which is reported as
an error.

## 4. Trusted base

* Coq's kernel, with `vm_compute`. No flag that weakens it is used.
* `Print Assumptions` is run after every theorem in `Prop*.v`. For each of them it prints
  "Closed under the global context": no theorem depends on any axiom.
* `coqchk` and `vcheck` also list seven constants `Coq.ssr.ssrunder.Under_rel.*`. They are declarations of a module type
  in a file of Coq's standard library that is loaded with `Lia`. No theorem uses them.
* No axioms, parameters, admitted proofs, functors or module types are declared. Section variables are generalised when
  their section ends.
* That the model is what the Rust code does: this is by reading. Section 5 says what is modelled.

## 5. What is modelled

| Rust | model | left out or simplified |
|------|-------|------------------------|
| `shamir/gf256.rs`, `shamir/mod.rs` | `Gf256`, `Shamir` | the random generator is a stream of bytes |
| `crypto/mod.rs`, `crypto/libsodium.rs` | `Crypto`, `LibSodium` | C code is an arbitrary record; wiping of memory; `crypto_pwhash` running out of memory, on which the code panics; signatures are modelled but nothing calls them |
| `crypto/rng.rs` | `rng` in `Shamir`, `Rng` | rand is external: `gen_range` is modelled from its source (version 0.7.2) |
| `credentials.rs`, `header_crypto.rs` | `HeaderCrypto`, `Work` | the random choices are a record |
| `proto/header.proto`, `prost` | `Proto` | prost is external: its wire format and merge rules are modelled from its documentation; the locked version 0.5.0 has no recursion limit; exhaustion of the stack by deep nesting is left out (see C78) |
| `header_io.rs` | `HeaderIo`, `Io` | |
| `stream_crypto.rs` | `StreamCrypto` | |
| `stream_pipeline.rs` | `Pipeline` | failure to start a thread (which looks like an error of the first write); interrupted and partial writes are in `Writes`; a panicking progress callback (see `Commands`) |
| `commands/crypt.rs:47-68` | `FileCrypto` | |
| `util.rs` | `Util`, `Text` | rounding of ties by `{:.2}` is a parameter; `f64` is exact rational arithmetic with rounding to 53 bits |
| `progress.rs` | `Progress`, `Layout`; the header line is `file_header` in `Commands` | |
| `ui.rs` | `Ui` | program name; switching the echo is the event `Echo` |
| `cli/options.rs`, `getopts` | `Getopts` | getopts is external: modelled from its documentation; help texts |
| `cli/credentials.rs` | `CliCreds`, `KeyFiles`, `Ui` | the files with credentials are a function separate from the file system |
| `cli/mod.rs`, `cli/io_streams.rs`, `cli/key_management.rs` | `Cli`, `Paths` | `std::path` is external: modelled for Unix as of 2019 |
| `io_streams.rs`, `commands/crypt.rs`, `commands/gen_keys.rs`, `commands/mod.rs`, `main.rs` | `Fs`, `Commands`, `Process` (arguments, environment, terminals); for C66 and C67 `Program`, `Calls` | times and owners; file sizes are in `Meter`, permissions in `Modes`; reading a file that is being written gives anything |
| `commands/help.rs` | `print_text` in `Commands` | the text is arbitrary |
| `terminal.rs:46-71` | `Terminal` (effect of the `Echo` events on the settings) | Windows part |
| Windows parts, `build.rs`, tests | not modelled | |

Assumptions about the surroundings:

* A crash is the death of the process. The program never calls fsync; for loss of power see C72.
* No other process changes the file system during a run, except in C66 (anything) and C67 (stated there). There `Program`
  is the program of `Commands` for any operating system, and `run_command_fs` proves that it is the same program.
* Directories and links to directories do not change during a run (the program does not change them).
* `faulty = false` (C56) means that system calls succeed if they can; `stalls = false` means that data flows at more than
  a byte per second and there are less than 8 PiB of it.
* `asked` (C28, C32) is conservative: an argument that could be a value of another option counts as the option.
* Every file is encrypted with its own arbitrary random choices; that the generator is good is not modelled.

## 6. Tests of the theorems with wrong programs

`seeded/LOG.jsonl` has a line for every attempt: the model is edited as a realistic bug would (in a copy), everything is
rebuilt, and proofs that fail are replaced one after the other by `Admitted` until the rest builds; a theorem has failed
if it depends on such a gap. A theorem listed as failed is one whose proof does not go through any more; whether its
statement has become false was then judged by hand. Attempts that no theorem noticed led to new theorems: C61, C62 and
C63 came about in this way.
