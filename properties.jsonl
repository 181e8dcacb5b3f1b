{"id": "C01", "title": "GF(256) arithmetic is the AES field", "statement": "The byte arithmetic used for secret sharing is exactly the field GF(2^8) modulo x^8+x^4+x^3+x+1: addition is xor, multiplication equals carry-less polynomial multiplication reduced modulo 0x11B, the field laws hold, a/b is the unique c with c*b=a, and the only operation that panics is division by zero.", "quantifier": "all bytes (all pairs and triples of field elements)", "why_tests_cant": "The repo's quickcheck tests sample random pairs/triples; a single wrong table byte can be missed, and the tables are never compared with the polynomial definition.", "anchors": ["src/shamir/gf256.rs: Gf256, GF256_EXP, GF256_LOG, Mul, Div, Add, Sub"]}
{"id": "C02", "title": "Any threshold-many shares recover the secret", "statement": "For every secret, every number of shares n<=255, every threshold 1<=t<=n and every output of the random generator, share creation succeeds with n shares of the secret's length, and recovery from any selection of at least t distinct shares, in any order, returns exactly the secret.", "quantifier": "all secrets (any length), n, t, randomness, and all duplicate-free selections/orderings of at least t share indices", "why_tests_cant": "The unit test tries one 13-byte secret with n=5,t=3; the claim ranges over all subsets, orders, lengths and random polynomials.", "anchors": ["src/shamir/mod.rs: create_secret_shares, recover_secret"]}
{"id": "C03", "title": "Fewer than threshold shares reveal nothing", "statement": "For every set of t-1 share indices and every possible contents of those shares, and for every candidate secret, there is exactly one choice of the random coefficients for which share creation gives those contents: t-1 shares are equally likely under every secret.", "quantifier": "all secrets, thresholds, index sets of size t-1, share contents", "why_tests_cant": "Secrecy is a counting statement over all random choices and all secrets; no test can observe it.", "anchors": ["src/shamir/mod.rs: create_secret_shares"]}
{"id": "C04", "title": "Share creation and recovery reject exactly the invalid requests and never panic", "statement": "Share creation fails exactly when t=0, n<t or n>255; share recovery on an arbitrary list of (index, bytes) pairs never panics and fails exactly when t=0, an index repeats, fewer than t shares are given, one of the first t indices is >=255, or the first t shares differ in length.", "quantifier": "all argument values, including arbitrary malformed share lists", "why_tests_cant": "Malformed inputs form an unbounded space; the tests contain no error case at all.", "anchors": ["src/shamir/mod.rs: create_secret_shares, recover_secret, SecretShareError"]}
{"id": "C05", "title": "Key splitting and recombination agree for OR / AND / threshold groups", "statement": "Whatever way a group key is split (copies for threshold 1, xor parts for threshold=n, Shamir shares otherwise), the decryption-side recombination rule applied to any sub-collection of the parts gives back exactly the key if it contains at least `threshold` parts, and 'not enough' otherwise.", "quantifier": "all keys, part counts, thresholds, randomness and sub-collections of parts", "why_tests_cant": "Encoder and decoder choose the scheme independently from (threshold, n); agreement must hold for every pair and every subset.", "anchors": ["src/header_crypto.rs: split_key_into_key_parts, decrypt_composite_key"]}
{"id": "C06", "title": "AND-group parts are individually useless", "statement": "When all n parts are required (xor split, n>=2), for any n-1 of the parts with arbitrary contents and any candidate key there is exactly one choice of randomness producing them.", "quantifier": "all keys, n>=2, positions of the missing part, part contents", "why_tests_cant": "Counting statement over all random choices.", "anchors": ["src/header_crypto.rs: split_key_into_key_parts"]}
{"id": "C07", "title": "Sufficient credentials always open the header", "statement": "For every well-formed credential expression (nested groups, thresholds, share counts, passwords, symmetric keys, public keys) that encryption accepts, and for every collection of decryption credentials that satisfies the expression, header decryption succeeds and yields the same payload key, header hash and chunk size that encryption used, unless some header ciphertext happens to open under a credential that does not match it.", "quantifier": "all credential trees (any depth/width), all credential collections, all randomness, all crypto systems satisfying encrypt/decrypt correctness", "why_tests_cant": "The space of trees and credential subsets is unbounded; tests cover one or two shapes.", "anchors": ["src/header_crypto.rs: encrypt_header, encrypt_composite_key, decrypt_header, decrypt_composite_key, decrypt_key_parts, decryptor_from_credential"]}
{"id": "C08", "title": "Insufficient credentials never open the header", "statement": "If the supplied credentials do not satisfy the credential expression, header decryption returns the 'Invalid or insufficient credentials' error (not a wrong key, not a crash), unless some header ciphertext happens to open under a credential that does not match it.", "quantifier": "all credential trees, all insufficient credential collections, all randomness", "why_tests_cant": "Negative claim over all insufficient subsets of arbitrary trees.", "anchors": ["src/header_crypto.rs: decrypt_header, decrypt_composite_key, decrypt_key_parts"]}
{"id": "C09", "title": "Order, repetition and extra credentials do not matter on decryption", "statement": "For a file produced by encryption, header decryption with two credential lists that contain the same set of credentials gives the same result, and adding further credentials never turns success into failure (barring accidental openings).", "quantifier": "all trees, all permutations / duplications / supersets of credential lists", "why_tests_cant": "Permutations and supersets of arbitrary lists cannot be enumerated.", "anchors": ["src/header_crypto.rs: decrypt_header, decrypt_key_parts"]}
{"id": "C10", "title": "No nonce is ever used twice within one file", "statement": "While producing one encrypted file that is actually written, all AEAD nonces used (header, recipients, data chunks) are pairwise distinct and so are all public-key-box nonces.", "quantifier": "all credential trees (any number of recipients), all plaintext lengths up to 2^64 chunks", "why_tests_cant": "Collisions could only appear at 2^32 recipients / 2^64 chunks or for particular index bytes, which tests never reach.", "anchors": ["src/header_crypto.rs: recipient_secret_nonce, recipient_box_nonce, ENCRYPTED_HEADER_NONCE", "src/stream_crypto.rs: CHUNK_NONCE, convert_chunk", "src/header_io.rs: write_header"]}
{"id": "C11", "title": "The header does not reveal recipient types", "statement": "Replacing any recipient (password, symmetric key, public key) by another recipient of any type, keeping group structure, share counts and thresholds, changes neither the length nor the field structure of the written header.", "quantifier": "all pairs of credential trees of the same shape, all randomness", "why_tests_cant": "Pairwise (hyper-)property over all trees.", "anchors": ["src/header_crypto.rs: encrypt_composite_key (const_assert_eq AEAD_MAC_LEN BOX_MAC_LEN)", "src/proto/header.proto"]}
{"id": "C12", "title": "The protected header has constant size", "statement": "The encrypted protected-header field has the same length for every file regardless of chunk size and keys.", "quantifier": "all chunk sizes and keys", "why_tests_cant": "Depends on protobuf default-skipping for every value.", "anchors": ["src/header_crypto.rs: encrypt_header", "src/proto/header.proto: ProtectedHeader"]}
{"id": "C13", "title": "Header framing round-trips", "statement": "For every header of 1..16 MiB bytes, reading back what was written (followed by anything) returns exactly that header, consumes exactly the framing bytes and leaves the stream at the first chunk; the framed length is a multiple of 8; larger headers are refused with nothing written.", "quantifier": "all header byte strings, all continuations, all ways the OS segments reads", "why_tests_cant": "All lengths mod 8, all contents, all read segmentations.", "anchors": ["src/header_io.rs: read_header, write_header, padding_len"]}
{"id": "C14", "title": "Header framing is canonical", "statement": "If reading a header succeeds then the bytes consumed are exactly the bytes that writing the returned header would produce: signature, length and padding cannot be altered without being rejected, and every rejected input is rejected by an error, never by a crash.", "quantifier": "all byte streams", "why_tests_cant": "Negative claim over all byte strings.", "anchors": ["src/header_io.rs: read_header"]}
{"id": "C15", "title": "Header serialization round-trips", "statement": "Decoding the serialized form of any file header / protected header returns the same header.", "quantifier": "all header values (arbitrary nesting, lengths, u64 values)", "why_tests_cant": "Recursive structure with varints of every size.", "anchors": ["src/proto/header.proto", "src/util.rs: serialize_proto", "src/header_crypto.rs: decrypt_header"]}
{"id": "C16", "title": "Generated chunk sizes are valid", "statement": "Every chunk size chosen by encryption is a multiple of 8 within [1 MiB-4096, 1 MiB+4088], all of them equally often, is accepted by the encryptor's own check and by decryption; decryption refuses chunk sizes above 1 GiB or not divisible by 8.", "quantifier": "all random draws; all u64 chunk sizes in a header", "why_tests_cant": "Random draw and attacker-controlled u64.", "anchors": ["src/header_crypto.rs: check_chunk_size, encrypt_header, decrypt_header", "src/crypto/rng.rs: CryptoSystemRng"]}
{"id": "C17", "title": "Chunking does not depend on how reads are segmented", "statement": "However the input source splits the data into short reads and interrupted calls, the stage that reads input emits exactly the fixed-size split of the byte stream: all chunks full except the last, exactly one chunk flagged last, consecutive indices, an empty stream giving one empty last chunk; a read error after k bytes emits only the chunks already complete.", "quantifier": "all byte streams, all segmentations into reads, all positions of interruptions and errors, all chunk sizes >=1", "why_tests_cant": "Segmentations are unbounded and the one-byte look-ahead makes boundary cases delicate.", "anchors": ["src/stream_pipeline.rs: read_stream"]}
{"id": "C18", "title": "Stream encryption round-trips", "statement": "Decrypting the chunk stream produced by encryption under the same key, header hash and chunk size returns exactly the plaintext, for every plaintext length (including 0 and exact multiples of the chunk size).", "quantifier": "all plaintexts, chunk sizes >=1, keys, header hashes, read segmentations on both sides", "why_tests_cant": "All boundary lengths and segmentations.", "anchors": ["src/stream_crypto.rs: convert_chunk, get_chunk_config", "src/stream_pipeline.rs: convert_stream, read_stream"]}
{"id": "C19", "title": "Encrypted size formula", "statement": "The encrypted body of an n-byte plaintext with chunk size c has length n + 16*max(1, ceil(n/c)).", "quantifier": "all n, c>=1", "why_tests_cant": "All lengths.", "anchors": ["src/stream_crypto.rs", "src/stream_pipeline.rs"]}
{"id": "C20", "title": "Any change to the encrypted data is detected, and only authentic prefixes are released", "statement": "Decrypting an arbitrary byte stream with the codec of an honestly encrypted file: the output written is always a prefix of the original plaintext ending at a chunk boundary, and if decryption succeeds the stream equals the honest one and the output equals the plaintext - unless the stream contains an AEAD forgery (a chunk that opens although the encryptor never produced it for that position). In particular truncation, extension, reordering, duplication and bit flips are all rejected.", "quantifier": "all modified streams, all plaintexts, all chunk sizes >=1", "why_tests_cant": "Negative claim over all byte streams; tests flip a few bytes at best.", "anchors": ["src/stream_crypto.rs: convert_chunk", "src/stream_pipeline.rs: read_stream, convert_stream"]}
{"id": "C21", "title": "Any change to the header is detected", "statement": "If a file with a modified header (or framing) is accepted for decryption and its data decrypts completely under the original payload key, then the whole file equals the original, or an AEAD forgery or a hash collision is exhibited.", "quantifier": "all modified files", "why_tests_cant": "Negative claim over all byte strings.", "anchors": ["src/header_crypto.rs: decrypt_header", "src/header_io.rs: read_header", "src/stream_crypto.rs"]}
{"id": "C22", "title": "Whole-file round trip", "statement": "For every plaintext, every accepted credential expression, and every satisfying set of decryption credentials, decrypting the file written by encryption yields the plaintext (barring accidental openings).", "quantifier": "all plaintexts, credential trees, credential collections, randomness, read segmentations", "why_tests_cant": "Product of all of the above.", "anchors": ["src/commands/crypt.rs: crypt_streams", "src/header_crypto.rs", "src/header_io.rs", "src/stream_pipeline.rs"]}
{"id": "C23", "title": "The parallel pipeline computes what a sequential loop computes", "statement": "For every interleaving of the reader, converter, writer and main threads, the bytes written at any moment are a prefix of what a sequential read-convert-write loop would write, and when the call returns they are exactly what the sequential loop writes.", "quantifier": "all schedules, all inputs, all converter behaviours, all failure points", "why_tests_cant": "Schedules are unbounded and timing-dependent.", "anchors": ["src/stream_pipeline.rs: convert_stream, read_stream, convert_chunks, write_stream"]}
{"id": "C24", "title": "The pipeline never deadlocks and always terminates", "statement": "From every reachable state of the pipeline some thread can make a step until the call returns, and every execution is finite, whether or not stages fail or panic.", "quantifier": "all schedules, all failure points, all chunk sizes >=1, all finite inputs", "why_tests_cant": "Deadlocks are schedule dependent; tests rarely hit failure interleavings.", "anchors": ["src/stream_pipeline.rs: convert_stream"]}
{"id": "C25", "title": "Pipeline memory is bounded and buffers are never reallocated", "statement": "At every moment at most 6 chunk buffers exist, the bounded queues hold at most one chunk each, no buffer ever grows beyond the capacity it was allocated with (so the capacity assertion in the main loop cannot fail and its length subtraction cannot underflow), for both encryption and decryption.", "quantifier": "all schedules, inputs and chunk sizes", "why_tests_cant": "Invariant over all reachable states.", "anchors": ["src/stream_pipeline.rs: NUM_CHUNKS_IN_PIPELINE, convert_stream", "src/stream_crypto.rs: convert_chunk"]}
{"id": "C26", "title": "Pipeline errors are always reported, success means everything was written and flushed", "statement": "The call returns success if and only if no stage failed; in that case every input byte was read, converted, written and the output flushed. If any stage fails or panics the call returns an error.", "quantifier": "all schedules, all failure points and combinations of failures", "why_tests_cant": "Race between several failing stages.", "anchors": ["src/stream_pipeline.rs: convert_stream (join_results)"]}
{"id": "C27", "title": "Progress callbacks account for every byte", "statement": "When the pipeline succeeds, the byte counts passed to the progress callback sum to exactly the number of input bytes read, and at any moment they never exceed it.", "quantifier": "all schedules and inputs", "why_tests_cant": "Invariant over all interleavings.", "anchors": ["src/stream_pipeline.rs: convert_stream (progress_cb)"]}
{"id": "C28", "title": "Existing files are never overwritten or deleted without --force", "statement": "Without force, running encryption or decryption over any list of files leaves every file that existed before with unchanged content, except that successfully processed input files may be deleted when deletion was requested.", "quantifier": "all file systems, all input lists, all I/O failure points, all cleanup policies", "why_tests_cant": "All file-system states and failure points.", "anchors": ["src/commands/crypt.rs: crypt_streams", "src/io_streams.rs: OutputStream::open, open_with_cleanup_cb"]}
{"id": "C29", "title": "A failed conversion leaves no output file", "statement": "If processing a file fails at any point after its output file was created, the output file is removed (if the OS allows the removal); if it fails because the output already existed, the existing file is left alone.", "quantifier": "all failure points, all file systems", "why_tests_cant": "Failure points are unbounded.", "anchors": ["src/commands/crypt.rs: crypt_streams"]}
{"id": "C30", "title": "Inputs are deleted only after success and only when asked; crash safety", "statement": "An input file is deleted only if its own conversion succeeded and the policy says delete (or the user confirmed), and at every intermediate moment (crash point) each original input is either still present unchanged or its complete converted output is present.", "quantifier": "all crash points of a run, all input lists whose outputs are distinct from inputs, all failure points, all policies and prompt answers", "why_tests_cant": "Crash points cannot be enumerated by tests.", "anchors": ["src/commands/crypt.rs: crypt_streams", "src/io_streams.rs: InputStream::open_with_cleanup_cb", "src/ui.rs: read_prompt_bool"]}
{"id": "C31", "title": "Files are processed independently and the exit status is truthful", "statement": "A failing file does not prevent the other files from being processed with the same result as if it were absent, and the command reports failure if and only if at least one conversion failed (when the terminal itself works).", "quantifier": "all input lists and failure patterns", "why_tests_cant": "All combinations of failures.", "anchors": ["src/commands/crypt.rs: crypt_streams", "src/errors.rs", "src/main.rs"]}
{"id": "C32", "title": "Only plain single-link regular files are processed in file mode without --force", "statement": "Without force, file mode never reads data from or deletes a directory, symlink, multiply linked or non-regular file; directories are refused even with force; stream mode never deletes its input.", "quantifier": "all file-system node kinds and link counts", "why_tests_cant": "All metadata combinations.", "anchors": ["src/io_streams.rs: InputStream::open, open_with_cleanup_cb"]}
{"id": "C33", "title": "Encrypted names map back to the original names", "statement": "For every input path whose file name n does not end in '.' and every suffix s (one leading '.' removed) without '/', the encrypted file is n.s in the same directory (for an empty s only if n has an extension); if s has no '.', decrypting a file of that name with the same suffix writes the original path; distinct such inputs never get the same output name and the output is never the input. Decryption accepts only names that end in .s, removes exactly that, never writes over its input, and gives distinct outputs for distinct inputs whose names do not start with '..'. (Refuted without the conditions: 'a.' and 'a' both become 'a.rypt'; rypt -f -S '' a has its input as its output; a suffix with an inner dot cannot be removed again.)", "quantifier": "all command lines, paths and suffixes", "why_tests_cant": "All path strings and suffixes.", "anchors": ["src/cli/io_streams.rs: get_input_output_streams, add_extension, remove_extension, get_encrypted_file_extension"]}
{"id": "C34", "title": "Encrypted data never goes to or comes from a terminal without --force", "statement": "For every command line and every combination of terminal/non-terminal standard streams, if the accepted command would write ciphertext to a terminal or read ciphertext from a terminal standard input then force was given. Conversely, if a command line with each option in an argument of its own is refused for a terminal, then that stream is a terminal, force was not given, and the command would really have read ciphertext from standard input (decryption with no file or a dash) or written it to standard output (encryption with no file, a dash, or -s and one file).", "quantifier": "all command lines, all tty combinations", "why_tests_cant": "Product of all argument lists and tty states.", "anchors": ["src/cli/mod.rs: check_and_adjust_ui_verbosity, parse_command_line", "src/cli/io_streams.rs: get_input_output_streams"]}
{"id": "C35", "title": "The last mode flag wins", "statement": "An accepted command line performs the mode whose flag has the greatest position; if every option is in an argument of its own that is the last mode flag; encryption if none is given; help without a help flag only if there are no arguments at all and stdout is a terminal. (Refuted for flags that share an argument: -de and -ed both decrypt.)", "quantifier": "all command lines and terminal states", "why_tests_cant": "All argument orders.", "anchors": ["src/cli/mod.rs: get_mode, parse_command_line"]}
{"id": "C36", "title": "Credential arguments denote the credential expression they spell", "statement": "Printing any well-formed credential expression as command-line tokens and parsing it gives the expression back; conversely every accepted token sequence gives a well-formed expression (1<=threshold<=number of shares = sum of shares of its members, no private keys, groups non-empty). (With share counts large enough to overflow usize the conclusion is false: see the refutation.)", "quantifier": "all expressions / all token sequences", "why_tests_cant": "Recursive grammar, unbounded inputs.", "anchors": ["src/cli/credentials.rs: parse_complex_credential, get_encrypt_credential"]}
{"id": "C37", "title": "Decryption accepts only flat credential lists", "statement": "On decryption any combinator argument or public key is refused, and an accepted command line yields exactly the listed credentials in order, never a public key or group (so later stages cannot hit their 'unexpected credential' panics).", "quantifier": "all token sequences", "why_tests_cant": "All argument lists.", "anchors": ["src/cli/credentials.rs: get_decrypt_credentials, parse_complex_credential", "src/header_crypto.rs: decryptor_from_credential"]}
{"id": "C38", "title": "Interactive passwords are non-empty and confirmed", "statement": "Whatever the user types, an interactive password is accepted only if non-empty and, when encrypting, only if the immediately following confirmation was identical; otherwise the prompt repeats; no prompt is attempted when the terminal is not interactive.", "quantifier": "all sequences of typed replies", "why_tests_cant": "Unbounded interaction histories.", "anchors": ["src/cli/credentials.rs: read_password_interactively", "src/ui.rs: read_password, can_read"]}
{"id": "C39", "title": "A prompt consumes exactly one line of standard input", "statement": "Reading a reply returns exactly the text typed before the first newline (minus one trailing carriage return) for every valid UTF-8 line and leaves all bytes after the newline unread for use as data; invalid UTF-8 or end of input is an error.", "quantifier": "all byte streams", "why_tests_cant": "All Unicode strings and invalid sequences.", "anchors": ["src/ui.rs: BasicUI::read_prompt"]}
{"id": "C40", "title": "Checksummed hex keys round-trip and reject any altered letter case", "statement": "Parsing the checksummed hex text of any bytes returns the bytes, also with whitespace inserted between bytes; a text is accepted if and only if, ignoring whitespace between byte pairs, it is exactly the checksummed text of the parsed bytes.", "quantifier": "all byte strings, all whitespace insertions, all candidate texts", "why_tests_cant": "Unbounded texts; negative direction.", "anchors": ["src/util.rs: to_hex_string, to_hex_string_checksummed, try_parse_hex_string, try_parse_hex_string_checksummed"]}
{"id": "C41", "title": "Generated key files can be read back", "statement": "For every generated key pair, the written private-key file parses to exactly that private key, the public-key file to that public key, and the last 64 characters of the private key line are the public key line.", "quantifier": "all key pairs", "why_tests_cant": "All 2^256 keys.", "anchors": ["src/commands/gen_keys.rs: generate_key_pair_files", "src/cli/credentials.rs: from_hex64_private_key, from_hex32, read_file_lines"]}
{"id": "C42", "title": "Key generation never overwrites files without --force and never exposes the private key in the public file", "statement": "Without force no existing file changes; the public-key file never contains the private key unless the two names coincide. (They coincide when the requested private-key name already ends in '.pub': with force the private key then replaces the public key file - see refutation.)", "quantifier": "all file systems, all requested names", "why_tests_cant": "All names and file-system states.", "anchors": ["src/commands/gen_keys.rs", "src/cli/key_management.rs: get_keypair_streams"]}
{"id": "C43", "title": "Human-readable durations and sizes", "statement": "A formatted duration denotes exactly the number of whole seconds with minutes and seconds below 60, and size formatting never indexes outside the unit table and scales the value into [1,1024) of its unit.", "quantifier": "all u64 values", "why_tests_cant": "2^64 values.", "anchors": ["src/util.rs: human_duration, human_file_size"]}
{"id": "C44", "title": "Progress reporting never aborts the operation", "statement": "For every sequence of progress notifications and clock readings, printing progress does not panic. (False: a file of known size with a measured speed of 0 bytes/s makes the ETA computation divide by zero.)", "quantifier": "all notification histories and clocks", "why_tests_cant": "Depends on timing.", "anchors": ["src/progress.rs: print_progress, print_progress_line"]}
{"id": "C45", "title": "Malformed key files are rejected with an error, not a crash", "statement": "For every text, reading a private-key line returns a key or an error. (False: a 128-byte line with a multi-byte character across byte 64 makes split_at panic.)", "quantifier": "all texts", "why_tests_cant": "All Unicode texts.", "anchors": ["src/cli/credentials.rs: from_hex64_private_key"]}
{"id": "C46", "title": "Malformed headers are rejected with an error, not a crash", "statement": "For every header byte string and every credential list, header decryption returns a result or an error. (False: a sender who knows a recipient's public key can make decryption panic with an empty multi-part key or an AND group with unequal part lengths; these are the only ways.)", "quantifier": "all header byte strings, all credential lists", "why_tests_cant": "Adversarial inputs.", "anchors": ["src/header_crypto.rs: decrypt_key_parts, decrypt_composite_key", "src/util.rs: xor_vec"]}
{"id": "C47", "title": "Deletion prompt defaults to keeping files", "statement": "Original files are removed on a prompt only if the user's reply is (case-insensitively) y or yes; any other conclusive reply, an impossible prompt or an input error keeps them.", "quantifier": "all sequences of replies, all verbosity/tty states", "why_tests_cant": "Unbounded interaction.", "anchors": ["src/ui.rs: read_prompt_bool, can_read", "src/commands/crypt.rs"]}
{"id": "C48", "title": "Credential arguments are taken in command-line order", "statement": "The credential token sequence is sorted by position on the command line and contains every credential argument exactly once; merged short flags whose order cannot be known are either refused or order-insensitive.", "quantifier": "all argument lists", "why_tests_cant": "All argument orders.", "anchors": ["src/cli/credentials.rs: extract_tokens"]}
{"id": "C49", "title": "The limit on the size of key schemes", "statement": "A group whose key material (key length times number of shares) reaches 16 MiB is refused with an error, provided the product fits into 64 bits. (Without the proviso the claim is false for a release build: the product wraps, so 2^59 shares of a 32 byte key pass the check and the process dies allocating them.)", "quantifier": "all key lengths, share counts, thresholds", "why_tests_cant": "Needs share counts no test would allocate.", "anchors": ["src/header_crypto.rs: split_key_into_key_parts"]}
{"id": "C50", "title": "Encryption accepts exactly the realisable credential expressions", "statement": "For a well-formed credential expression header encryption succeeds if and only if the requested algorithm is available, every threshold lies between 1 and the number of shares, proper threshold groups have at most 255 shares, the key material of every (nested) group stays below 16 MiB and every public key is usable.", "quantifier": "all well-formed expressions, all randomness, all crypto systems", "why_tests_cant": "Unbounded expressions.", "anchors": ["src/header_crypto.rs: encrypt_header, encrypt_composite_key, split_key_into_key_parts"]}
{"id": "C51", "title": "Progress lines are truthful", "statement": "Every progress line shows the number of bytes processed at some moment (never more than the file size), the average speed since an earlier moment more than a second before it, and the remaining time at that speed rounded up to whole seconds.", "quantifier": "all notification histories and clock readings that do not stall, all file sizes below 2^63", "why_tests_cant": "Depends on timing; the window of remembered moments slides.", "anchors": ["src/progress.rs: print_progress, print_progress_line"]}
{"id": "C52", "title": "Passwords are never echoed", "statement": "During a password dialogue, whatever is typed and however it ends (accepted, end of input, invalid text, terminal errors), every reply is typed while terminal echo is off, echo is on again at the end, and nothing but fixed messages is printed.", "quantifier": "all typed histories, all failures of the terminal, both directions", "why_tests_cant": "Unbounded dialogues; every early exit must restore the echo.", "anchors": ["src/ui.rs: read_password, read_prompt", "src/cli/credentials.rs: read_password_interactively"]}
{"id": "C53", "title": "Progress does not mix with data on a terminal", "statement": "Unless -v or -q change the verbosity, whenever progress reporting is left enabled by an accepted command line, neither data typed into a terminal nor data printed on one is part of the command. (Refuted with -v: progress stays enabled while the plaintext is typed.)", "quantifier": "all command lines, all combinations of terminals", "why_tests_cant": "Product of all argument lists, credentials and terminal states.", "anchors": ["src/cli/mod.rs: check_and_adjust_ui_verbosity, parse_command_line", "src/ui.rs: set_progress_enabled"]}
{"id": "C54", "title": "Even with --force only named files are touched", "statement": "Encryption, decryption and key generation, forced or not, successful or not, change nothing but the named inputs and outputs, what symbolic links among them lead to, and other hard links to the same files.", "quantifier": "all file systems, all command lists, all failure and interruption points", "why_tests_cant": "All file systems and failure points.", "anchors": ["src/commands/crypt.rs: crypt_streams", "src/commands/gen_keys.rs: generate_key_pair_files", "src/io_streams.rs"]}
{"id": "C55", "title": "Successful key generation leaves complete matching pairs", "statement": "When key generation without force reports success, every requested public and private key file is new and complete, and the two files of a request hold the two keys of one generated pair.", "quantifier": "all file systems, all lists of requested names", "why_tests_cant": "All lists of names, including coinciding ones.", "anchors": ["src/commands/gen_keys.rs: generate_key_pair_files"]}
{"id": "C56", "title": "Nothing fails without a reason", "statement": "Every command line leads to an exit status. If the operating system does what it is asked, the inputs are plain files whose contents can be converted, the output names are free and distinct, then every file is converted, and removed if requested, and the exit status is 0 (the only possible error being a removal question that cannot be answered). Encryption of a file never fails because of its content. The same holds for stream mode and for key generation.", "quantifier": "all file systems, all lists of files, all contents, all policies", "why_tests_cant": "Liveness over all file systems, contents and lists of files.", "anchors": ["src/commands/crypt.rs: crypt_streams", "src/commands/gen_keys.rs: generate_key_pair_files", "src/main.rs"]}
{"id": "C57", "title": "Encrypting and decrypting restores files", "statement": "A file encrypted by a successful run can later be decrypted, wherever it has been moved and together with whatever other files, by everybody whose credentials satisfy the expression, and only by them; a successful decryption run leaves a file with exactly the original content. Encrypting files and removing them, then decrypting and removing the encrypted files, leaves the whole file system as it was: the same entries with the same contents, and nothing else changed, made or lost.", "quantifier": "all file systems, contents, expressions, credential sets and lists of other files in both runs", "why_tests_cant": "End to end over two runs of the program with arbitrary other inputs.", "anchors": ["src/commands/crypt.rs: crypt_streams", "src/io_streams.rs", "src/header_crypto.rs", "src/stream_pipeline.rs"]}
{"id": "C58", "title": "The program crashes for known reasons only", "statement": "The exit status 101 of a panic occurs only for: a private key file with a line of 128 bytes that has a character across byte 64, a progress report out of range, an encryption expression with a group of at least 2^40 shares, or a file whose authenticated header holds a malformed group that the given credentials open. In particular encryption with a reasonable expression never crashes.", "quantifier": "all command lines, file systems, file contents, key files, failures of the operating system", "why_tests_cant": "All inputs of the whole program.", "anchors": ["src/main.rs", "src/commands", "src/cli/key_management.rs", "src/shamir/mod.rs", "src/progress.rs"]}
{"id": "C59", "title": "Insufficient credentials reveal nothing about the payload key", "statement": "Someone whose credentials do not satisfy the credential expression, and for whom the encryptions to the other recipients are opaque, sees recipient entries that are equally likely for every payload key: for every two keys there is a bijection of the random bytes used for key splitting that maps the one run to the other with identical recipient entries. With sufficient credentials this is false.", "quantifier": "all expressions (arbitrary nesting, shares and thresholds), credential sets, pairs of payload keys, random bytes", "why_tests_cant": "A statement about the distribution over all random bytes and all expressions.", "anchors": ["src/header_crypto.rs:encrypt_header", "src/header_crypto.rs:split_key_into_key_parts", "src/shamir/mod.rs:create_secret_shares"]}
{"id": "C60", "title": "Encrypted files reveal only the length of the data", "statement": "If encryption under the payload key is opaque, two inputs of the same length give the same output file, whatever their contents and however they are read, also when reading or writing fails.", "quantifier": "all pairs of inputs of equal length, expressions, random choices, outputs, schedules of the pipeline threads", "why_tests_cant": "Ranges over all pairs of inputs.", "anchors": ["src/commands/crypt.rs", "src/stream_crypto.rs:convert_chunk", "src/stream_pipeline.rs:convert_stream"]}
{"id": "C61", "title": "A file is encrypted under the keys drawn for it", "statement": "The data and the protected part of the header are encrypted under the payload key drawn from the random number generator, the ephemeral key in the header is the one generated from the drawn seed, and every recipient's entry is encrypted under the key derived from that recipient's credential and this ephemeral key pair, with the documented nonces and associated data.", "quantifier": "all inputs, expressions, random choices, schedules", "why_tests_cant": "Exact layout for every input and expression.", "anchors": ["src/header_crypto.rs:encrypt_header", "src/crypto/mod.rs:CryptoSystem", "src/stream_crypto.rs"]}
{"id": "C62", "title": "What an accepted header says", "statement": "Decryption accepts a header only if it names a known algorithm, carries a 32-byte ephemeral key and recipients, its payload key has 32 bytes, and its protected part authenticates under the payload key and names an anonymous sender, the same ephemeral key and the chunk size that is used.", "quantifier": "all byte strings as headers, all credential sets", "why_tests_cant": "All headers, including hostile ones.", "anchors": ["src/header_crypto.rs:decrypt_header"]}
{"id": "C63", "title": "Headers follow the published format", "statement": "The program accepts exactly the headers that are protobuf messages of the published schema (header.proto), and reads from them what the schema says: for repeated scalar fields the last value, for repeated key parts all of them in order, several payload keys merged, the last of the two kinds of key data. Truncated fields, wrong wire types, field number 0 and over-long numbers are rejected; fields with unknown numbers are skipped wherever they occur. What the program writes is a message of the schema that means the header written.", "quantifier": "every byte string offered as a file header or protected header, every header written, every unknown field at every position", "why_tests_cant": "All byte strings, of any length and nesting.", "anchors": ["src/proto/header.proto", "src/header_crypto.rs:decrypt_header", "src/util.rs:serialize_proto"]}
{"id": "C64", "title": "rypt on libsodium: the promises of the library suffice", "statement": "If libsodium keeps its documented promises (decryption reverses encryption for messages up to the stated maximum, lengths are as stated, generated key pairs agree on a common key, password hashing of admissible passwords and salts succeeds), then the functions rypt's wrapper offers keep them too, for each of the two algorithms; AES is available exactly if libsodium says so; and files encrypted by rypt with libsodium are decrypted by it with any sufficient credentials.", "quantifier": "all behaviours of the C library within its documentation, all expressions, inputs, outputs, schedules", "why_tests_cant": "Tests run one build of the library on a few inputs; this covers every library that keeps the promises and every input.", "anchors": ["src/crypto/libsodium.rs", "src/crypto/mod.rs:instantiate_crypto_system"]}
{"id": "C65", "title": "rypt only calls the crypto library with admissible arguments", "statement": "The program never depends on what the crypto library does with arguments outside its documented domain (keys, nonces, salts and authentication tags of the wrong size, messages or passwords that are too long): two libraries that agree on admissible arguments give the same possible runs of the whole program, whatever files, headers and command lines it is given, also damaged or hostile ones.", "quantifier": "all command lines, worlds, files (also hostile ones) and pairs of libraries; passwords shorter than 4 GiB", "why_tests_cant": "Ranges over all hostile inputs and over all possible misbehaviours of the library.", "anchors": ["src/crypto/libsodium.rs", "src/crypto/mod.rs", "src/header_crypto.rs", "src/stream_crypto.rs"]}
{"id": "C66", "title": "What a run asks of the operating system is justified by what it did before, whatever the answers", "statement": "In every run of rypt, whatever each system call answers, whatever other processes do meanwhile and wherever the process is killed: output files are only created once the input of the same stream has been opened and, unless --force was given, only as new files; a conversion reads and writes just what was opened for one stream and when it succeeds everything that was read has been converted; a file is only removed if it is the output of a conversion that has just failed, or an original whose complete conversion succeeded in this run, was not removed since, and whose removal was requested by option or by the answer to the question; no input is opened after an original was removed. Key generation reads, converts and removes nothing, and writes a private key only after its public half was written completely. A refused command line causes no system call.", "quantifier": "all command lines, answers of all system calls, contents read, points at which the process is killed, and activities of other processes", "why_tests_cant": "System calls can fail, race and be interrupted in unboundedly many combinations; tests see only a cooperative file system.", "anchors": ["src/commands/crypt.rs:crypt_streams", "src/commands/gen_keys.rs:generate_key_pair_files", "src/commands/mod.rs", "src/io_streams.rs", "src/main.rs"]}
{"id": "C67", "title": "Files are safe in a file system that other processes use", "statement": "While other processes change other files in any way, each system call of an encryption or decryption without --force leaves every file alone except outputs that did not exist at the start, and originals at a moment where their complete conversion is there; a reported success means that all outputs are complete. Whatever other processes do, even to the same files, a run never changes the content of a file that it has not created itself, and never makes a directory entry refer to something else.", "quantifier": "all interleavings of the calls of a run with changes by other processes, all file systems, all streams without a file that is both input and output", "why_tests_cant": "Races with other processes depend on the schedule and cannot be enumerated by tests.", "anchors": ["src/commands/crypt.rs:crypt_streams", "src/io_streams.rs:InputStream", "src/io_streams.rs:OutputStream"]}
{"id": "C68", "title": "Command lines are read as documented", "statement": "Every option is recognised under its documented letter and name, in all the usual spellings (-abc, -oVALUE, -o VALUE, --name, --name=VALUE, --name VALUE), flags take no value, the other options need one, and only repeatable options may be repeated. Other arguments are files, as is everything after --. Every command line has exactly one meaning or exactly one reason for being refused (unknown option, missing value, unexpected value, repeated option); if it is refused, rypt exits with status 1 and changes nothing.", "quantifier": "all command lines (lists of arguments of any length)", "why_tests_cant": "Infinitely many combinations and spellings of options; tests try some of them.", "anchors": ["src/cli/options.rs:define_mode_options", "src/cli/options.rs:define_credential_options", "src/cli/mod.rs:parse_command_line", "src/main.rs"]}
{"id": "C69", "title": "An accepted command line asks for what it says", "statement": "For every accepted command line: --force, --fast, --keep-inputs and --discard-inputs have their effect just if they are given (never both of the last two; with neither the user is asked); with --stream or without files a single input goes to standard output, otherwise every named file is converted to a file, in order; the suffix of encrypted files is rypt or the one given, one leading dot not counting; without key options one password is asked for and suffices; a generated private key goes to the named file and the public key next to it under a name that ends in .pub, and at most one private key goes to standard output; -v and -q differ by at most two. The other way round, a command line is refused because of -v and -q only if they differ by more than two, because of the originals only if both options are given, because of a stream only if --stream is given with several files, because of a dash only if a file is called so besides others or with spaces, and in generating key pairs only if no file is named or standard output is named twice.", "quantifier": "all command lines, terminals and typed inputs", "why_tests_cant": "Options combine in unboundedly many ways; tests cover a few combinations.", "anchors": ["src/cli/mod.rs:parse_command_line", "src/cli/io_streams.rs:get_input_output_streams", "src/cli/key_management.rs:get_keypair_streams", "src/cli/credentials.rs:get_encrypt_credential"]}
{"id": "C70", "title": "The terminal shows no secrets", "statement": "In every run of rypt, however it ends, everything that is printed on the terminal is an error message, a progress line, a fixed text, the name of a file or password given on the command line, or the public key of a pair just made: never a private key, a password or contents of a converted file. An error message repeats at most one character of a file given as key, and that is no hexadecimal digit. What the user types is not echoed, except for the answer to the question about the originals, and at the end the terminal echoes again.", "quantifier": "all command lines, terminals, typed inputs, files, failures of the operating system, and seeds of key pairs", "why_tests_cant": "A leak may depend on a rare error path; tests look at the output of some runs.", "anchors": ["src/ui.rs:BasicUI", "src/commands/gen_keys.rs:generate_key_pair_files", "src/commands/crypt.rs:crypt_streams", "src/cli/credentials.rs", "src/util.rs:ParseHexError", "src/main.rs"]}
{"id": "C71", "title": "No key is used twice with the same nonce, in however many files", "statement": "In any history of successful encryptions in which no payload key and no ephemeral key pair was drawn twice, no two parts of the files (protected headers, recipients' parts, chunks of data), of one file or of different files, are encrypted with the same cipher, key and nonce; otherwise the key derived for a recipient of one file happens to be the payload key of another, or the functions that derive the keys of recipients map two different inputs, given by the two files, to one key.", "quantifier": "all histories of encryptions of any length, all options, recipients, data and random values", "why_tests_cant": "Reuse shows only when the files of a whole history are compared, and any two of them could collide.", "anchors": ["src/header_crypto.rs: encrypt_header, recipient_secret_nonce, recipient_box_nonce", "src/stream_crypto.rs: convert_chunk", "src/crypto/rng.rs"]}
{"id": "C72", "title": "A loss of power does not damage existing files", "statement": "If power is lost at any moment of a run without --force, or after it, and the disk has any part of what was written, in any order, then everything that existed before the run is unchanged, except converted originals whose removal the user has requested. (That one of an original and its conversion is always there is true for a killed process, C30, but not for a loss of power: refuted.)", "quantifier": "all runs, all moments, all selections of changes that reached the disk, all file systems", "why_tests_cant": "A test cannot enumerate the states of a disk after a loss of power.", "anchors": ["src/io_streams.rs: OutputStream, InputStream", "src/commands/crypt.rs: crypt_streams", "src/commands/gen_keys.rs: generate_key_pair_files"]}
{"id": "C73", "title": "Runs at the same time on different files are safe", "statement": "Any number of runs of rypt without --force can work at the same time, each on files of its own, with their system calls in any order and any of them killed at any point: each call only touches outputs of its own run that were not there at the start, and removes originals of its own run whose conversion is there; at every moment each file that was there is unchanged, or it was removed at the request of its user and its complete conversion is there; and a run that reports success has converted all its files.", "quantifier": "all numbers of runs, all interleavings of their calls and of other processes, all points where runs are killed, all file systems, all streams without a file that is both input and output", "why_tests_cant": "Interleavings of several processes cannot be enumerated by tests.", "anchors": ["src/commands/crypt.rs:crypt_streams", "src/io_streams.rs:InputStream", "src/io_streams.rs:OutputStream"]}
{"id": "C74", "title": "What the manual describes works from end to end", "statement": "Whoever generates a key pair with rypt -g, encrypts a file for (a copy of) the public key file and decrypts (a copy of) the encrypted file with (a copy of) the private key file - on any machines, with any accepted spelling of the command lines and any further options except --force, --stream and --suffix - gets the original content back under the original name, if the three runs exit with status 0. The same holds for two runs where the same password is typed. And where nothing stands in the way (no failing system calls, inputs that are there, outputs that are not) every run of these commands does exit with status 0.", "quantifier": "all command lines of this kind, all file contents and names, all key pairs and passwords, all random choices, all machines", "why_tests_cant": "Each step depends on the output of the one before; tests run the program on a few files with fixed options.", "anchors": ["src/main.rs:main", "src/cli/mod.rs:parse_command_line", "src/cli/credentials.rs:get_encrypt_credential", "src/cli/credentials.rs:get_decrypt_credentials", "src/commands/crypt.rs:crypt_streams", "src/commands/gen_keys.rs:generate_key_pair_files"]}
{"id": "C75", "title": "Quiet runs are quiet, and failures are explained", "statement": "With -qq (more -q than -v by two) a run of rypt shows nothing at all on the terminal, whatever happens. With -q it shows only errors and, if both the input and the output are terminals, the dialogue about passwords; the same without -q and -v if standard error is not a terminal, or if files are converted to files and standard input or output is not a terminal (except when keys are made). Conversely a run that exits with status 1 has shown at least one error message, unless -qq was given or standard error cannot be written.", "quantifier": "all accepted command lines, terminals, inputs, file systems and failures of the operating system", "why_tests_cant": "A stray message may be on any path of the program, and a failure without a message on any error path; tests use a fake terminal and see a few runs.", "anchors": ["src/ui.rs:BasicUI", "src/cli/mod.rs:check_and_adjust_ui_verbosity", "src/commands/crypt.rs:crypt_streams", "src/commands/gen_keys.rs:generate_key_pair_files", "src/main.rs:main"]}
{"id": "C76", "title": "The progress display is one line that says how far the file has come", "statement": "A progress line can be formatted for all numbers of 64 bits; its fields are in fixed columns, it is at most 73 printable characters, and it shows the percentage done within 0.0501 percentage points and never above 100.0, the size and speed in the unit that fits, and the time to go. Whatever the times and amounts of the notifications, on a terminal of at least 73 columns the display of a file takes one line: while the file is converted that line shows the latest progress, and in the end it stays as the last line, all else on the screen being as before. On narrower terminals lines wrap and every update may leave a line.", "quantifier": "all file sizes, amounts, speeds and times of 64 bits; all histories of notifications; all terminals of at least 73 columns", "why_tests_cant": "Rounding errors and the widths of fields depend on the numbers; the layout on the terminal on the whole history. Tests look at the text of no progress line.", "anchors": ["src/progress.rs:format_progress_line", "src/progress.rs:print_progress_line", "src/progress.rs:Drop", "src/ui.rs:println_progress", "src/terminal.rs:TERMINAL_CLEAR_LINE"]}
{"id": "C77", "title": "-v and -q change what is said, not what is done", "statement": "If two command lines differ only in arguments made of -v and -q (at most one -q more than -v, at most two -v more than -q), and it is settled what happens to the originals (-K or -D is given, or keys are made, or there is no terminal to ask at), then every run of the one can be matched by a run of the other in the same situation with the same exit status, the same files at every moment, the same bytes on standard output and as much input consumed. The exception is the line without any arguments at a terminal, which shows the help (refuted: rypt and rypt -v differ).", "quantifier": "all pairs of command lines that differ in -v and -q, in any spelling and at any place; all terminals, inputs, file systems and failures", "why_tests_cant": "A message that fails, or an option that depends on its position, could change the effect on any path; tests run each command with one level of verbosity.", "anchors": ["src/ui.rs:BasicUI", "src/cli/mod.rs:parse_command_line", "src/cli/mod.rs:check_and_adjust_ui_verbosity", "src/commands/crypt.rs:crypt_streams", "src/main.rs:main"]}
{"id": "C78", "title": "Opening a file costs no more than its header and the credentials warrant", "statement": "Whoever made a file, opening its header with given credentials stretches each password at most as often as it was given (exactly so if the file opens), whatever the number of recipients in the header; it tries at most one ciphertext per credential and 20 bytes of header, and per credential at most as many bytes as the header has; and data that is not a header costs no cryptographic operation. The depth of nesting, and with it of the recursion, has no bound but the 16 MiB of a header (refuted: 762000 levels fit).", "quantifier": "all byte strings as headers (also hostile ones), all lists of credentials, all crypto libraries", "why_tests_cant": "The headers that cost most are not the ones a test would write; the number of operations is not visible in results.", "anchors": ["src/header_crypto.rs:decrypt_header", "src/header_crypto.rs:decryptor_from_credential", "src/header_crypto.rs:decrypt_composite_key", "src/crypto/mod.rs:aead_decrypt_easy", "src/crypto/mod.rs:box_decrypt_easy"]}
{"id": "C79", "title": "The buffers take less than 10 MB", "statement": "The README promises less than 10 MB of memory. At every moment of every encryption, and of every decryption of a file whose header rypt made, all buffers together have a capacity of at most 6316086 bytes, however long the data and however slow the input or the output. For a header of any origin that the credentials open the bound is 6 GiB and 102 bytes, and it is reached before any of the data has been read (the promise is refuted for such files).", "quantifier": "all expressions of recipients, all random choices, all inputs and outputs, all schedules of the four threads, all moments of a run", "why_tests_cant": "Peak memory depends on the schedule and on the header; hostile headers are not in test suites.", "anchors": ["src/stream_pipeline.rs:convert_stream", "src/header_crypto.rs:encrypt_header", "src/header_crypto.rs:check_chunk_size", "README.md"]}
{"id": "C80", "title": "Encrypted through a pipe, decrypted through a pipe", "statement": "As a filter (rypt ... < data > encrypted, rypt -d ... < encrypted): whatever one successful run with the public key file of a generated pair writes to the standard output, a successful decrypting run with the private key file turns back into exactly the data; up to 1044480 bytes it is 184 bytes longer. With password files, typed passwords and thresholds, k of n: a successful decryption had at least k of the passwords, and gives back exactly the data. These runs succeed: for every pair of keys and every input without read errors, and with passwords whenever the decrypting file has k of the (at most 255) passwords.", "quantifier": "all data, key pairs, password files, thresholds, arrangements of the standard input in pieces, worlds", "why_tests_cant": "The round trip goes through key files, option parsing, credentials, header, chunks and streams; tests have a few literal cases of the middle part.", "anchors": ["src/commands/crypt.rs:crypt_streams", "src/cli/mod.rs:parse_command_line", "src/credentials.rs", "src/stream_crypto.rs"]}
{"id": "C81", "title": "How large the encrypted file is", "statement": "The size of the header is a closed formula of the recipients (number of keys, shares and nesting; not of the passwords, keys or data), for one flat level 101 plus a field of 52 bytes per recipient; the encrypted file is 8 bytes, the header rounded up to a multiple of 8, the data, and 16 bytes for each started chunk of about a megabyte. For one key and up to 1044480 bytes it is 184 bytes. Encryption succeeds for every input if the formula is at most 16 MiB and for none otherwise, so there are accepted sets of recipients for which nothing can be encrypted.", "quantifier": "all recipients, nesting, weights, all data and random choices", "why_tests_cant": "The size depends on lengths of varints at every nesting level; tests look at a few sizes.", "anchors": ["src/header_crypto.rs:encrypt_header", "src/header_io.rs:write_header", "src/proto/header.proto", "src/stream_crypto.rs"]}
{"id": "C82", "title": "The settings of the terminal come back", "statement": "At the end of every run, failing ones included, a terminal that showed what is typed has exactly the settings it had; at every moment in between all settings but the echo are as before; without a terminal nothing is changed. Every reply is read right after a prompt: replies to questions for passwords are never shown while they are typed, all other replies are. A terminal whose echo was off before is left with echo on after a question for a password (refuted in that case).", "quantifier": "all command lines, worlds, replies and failures, all settings of the terminal, all moments of a run", "why_tests_cant": "Tests have no terminal; the property concerns every way a run can end.", "anchors": ["src/terminal.rs:set_stdin_echo", "src/ui.rs:read_password", "src/ui.rs:read_prompt", "src/ui.rs:read_prompt_bool"]}
{"id": "C83", "title": "The display shows how much of the file has been written", "statement": "At every moment of a conversion, the bytes that the progress display has been told about have been read, and their converted form has been handed to the output. When a regular file of at least one byte has been converted, its size was announced to the display, the lines never went back, and the last one, which stays on the screen, shows the size of the file and 100.0 %; for streams of unknown size it shows their length. For an empty file the display ends with 0.0 %, and for a link (with -s or -f) the size of the link is announced instead of that of the file (both refuted).", "quantifier": "all files, data, directions, recipients, schedules of the threads, times and moments", "why_tests_cant": "Every schedule and every piece of input; tests do not run with a display.", "anchors": ["src/commands/crypt.rs:crypt_streams", "src/io_streams.rs:InputStream::open", "src/stream_pipeline.rs:convert_stream", "src/progress.rs:ProgressPrinter"]}
{"id": "C84", "title": "The permissions of files", "statement": "Whatever a command does and wherever it is cut off, files that it does not remove keep their permissions, also if they are overwritten with -f, and files that it creates have rw-rw-rw- without the bits of the umask; with the umask 077 nobody else can use them. Private keys are not protected in any other way: with the usual umask everybody can read them (refuted), and the output of a decryption does not take over that only the owner may read its input (refuted).", "quantifier": "all commands, file systems, permissions, umasks, answers of the operating system and points at which the process is killed", "why_tests_cant": "Holds for every run and every umask; tests look at contents only.", "anchors": ["src/io_streams.rs:OutputStream::open", "src/commands/gen_keys.rs:generate_key_pair_files", "src/commands/crypt.rs:crypt_streams"]}
{"id": "C85", "title": "The output is divided into numbered sections, and they tell the truth", "statement": "With -v, or at a terminal, the output of an encryption or decryption consists of one section per file, in the order of the files: the heading `[from] -> [to] (3/7)` with the right names, number and total, progress, the errors of this file, and an empty line; then only the question about the originals and errors. Without -f: a section without an error means that the output is new and has the conversion of the original, a section with an error that the original is untouched, one with exactly one error that no unfinished output is left. The exit status is 0 only if no section has an error. For key pairs likewise, with their public key and file names. A shown name, read as a path, is the path of the file.", "quantifier": "all command lines, files, contents, keys, file systems, answers of the operating system and of the user", "why_tests_cant": "Which files fail, and how, depends on all contents and on the operating system; tests see one sequence of outcomes.", "anchors": ["src/commands/crypt.rs:crypt_streams", "src/commands/gen_keys.rs:generate_key_pair_files", "src/io_streams.rs:InputStream::path", "src/ui.rs:println_interactive"]}
{"id": "C86", "title": "Standard streams carry data only when asked for, whatever the environment", "statement": "Standard output stays empty unless help or version is shown, a private key is asked for there, or data is converted there (-s, no file, or a dash); with files named, not a byte goes to it. Standard input is taken as data only if no file or a dash is named. Encrypted data is written to or read from a terminal only with -f, and no environment variable can change that. Only RYPT_STDIN_TTY_OVERRIDE, RYPT_STDOUT_TTY_OVERRIDE and RYPT_STDERR_TTY_OVERRIDE matter, and only whether they are set to a text. Questions are asked at standard input together with standard error: with -q, or without -q and -v when standard error is no terminal, only errors are shown unless both are terminals or pretended to be. With an argument that is not Unicode the program exits with status 1 and touches nothing.", "quantifier": "all arguments (as bytes), environments, terminals, inputs, file systems and answers of the operating system", "why_tests_cant": "The ways to write a command line, the contents of the environment and the outcomes of the file operations are unbounded.", "anchors": ["src/main.rs:main", "src/cli/mod.rs:parse_command_line", "src/cli/mod.rs:check_and_adjust_ui_verbosity", "src/cli/io_streams.rs:get_input_output_streams", "src/io_streams.rs:OutputStream::open", "src/commands/crypt.rs:crypt_streams"]}
{"id": "C87", "title": "No history of commands without --force loses data, even with crashes", "statement": "Start with any consistent file system and give any number of rypt commands without --force, in any order, from any directory, each of them running to its end, failing, or being stopped at any moment. Then at every moment, for every ordinary file of the start there is an ordinary file with its content, or with what commands got from that content by completely encrypting or decrypting it. Links, directories, special files and files with several names stay as they are. Other programs may change files in between, as long as they keep contents somewhere.", "quantifier": "all file systems, all sequences of command lines without --force, all moments of interruption, all answers of the operating system, and all conversions of one file to another in one command (chains)", "why_tests_cant": "Histories of commands, moments of interruption and file systems are unbounded; the property is an invariant over histories.", "anchors": ["src/main.rs:main", "src/commands/crypt.rs:crypt_streams", "src/commands/gen_keys.rs:generate_key_pair_files", "src/io_streams.rs:InputStream::open", "src/io_streams.rs:OutputStream::open"]}
{"id": "C88", "title": "The result of a conversion is determined by the bytes and the credentials; all who can open a file get the same content", "statement": "Converting the same bytes twice with the same credentials and the same random values gives the same output bytes and the same verdict, however the input arrives in pieces and however the threads are scheduled, also when the input is malformed or hostile and when the output device fills up. If the input can be read and the output written, the same error is reported as well. Two sets of credentials that both decrypt a file, whoever made it, get the same content, unless the protected part of the header of this very file opens under two different keys. (That exception is real: with an encryption whose tag does not commit to the key, a hostile file shows its recipients different contents.)", "quantifier": "all byte strings, honest or hostile, all divisions into pieces, all schedules, all sizes of the output device, all credential sets, all crypto libraries", "why_tests_cant": "Inputs and schedules are unbounded, and two unrelated executions are compared.", "anchors": ["src/commands/crypt.rs:crypt_streams", "src/stream_pipeline.rs:convert_stream", "src/header_io.rs:read_header", "src/header_crypto.rs:decrypt_header", "src/stream_crypto.rs:CryptoSystemAEADCodec"]}
{"id": "C89", "title": "Asking for help or the version does nothing else", "statement": "If the last mode option of a readable command line is --help or --version (or there are no arguments and standard output is a terminal), then whatever else the command line says, no file is opened, created, changed or removed, no question is asked, nothing is read from standard input, no key file or password is needed, nothing but standard output is written, and on a working machine the exit status is 0. On a failing machine the status is 1 and at most the one error is shown.", "quantifier": "all command lines in which help or version decides, with any other options and file names, all file systems, all settings of the terminals", "why_tests_cant": "Command lines and file systems are unbounded; absence of effects is a statement about all of them.", "anchors": ["src/cli/mod.rs:parse_command_line", "src/cli/mod.rs:get_mode", "src/commands/mod.rs:run_command", "src/commands/help.rs:print_help", "src/commands/help.rs:print_version", "src/main.rs:main"]}
{"id": "C90", "title": "Interrupted conversions can be repeated with --force", "statement": "If converting some ordinary files was interrupted at any moments, any number of times, with or without --force and with or without removal of the originals, then every file is still there unchanged or its complete conversion is there, and no other file has changed. Repeating the conversion with --force replaces what earlier attempts left; an output whose original has already been removed is left alone; a run that succeeds completes the conversion of all files; and if nothing stands in the way the run succeeds. This needs that no two files have the same output (C33) and that no file is named twice: encrypting notes and notes. with --force and removal succeeds, and loses notes; naming a file twice with --force and removal, and a read error on the second occasion, loses the file.", "quantifier": "all file systems, all lists of files with distinct outputs, all sequences of runs with any settings and any crash points, all behaviours of a faulty operating system", "why_tests_cant": "Histories of interrupted runs, crash points and file contents are unbounded.", "anchors": ["src/commands/crypt.rs:crypt_streams", "src/io_streams.rs:OutputStream::open", "src/io_streams.rs:InputStream::open", "src/cli/mod.rs:parse_command_line"]}
{"id": "C91", "title": "Commands that name their files without ambiguity lose no file", "statement": "For whole command lines, with or without --force: if no file is named twice, no named file is to be the result of converting another, names of files to be encrypted do not end in a dot and those of files to be decrypted do not start with two, the suffix is a proper one, different names mean different entries of the file system and these have ordinary files or nothing, then at every moment every file is there unchanged, or it is a named one and its complete conversion is there under the name that is due to it, or --force was given and it has that name itself; nothing that is at none of these places changes; and exit status 0 means that all named files have been converted to the names that are due to them.", "quantifier": "all command lines that ask to encrypt or decrypt, all file systems, all crash points, all behaviours of a faulty operating system", "why_tests_cant": "Command lines, file systems and crash points are unbounded.", "anchors": ["src/cli/io_streams.rs:get_input_output_streams", "src/cli/mod.rs:parse_command_line", "src/commands/crypt.rs:crypt_streams", "src/main.rs:main"]}
{"id": "C92", "title": "Key pairs are replaced in order, and successful runs leave complete pairs", "statement": "When key pairs are generated, with or without --force, under names that are not ambiguous (none given twice, none the name of another's public key, no two with the same name for the public key, different names meaning different entries with ordinary files or nothing): at every moment each pair of files is as it was, or a part of a new public key has been written and the private file is as it was, or the whole public key is there and a part of the private key that belongs to it; exit status 0 means that all pairs are complete; nothing else changes.", "quantifier": "all command lines that ask for keys, all file systems, all seeds, all crash points, all behaviours of a faulty operating system", "why_tests_cant": "File systems, crash points and random keys are unbounded.", "anchors": ["src/commands/gen_keys.rs:generate_key_pair_files", "src/cli/mod.rs:parse_command_line", "src/io_streams.rs:OutputStream::open", "src/main.rs:main"]}
{"id": "C93", "title": "Key files that end too early are not taken for other keys", "statement": "If the beginning of a file with symmetric, public or private keys is accepted, it is accepted as the first keys of the file. So a part of a generated key file is accepted as the generated key only. And at every moment of a run that generates keys under names that are not ambiguous, each pair of files is as it was, or the public file is accepted as a new public key only, if at all, and the private file is as it was or is accepted, if at all, as the private key of that public key, which is then accepted from the public file.", "quantifier": "all files and all their beginnings, all keys, all command lines that ask for keys, all crash points, all behaviours of a faulty operating system", "why_tests_cant": "Files, keys and crash points are unbounded.", "anchors": ["src/cli/credentials.rs:read_file_lines", "src/cli/credentials.rs:from_hex32", "src/cli/credentials.rs:from_hex64_private_key", "src/util.rs:try_parse_hex_string_checksummed", "src/commands/gen_keys.rs:generate_key_pair_files"]}
{"id": "C94", "title": "Files shared between several keys are restored with enough of them, from command lines to files", "statement": "A successful run encrypts a file for the keys in the files named on its command line, with thresholds, shares and groups. Then whenever a later run, perhaps on another machine, succeeds in decrypting a copy of the encrypted file with the keys in other files, these keys satisfy the expression and the original content is restored under the name without .rypt; and runs that are given keys that satisfy the expression succeed if nothing stands in the way. Without groups and shares: k of the n keys are needed, and sufficient.", "quantifier": "all pairs of machines and runs, all spellings of all expressions over password files, symmetric keys, public keys in files and on the command line, all contents", "why_tests_cant": "Expressions, files and runs are unbounded.", "anchors": ["src/cli/credentials.rs:get_encrypt_credential", "src/cli/credentials.rs:get_decrypt_credentials", "src/cli/mod.rs:parse_command_line", "src/commands/crypt.rs:crypt_streams", "src/header_crypto.rs:encrypt_header", "src/header_crypto.rs:decrypt_header"]}
{"id": "C95", "title": "Runs that cannot succeed do no harm, and say so", "statement": "A run that is to encrypt with --fast on a machine without hardware support fails, whatever it is given, and writes nothing to standard output. The same machine cannot decrypt what was encrypted with --fast elsewhere; and files that do not begin with a header, or were encrypted for keys that are not satisfied, cannot be decrypted. A run without --force in which no file can be converted fails; every file that was there is untouched at every moment, also with --discard-inputs, and unless the program crashed there are no new files afterwards, but for those whose removal the system refused. The same holds for a single such file among others. With a pipe, nothing at all is written to standard output if the keys do not open the header.", "quantifier": "all command lines, contents, keys, file systems, failures of the system and moments of the run", "why_tests_cant": "Command lines, contents and failures are unbounded; tests run on machines with hardware support.", "anchors": ["src/commands/crypt.rs:crypt_streams", "src/header_crypto.rs:cryptosys_from_proto", "src/header_crypto.rs:encrypt_header", "src/header_crypto.rs:decrypt_header", "src/io_streams.rs"]}
