(** Errors of the command line program; one constructor per message. *)
From Verif Require Import Base Text Util.

Inductive cerr :=
| CIo                      (* any std::io error *)
| CHex (e : hex_error)     (* util.rs:70-79 *)
| CKeyLength               (* credentials.rs:363 *)
| CPrivateKeyLength        (* credentials.rs:370 *)
| CNoKeys                  (* credentials.rs:401 *)
| CCannotPrompt            (* ui.rs:63, 170; credentials.rs:410 *)
| CEof                     (* ui.rs:202 *)
| CNonUtf8                 (* ui.rs:195 *)
| CUnrecognizedOption      (* getopts *)
| CUnexpectedArgument      (* getopts *)
| CArgumentMissing         (* getopts *)
| COptionDuplicated        (* getopts *)
| CParseInt                (* std: ParseIntError, cli/credentials.rs:113 *)
| CMergedArguments         (* cli/credentials.rs:164 *)
| CCombinatorOnDecrypt     (* cli/credentials.rs:209 *)
| CSharesNotFollowedByKey  (* cli/credentials.rs:212 *)
| CZeroShares              (* cli/credentials.rs:232 *)
| CManyThresholds          (* cli/credentials.rs:240, 248 *)
| CPublicKeyOnDecrypt      (* cli/credentials.rs:278, 289 *)
| CPrivateKeyOnEncrypt     (* cli/credentials.rs:299 *)
| CNoCredentials           (* cli/credentials.rs:316 *)
| CExtraEndGroup           (* cli/credentials.rs:325 *)
| CUnclosedGroup           (* cli/credentials.rs:328 *)
| CEmptyGroup              (* cli/credentials.rs:331 *)
| CZeroThreshold           (* cli/credentials.rs:337 *)
| CThresholdTooLarge       (* cli/credentials.rs:340 *)
| CVerbosity               (* cli/mod.rs:75 *)
| CKeepAndDiscard          (* cli/mod.rs:113 *)
| CReadFromTerminal        (* cli/mod.rs:183 *)
| CWriteToTerminal         (* cli/mod.rs:186 *)
| CSingleInput             (* cli/io_streams.rs:23 *)
| CDash                    (* cli/io_streams.rs:39 *)
| CHasExtension            (* cli/io_streams.rs:85 *)
| CHasNoExtension          (* cli/io_streams.rs:99 *)
| CNoKeyFile               (* cli/key_management.rs:15 *)
| CTwoKeysToStdout         (* cli/key_management.rs:24 *)
| CDirectory               (* io_streams.rs:35 *)
| CSymlink                 (* io_streams.rs:47 *)
| CHardLinks               (* io_streams.rs:48 *)
| CNotRegular              (* io_streams.rs:49 *)
| CConversion              (* any error of the header or of the stream *)
| CStdinTaken              (* ui.rs:111-117 *)
| CComposite.              (* errors.rs *)
