(** Error values of the model.  rypt reports errors as [failure::Error] with a message; the model has
    one constructor per distinct message (arguments that only decorate the text are dropped). *)
From Verif Require Import Base Shamir.

Inductive err :=
(* std::io *)
| EIo                       (* any I/O error other than the two below *)
| EUnexpectedEof            (* read_exact: "failed to fill whole buffer" *)
(* header_io.rs *)
| EBadSignature             (* header_io.rs:44 *)
| EHeaderEmpty              (* header_io.rs:49 *)
| EHeaderTooLarge           (* header_io.rs:50, 70-75 *)
| EHeaderPadding            (* header_io.rs:59 *)
(* header_crypto.rs *)
| EUnknownAlgorithm         (* header_crypto.rs:59 *)
| EUnknownFamily            (* header_crypto.rs:63 *)
| EHardwareUnsupported      (* crypto/mod.rs:77-81 *)
| EZeroThreshold            (* header_crypto.rs:109 *)
| EThresholdTooLarge        (* header_crypto.rs:112 *)
| EKeySchemeTooLarge        (* header_crypto.rs:116 *)
| EShare (e : share_error)  (* header_crypto.rs:135, 427 *)
| EInvalidKeyPair           (* crypto/mod.rs:68-69 *)
| EInvalidCiphertext        (* crypto/mod.rs:65-66 *)
| EChunkTooLarge            (* header_crypto.rs:223 *)
| EChunkMisaligned          (* header_crypto.rs:227 *)
| EHeaderDecode             (* header_crypto.rs:438 *)
| EBadLength                (* header_crypto.rs:442, 465: slice to array conversion *)
| ENoPayloadKey             (* header_crypto.rs:456 *)
| ENoPayload                (* header_crypto.rs:360 *)
| EKeyDataLength            (* header_crypto.rs:375 *)
| EInsufficientCredentials  (* header_crypto.rs:460 *)
| EProtectedDecode          (* header_crypto.rs:474 *)
| EWrongSenderPk            (* header_crypto.rs:484 *)
| EUnknownSenderAuth        (* header_crypto.rs:488 *)
(* stream_crypto.rs / stream_pipeline.rs *)
| ECorrupt                  (* stream_crypto.rs:66 "Encrypted data is corrupt" *)
| EThreadPanic.             (* stream_pipeline.rs:149 "... thread panic" *)
