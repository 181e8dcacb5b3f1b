(** C79: how much memory the buffers take.

    [allocated s]: the capacities of all the buffers that exist at a moment [s] of a run of the pipeline,
    wherever they are (waiting in a queue or held by a thread), added up. *)
From Coq Require Import List NArith.
From Verif Require Import Pipeline PipelineSpec.
Import ListNotations.
Local Open Scope N_scope.

(** stream_pipeline.rs:88 [Vec::with_capacity(buffer_capacity)] and its reuse at 98-111. *)
Definition allocated (s : pstate) : N := fold_right (fun c n => N.of_nat (ck_cap c) + n) 0 (all_chunks s).
