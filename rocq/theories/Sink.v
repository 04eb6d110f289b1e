(** Model of the [BlockSink] trait of /repo/src/store/encoding/mod.rs *)
From Verif Require Import Base.
Open Scope nat_scope.

(** encoding/mod.rs:31-34: what [write_block(row_id, block_data)] does to a sink
    with state [S]: the new state and whether it succeeded.  A sink has no other
    effect on an encoder. *)
Definition sink_fn (S : Type) : Type := S -> N -> list N -> S * result unit.

(** encoding/mod.rs:125-154 [SinkMock]: collects the blocks, oldest first. *)
Definition collect : sink_fn (list (N * list N)) :=
  fun blocks row_id data => (blocks ++ [(row_id, data)], Ok tt).
