(** Specification vocabulary about buffers (used in the statements of C01, C02, C08, C12, ...). *)
From Verif Require Import Prelude Num M_Core Spec.

Section SpecCore.
Context {N : Num}.

(** The update is admissible: same rank, no dimension larger, existing axis. *)
Definition fits_shape (b : buffer) (u : arr) : Prop :=
  b_cursor_dim b < length (ashape (b_data b)) /\
  length (ashape u) = length (ashape (b_data b)) /\
  forall k, k < length (ashape u) -> nth k (ashape u) 0 <= nth k (ashape (b_data b)) 0.

(** Shape, name, cursor and cursor dimension are kept. *)
Definition same_header (b b' : buffer) : Prop :=
  ashape (b_data b') = ashape (b_data b) /\ b_name b' = b_name b /\
  b_cursor b' = b_cursor b /\ b_cursor_dim b' = b_cursor_dim b.

(** Written at [s]: the entries of [u] are at indices shifted by s along the cursor
    dimension; all other entries are those of b. *)
Definition written_at (b : buffer) (u : arr) (s : nat) (b' : buffer) : Prop :=
  (forall jx ix, valid_index (ashape u) jx -> shifted (b_cursor_dim b) s jx ix ->
     aget (b_data b') ix = aget u jx) /\
  (forall ix, (forall jx, valid_index (ashape u) jx -> ~ shifted (b_cursor_dim b) s jx ix) ->
     aget (b_data b') ix = aget (b_data b) ix).

End SpecCore.
