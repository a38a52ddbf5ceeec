(** Specification vocabulary: when a bundle run can stop early. *)
From Verif Require Import Prelude Num M_Core M_Kernels M_Strategies M_PT M_Bundle
  Spec Spec_Core Spec_Steps Spec_Kernels Spec_Train Spec_PT Spec_Bundle.

Section SpecProg.
Context {N : Num} {G : Rng} {NF : NFOps}.

(** The step sizes MALA accepts for positions with [dim] coordinates (C13_mala_raises). *)
Definition step_accepted (ss : stepsize) (dim : nat) : Prop :=
  match ss with SScalar _ => True | SVec _ => False | SDiag v => length v = dim end.

(** All counts positive. *)
Record counts_ok (c : config) : Prop := mkCountsOk {
  co_chains : 0 < c_n_chains c; co_local : 0 < c_local c; co_global : 0 < c_global c; co_batch : 0 < c_batch c;
  co_step : step_accepted (c_step c) (c_n_dims c) }.

(** The positions recorded when the training after the loops [past] starts: those of [past] and the local steps
    [lout] just made, chain by chain. *)
Definition recorded_so_far (c : config) (past : list loop) (lout : list chain_out) : list (list vec) :=
  map (fun i => map (fun o => s_pos (snd o)) (chain_history c past i) ++
                map s_pos (kept_steps (c_local c) (c_local_th c) (nth i lout []))) (seq 0 (c_n_chains c)).

(** The training that follows the local steps [lout] refuses the recorded positions: the number of finite ones is
    not a multiple of the number of chains (TypeError), or examples are wanted and there are none (ValueError). *)
Definition training_refused (c : config) (past : list loop) (lout : list chain_out) (e : exn) : Prop :=
  let total := length (concat (map (filter finite_row) (recorded_so_far c past lout))) in
  (e = TypeError /\ total mod c_n_chains c <> 0) \/ (e = ValueError /\ total = 0 /\ 0 < c_max c).

(** Starting in [s0], the reference algorithm comes to loop number [past] + 1 < [loops] + 1, makes its local steps
    and the training refuses. *)
Definition stops_early {E} (before : E -> key -> pos_t -> E -> key -> pos_t -> Prop) (c : config) (window : nat)
  (d : datad) (loops : nat) (s0 : rstate E) (e : exn) : Prop :=
  exists past s e0 k0 xs0 lout xs1,
    length past < loops /\ training_run before c window d s0 past s /\
    before (r_ext s) (r_key s) (r_pos s) e0 k0 xs0 /\ local_run c d k0 xs0 lout xs1 /\
    training_refused c past lout e.
End SpecProg.
Section SpecProg2.
Context {N : Num}.
(** The target rules out positions with a coordinate that is NaN or infinite: its value there is NaN or -inf. *)
Definition rules_out_nonfinite (f : lpdf) (d : datad) (dim : nat) : Prop :=
  forall x, length x = dim -> finite_row x = false -> impossible (lp_val f x d).
End SpecProg2.
