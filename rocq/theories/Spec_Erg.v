(** Specification vocabulary: the target's mean on finitely many states, and how well the flow covers the target. *)
From Coq Require Import Reals.
From Verif Require Import Prelude Num M_Core M_Kernels M_Strategies M_Bundle Spec_Bundle Spec_Kernels RNum Spec_Real Spec_Inv.
Open Scope R_scope.

(** The target's expectation of [g]: the weighted mean over the states. *)
Definition target_mean (X : list (list R)) (w g : list R -> R) : R := expected_under X w g / total X w.
(** No state is more than [W] times likelier under the (normalised) target than under the flow. *)
Definition covers (X : list (list R)) (w q : list R -> R) (W : R) : Prop := forall x, In x X -> w x / total X w <= W * q x.
(** [g] takes values between [lo] and [hi] on the states. *)
Definition ranges (X : list (list R)) (g : list R -> R) (lo hi : R) : Prop := forall x, In x X -> lo <= g x <= hi.
(** Global steps that act on a chain in one production loop: one in [c_global_th] is kept, and the chain continues from
    the last one kept. *)
Definition loop_globals {G : @Rng RNum} {NF : @NFOps RNum G} (c : config) : nat := ((c_global c - 1) / c_global_th c * c_global_th c + 1)%nat.
(** Global steps behind the position recorded in slot [s] of the production phase: the ones of the earlier loops, and, in a
    global slot, the ones of this loop up to it (the local slots of a loop come first). *)
Definition slot_globals {G : @Rng RNum} {NF : @NFOps RNum G} (c : config) (s : nat) : nat :=
  (let locals := c_local c / c_local_th c in
   let per := locals + c_global c / c_global_th c in
   s / per * loop_globals c + (if s mod per <? locals then 0 else (s mod per - locals) * c_global_th c + 1))%nat.
