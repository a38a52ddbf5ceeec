(** Specification vocabulary for C93: how far the density of a flow is from the target. *)
From Coq Require Import Reals.
From Verif Require Import Prelude Num M_Core M_Kernels RNum Spec_Kernels.
Open Scope R_scope.

Section Close.
Context {G : @Rng RNum} {NF : @NFOps RNum G}.
(** Log of the importance weight of a position: log-density of the target minus log-density of the flow. *)
Definition log_weight (m : @mdl RNum G NF) (f : @lpdf RNum) (d : datad) (x : list R) : R := lp_val f x d - m_logp m x.
(** Up to the constant c (the target need not be normalised), the two log-densities differ by at most e on every
    position of dimension dim. *)
Definition near_target (dim : nat) (m : @mdl RNum G NF) (f : @lpdf RNum) (d : datad) (c e : R) : Prop :=
  forall x, length x = dim -> Rabs (log_weight m f d x - c) <= e.
(** The uniform number of step i of a call of the flow proposal with key k. *)
Definition step_uniform (k : key) (i : nat) : R := uniform (scan_key (split k 2 0) i).
(** What a chain holds when its i-th step begins. *)
Definition before {A} (a : A) (l : list A) (i : nat) : A := match i with O => a | S j => nth j l a end.
End Close.
