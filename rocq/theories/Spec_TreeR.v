(** Specification vocabulary for trained models over the reals. *)
From Coq Require Import Reals.
From Verif Require Import Prelude Num M_Core M_Kernels M_Flow M_Net RNum Spec_Net.
Open Scope R_scope.

(** At least two samples, and no coordinate is constant over them. *)
Definition spread (n : nat) (data : list (list R)) : Prop :=
  (2 <= length data)%nat /\
  forall j, (j < n)%nat -> exists i i', (i < length data)%nat /\ (i' < length data)%nat /\ nth j (nth i data []) 0 <> nth j (nth i' data []) 0.
(** jnp.linalg.cholesky: a lower triangular factor with positive diagonal, for every n x n matrix that has one. *)
Definition chol_law (chol : list (list R) -> list (list R)) : Prop :=
  forall n M, Spec_Net.square n M -> (exists l, cholesky_shape n l /\ factor_of n l M) -> cholesky_shape n (chol M) /\ factor_of n (chol M) M.
