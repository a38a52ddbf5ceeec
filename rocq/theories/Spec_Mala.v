(** Specification vocabulary for MALA with a matrix step size. *)
From Coq Require Import Reals.
From Verif Require Import Prelude Num M_Core M_Kernels M_Net M_Mala RNum MxR Spec_Kernels Spec_Real Spec_Net.
Open Scope R_scope.

(** One call from x as a function of the Gaussian draw z and the uniform draw u. *)
Definition mat_mala_run {G : @Rng RNum} (chol : list (list R) -> list (list R)) (dt : list (list R)) (k : key) (f : @lpdf RNum) (d : @datad RNum) (x z : list R) : outcome :=
  fun u => @mat_mala_kernel RNum (with_draws G z u) chol dt k x (lp_val f x d) f d.
(** The matrix with the given diagonal and zeros elsewhere. *)
Definition diagonal_matrix (v : list R) : list (list R) :=
  map (fun i => map (fun j => if (i =? j)%nat then nth i v 0 else 0) (seq 0 (length v))) (seq 0 (length v)).
Definition is_diagonal (n : nat) (m : list (list R)) : Prop := forall i j, (i < n)%nat -> (j < n)%nat -> i <> j -> ent m i j = 0.
Definition invertible (n : nat) (m : list (list R)) : Prop :=
  exists e, forall i j, (i < n)%nat -> (j < n)%nat -> mmul n (ent m) e i j = mid i j.
(** Entry (i, j) of m * transpose m, the covariance of m z for standard normal z. *)
Definition noise_cov (n : nat) (m : list (list R)) (i j : nat) : R := Rsum n (fun k => ent m i k * ent m j k).
(** The matrix of squared entries has a Cholesky factor (it is positive definite). *)
Definition squares_factor (n : nat) (m : list (list R)) : Prop :=
  exists l, cholesky_shape n l /\ forall i j, (i < n)%nat -> (j < n)%nat -> ent m i j ^ 2 = Rsum n (fun k => ent l i k * ent l j k).
(** [q] is the density at mean + m z of a random vector mean + m Z with Z standard normal. *)
Definition noise_density (n : nat) (m : list (list R)) (z : list R) (q : R) : Prop :=
  q * Rabs (mdet n (ent m)) = std_density n z.
