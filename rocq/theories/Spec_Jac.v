(** Derivatives of maps between finite-dimensional real vectors (lists), and Jacobian
    determinants. *)
From Coq Require Import Reals List.
From Verif Require Import RNum MxR.
Import ListNotations.

(** l1 distance of the first n coordinates. *)
Definition dist1 (n : nat) (x y : list R) : R := Rsum n (fun j => Rabs (nth j y 0 - nth j x 0)).

(** [phi], a function of vectors of length n, has total (Frechet) derivative g at x. *)
Definition is_dif (n : nat) (phi : list R -> R) (x : list R) (g : nat -> R) : Prop :=
  forall eps, 0 < eps -> exists del, 0 < del /\
    forall y, length y = n -> dist1 n x y < del ->
      Rabs (phi y - phi x - Rsum n (fun j => g j * (nth j y 0 - nth j x 0))) <= eps * dist1 n x y.

(** T : R^n -> R^m has Jacobian matrix J at x. *)
Definition is_jac (n m : nat) (T : list R -> list R) (x : list R) (J : nat -> nat -> R) : Prop :=
  forall i, (i < m)%nat -> is_dif n (fun y => nth i (T y) 0) x (J i).

(** T : R^n -> R^n is differentiable at x and the absolute value of its Jacobian determinant there
    is exp(l). *)
Definition log_abs_det (n : nat) (T : list R -> list R) (x : list R) (l : R) : Prop :=
  exists J, is_jac n n T x J /\ Rabs (mdet n J) = exp l.
