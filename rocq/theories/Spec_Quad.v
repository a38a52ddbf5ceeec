(** Specification vocabulary: Gaussian targets with independent coordinates. *)
From Coq Require Import Reals.
From Verif Require Import Prelude Num M_Core M_Kernels RNum Spec_Kernels Spec_HMC.

(** log-density constant - sum_i lam_i (x_i - mu_i)^2 / 2, and its gradient. *)
Definition quadratic_target (n : nat) (lam mu : nat -> R) (f : @lpdf RNum) (d : @datad RNum) : Prop :=
  exists c, forall x, length x = n ->
    lp_val f x d = c - / 2 * Rsum n (fun i => lam i * (nth i x 0 - mu i) ^ 2) /\
    length (lp_grad f x d) = n /\ forall i, (i < n)%nat -> nth i (lp_grad f x d) 0 = - (lam i * (nth i x 0 - mu i)).
(** Sum of column j of the condition matrix: the inverse mass of coordinate j. *)
Definition inverse_mass (n : nat) (m : list (list R)) (j : nat) : R := Rsum n (fun i => entry m i j).
(** Energy above the mode, of a position and a momentum. *)
Definition quad_energy (n : nat) (lam mu : nat -> R) (m : list (list R)) (z : list R * list R) : R :=
  / 2 * Rsum n (fun i => lam i * (nth i (fst z) 0 - mu i) ^ 2) + / 2 * Rsum n (fun j => inverse_mass n m j * nth j (snd z) 0 ^ 2).
