(** Specification vocabulary: the gradient field of a target is the gradient of its value. *)
From Coq Require Import Reals.
From Verif Require Import Prelude Num M_Core RNum.
Open Scope R_scope.

(** [x] with coordinate [i] replaced by [t]. *)
Definition with_coord (x : list R) (i : nat) (t : R) : list R := firstn i x ++ t :: skipn (S i) x.
(** Every partial derivative of [h] at [x] exists and is the corresponding entry of [g]. *)
Definition gradient_at (n : nat) (h : list R -> R) (x g : list R) : Prop :=
  length g = n /\ forall i, (i < n)%nat -> derivable_pt_lim (fun t => h (with_coord x i t)) (nth i x 0) (nth i g 0).
(** At every point of dimension [n] the target's gradient is the gradient of its value. *)
Definition true_gradient (n : nat) (d : @datad RNum) (f : @lpdf RNum) : Prop :=
  forall x : list R, length x = n -> gradient_at n (fun y => lp_val f y d) x (lp_grad f x d).
