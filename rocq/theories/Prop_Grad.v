(** C42, C43: the targets the library builds from the user's carry true gradients (exact real arithmetic). *)
From Coq Require Import Reals Lra.
From Verif Require Import Prelude Num M_Core M_Kernels M_Strategies M_PT RNum Spec_Grad P_Grad.
Open Scope R_scope.

(** C42: if the gradients of the log-density and of the log-prior are true, so is the gradient of the tempered density at every
    temperature: the tempered walkers' Langevin drift points uphill their own density. *)
Theorem C42_gradient : forall n d (t : @tempered RNum) temp,
  true_gradient n d (l_pdf (t_base t)) -> true_gradient n d (t_prior t) -> true_gradient n d (tempered_lpdf t temp).
Proof. exact tempered_gradient. Qed.
(** C43: the objective AdamOptimization descends is minus the log-density, with minus its gradient. *)
Theorem C43_objective : forall n d (f : @lpdf RNum), true_gradient n d f ->
  true_gradient n d (neg_lpdf f) /\ forall x, lp_val (neg_lpdf f) x d = - lp_val f x d.
Proof. exact objective_gradient. Qed.
(** The hypotheses are met, for instance, by -|x|^2 with gradient -2x, in every dimension. *)
Example C42_gradient_case : forall n d, true_gradient n d (@mkLpdf RNum (fun x _ => - fold_right Rplus 0 (map (fun a => a * a) x)) (fun x _ => map (fun a => - (2 * a)) x)).
Proof. exact quad_gradient. Qed.
Print Assumptions C42_gradient.
Print Assumptions C43_objective.
