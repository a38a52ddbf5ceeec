(** Specification vocabulary for coupling layers and flows. *)
From Coq Require Import Reals.
From Verif Require Import Prelude Num M_Core M_Kernels M_Flow RNum MxR Spec_Jac Spec_Spline.
Open Scope R_scope.

(** A 0/1 mask for n coordinates. *)
Definition binary_mask (n : nat) (m : list R) : Prop :=
  length m = n /\ forall i, (i < n)%nat -> nth i m 0 = 0 \/ nth i m 0 = 1.
(** A network from n numbers to n numbers; nothing else is assumed about it. *)
Definition net_shape (n : nat) (f : list R -> list R) : Prop := forall c, length c = n -> length (f c) = n.

(** [inv] undoes [fwd] on R^n in both orders, reporting the opposite log-determinant. *)
Record exact_inverse (n : nat) (fwd inv : list R -> list R * R) : Prop := {
  ei_fwd_len : forall x, length x = n -> length (fst (fwd x)) = n;
  ei_inv_len : forall x, length x = n -> length (fst (inv x)) = n;
  ei_inv_fwd : forall x, length x = n -> inv (fst (fwd x)) = (x, - snd (fwd x));
  ei_fwd_inv : forall x, length x = n -> fwd (fst (inv x)) = (x, - snd (inv x)) }.

(** Every spline the layer can build meets the condition of C26 (see C28 for the defaults). *)
Definition rq_conditioned (q : @rqspline RNum) (n : nat) : Prop :=
  forall c j xp yp sl, length c = n -> (j < n)%nat ->
    nth j (get_params q n c) ([], [], []) = (xp, yp, sl) -> well_conditioned xp yp sl.

(** The reported number is ln |det J| at x. *)
Definition reports_logdet (n : nat) (f : list R -> list R * R) (x : list R) : Prop :=
  log_abs_det n (fun y => fst (f y)) x (snd (f x)).
(** f has a Jacobian matrix at x. *)
Definition differentiable (n : nat) (f : list R -> list R) (x : list R) : Prop := exists J, is_jac n n f x J.

(** Every layer has a Jacobian at the point the flow reaches there. *)
Fixpoint layers_differentiable (n : nat) (ls : list (@layer RNum)) (x : list R) : Prop :=
  match ls with
  | [] => True
  | l :: r => differentiable n (fun y => fst (ly_fwd l y)) x /\ layers_differentiable n r (fst (ly_fwd l x))
  end.

(** The point of latent space a flow assigns to x. *)
Definition latent (m : @flow RNum) (x : list R) : list R := fst (flow_fwd (fl_layers m) (whiten m x)).
(** Whitening statistics of dimension n with positive variances. *)
Definition good_stats (m : @flow RNum) : Prop :=
  length (fl_mean m) = fl_n m /\ length (fl_var m) = fl_n m /\
  forall i, (i < fl_n m)%nat -> 0 < nth i (fl_var m) 0.
(** [d] is the density at x of a random vector whose image under the (invertible, differentiable)
    map T has density [p]: change of variables. *)
Definition density_through (n : nat) (T : list R -> list R) (p : list R -> R) (x : list R) (d : R) : Prop :=
  exists J, is_jac n n T x J /\ d = p (T x) * Rabs (mdet n J).

(** Networks of a RealNVP: each maps n numbers to n numbers. *)
Definition nets_shape (n : nat) (nets : list ((list R -> list R) * (list R -> list R))) : Prop :=
  forall s t, In (s, t) nets -> net_shape n s /\ net_shape n t.

(** A RQSpline flow's parameters: every layer's spline is admissible, has a conditioner of the
    right shape and is well conditioned. *)
Definition rqs_ok (n : nat) (ps : list (R * R * @rqspline RNum)) : Prop :=
  forall a b q, In (a, b, q) ps -> rq_admissible q /\ rq_shape q n /\ rq_conditioned q n.
(** The flow with the inner order corrected. *)
Definition rqs_fixed (l : @rqs_layer RNum) : @layer RNum := mkLayer (ly_fwd (rqs_model_layer l)) (rqs_layer_true_inv l).
(** The two coupling layers of each layer, in the order the forward pass applies them. *)
Definition flat_layers (ls : list (@rqs_layer RNum)) : list (@layer RNum) :=
  concat (map (fun l => [coupling_layer (rl_affine l); coupling_layer (rl_spline l)]) ls).

(** f, from n numbers to p numbers, has a Jacobian matrix at x. *)
Definition differentiable_to (n p : nat) (f : list R -> list R) (x : list R) : Prop := exists J, is_jac n p f x J.
