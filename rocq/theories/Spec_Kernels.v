(** Specification vocabulary about kernels: laws of the arithmetic and of the external
    routines, used as explicit hypotheses of the theorems. *)
From Verif Require Import Prelude Num M_Core M_Kernels.

Section Laws.
Context {N : Num}.

(** Facts about NaN, infinities and sign of IEEE arithmetic.  Proved for binary32 in Float32.v
    ([B32_laws]). *)
Record NumLaws : Prop := mkNumLaws {
  nl_neg_neg : forall x, fneg (fneg x) = x;
  nl_lt_nan : forall x y, (x <.? y) = true -> fnan x = false /\ fnan y = false;
  nl_le_nan : forall x y, (x <=.? y) = true -> fnan x = false /\ fnan y = false;
  nl_nan_sub : forall x y, fnan x = true \/ fnan y = true -> fnan (x -. y) = true;
  nl_nan_add : forall x y, fnan x = true \/ fnan y = true -> fnan (x +. y) = true;
  nl_nan_mul : forall x y, fnan x = true \/ fnan y = true -> fnan (x *. y) = true;
  nl_nan_div : forall x y, fnan x = true \/ fnan y = true -> fnan (x /. y) = true;
  nl_nan_neg : forall x, fnan (fneg x) = fnan x;
  nl_lt_ninf : forall x, (x <.? fninf) = false;
  nl_ninf_sub : forall z, fninf -. z = fninf \/ fnan (fninf -. z) = true;
  nl_ninf_add : forall z, fninf +. z = fninf \/ fnan (fninf +. z) = true;
  nl_add_ninf : forall z, z +. fninf = fninf \/ fnan (z +. fninf) = true;
  nl_pinf_add : forall z, fneg fninf +. z = fneg fninf \/ fnan (fneg fninf +. z) = true;
  nl_sub_pinf : forall z, z -. fneg fninf = fninf \/ fnan (z -. fneg fninf) = true;
  nl_finite : forall x, ffinite x = true -> fnan x = false /\ x <> fninf /\ x <> fneg fninf;
  nl_le_total : forall x y, fnan x = false -> fnan y = false -> (x <=.? y) = false -> (y <=.? x) = true;
  nl_le_refl : forall x, fnan x = false -> (x <=.? x) = true;
  nl_le_trans : forall x y z, (x <=.? y) = true -> (y <=.? z) = true -> (x <=.? z) = true;
  nl_lt_le : forall x y, (x <.? y) = true -> (x <=.? y) = true /\ (y <=.? x) = false;
  nl_le_lt : forall x y, (x <=.? y) = true -> (y <=.? x) = false -> (x <.? y) = true
}.

(** A log-density that a Metropolis chain must never hold: NaN or -inf. *)
Definition impossible (v : F) : Prop := fnan v = true \/ v = fninf.
End Laws.

Section Ext.
Context {N : Num} {G : Rng}.

(** jax.random.normal returns an array of the requested shape. *)
Definition normal_shape : Prop := forall k n, length (normal k n) = n.
(** jax.grad returns an array of the argument's shape. *)
Definition grad_shape (f : lpdf) (d : datad) (dim : nat) : Prop :=
  forall x, length x = dim -> length (lp_grad f x d) = dim.

Context {NF : NFOps}.
(** model.sample(key, n) returns n vectors of n_features coordinates. *)
Definition samples_shape (m : mdl) (dim : nat) : Prop :=
  forall k n, length (m_sample m k n) = n /\ forall x, In x (m_sample m k n) -> length x = dim.
(** [f] does not read the entry data["n_steps"]. *)
Definition ignores_n_steps (f : lpdf) : Prop :=
  forall x d v, lp_val f x (dset d "n_steps" v) = lp_val f x d.

(** The step size applied to coordinate [i]. *)
Definition step_of (ss : stepsize) (i : nat) : F :=
  match ss with SScalar s => s | SVec v => nth i v f0 | SDiag v => nth i v f0 end.

(** i-th proposal key of a scan that starts from [k]: the carried key is the first half of each
    split, the step uses the second half. *)
Definition scan_key (k : key) (i : nat) : key := split (iter i (fun q => split q 2 0) k) 2 1.
End Ext.
