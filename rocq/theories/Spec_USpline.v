(** Specification vocabulary: the spline bundles in other units. *)
From Coq Require Import Reals.
From Verif Require Import Prelude Num M_Core M_Kernels M_Strategies M_PT M_Bundle M_Flow M_Net M_Model M_Tree M_Spline RNum
  Spec_Kernels Spec_Prog Spec_Real Spec_HMC Spec_Units.

Open Scope nat_scope.

Section SpecUSpline.
Context {G : @Rng RNum}.

(** The bundle's arguments with another target and step size. *)
Definition with_target_and_step (a : @args RNum G) (f : @lpdf RNum) (ss : @stepsize RNum) : @args RNum G :=
  mkArgs (a_key a) (a_n_chains a) (a_n_dims a) f (a_local a) (a_global a) (a_train_loops a) (a_prod_loops a) (a_epochs a) ss
    (a_chain_batch a) (a_hidden a) (a_bins a) (a_layers a) (a_lr a) (a_batch a) (a_max a) (a_local_th a) (a_global_th a) (a_nf_bs a) (a_window a).

(** Two flows (as trees of leaves) with the same leaves except the data statistics, leaves 1 (mean) and 2 (covariance). *)
Definition same_but_stats (n : nat) (lv lv' : list (@leaf RNum)) : Prop :=
  exists z rest (m v m' v' : list R), Z.to_nat z = n /\ length m = n /\ length m' = n /\ length v = n * n /\ length v' = n * n /\
    lv = LInt z :: @LArr RNum DFloat32 [n] m :: @LArr RNum DFloat32 [n; n] v :: rest /\
    lv' = LInt z :: @LArr RNum DFloat32 [n] m' :: @LArr RNum DFloat32 [n; n] v' :: rest.
(** ... and the statistics are those of the same data in the units [a]. *)
Definition stats_in_units (n : nat) (a : nat -> R) (lv lv' : list (@leaf RNum)) : Prop :=
  same_but_stats n lv lv' /\
  (forall i, i < n -> @nth R i (leaf_vals (lv_at lv' 1)) 0%R = (a i * @nth R i (leaf_vals (lv_at lv 1)) 0)%R) /\
  (forall i j, i < n -> j < n -> @nth R (i * n + j) (leaf_vals (lv_at lv' 2)) 0%R = (a i * a j * @nth R (i * n + j) (leaf_vals (lv_at lv 2)) 0)%R).

(** What is used of automatic differentiation: the gradient with respect to the data statistics is zero (stop_gradient), and the
    other gradients depend on batch and statistics only through the whitened batch, the only thing log_prob computes from them. *)
Definition gradient_through_whitening (n : nat) (fl : list (@leaf RNum) -> @flow RNum) (grad : list (@leaf RNum) -> list (list R) -> list R) : Prop :=
  (forall lv xs j, j < n + n * n -> @nth R j (grad lv xs) 0%R = 0%R) /\
  forall lv lv' xs xs', same_but_stats n lv lv' -> Forall2 (fun x x' => whiten (fl lv') x' = whiten (fl lv) x) xs xs' -> grad lv' xs' = grad lv xs.
End SpecUSpline.
