(** Specification vocabulary: kernels with small steps. *)
From Coq Require Import Reals.
From Verif Require Import Prelude Num M_Core M_Kernels M_Strategies M_Net M_Mala RNum MxR Spec_Kernels Spec_Prog Spec_Real Spec_HMC Spec_Net Spec_TreeR Spec_Mala.

(** [y] is within [r] of [x], coordinate by coordinate. *)
Definition within (n : nat) (r : R) (x y : list R) : Prop :=
  length x = n /\ length y = n /\ forall i, (i < n)%nat -> Rabs (nth i y 0 - nth i x 0) < r.

(** Around [x] the log-density is uniformly continuous and its gradient is bounded (any function that is continuously
    differentiable near [x]). *)
Definition tame (n : nat) (f : @lpdf RNum) (d : @datad RNum) (x : list R) : Prop := exists r, 0 < r /\
  (forall e, 0 < e -> exists t, 0 < t /\ forall y y', within n r x y -> within n r x y' -> within n t y y' ->
     Rabs (lp_val f y' d - lp_val f y d) < e) /\
  exists B, forall y, within n r x y -> forall i, (i < n)%nat -> Rabs (nth i (lp_grad f y d) 0) <= B.

Section Kernels.
Context {G : @Rng RNum}.

(** A step size multiplied by [s]. *)
Definition times (s : R) (ss : @stepsize RNum) : @stepsize RNum :=
  match ss with SScalar c => SScalar (s * c) | SVec v => SVec (map (Rmult s) v) | SDiag v => SDiag (map (Rmult s) v) end.

(** Kernels indexed by a factor on their step size; everything else is fixed. *)
Inductive scaled_kernel (n : nat) : (R -> @skernel RNum G) -> Prop :=
| sk_walk ss : ok_grw ss n -> scaled_kernel n (fun s => grw_kernel (times s ss))
| sk_langevin ss : step_accepted ss n -> (forall i, (i < n)%nat -> step_of ss i <> 0) -> scaled_kernel n (fun s => mala_kernel (times s ss))
| sk_matrix chol dt : chol_law chol -> Spec_Net.square n dt -> squares_factor n dt ->
    scaled_kernel n (fun s => mat_mala_kernel chol (map (map (Rmult s)) dt))
| sk_hamiltonian eps leaps m l : square_mat m n -> square_mat l n ->
    scaled_kernel n (fun s => hmc_kernel (@mkHmc RNum (CMat m) (s * eps) leaps l)).

(** The step is accepted, lands within [e] of [x], and the recorded log-probability is the target's there. *)
Definition small_accepted (n : nat) (e : R) (f : @lpdf RNum) (d : @datad RNum) (x : list R) (o : list R * R * bool) : Prop :=
  within n e x (fst (fst o)) /\ snd (fst o) = lp_val f (fst (fst o)) d /\ snd o = true.
End Kernels.
