(** Properties C19-C21: Hamiltonian Monte Carlo, in exact real arithmetic. *)
From Coq Require Import Reals Psatz.
From Coquelicot Require Import Coquelicot.
From Verif Require Import Prelude Num M_Core M_Kernels Spec_Steps Spec_Kernels P_Kernels RNum MxR Spec_Jac Spec_Real P_Real3 Spec_HMC P_Leapfrog P_HMC P_HMC2.

Section Props.
Context {G : @Rng RNum}.

(* ==================================================================================== *)
(** C19.  Integrating from the end point with reversed momentum returns to the start point with
    reversed momentum: any gradient, metric, step size, number of steps. *)
Theorem C19_reversible :
  forall h m f d n (q p : list R), grad_shape f d n -> length q = n -> length p = n ->
  leapfrog h m f d (flip (leapfrog h m f d (q, p))) = flip (q, p).
Proof. intros h m f d n q p Hg Hq Hp. exact (C19_rev_proof m f d n Hg (h_step h) h (q, p) eq_refl (conj Hq Hp)). Qed.

(** The integrator is n_leapfrog + 1 steps of velocity Verlet with the gradient of the
    log-density as force and the gradient of the kinetic energy as velocity. *)
Theorem C19_velocity_verlet :
  forall h m f d n (q p : list R), grad_shape f d n -> length q = n -> length p = n ->
  leapfrog h m f d (q, p) =
  iter (S (h_leap h)) (verlet (h_step h) (fun x => lp_grad f x d) (fun v => kinetic_grad v m)) (q, p).
Proof. intros h m f d n q p Hg Hq Hp. exact (C19_verlet_proof m f d n Hg (h_step h) h (q, p) eq_refl (conj Hq Hp)). Qed.

Theorem C19_velocity_is_gradient :
  forall (p : list R) (m : list (list R)) n, square_mat m n -> length p = n ->
  is_dif n (fun p' => kinetic p' m) p (fun j => nth j (kinetic_grad p m) 0).
Proof. exact kinetic_grad_proof. Qed.

(* ==================================================================================== *)
(** C20.  Where the gradient of the log-density is differentiable, the leapfrog map of phase space
    (2n coordinates) has a Jacobian matrix, of determinant 1, at every point. *)
Theorem C20_volume :
  forall (m : list (list R)) (f : @lpdf RNum) (d : @datad RNum) n (Hess : list R -> nat -> nat -> R),
  grad_shape f d n ->
  (forall q, length q = n -> is_jac n n (fun q' => lp_grad f q' d) q (Hess q)) ->
  forall h w, length w = (n + n)%nat ->
  exists J, is_jac (n + n) (n + n) (fun w => flat (leapfrog h m f d (unflat n w))) w J /\ mdet (n + n) J = 1.
Proof. exact C20_volume_proof. Qed.

(** Detailed balance in phase space: a trajectory from (x, p) to (y, p') and the one from (y, -p')
    back to (x, -p), started by a draw z' that gives the momentum -p'. *)
Theorem C20_phase_space_balance :
  forall h m k k' f d n (x z z' : list R) a b,
  h_cond h = CMat m -> square_mat m n -> square_mat (h_chol h) n -> grad_shape f d n ->
  length x = n -> length z = n -> length z' = n ->
  let p := hmc_momentum h z in
  let y := fst (leapfrog h m f d (x, p)) in
  let p' := snd (leapfrog h m f d (x, p)) in
  hmc_momentum h z' = map Ropp p' ->
  accept_prob (hmc_run h k f d x z) a -> accept_prob (hmc_run h k' f d y z') b ->
  proposes (hmc_run h k f d x z) y /\ proposes (hmc_run h k' f d y z') x /\
  exp (lp_val f x d - kinetic p m) * a = exp (lp_val f y d - kinetic p' m) * b.
Proof. exact C20_balance_proof. Qed.

(** With a diagonal metric this is detailed balance for the target itself: the momenta carry the
    density of the standard normal draws. *)
Theorem C20_target_balance :
  forall h m k k' f d n (x z z' : list R) a b,
  h_cond h = CMat m -> square_mat m n -> square_mat (h_chol h) n ->
  factors_inverse (h_chol h) m n -> diagonal_mat m n -> grad_shape f d n ->
  length x = n -> length z = n -> length z' = n ->
  let p := hmc_momentum h z in
  let y := fst (leapfrog h m f d (x, p)) in
  let p' := snd (leapfrog h m f d (x, p)) in
  hmc_momentum h z' = map Ropp p' ->
  accept_prob (hmc_run h k f d x z) a -> accept_prob (hmc_run h k' f d y z') b ->
  exp (lp_val f x d) * std_density n z * a = exp (lp_val f y d) * std_density n z' * b.
Proof. exact C20_balance_draws_proof. Qed.

(** The returning draw z' exists. *)
Theorem C20_all_momenta :
  forall h m n (p : list R), square_mat m n -> square_mat (h_chol h) n -> factors_inverse (h_chol h) m n ->
  length p = n -> exists z : list R, length z = n /\ hmc_momentum h z = p.
Proof. exact C20_all_momenta_proof. Qed.

(* ==================================================================================== *)
(** C21.  Diagonal condition matrix: exp(-kinetic) of the momentum drawn with z is the density of
    z up to a constant, i.e. the kinetic energy belongs to the momentum distribution. *)
Theorem C21_diagonal_metric :
  forall h m n (z : list R), h_cond h = CMat m -> square_mat m n -> square_mat (h_chol h) n ->
  factors_inverse (h_chol h) m n -> diagonal_mat m n -> length z = n ->
  exp (- kinetic (hmc_momentum h z) m) = (sqrt (2 * PI)) ^ n * std_density n z.
Proof. exact C21_diag_proof. Qed.

(** Symmetric condition matrix with a non-zero off-diagonal entry: no constant works. *)
Theorem C21_dense_metric_refuted :
  forall h m n, h_cond h = CMat m -> square_mat m n -> square_mat (h_chol h) n ->
  factors_inverse (h_chol h) m n -> symmetric_mat m n -> ~ diagonal_mat m n ->
  ~ exists C, 0 < C /\ forall z : list R, length z = n -> exp (- kinetic (hmc_momentum h z) m) = C * std_density n z.
Proof. exact C21_nondiag_proof. Qed.

(** The default scalar condition matrix raises. *)
Theorem C21_scalar_metric_raises :
  forall h (c : R) k (x : list R) lp f d, h_cond h = CScalar c -> hmc_kernel h k x lp f d = Raise ValueError.
Proof. intros h c k x lp f d. exact (hmc_scalar_raises h c k x lp f d). Qed.
End Props.

(* ==================================================================================== *)
(** Concrete instances, two dimensions. *)
Example C20_instance : h_cond hdiag = @CMat RNum [[4; 0]; [0; 1]] /\
  square_mat [[4; 0]; [0; 1]] 2 /\ square_mat (h_chol hdiag) 2 /\
  factors_inverse (h_chol hdiag) [[4; 0]; [0; 1]] 2 /\ diagonal_mat [[4; 0]; [0; 1]] 2 /\ grad_shape rlp [] 2.
Proof. exact (conj eq_refl hdiag_ok_proof). Qed.
Example C20_hessian_instance :
  forall q, length q = 2%nat -> is_jac 2 2 (fun q' => lp_grad rlp q' []) q (fun i j => -1 * mid i j).
Proof. exact rlp_hess_proof. Qed.
Example C21_instance : h_cond hfull = @CMat RNum [[2; -1]; [-1; 1]] /\
  square_mat [[2; -1]; [-1; 1]] 2 /\ square_mat (h_chol hfull) 2 /\
  factors_inverse (h_chol hfull) [[2; -1]; [-1; 1]] 2 /\ symmetric_mat [[2; -1]; [-1; 1]] 2 /\ ~ diagonal_mat [[2; -1]; [-1; 1]] 2.
Proof. exact (conj eq_refl hfull_ok_proof). Qed.
(** [mdet] is the usual determinant. *)
Example C20_det2 : forall M, mdet 2 M = M 0%nat 0%nat * M 1%nat 1%nat - M 0%nat 1%nat * M 1%nat 0%nat.
Proof. exact mdet_2. Qed.

Print Assumptions C19_reversible.
Print Assumptions C19_velocity_verlet.
Print Assumptions C19_velocity_is_gradient.
Print Assumptions C20_volume.
Print Assumptions C20_phase_space_balance.
Print Assumptions C20_target_balance.
Print Assumptions C20_all_momenta.
Print Assumptions C21_diagonal_metric.
Print Assumptions C21_dense_metric_refuted.
Print Assumptions C21_scalar_metric_raises.
