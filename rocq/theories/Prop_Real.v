(** Properties C15-C18: acceptance probability and detailed balance, in exact real arithmetic. *)
From Coq Require Import Reals Psatz.
From Coquelicot Require Import Coquelicot.
From Verif Require Import Prelude Num M_Core M_Kernels Spec_Steps Spec_Kernels P_Kernels RNum Spec_Real P_Real1 P_Real2 P_Real3.

Section Props.
Context {G : @Rng RNum} {NF : @NFOps RNum G}.

(* ==================================================================================== *)
(** C15.  One call from x with Gaussian draw z has one proposal y, accepted with probability
    p = min(1, exp r) over the uniform draw, and the expectation of any function t of the outcome
    (position, log-density, flag) is p t(accept y) + (1-p) t(stay at x). *)
Theorem C15_random_walk :
  forall ss k f d (x z : list R), ok_grw ss (length x) -> length z = length x ->
  exists y, proposes (grw_run ss k f d x z) y /\
    let p := Rmin 1 (exp (lp_val f y d - lp_val f x d)) in
    accept_prob (grw_run ss k f d x z) p /\
    forall t, is_RInt (fun u => test t (grw_run ss k f d x z u)) 0 1
      (p * t (y, lp_val f y d, true) + (1 - p) * t (x, lp_val f x d, false)).
Proof. exact C15_grw_proof. Qed.

(** MALA; the ratio r is identified in C17. *)
Theorem C15_mala :
  forall ss k f d (x z : list R),
  mala_ok_step ss (length x) -> length z = length x -> grad_shape f d (length x) ->
  exists y r, proposes (mala_run ss k f d x z) y /\ mala_ratio ss f d x y = Ok r /\
    let p := Rmin 1 (exp r) in
    accept_prob (mala_run ss k f d x z) p /\
    forall t, is_RInt (fun u => test t (mala_run ss k f d x z u)) 0 1
      (p * t (y, lp_val f y d, true) + (1 - p) * t (x, lp_val f x d, false)).
Proof. exact C15_mala_proof. Qed.

(** HMC, with H(q, p) = -logpdf(q) + kinetic energy. *)
Theorem C15_hmc :
  forall h m k f d (x z : list R), h_cond h = CMat m -> square m (length x) = true ->
  let p0 := hmc_momentum h z in
  let y := fst (leapfrog h m f d (x, p0)) in
  let p1 := snd (leapfrog h m f d (x, p0)) in
  let H q p := - lp_val f q d + kinetic p m in
  proposes (hmc_run h k f d x z) y /\
  let p := Rmin 1 (exp (H x p0 - H y p1)) in
    accept_prob (hmc_run h k f d x z) p /\
    forall t, is_RInt (fun u => test t (hmc_run h k f d x z u)) 0 1
      (p * t (y, lp_val f y d, true) + (1 - p) * t (x, lp_val f x d, false)).
Proof. exact C15_hmc_proof. Qed.

Theorem C15_flow_proposal :
  forall (m : @nfp RNum G NF) k f d (x y : list R), (0 < nfp_bs m)%nat -> ignores_n_steps f ->
  m_sample (nfp_model m) (split k 2 1) 1 = [y] ->
  proposes (flow_run m k f d x) y /\
  let p := Rmin 1 (exp ((lp_val f y d - lp_val f x d) - (m_logp (nfp_model m) y - m_logp (nfp_model m) x))) in
    accept_prob (flow_run m k f d x) p /\
    forall t, is_RInt (fun u => test t (flow_run m k f d x u)) 0 1
      (p * t (y, lp_val f y d, true) + (1 - p) * t (x, lp_val f x d, false)).
Proof. exact C15_flow_proof. Qed.

(* ==================================================================================== *)
(** C16.  Random walk, scalar or per-coordinate step sizes: if y is proposed from x (with draw z)
    and x from y (with z'), then target(x) q(x,y) a(x,y) = target(y) q(y,x) a(y,x), with q(x,.) the
    density of N(x, diag(step)^2). *)
Theorem C16_random_walk_balance :
  forall ss k f d (x y z z' : list R) n a b,
  ok_grw ss n -> (forall i, (i < n)%nat -> step_of ss i <> 0) ->
  length x = n -> length y = n -> length z = n -> length z' = n ->
  proposes (grw_run ss k f d x z) y -> proposes (grw_run ss k f d y z') x ->
  accept_prob (grw_run ss k f d x z) a -> accept_prob (grw_run ss k f d y z') b ->
  let q u v := gauss_density n (fun i => nth i u 0) (step_of ss) v in
  exp (lp_val f x d) * q x y * a = exp (lp_val f y d) * q y x * b.
Proof. exact C16_proof. Qed.

(** q is the density of the proposal the kernel makes: change of variables from the standard
    normal draw z with Jacobian prod |step_i| ... *)
Theorem C16_proposal_density :
  forall ss k f d (x y z : list R) n,
  ok_grw ss n -> (forall i, (i < n)%nat -> step_of ss i <> 0) -> length x = n -> length z = n ->
  proposes (grw_run ss k f d x z) y ->
  length y = n /\
  gauss_density n (fun i => nth i x 0) (step_of ss) y * Rprod n (fun i => Rabs (step_of ss i)) = std_density n z.
Proof. exact C16_density_proof. Qed.

(** ... and every point can be proposed from every point. *)
Theorem C16_all_pairs :
  forall ss k f d (x y : list R) n,
  ok_grw ss n -> (forall i, (i < n)%nat -> step_of ss i <> 0) -> length x = n -> length y = n ->
  exists z, length z = n /\ proposes (grw_run ss k f d x z) y.
Proof. exact C16_reach_proof. Qed.

(* ==================================================================================== *)
(** C17.  MALA with a scalar or diagonal-matrix step size: the log-ratio is the Metropolis-Hastings
    ratio of the Langevin proposal N(x + step^2 grad/2, step^2) ... *)
Theorem C17_mala_ratio :
  forall ss f d (x y : list R) n r,
  mala_ok_step ss n -> (forall i, (i < n)%nat -> step_of ss i <> 0) -> grad_shape f d n ->
  length x = n -> length y = n -> mala_ratio ss f d x y = Ok r ->
  let q u v := gauss_density n (mala_mu ss f d u) (step_of ss) v in
  r = ln ((exp (lp_val f y d) * q y x) / (exp (lp_val f x d) * q x y)).
Proof. exact mala_ratio_is_log. Qed.

(** ... which is the density the kernel draws from ... *)
Theorem C17_proposal_density :
  forall ss k f d (x y z : list R) n,
  mala_ok_step ss n -> (forall i, (i < n)%nat -> step_of ss i <> 0) -> grad_shape f d n ->
  length x = n -> length z = n ->
  proposes (mala_run ss k f d x z) y ->
  length y = n /\
  gauss_density n (mala_mu ss f d x) (step_of ss) y * Rprod n (fun i => Rabs (step_of ss i)) = std_density n z.
Proof. exact C17_density_proof. Qed.

Theorem C17_all_pairs :
  forall ss k f d (x y : list R) n,
  mala_ok_step ss n -> (forall i, (i < n)%nat -> step_of ss i <> 0) -> grad_shape f d n ->
  length x = n -> length y = n ->
  exists z, length z = n /\ proposes (mala_run ss k f d x z) y.
Proof. exact C17_reach_proof. Qed.

(** ... so detailed balance holds. *)
Theorem C17_mala_balance :
  forall ss k f d (x y z z' : list R) n a b,
  mala_ok_step ss n -> (forall i, (i < n)%nat -> step_of ss i <> 0) -> grad_shape f d n ->
  length x = n -> length y = n -> length z = n -> length z' = n ->
  proposes (mala_run ss k f d x z) y -> proposes (mala_run ss k f d y z') x ->
  accept_prob (mala_run ss k f d x z) a -> accept_prob (mala_run ss k f d y z') b ->
  let q u v := gauss_density n (mala_mu ss f d u) (step_of ss) v in
  exp (lp_val f x d) * q x y * a = exp (lp_val f y d) * q y x * b.
Proof. exact C17_proof. Qed.

Theorem C17_vector_step_raises :
  forall v k f d (x z : list R) u, mala_run (SVec v) k f d x z u = Raise ValueError.
Proof. exact C17_raises_proof. Qed.

(* ==================================================================================== *)
(** C18.  Flow proposal: with q proportional to exp(model.log_prob) (any constant c > 0), a step
    from x that proposes y and one from y that proposes x are in detailed balance. *)
Theorem C18_flow_balance :
  forall (p : @nfp RNum G NF) k k' f d (x y : list R) a b c,
  (0 < nfp_bs p)%nat -> ignores_n_steps f -> 0 < c ->
  m_sample (nfp_model p) (split k 2 1) 1 = [y] -> m_sample (nfp_model p) (split k' 2 1) 1 = [x] ->
  accept_prob (flow_run p k f d x) a -> accept_prob (flow_run p k' f d y) b ->
  let q v := c * exp (m_logp (nfp_model p) v) in
  exp (lp_val f x d) * q y * a = exp (lp_val f y d) * q x * b.
Proof. exact C18_proof. Qed.

(** A constant added to model.log_prob changes nothing, for any number of steps and batch size. *)
Theorem C18_constant_invisible :
  forall (p p' : @nfp RNum G NF) k x lp f d (c : R),
  nfp_bs p' = nfp_bs p ->
  (forall q n, m_sample (nfp_model p') q n = m_sample (nfp_model p) q n) ->
  (forall v, m_logp (nfp_model p') v = m_logp (nfp_model p) v + c) ->
  nfp_kernel p' k x lp f d = nfp_kernel p k x lp f d.
Proof. exact C18_shift_proof. Qed.
End Props.

(* ==================================================================================== *)
(** Concrete instances: target exp(-x_0^2/2). *)
Example C16_instance :
  let ss := @SVec RNum [1/2; 3] in
  ok_grw ss 2 /\ (forall i, (i < 2)%nat -> step_of ss i <> 0) /\
  exists z z', length z = 2%nat /\ length z' = 2%nat /\
    proposes (@grw_run RRng ss true rlp [] [0; 0] z) [1; 2] /\ proposes (@grw_run RRng ss true rlp [] [1; 2] z') [0; 0].
Proof. exact grw_example_proof. Qed.
Example C17_instance :
  let ss := @SScalar RNum (1/2) in
  mala_ok_step ss 1 /\ (forall i, (i < 1)%nat -> step_of ss i <> 0) /\ grad_shape rlp [] 1 /\
  exists z z', length z = 1%nat /\ length z' = 1%nat /\
    proposes (@mala_run RRng ss true rlp [] [0] z) [1] /\ proposes (@mala_run RRng ss true rlp [] [1] z') [0].
Proof. exact mala_example_proof. Qed.
Example C18_instance :
  let p := @mkNfp RNum RRng RNF tt 5 in
  (0 < nfp_bs p)%nat /\ ignores_n_steps rlp /\
  m_sample (nfp_model p) (@split _ RRng true 2 1) 1 = [[1]] /\ m_sample (nfp_model p) (@split _ RRng false 2 1) 1 = [[0]] /\
  proposes (flow_run p true rlp [] [0]) [1] /\ accept_prob (flow_run p false rlp [] [1]) (Rmin 1 (exp (-1/2))).
Proof. exact flow_example_proof. Qed.
(** A coordinate of the density is a normal density in the usual sense: probabilities of
    intervals are those of the standard normal draw. *)
Example C16_pushforward : forall mu s a b, 0 < s ->
  RInt (normal_pdf mu s) (mu + s * a) (mu + s * b) = RInt (normal_pdf 0 1) a b.
Proof. exact normal_pdf_pushforward. Qed.

Print Assumptions C15_random_walk.
Print Assumptions C15_mala.
Print Assumptions C15_hmc.
Print Assumptions C15_flow_proposal.
Print Assumptions C16_random_walk_balance.
Print Assumptions C16_proposal_density.
Print Assumptions C16_all_pairs.
Print Assumptions C17_mala_ratio.
Print Assumptions C17_proposal_density.
Print Assumptions C17_all_pairs.
Print Assumptions C17_mala_balance.
Print Assumptions C17_vector_step_raises.
Print Assumptions C18_flow_balance.
Print Assumptions C18_constant_invisible.
