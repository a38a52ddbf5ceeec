(** C91: what the step size costs on Gaussian targets. *)
From Coq Require Import Reals Psatz.
From Coquelicot Require Import Coquelicot.
From Verif Require Import Prelude Num M_Core M_Kernels P_Lists RNum Spec_Kernels Spec_Prog Spec_Real Spec_HMC Spec_Quad P_Quad P_Quad2.
Open Scope R_scope.

(** C91, HMC.  Target with independent Gaussian coordinates of precision lam_i.  With step^2 * (inverse mass i) * lam_i at
    most 4 th, th < 1, the energy over any number of leapfrog steps stays within a factor 1 / (1 - th) of its start, both ways. *)
Theorem C91_hmc_energy : forall n lam mu f d m (h : @hmc RNum) th (q p : list R), quadratic_target n lam mu f d -> square_mat m n -> 0 <= th < 1 ->
  (forall i, (i < n)%nat -> 0 <= lam i /\ 0 <= inverse_mass n m i /\ h_step h ^ 2 * inverse_mass n m i * lam i <= 4 * th) ->
  length q = n -> length p = n ->
  let H := quad_energy n lam mu m in let z' := leapfrog h m f d (q, p) in (1 - th) * H (q, p) <= H z' /\ (1 - th) * H z' <= H (q, p).
Proof. intros n lam mu f d m h th q p Q SM. exact (energy_bounded n lam mu f d m Q SM h th q p). Qed.
(** So the acceptance probability has a positive lower bound that does not depend on the number of leapfrog steps. *)
Theorem C91_hmc_acceptance : forall (G : @Rng RNum) n lam mu f d m (h : @hmc RNum) k (x z : list R) th a, quadratic_target n lam mu f d ->
  h_cond h = CMat m -> square_mat m n -> square_mat (h_chol h) n -> length x = n -> length z = n -> 0 <= th < 1 ->
  (forall i, (i < n)%nat -> 0 <= lam i /\ 0 <= inverse_mass n m i /\ h_step h ^ 2 * inverse_mass n m i * lam i <= 4 * th) ->
  accept_prob (hmc_run h k f d x z) a -> exp (- (th / (1 - th)) * quad_energy n lam mu m (x, hmc_momentum h z)) <= a.
Proof. intros G n lam mu f d m h k x z th a Q. exact (hmc_uniform_proof n lam mu f d Q h m k x z th a). Qed.
(** The threshold 4 is sharp: if one coordinate is above it, the acceptance probability tends to 0 as the number of leapfrog
    steps grows, for every momentum but the ones on one line. *)
Theorem C91_hmc_unstable : forall (G : @Rng RNum) n lam mu f d eps m l k (x z : list R) i, quadratic_target n lam mu f d ->
  square_mat m n -> square_mat l n -> length x = n -> length z = n ->
  (forall j, (j < n)%nat -> 0 <= lam j /\ 0 <= inverse_mass n m j) -> (i < n)%nat -> 0 < eps -> 0 < lam i -> 0 < inverse_mass n m i ->
  4 < eps ^ 2 * inverse_mass n m i * lam i ->
  nth i (hmc_momentum (@mkHmc RNum (CMat m) eps 0 l) z) 0 <> sqrt (lam i * (eps ^ 2 * inverse_mass n m i * lam i / 4 - 1) / inverse_mass n m i) * (nth i x 0 - mu i) ->
  forall e, 0 < e -> exists K, forall leaps a, (K <= leaps)%nat -> accept_prob (hmc_run (@mkHmc RNum (CMat m) eps leaps l) k f d x z) a -> a < e.
Proof. intros G n lam mu f d eps m l k x z i Q. exact (hmc_unstable_proof n lam mu f d Q eps m l k x z i). Qed.

(** C91, MALA, any target: the acceptance probability of a proposed y compares the change of the log-density with its
    trapezoidal estimate from the two gradients, plus a difference of squared gradients. *)
Theorem C91_mala_trapezoid : forall (G : @Rng RNum) n f d ss k (x y z : list R) a, step_accepted ss n -> (forall i, (i < n)%nat -> step_of ss i <> 0) ->
  grad_shape f d n -> length x = n -> length z = n -> proposes (mala_run ss k f d x z) y -> accept_prob (mala_run ss k f d x z) a ->
  a = Rmin 1 (exp (lp_val f y d - lp_val f x d - Rsum n (fun i => (nth i (lp_grad f x d) 0 + nth i (lp_grad f y d) 0) / 2 * (nth i y 0 - nth i x 0))
    + Rsum n (fun i => step_of ss i ^ 2 * (nth i (lp_grad f x d) 0 ^ 2 - nth i (lp_grad f y d) 0 ^ 2) / 8))).
Proof. intros G n f d ss k x y z a. exact (mala_trap_accept n d f ss k x y z a). Qed.
(** On a Gaussian target the trapezoidal rule is exact. *)
Theorem C91_mala_gaussian : forall (G : @Rng RNum) n lam mu f d ss k (x y z : list R) a, quadratic_target n lam mu f d ->
  step_accepted ss n -> (forall i, (i < n)%nat -> step_of ss i <> 0) -> length x = n -> length z = n ->
  proposes (mala_run ss k f d x z) y -> accept_prob (mala_run ss k f d x z) a ->
  a = Rmin 1 (exp (Rsum n (fun i => (step_of ss i * lam i) ^ 2 * ((nth i x 0 - mu i) ^ 2 - (nth i y 0 - mu i) ^ 2) / 8))).
Proof. intros G n lam mu f d ss k x y z a Q. exact (mala_gauss_accept n lam mu f d Q ss k x y z a). Qed.
(** Hence a move towards the mode in every coordinate is always accepted, whatever the step sizes. *)
Theorem C91_mala_closer : forall (G : @Rng RNum) n lam mu f d ss k (x y z : list R) a, quadratic_target n lam mu f d ->
  step_accepted ss n -> (forall i, (i < n)%nat -> step_of ss i <> 0) -> length x = n -> length z = n ->
  proposes (mala_run ss k f d x z) y -> accept_prob (mala_run ss k f d x z) a ->
  (forall i, (i < n)%nat -> Rabs (nth i y 0 - mu i) <= Rabs (nth i x 0 - mu i)) -> a = 1.
Proof. intros G n lam mu f d ss k x y z a Q. exact (mala_closer_accept n lam mu f d Q ss k x y z a). Qed.

(* ------------------------------------------------------------------ a concrete case *)
Definition ex_lam (i : nat) : R := match i with O => 1 | _ => 4 end.
Definition ex_mu (i : nat) : R := match i with O => 0 | _ => 3 end.
Definition ex_mass : list (list R) := [[2; 0]; [0; 1]].
Example C91_case_target : forall d, quadratic_target 2 ex_lam ex_mu (quad_lpdf 2 ex_lam ex_mu) d.
Proof. intros d. apply quad_lpdf_ok. Qed.
(** Step 1/2 is below the threshold with th = 1/4 ... *)
Example C91_case_stable : square_mat ex_mass 2 /\ forall i, (i < 2)%nat -> 0 <= ex_lam i /\ 0 <= inverse_mass 2 ex_mass i /\
  h_step (@mkHmc RNum (CMat ex_mass) (1 / 2) 10 ex_mass) ^ 2 * inverse_mass 2 ex_mass i * ex_lam i <= 4 * (1 / 4).
Proof.
  split; [split; [reflexivity|intros w [<-|[<-|[]]]; reflexivity]|].
  intros [|[|i]] Hi; [| |lia]; unfold inverse_mass, entry, Rsum; cbn; lra.
Qed.
(** ... and step 3/2 is above it, at x = (0, 3), with every Gaussian draw whose second entry is not 0. *)
Example C91_case_unstable : forall z1 z2 : R, z2 <> 0 ->
  4 < (3 / 2) ^ 2 * inverse_mass 2 ex_mass 1 * ex_lam 1 /\
  nth 1 (hmc_momentum (@mkHmc RNum (CMat ex_mass) (3 / 2) 0 [[1; 0]; [0; 1]]) ([z1; z2] : list R)) 0
   <> sqrt (ex_lam 1 * ((3 / 2) ^ 2 * inverse_mass 2 ex_mass 1 * ex_lam 1 / 4 - 1) / inverse_mass 2 ex_mass 1) * (nth 1 [0; 3] 0 - ex_mu 1).
Proof.
  intros z1 z2 Hz. split; [unfold inverse_mass, entry, Rsum; cbn; lra|].
  set (w := sqrt _). replace (w * (nth 1 [0; 3] 0 - ex_mu 1)) with 0 by (cbn; ring). clear w.
  intros E. apply Hz. rewrite <- E. cbn. match goal with |- @eq _ ?u ?v => change (@eq R u v) end. ring.
Qed.

Print Assumptions C91_hmc_energy.
Print Assumptions C91_hmc_acceptance.
Print Assumptions C91_hmc_unstable.
Print Assumptions C91_mala_trapezoid.
Print Assumptions C91_mala_gaussian.
Print Assumptions C91_mala_closer.
