(** Acceptance on Gaussian targets. *)
From Coq Require Import Reals Psatz.
From Coquelicot Require Import Coquelicot.
From Verif Require Import Prelude Num M_Core M_Kernels P_Lists P_Kernels RNum Spec_Kernels Spec_Prog Spec_Real Spec_HMC
  P_Real1 P_Real2 P_Real3 P_Jac P_Leapfrog P_HMC P_Units1 Spec_Quad P_Quad.
Open Scope R_scope.

Lemma exp_le' u v : u <= v -> exp u <= exp v.
Proof. intros H. destruct (Req_dec u v) as [->|N]; [apply Rle_refl|left; apply exp_increasing; lra]. Qed.
Lemma real_bound (th e0 e1 : R) : 0 <= th < 1 -> 0 <= e0 -> (1 - th) * e1 <= e0 ->
  - (th / (1 - th)) * e0 <= e0 - e1 /\ - (th / (1 - th)) * e0 <= 0.
Proof.
  intros T E0 B2. split.
  - apply (Rmult_le_reg_l (1 - th)); [lra|]. replace ((1 - th) * (- (th / (1 - th)) * e0)) with (- th * e0) by (field; lra). nra.
  - assert (0 <= th / (1 - th)) by (apply Rmult_le_pos; [lra|left; apply Rinv_0_lt_compat; lra]). nra.
Qed.
Section Accept.
Context {G : @Rng RNum}.
Variables (n : nat) (lam mu : nat -> R) (f : @lpdf RNum) (d : @datad RNum).
Hypothesis (Q : quadratic_target n lam mu f d).

Lemma hmc_accept (h : @hmc RNum) m k (x z : list R) a : h_cond h = CMat m -> square_mat m n -> square_mat (h_chol h) n -> length x = n -> length z = n ->
  accept_prob (hmc_run h k f d x z) a ->
  let p0 := hmc_momentum h z in a = Rmin 1 (exp (quad_energy n lam mu m (x, p0) - quad_energy n lam mu m (leapfrog h m f d (x, p0)))).
Proof.
  intros Hc SM SL Hx Hz Ha p0. assert (Lp : length p0 = n) by now apply momentum_len.
  assert (SQ : square m (length x) = true) by (rewrite Hx; now apply square_iff).
  destruct (C15_hmc_proof h m k f d x z Hc SQ) as (_ & Hp & _). fold p0 in Hp.
  rewrite (accept_unique _ _ _ Ha Hp). do 2 f_equal.
  destruct (leapfrog_shadow n lam mu f d m Q SM h x p0 Hx Lp) as [[L1 L2] _]. set (w := leapfrog h m f d (x, p0)) in * .
  destruct Q as (c & H). destruct (H x Hx) as (V1 & _). destruct (H (fst w) L1) as (V2 & _). unfold quad_energy. cbn [fst snd].
  assert (KE : forall p : list R, length p = n -> kinetic p m = / 2 * Rsum n (fun j => inverse_mass n m j * nth j p 0 ^ 2)).
  { intros p Hp'. rewrite (kinetic_cs p m n SM Hp'). replace (1 / 2) with (/ 2) by field. f_equal. apply Rsum_ext. intros j Hj. rewrite (cs_mass n m SM). ring. }
  rewrite (KE p0 Lp), (KE (snd w) L2). rnorm. rewrite V1, V2. match goal with |- @eq _ ?u ?v => change (@eq R u v) end. ring.
Qed.
Lemma hmc_uniform_proof (h : @hmc RNum) m k (x z : list R) th a : h_cond h = CMat m -> square_mat m n -> square_mat (h_chol h) n -> length x = n -> length z = n ->
  0 <= th < 1 -> (forall i, (i < n)%nat -> 0 <= lam i /\ 0 <= inverse_mass n m i /\ h_step h ^ 2 * inverse_mass n m i * lam i <= 4 * th) ->
  accept_prob (hmc_run h k f d x z) a -> exp (- (th / (1 - th)) * quad_energy n lam mu m (x, hmc_momentum h z)) <= a.
Proof.
  intros Hc SM SL Hx Hz T S Ha. rewrite (hmc_accept h m k x z a Hc SM SL Hx Hz Ha). set (p0 := hmc_momentum h z).
  assert (Lp : length p0 = n) by now apply momentum_len.
  destruct (energy_bounded n lam mu f d m Q SM h th x p0 T S Hx Lp) as [B1 B2].
  set (e0 := quad_energy n lam mu m (x, p0)) in * . set (e1 := quad_energy n lam mu m (leapfrog h m f d (x, p0))) in * .
  assert (E0 : 0 <= e0).
  { unfold e0, quad_energy. apply Rplus_le_le_0_compat; (apply Rmult_le_pos; [lra|]); apply Rsum_nonneg; intros i Hi; (apply Rmult_le_pos; [apply S; exact Hi|apply pow2_ge_0]). }
  destruct (real_bound th e0 e1 T E0 B2) as [EX N0].
  apply Rmin_glb; [pose proof (exp_le' _ _ N0) as X; rewrite exp_0 in X; exact X|exact (exp_le' _ _ EX)].
Qed.

(** Above the stability threshold long trajectories are rejected. *)
Lemma hmc_unstable_proof eps m l k (x z : list R) i : square_mat m n -> square_mat l n -> length x = n -> length z = n ->
  (forall j, (j < n)%nat -> 0 <= lam j /\ 0 <= inverse_mass n m j) -> (i < n)%nat -> 0 < eps -> 0 < lam i -> 0 < inverse_mass n m i ->
  4 < eps ^ 2 * inverse_mass n m i * lam i ->
  nth i (hmc_momentum (@mkHmc RNum (CMat m) eps 0 l) z) 0 <> sqrt (lam i * (eps ^ 2 * inverse_mass n m i * lam i / 4 - 1) / inverse_mass n m i) * (nth i x 0 - mu i) ->
  forall e, 0 < e -> exists K, forall leaps a, (K <= leaps)%nat -> accept_prob (hmc_run (@mkHmc RNum (CMat m) eps leaps l) k f d x z) a -> a < e.
Proof.
  intros SM SL Hx Hz S Hi E0 L0 C0 Big Off e He. set (p0 := hmc_momentum (@mkHmc RNum (CMat m) eps 0 l) z : list R) in * .
  assert (Lp : length p0 = n) by now apply momentum_len.
  destruct (energy_diverges n lam mu f d m Q SM eps i Hi E0 L0 C0 Big x p0 S Hx Lp Off (quad_energy n lam mu m (x, p0) - ln e)) as (K & HK).
  exists K. intros leaps a Hk Ha.
  pose proof (hmc_accept (@mkHmc RNum (CMat m) eps leaps l) m k x z a eq_refl SM SL Hx Hz Ha) as EA. cbv zeta in EA.
  pose proof (f_equal (quad_energy n lam mu m) (C19_verlet_proof m f d n (quad_shape n lam mu f d Q) eps (@mkHmc RNum (CMat m) eps leaps l) (x, p0) eq_refl (conj Hx Lp))) as EV.
  specialize (HK (Datatypes.S leaps) ltac:(lia)).
  assert (Al : forall u v w : R, v = w -> u - ln e < w -> exp (u - v) < e).
  { intros u v w -> Hw. apply Rlt_le_trans with (exp (ln e)); [apply exp_increasing; lra|rewrite exp_ln by exact He; apply Rle_refl]. }
  refine (Rle_lt_trans _ _ _ (Req_le _ _ EA) _). refine (Rle_lt_trans _ _ _ (Rmin_r _ _) _). exact (Al _ _ _ EV HK).
Qed.

(* ------------------------------------------------------------------ MALA *)
(** The log-ratio of a Langevin step is the error of the trapezoidal rule for the change in log-density, plus a difference
    of gradient norms. *)
Lemma mala_trapezoid_proof (g : @lpdf RNum) ss (x y : list R) : step_accepted ss n -> (forall i, (i < n)%nat -> step_of ss i <> 0) ->
  length x = n -> length y = n -> length (lp_grad g x d) = n -> length (lp_grad g y d) = n ->
  mala_ratio ss g d x y = Ok (lp_val g y d - lp_val g x d - Rsum n (fun i => (nth i (lp_grad g x d) 0 + nth i (lp_grad g y d) 0) / 2 * (nth i y 0 - nth i x 0))
    + Rsum n (fun i => step_of ss i ^ 2 * (nth i (lp_grad g x d) 0 ^ 2 - nth i (lp_grad g y d) 0 ^ 2) / 8)).
Proof.
  intros O N0 Hx Hy Gx Gy. rewrite (mala_ratio_R n ss g d x y O Hx Hy N0 Gx Gy). f_equal.
  match goal with |- @eq _ (?v - ?p + ?q) (?v - ?r + ?s) => assert (T : q - p = s - r) end.
  { rewrite <- !Rsum_minus. apply Rsum_ext. intros i Hi. unfold mala_mu. pose proof (N0 i Hi) as N. rnorm. field. exact N. }
  match goal with |- @eq _ ?u ?v => change (@eq R u v) end. lra.
Qed.
Lemma mala_gauss_proof ss (x y : list R) : step_accepted ss n -> (forall i, (i < n)%nat -> step_of ss i <> 0) -> length x = n -> length y = n ->
  mala_ratio ss f d x y = Ok (Rsum n (fun i => (step_of ss i * lam i) ^ 2 * ((nth i x 0 - mu i) ^ 2 - (nth i y 0 - mu i) ^ 2) / 8)).
Proof.
  intros O N0 Hx Hy. destruct Q as (c & H). destruct (H x Hx) as (V1 & G1 & E1). destruct (H y Hy) as (V2 & G2 & E2).
  refine (eq_trans (mala_trapezoid_proof f ss x y O N0 Hx Hy G1 G2) _). apply (f_equal (@Ok R)).
  pose (A := Rsum n (fun i => lam i * (nth i x 0 - mu i) ^ 2)). pose (B := Rsum n (fun i => lam i * (nth i y 0 - mu i) ^ 2)).
  assert (T1 : Rsum n (fun i => (nth i (lp_grad f x d) 0 + nth i (lp_grad f y d) 0) / 2 * (nth i y 0 - nth i x 0)) = / 2 * A - / 2 * B).
  { unfold A, B. rewrite <- !Rsum_scal, <- Rsum_minus. apply Rsum_ext. intros i Hi. pose proof (E1 i Hi) as X1. pose proof (E2 i Hi) as X2.
    refine (eq_trans (f_equal2 (fun u v : R => (u + v) / 2 * (nth i y 0 - nth i x 0)) X1 X2) _).
    assert (Al : forall l m p q : R, (- (l * (p - m)) + - (l * (q - m))) / 2 * (q - p) = / 2 * (l * (p - m) ^ 2) - / 2 * (l * (q - m) ^ 2)) by (intros; field).
    exact (Al _ _ _ _). }
  assert (T2 : Rsum n (fun i => step_of ss i ^ 2 * (nth i (lp_grad f x d) 0 ^ 2 - nth i (lp_grad f y d) 0 ^ 2) / 8)
    = Rsum n (fun i => (step_of ss i * lam i) ^ 2 * ((nth i x 0 - mu i) ^ 2 - (nth i y 0 - mu i) ^ 2) / 8)).
  { apply Rsum_ext. intros i Hi. pose proof (E1 i Hi) as X1. pose proof (E2 i Hi) as X2.
    refine (eq_trans (f_equal2 (fun u v : R => step_of ss i ^ 2 * (u ^ 2 - v ^ 2) / 8) X1 X2) _).
    assert (Al : forall st l m p q : R, st ^ 2 * ((- (l * (p - m))) ^ 2 - (- (l * (q - m))) ^ 2) / 8 = (st * l) ^ 2 * ((p - m) ^ 2 - (q - m) ^ 2) / 8) by (intros; field).
    exact (Al _ _ _ _ _). }
  assert (Al : forall v1 v2 t1 t2 r : R, v1 = c - / 2 * A -> v2 = c - / 2 * B -> t1 = / 2 * A - / 2 * B -> t2 = r -> v2 - v1 - t1 + t2 = r) by (intros; subst; ring).
  exact (Al _ _ _ _ _ V1 V2 T1 T2).
Qed.

(** The acceptance probability of a Langevin step. *)
Lemma mala_accept_gen (g : @lpdf RNum) ss k (x y z : list R) a : step_accepted ss n -> (forall i, (i < n)%nat -> step_of ss i <> 0) -> grad_shape g d n ->
  length x = n -> length z = n -> proposes (mala_run ss k g d x z) y -> accept_prob (mala_run ss k g d x z) a ->
  length y = n /\ exists r, mala_ratio ss g d x y = Ok r /\ a = Rmin 1 (exp r).
Proof.
  intros O N0 GS Hx Hz Hp Ha. assert (MO : mala_ok_step ss (length x)) by (rewrite Hx; destruct ss; exact O).
  assert (GX : grad_shape g d (length x)) by (rewrite Hx; exact GS).
  destruct (mala_metropolis ss k g d x z MO (eq_trans Hz (eq_sym Hx)) GX) as (y0 & r & M & E & L & _).
  pose proof (proj1 (metropolis_proposes _ _ _ _ _ _ _ M) Hp) as ->. split; [exact (eq_trans L Hx)|]. exists r. split; [exact E|].
  exact (accept_unique _ _ _ Ha (metropolis_accept _ _ _ _ _ _ M)).
Qed.
Lemma mala_trap_accept (g : @lpdf RNum) ss k (x y z : list R) a : step_accepted ss n -> (forall i, (i < n)%nat -> step_of ss i <> 0) -> grad_shape g d n ->
  length x = n -> length z = n -> proposes (mala_run ss k g d x z) y -> accept_prob (mala_run ss k g d x z) a ->
  a = Rmin 1 (exp (lp_val g y d - lp_val g x d - Rsum n (fun i => (nth i (lp_grad g x d) 0 + nth i (lp_grad g y d) 0) / 2 * (nth i y 0 - nth i x 0))
    + Rsum n (fun i => step_of ss i ^ 2 * (nth i (lp_grad g x d) 0 ^ 2 - nth i (lp_grad g y d) 0 ^ 2) / 8))).
Proof.
  intros O N0 GS Hx Hz Hp Ha. destruct (mala_accept_gen g ss k x y z a O N0 GS Hx Hz Hp Ha) as (Ly & r & E & ->).
  pose proof (mala_trapezoid_proof g ss x y O N0 Hx Ly (GS x Hx) (GS y Ly)) as E2. pose proof (eq_trans (eq_sym E) E2) as E3. injection E3 as ->. reflexivity.
Qed.
Lemma mala_gauss_accept ss k (x y z : list R) a : step_accepted ss n -> (forall i, (i < n)%nat -> step_of ss i <> 0) ->
  length x = n -> length z = n -> proposes (mala_run ss k f d x z) y -> accept_prob (mala_run ss k f d x z) a ->
  a = Rmin 1 (exp (Rsum n (fun i => (step_of ss i * lam i) ^ 2 * ((nth i x 0 - mu i) ^ 2 - (nth i y 0 - mu i) ^ 2) / 8))).
Proof.
  intros O N0 Hx Hz Hp Ha. destruct (mala_accept_gen f ss k x y z a O N0 (quad_shape n lam mu f d Q) Hx Hz Hp Ha) as (Ly & r & E & ->).
  pose proof (mala_gauss_proof ss x y O N0 Hx Ly) as E2. pose proof (eq_trans (eq_sym E) E2) as E3. injection E3 as ->. reflexivity.
Qed.
Lemma mala_closer_accept ss k (x y z : list R) a : step_accepted ss n -> (forall i, (i < n)%nat -> step_of ss i <> 0) ->
  length x = n -> length z = n -> proposes (mala_run ss k f d x z) y -> accept_prob (mala_run ss k f d x z) a ->
  (forall i, (i < n)%nat -> Rabs (nth i y 0 - mu i) <= Rabs (nth i x 0 - mu i)) -> a = 1.
Proof.
  intros O N0 Hx Hz Hp Ha C. rewrite (mala_gauss_accept ss k x y z a O N0 Hx Hz Hp Ha). apply Rmin_left.
  assert (P0 : 0 <= Rsum n (fun i => (step_of ss i * lam i) ^ 2 * ((nth i x 0 - mu i) ^ 2 - (nth i y 0 - mu i) ^ 2) / 8)).
  { apply Rsum_nonneg. intros i Hi. apply Rmult_le_pos; [|lra]. apply Rmult_le_pos; [apply pow2_ge_0|].
    pose proof (pow_incr _ _ 2 (conj (Rabs_pos _) (C i Hi))) as X. rewrite !pow2_abs in X. assert (Al : forall u v : R, u <= v -> 0 <= v - u) by (intros; lra). exact (Al _ _ X). }
  pose proof (exp_le' _ _ P0) as X. rewrite exp_0 in X. exact X.
Qed.
End Accept.
(** A concrete target: lam = (1, 4), mu = (0, 3). *)
Definition quad_lpdf (n : nat) (lam mu : nat -> R) : @lpdf RNum := @mkLpdf RNum
  (fun (x : list R) _ => - (/ 2 * Rsum n (fun i => lam i * (nth i x 0 - mu i) ^ 2)))
  (fun (x : list R) _ => map (fun i => - (lam i * (nth i x 0 - mu i))) (seq 0 n)).
Lemma quad_lpdf_ok n lam mu d : quadratic_target n lam mu (quad_lpdf n lam mu) d.
Proof.
  exists 0. intros x Hx. split; [|split].
  - cbn [lp_val quad_lpdf]. match goal with |- @eq _ ?u ?v => change (@eq R u v) end. exact (eq_sym (Rminus_0_l _)).
  - cbn [lp_grad quad_lpdf]. now rewrite map_length, seq_length.
  - intros i Hi. cbn [lp_grad quad_lpdf]. exact (nth_map_seq (fun i => - (lam i * (nth i x 0 - mu i))) n i 0 Hi).
Qed.

