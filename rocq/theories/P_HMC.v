(** Proofs of C20 and C21. *)
From Coq Require Import Reals Psatz.
From Coquelicot Require Import Coquelicot.
From Verif Require Import Prelude Num M_Core M_Kernels Spec_Steps Spec_Kernels P_Lists P_Kernels RNum MxR Spec_Jac P_Jac Spec_Real P_Real1 P_Real2 Spec_HMC P_Leapfrog.

(* ------------------------------------------------------------------ energies and momenta *)
Lemma square_iff (m : list (list R)) n : square m n = true <-> square_mat m n.
Proof.
  unfold square, square_mat. rewrite andb_true_iff, Nat.eqb_eq, forallb_forall. rnorm.
  split; intros [A B]; split; auto; intros r Hr; [apply Nat.eqb_eq|apply Nat.eqb_eq]; auto.
Qed.
Lemma row_len m n i : square_mat m n -> (i < n)%nat -> length (nth i m []) = n.
Proof. intros [A B] Hi. apply B, nth_In. lia. Qed.

Lemma kineticR (p : list R) (m : list (list R)) n : square_mat m n -> length p = n ->
  kinetic p m = 1 / 2 * Rsum n (fun i => Rsum n (fun j => nth j p 0 ^ 2 * entry m i j)).
Proof.
  intros Hm Hp. unfold kinetic. change (@fhalf RNum) with (1 / 2). change (@fmul RNum) with Rmult. f_equal.
  rewrite fsumR, map_length. rnorm. rewrite (proj1 Hm). apply Rsum_ext. intros i Hi.
  rewrite (nth_map' (A := list R) (B := R) _ m i [] 0) by (rewrite (proj1 Hm); auto).
  rewrite fsumR. rewrite vmul_lenR, map_length. rewrite Hp, (row_len m n i Hm Hi), Nat.min_id.
  apply Rsum_ext. intros j Hj. rewrite vmulR.
  - rewrite mapR by lia. unfold fsq, entry. cbn. ring.
  - rewrite map_length. lia.
  - rewrite (row_len m n i Hm Hi). auto.
Qed.
Lemma kinetic_flip (p : list R) (m : list (list R)) n : square_mat m n -> length p = n -> kinetic (map Ropp p) m = kinetic p m.
Proof.
  intros Hm Hp. rewrite !(kineticR _ m n) by (auto; rewrite map_length; auto). f_equal. apply Rsum_ext. intros i Hi.
  apply Rsum_ext. intros j Hj. rewrite mapR by lia. ring.
Qed.
Lemma csR (m : list (list R)) n j : square_mat m n -> cs m j = Rsum n (fun i => entry m i j).
Proof.
  intros Hm. unfold cs. rewrite fsumR. unfold column. rewrite map_length. rnorm. rewrite (proj1 Hm). apply Rsum_ext. intros i Hi.
  unfold entry. rewrite (nth_map' (A := list R) (B := R) _ m i [] 0) by (rewrite (proj1 Hm); auto). reflexivity.
Qed.
Lemma kinetic_cs (p : list R) (m : list (list R)) n : square_mat m n -> length p = n ->
  kinetic p m = 1 / 2 * Rsum n (fun j => nth j p 0 ^ 2 * cs m j).
Proof.
  intros Hm Hp. rewrite (kineticR p m n Hm Hp). f_equal. rewrite Rsum_swap. apply Rsum_ext. intros j Hj.
  rewrite Rsum_scal, (csR m n j Hm). reflexivity.
Qed.
(** [kinetic_grad] is the gradient of [kinetic]. *)
Lemma kinetic_grad_proof (p : list R) (m : list (list R)) n : square_mat m n -> length p = n ->
  is_dif n (fun p' => kinetic p' m) p (fun j => nth j (kinetic_grad p m) 0).
Proof.
  intros Hm Hp.
  apply (is_dif_ext n (fun p' => 1 / 2 * Rsum n (fun j => nth j p' 0 ^ 2 * cs m j))); auto.
  { intros y Hy. symmetry. now apply kinetic_cs. }
  apply (is_dif_gext n _ p (fun j => 1 / 2 * (2 * nth j p 0 * cs m j))).
  { intros j Hj. rewrite kgR by lia. lra. }
  apply is_dif_scal.
  assert (Q : forall k, (k <= n)%nat -> is_dif n (fun p' => Rsum k (fun j => nth j p' 0 ^ 2 * cs m j)) p
     (fun j => if (j <? k)%nat then 2 * nth j p 0 * cs m j else 0)).
  { induction k as [|k IH]; intros Hk.
    - cbn [Rsum]. apply is_dif_const.
    - cbn [Rsum].
      assert (A : is_dif n (fun y => cs m k * nth k y 0 ^ 2) p (fun j => cs m k * (2 * nth k p 0 * mid k j))).
      { apply is_dif_scal. apply (is_dif_comp n (fun t => t ^ 2) (fun y => nth k y 0)); [now apply is_dif_proj|]. auto_derive; auto. ring. }
      pose proof (is_dif_plus n _ _ p _ _ (IH ltac:(lia)) A) as B.
      eapply is_dif_ext; [auto| |eapply is_dif_gext; [|exact B]].
      + intros y Hy. cbv beta. ring.
      + intros j Hj. cbv beta. unfold mid. destruct (Nat.ltb_spec j k), (Nat.ltb_spec j (S k)), (Nat.eqb_spec k j); try lia; subst; cbn; try ring. }
  eapply is_dif_gext; [|exact (Q n ltac:(lia))]. intros j Hj. cbv beta. destruct (Nat.ltb_spec j n); [reflexivity|lia].
Qed.

Lemma momentum_len (h : @hmc RNum) (z : list R) n : square_mat (h_chol h) n -> @length R (hmc_momentum h z) = n.
Proof. intros [A _]. unfold hmc_momentum. rewrite map_length. exact A. Qed.
Lemma momentumR (h : @hmc RNum) (z : list R) n i : square_mat (h_chol h) n -> length z = n -> (i < n)%nat ->
  @nth R i (hmc_momentum h z) 0 = Rsum n (fun t => nth t z 0 * entry (h_chol h) i t).
Proof.
  intros Hm Hz Hi. unfold hmc_momentum.
  rnorm. rewrite (nth_map' (A := list R) (B := R) _ (h_chol h) i [] 0) by (rewrite (proj1 Hm); auto).
  apply (vdot_R z (nth i (h_chol h) []) n); auto. apply row_len; auto.
Qed.

Section Chol.
Variables (h : @hmc RNum) (m : list (list R)) (n : nat).
Hypothesis (Hm : square_mat m n) (Hl : square_mat (h_chol h) n) (Hf : factors_inverse (h_chol h) m n).
Let L i t := entry (h_chol h) i t.
Let B a j := Rsum n (fun k => L k a * entry m k j).
Lemma LB i j : (i < n)%nat -> (j < n)%nat -> mmul n L B i j = mid i j.
Proof.
  intros Hi Hj. etransitivity; [|exact (Hf i j Hi Hj)]. unfold mmul, B.
  rewrite (Rsum_ext n _ (fun t => Rsum n (fun k => L i t * (L k t * entry m k j)))) by (intros; now rewrite Rsum_scal).
  rewrite Rsum_swap. apply Rsum_ext. intros k Hk.
  rewrite Rmult_comm, <- Rsum_scal. apply Rsum_ext. intros t Ht. unfold L. ring.
Qed.
Lemma BL a b : (a < n)%nat -> (b < n)%nat -> mmul n B L a b = mid a b.
Proof. intros Ha Hb. apply (@mat_inv_comm n L B); auto. intros. now apply LB. Qed.

Lemma mid_sum i (f : nat -> R) : (i < n)%nat -> Rsum n (fun j => mid i j * f j) = f i.
Proof.
  intros Hi. rewrite (Rsum_single n _ i Hi).
  - unfold mid. rewrite Nat.eqb_refl. cbn. ring.
  - intros j _ Hj. unfold mid. destruct (Nat.eqb_spec i j); [congruence|]. cbn. ring.
Qed.

(** diagonal metric *)
Lemma kinetic_diag (z : list R) : diagonal_mat m n -> length z = n ->
  kinetic (hmc_momentum h z) m = 1 / 2 * Rsum n (fun i => nth i z 0 ^ 2).
Proof.
  intros Hd Hz. rewrite (kinetic_cs _ m n Hm) by now apply momentum_len. f_equal.
  rewrite (Rsum_ext n _ (fun j => Rsum n (fun a => Rsum n (fun b => nth a z 0 * nth b z 0 * (L j a * entry m j j * L j b))))).
  - rewrite Rsum_swap. rewrite (Rsum_ext n _ (fun a => Rsum n (fun b => Rsum n (fun j => nth a z 0 * nth b z 0 * (L j a * entry m j j * L j b))))) by (intros; now rewrite Rsum_swap).
    apply Rsum_ext. intros a Ha.
    rewrite (Rsum_ext n _ (fun b => mid a b * (nth a z 0 * nth b z 0))).
    + rewrite mid_sum by auto. ring.
    + intros b Hb. rewrite Rsum_scal. rewrite <- (BL a b Ha Hb). rewrite Rmult_comm. f_equal. unfold mmul.
      apply Rsum_ext. intros j Hj. f_equal. unfold B. rewrite (Rsum_single n _ j Hj); auto.
      intros k Hk Hkj. rewrite (Hd k j) by auto. ring.
  - intros j Hj. rewrite (momentumR h z n j Hl Hz Hj). rewrite (csR m n j Hm).
    rewrite (Rsum_single n (fun i => entry m i j) j Hj) by (intros; apply Hd; auto).
    cbn [pow]. rewrite Rmult_1_r.
    rewrite (Rsum_ext n (fun a => Rsum n _) (fun a => (entry m j j * (Rsum n (fun t => nth t z 0 * entry (h_chol h) j t))) * (nth a z 0 * entry (h_chol h) j a))).
    + rewrite Rsum_scal. rnorm. match goal with |- ?A * ?B * _ = _ => set (W := A) end. ring.
    + intros a Ha. rewrite (Rsum_ext n _ (fun b => (entry m j j * (nth a z 0 * entry (h_chol h) j a)) * (nth b z 0 * entry (h_chol h) j b))) by (intros; unfold L; ring).
      rewrite Rsum_scal. ring.
Qed.

(** every momentum is drawn: preimage under z -> momentum *)
Definition pre (p : list R) : list R := map (fun a => Rsum n (fun j => B a j * nth j p 0)) (seq 0 n).
Lemma pre_len p : length (pre p) = n.
Proof. unfold pre. now rewrite map_length, seq_length. Qed.
Lemma pre_nth p a : (a < n)%nat -> nth a (pre p) 0 = Rsum n (fun j => B a j * nth j p 0).
Proof. intros. unfold pre. now rewrite (nth_map_seq _ n a 0). Qed.
Lemma momentum_pre p : length p = n -> hmc_momentum h (pre p) = p.
Proof.
  intros Hp. apply (list_eq_nth 0). { rewrite momentum_len with (n := n); auto. }
  intros i Hi. rewrite momentum_len with (n := n) in Hi by auto. rewrite momentumR with (n := n); auto using pre_len.
  rewrite (Rsum_ext n _ (fun t => Rsum n (fun j => L i t * B t j * nth j p 0))).
  - rewrite Rsum_swap. rewrite (Rsum_ext n _ (fun j => mid i j * nth j p 0)). { now apply mid_sum. }
    intros j Hj. rewrite <- (LB i j Hi Hj). unfold mmul. rewrite Rmult_comm, <- Rsum_scal. apply Rsum_ext. intros; ring.
  - intros t Ht. rewrite pre_nth by auto. rewrite Rmult_comm, <- Rsum_scal. apply Rsum_ext. intros. unfold L. ring.
Qed.
Lemma pre_norm p : symmetric_mat m n -> length p = n ->
  Rsum n (fun a => nth a (pre p) 0 ^ 2) = Rsum n (fun i => Rsum n (fun j => nth i p 0 * entry m i j * nth j p 0)).
Proof.
  intros Hs Hp.
  (* z_a = sum_k L_ka (M p)_k ; sum_a z_a^2 = sum_k (Mp)_k sum_a L_ka z_a = sum_k (M p)_k p_k *)
  set (Mp := fun k => Rsum n (fun j => entry m k j * nth j p 0)).
  assert (E : forall a, (a < n)%nat -> nth a (pre p) 0 = Rsum n (fun k => L k a * Mp k)).
  { intros a Ha. rewrite pre_nth by auto. unfold B, Mp.
    rewrite (Rsum_ext n _ (fun j => Rsum n (fun k => L k a * (entry m k j * nth j p 0)))).
    - rewrite Rsum_swap. apply Rsum_ext. intros k Hk. apply Rsum_scal.
    - intros j Hj. rewrite Rmult_comm, <- Rsum_scal. apply Rsum_ext. intros; ring. }
  rewrite (Rsum_ext n _ (fun a => Rsum n (fun k => Mp k * (nth a (pre p) 0 * L k a)))).
  - rewrite Rsum_swap. apply Rsum_ext. intros k Hk. rewrite Rsum_scal.
    pose proof (momentum_pre p Hp) as Q. pose proof (momentumR h (pre p) n k Hl (pre_len p) Hk) as Q'. rewrite Q in Q'. unfold L. rewrite <- Q'.
    unfold Mp. rewrite Rmult_comm, <- Rsum_scal. apply Rsum_ext. intros; ring.
  - intros a Ha. cbn [pow]. rewrite Rmult_1_r. rewrite (E a Ha) at 2. rewrite <- Rsum_scal. apply Rsum_ext. intros; ring.
Qed.

Definition unit_vec (i : nat) : list R := map (fun j => mid i j) (seq 0 n).
Lemma unit_len i : length (unit_vec i) = n.
Proof. unfold unit_vec. now rewrite map_length, seq_length. Qed.
Lemma unit_nth i j : (j < n)%nat -> nth j (unit_vec i) 0 = mid i j.
Proof. intros. unfold unit_vec. now rewrite (nth_map_seq _ n j 0). Qed.

Lemma kinetic_not_diag c : symmetric_mat m n ->
  (forall z : list R, length z = n -> kinetic (hmc_momentum h z) m = 1 / 2 * Rsum n (fun i => nth i z 0 ^ 2) + c) ->
  diagonal_mat m n.
Proof.
  intros Hs H.
  assert (Q : forall p, length p = n -> Rsum n (fun j => nth j p 0 ^ 2 * cs m j) =
     Rsum n (fun i => Rsum n (fun j => nth i p 0 * entry m i j * nth j p 0)) + 2 * c).
  { intros p Hp. pose proof (H (pre p) (pre_len p)) as E. rewrite momentum_pre in E by auto.
    rewrite (kinetic_cs p m n Hm Hp), (pre_norm p Hs Hp) in E. lra. }
  assert (Q2 : forall p, length p = n -> forall i j, (i < n)%nat -> (j < n)%nat -> i <> j ->
     (forall k, (k < n)%nat -> k <> i -> k <> j -> nth k p 0 = 0) ->
     nth i p 0 ^ 2 * cs m i + nth j p 0 ^ 2 * cs m j =
     nth i p 0 ^ 2 * entry m i i + nth j p 0 ^ 2 * entry m j j + 2 * (nth i p 0 * nth j p 0 * entry m i j) + 2 * c).
  { intros p Hp i j Hi Hj Hij Hk.
    assert (S2 : forall f : nat -> R, (forall k, (k < n)%nat -> k <> i -> k <> j -> f k = 0) -> Rsum n f = f i + f j).
    { intros f Hf0. rewrite (Rsum_ext n f (fun k => (if Nat.eqb i k then f i else 0) + (if Nat.eqb j k then f j else 0))).
      - rewrite Rsum_plus. rewrite (Rsum_single n _ i Hi), (Rsum_single n _ j Hj), !Nat.eqb_refl; auto.
        + intros k _ Hkj. destruct (Nat.eqb_spec j k); congruence.
        + intros k _ Hki. destruct (Nat.eqb_spec i k); congruence.
      - intros k Hkn. destruct (Nat.eqb_spec i k), (Nat.eqb_spec j k); subst; try congruence; rewrite ?Hf0 by auto; lra. }
    pose proof (Q p Hp) as E. rewrite S2 in E.
    2: { intros k Hk1 Hk2 Hk3. rewrite Hk by auto. ring. }
    rewrite S2 in E.
    2: { intros k Hk1 Hk2 Hk3. apply Rsum_0. intros. rewrite (Hk k) by auto. ring. }
    rewrite !S2 in E.
    2,3: intros k Hk1 Hk2 Hk3; rewrite (Hk k) by auto; ring.
    rewrite (Hs j i Hj Hi) in E. rewrite E. ring. }
  intros i j Hi Hj Hij.
  set (v := fun a b => map (fun k => a * mid i k + b * mid j k) (seq 0 n)).
  assert (Lv : forall a b, length (v a b) = n) by (intros; unfold v; now rewrite map_length, seq_length).
  assert (Nv : forall a b k, (k < n)%nat -> nth k (v a b) 0 = a * mid i k + b * mid j k) by (intros; unfold v; now rewrite (nth_map_seq _ n k 0)).
  assert (M : forall k l, mid k l = if Nat.eqb k l then 1 else 0) by reflexivity.
  assert (Qv : forall a b, a ^ 2 * cs m i + b ^ 2 * cs m j = a ^ 2 * entry m i i + b ^ 2 * entry m j j + 2 * (a * b * entry m i j) + 2 * c).
  { intros a b. pose proof (Q2 (v a b) (Lv a b) i j Hi Hj Hij) as E. rewrite !Nv in E by auto.
    assert (Z1 : a * mid i i + b * mid j i = a). { rewrite !M, Nat.eqb_refl. destruct (Nat.eqb_spec j i); [congruence|]. ring. }
    assert (Z2 : a * mid i j + b * mid j j = b). { rewrite !M, Nat.eqb_refl. destruct (Nat.eqb_spec i j); [congruence|]. ring. }
    rewrite Z1, Z2 in E. apply E. intros k Hk K1 K2. rewrite Nv by auto. rewrite !M.
    destruct (Nat.eqb_spec i k), (Nat.eqb_spec j k); try congruence. ring. }
  pose proof (Qv 0 0). pose proof (Qv 1 0). pose proof (Qv 0 1). pose proof (Qv 1 1). lra.
Qed.
End Chol.

Lemma std_density_exp n z : std_density n z = exp (- (1 / 2 * Rsum n (fun i => nth i z 0 ^ 2))) / (sqrt (2 * PI)) ^ n.
Proof.
  unfold std_density. induction n as [|n IH]; cbn [Rprod Rsum].
  - rewrite Rmult_0_r, Ropp_0, exp_0. cbn [pow]. field.
  - rewrite IH. unfold normal_pdf. pose proof PI_RGT_0.
    assert (S0 : sqrt (2 * PI) <> 0). { apply Rgt_not_eq, sqrt_lt_R0. lra. }
    rewrite Rabs_R1. rewrite Rmult_plus_distr_l, Ropp_plus_distr, exp_plus.
    replace (- (nth n z 0 - 0) ^ 2 / (2 * 1 ^ 2)) with (- (1 / 2 * nth n z 0 ^ 2)) by field.
    rewrite <- (tech_pow_Rmult (sqrt (2 * PI)) n).
    field. split; auto. now apply pow_nonzero.
Qed.

Lemma C21_diag_proof h m n (z : list R) : h_cond h = CMat m -> square_mat m n -> square_mat (h_chol h) n -> factors_inverse (h_chol h) m n ->
  diagonal_mat m n -> length z = n ->
  exp (- kinetic (hmc_momentum h z) m) = (sqrt (2 * PI)) ^ n * std_density n z.
Proof.
  intros _ Hm Hl Hf Hd Hz. rewrite (kinetic_diag h m n Hm Hl Hf z Hd Hz), std_density_exp.
  pose proof PI_RGT_0. assert (S0 : sqrt (2 * PI) <> 0). { apply Rgt_not_eq, sqrt_lt_R0. lra. }
  field. now apply pow_nonzero.
Qed.

Lemma C21_nondiag_proof h m n : h_cond h = CMat m -> square_mat m n -> square_mat (h_chol h) n -> factors_inverse (h_chol h) m n ->
  symmetric_mat m n -> ~ diagonal_mat m n ->
  ~ exists C, 0 < C /\ forall z : list R, length z = n -> exp (- kinetic (hmc_momentum h z) m) = C * std_density n z.
Proof.
  intros _ Hm Hl Hf Hs Hnd (C & HC & H). apply Hnd.
  pose proof PI_RGT_0. assert (S0 : 0 < sqrt (2 * PI)). { apply sqrt_lt_R0. lra. }
  assert (S1 : 0 < sqrt (2 * PI) ^ n) by now apply pow_lt.
  apply (kinetic_not_diag h m n Hm Hl Hf (- ln (C / sqrt (2 * PI) ^ n)) Hs).
  intros z Hz. specialize (H z Hz). rewrite std_density_exp in H.
  assert (E : exp (- kinetic (hmc_momentum h z) m) = exp (ln (C / sqrt (2 * PI) ^ n) + - (1 / 2 * Rsum n (fun i => nth i z 0 ^ 2)))).
  { rewrite exp_plus, exp_ln by now apply Rdiv_lt_0_compat. rewrite H. field. lra. }
  apply exp_inv in E. lra.
Qed.

(* ------------------------------------------------------------------ balance *)
Section Balance.
Context {G : @Rng RNum}.
Lemma hmc_reverse h m f d n (x p : list R) : grad_shape f d n -> length x = n -> length p = n ->
  let z' := leapfrog h m f d (x, p) in
  length (fst z') = n /\ length (snd z') = n /\
  leapfrog h m f d (fst z', map Ropp (snd z')) = (x, map Ropp p).
Proof.
  intros Hg Hx Hp z'. destruct (leapfrog_length h m f d n x p Hg Hx Hp) as [A B]. fold z' in A, B.
  repeat split; auto. exact (C19_rev_proof m f d n Hg (h_step h) h (x, p) eq_refl (conj Hx Hp)).
Qed.

Lemma C20_balance_proof h m k k' f d n (x z z' : list R) a b : h_cond h = CMat m -> square_mat m n -> square_mat (h_chol h) n -> grad_shape f d n ->
  length x = n -> length z = n -> length z' = n ->
  let p := hmc_momentum h z in
  let y := fst (leapfrog h m f d (x, p)) in
  let p' := snd (leapfrog h m f d (x, p)) in
  hmc_momentum h z' = map Ropp p' ->
  accept_prob (hmc_run h k f d x z) a -> accept_prob (hmc_run h k' f d y z') b ->
  proposes (hmc_run h k f d x z) y /\ proposes (hmc_run h k' f d y z') x /\
  exp (lp_val f x d - kinetic p m) * a = exp (lp_val f y d - kinetic p' m) * b.
Proof.
  intros Hc Hm Hl Hg Hx Hz Hz' p y p' Hp' A1 A2.
  assert (Lp : length p = n) by now apply momentum_len.
  destruct (hmc_reverse h m f d n x p Hg Hx Lp) as (Ly & Lp' & Hrev). fold y p' in Ly, Lp', Hrev.
  assert (Sx : square m (length x) = true) by (rnorm; rewrite Hx; now apply square_iff).
  assert (Sy : square m (length y) = true) by (replace (length y) with n by (symmetry; exact Ly); now apply square_iff).
  pose proof (hmc_metropolis h m k f d x z Hc Sx) as M1. pose proof (hmc_metropolis h m k' f d y z' Hc Sy) as M2.
  assert (Hrev' : leapfrog h m f d (y, map Ropp p') = (x, map Ropp p)) by exact Hrev.
  cbv zeta in M1, M2. rnorm. fold p in M1. fold y p' in M1. rewrite Hp' in M2. rewrite Hrev' in M2. cbn [fst snd] in M2.
  split; [now apply (metropolis_proposes _ _ _ _ _ _ _ M1)|]. split; [now apply (metropolis_proposes _ _ _ _ _ _ _ M2)|].
  rewrite (accept_unique _ _ _ A1 (metropolis_accept _ _ _ _ _ _ M1)).
  rewrite (accept_unique _ _ _ A2 (metropolis_accept _ _ _ _ _ _ M2)).
  rewrite (kinetic_flip p' m n), (kinetic_flip p m n) by auto.
  replace (- lp_val f y d + kinetic p' m - (- lp_val f x d + kinetic p m)) with (- (- lp_val f x d + kinetic p m - (- lp_val f y d + kinetic p' m))) by (cbn; ring).
  apply balance_exp; try apply exp_pos.
  unfold Rdiv. rewrite <- exp_Ropp, <- exp_plus. f_equal. cbn. ring.
Qed.

Lemma C20_balance_draws_proof h m k k' f d n (x z z' : list R) a b : h_cond h = CMat m -> square_mat m n -> square_mat (h_chol h) n ->
  factors_inverse (h_chol h) m n -> diagonal_mat m n -> grad_shape f d n ->
  length x = n -> length z = n -> length z' = n ->
  let p := hmc_momentum h z in
  let y := fst (leapfrog h m f d (x, p)) in
  let p' := snd (leapfrog h m f d (x, p)) in
  hmc_momentum h z' = map Ropp p' ->
  accept_prob (hmc_run h k f d x z) a -> accept_prob (hmc_run h k' f d y z') b ->
  exp (lp_val f x d) * std_density n z * a = exp (lp_val f y d) * std_density n z' * b.
Proof.
  intros Hc Hm Hl Hf Hd Hg Hx Hz Hz' p y p' Hp' A1 A2.
  destruct (C20_balance_proof h m k k' f d n x z z' a b Hc Hm Hl Hg Hx Hz Hz' Hp' A1 A2) as (_ & _ & E).
  assert (Lp : length p = n) by now apply momentum_len.
  destruct (hmc_reverse h m f d n x p Hg Hx Lp) as (Ly & Lp' & Hrev). fold y p' in Ly, Lp', Hrev.
  pose proof (C21_diag_proof h m n z Hc Hm Hl Hf Hd Hz) as E1. pose proof (C21_diag_proof h m n z' Hc Hm Hl Hf Hd Hz') as E2.
  rewrite Hp', (kinetic_flip p' m n) in E2 by auto. fold p in E1.
  fold p in E. fold y p' in E. unfold Rminus in E. rewrite !exp_plus in E.
  pose proof PI_RGT_0. assert (S0 : 0 < sqrt (2 * PI) ^ n). { apply pow_lt, sqrt_lt_R0. lra. }
  rewrite E1, E2 in E. apply Rmult_eq_reg_l with (sqrt (2 * PI) ^ n); [|lra].
  lra.
Qed.

Lemma C20_all_momenta_proof h m n (p : list R) : square_mat m n -> square_mat (h_chol h) n -> factors_inverse (h_chol h) m n -> length p = n ->
  exists z : list R, length z = n /\ hmc_momentum h z = p.
Proof. intros Hm Hl Hf Hp. exists (pre h m n p). split; [apply pre_len|now apply momentum_pre]. Qed.
End Balance.

(* ------------------------------------------------------------------ volume *)
Lemma unflat_flat n z : length (fst z) = n -> unflat n (flat z) = z.
Proof. destruct z as [q p]. cbn. intros H. unfold unflat, flat. cbn [fst snd]. subst n. rewrite firstn_app, Nat.sub_diag, firstn_all, skipn_app, skipn_all, Nat.sub_diag. cbn. now rewrite app_nil_r. Qed.

Section Volume.
Variables (m : list (list R)) (f : @lpdf RNum) (d : @datad RNum) (n : nat) (Hess : list R -> nat -> nat -> R).
Hypothesis (Hg : grad_shape f d n).
Hypothesis (HH : forall q, length q = n -> is_jac n n (fun q' => lp_grad f q' d) q (Hess q)).

Definition FT (T : list R * list R -> list R * list R) : list R -> list R := fun w => flat (T (unflat n w)).
Lemma unflat_ok w : length w = (n + n)%nat -> ok n (unflat n w).
Proof. intros H. split; cbn; [rewrite firstn_length|rewrite skipn_length]; rlia. Qed.
Lemma FT_len T w : (forall z, ok n z -> ok n (T z)) -> length w = (n + n)%nat -> length (FT T w) = (n + n)%nat.
Proof. intros HT Hw. unfold FT, flat. rewrite app_length. destruct (HT _ (unflat_ok w Hw)) as [-> ->]. reflexivity. Qed.
Lemma FT_lo T w i : (forall z, ok n z -> ok n (T z)) -> length w = (n + n)%nat -> (i < n)%nat -> nth i (FT T w) 0 = nth i (fst (T (unflat n w))) 0.
Proof. intros HT Hw Hi. unfold FT, flat. rewrite app_nth1; auto. destruct (HT _ (unflat_ok w Hw)) as [-> _]. auto. Qed.
Lemma FT_hi T w i : (forall z, ok n z -> ok n (T z)) -> length w = (n + n)%nat -> (n <= i)%nat -> nth i (FT T w) 0 = nth (i - n) (snd (T (unflat n w))) 0.
Proof. intros HT Hw Hi. unfold FT, flat. rewrite app_nth2; destruct (HT _ (unflat_ok w Hw)) as [E _]; rewrite E; auto. Qed.

Lemma nth_lo (w : list R) i : (i < n)%nat -> nth i (fst (unflat n w)) 0 = nth i w 0.
Proof. intros. cbn. now apply nth_firstn. Qed.
Lemma nth_hi (w : list R) i : nth i (snd (unflat n w)) 0 = nth (n + i) w 0.
Proof. cbn. apply nth_skipn. Qed.

Lemma act_coords o w i : length w = (n + n)%nat -> (i < n + n)%nat ->
  nth i (FT (act m f d o) w) 0 =
  match o with
  | Drift a => if (i <? n)%nat then nth i w 0 + a * (nth (n + i) w 0 * cs m i) else nth i w 0
  | Kick b => if (i <? n)%nat then nth i w 0 else nth i w 0 + b * nth (i - n) (lp_grad f (firstn n w) d) 0
  end.
Proof.
  intros Hw Hi. pose proof (unflat_ok w Hw) as Hok.
  assert (HT : forall z, ok n z -> ok n (act m f d o z)) by (intros; now apply act_ok).
  destruct (Nat.ltb_spec i n) as [Hlt|Hge].
  - rewrite FT_lo by auto. destruct o as [b|a]; cbn [act].
    + cbn [kick fst]. now apply nth_lo.
    + rewrite driftR with (n := n) by auto. rewrite nth_lo, nth_hi by auto. reflexivity.
  - rewrite FT_hi by auto. destruct o as [b|a]; cbn [act].
    + rewrite kickR with (n := n) by (auto; lia). rewrite nth_hi. replace (n + (i - n))%nat with i by lia. reflexivity.
    + cbn [drift snd]. rewrite nth_hi. f_equal. lia.
Qed.

Lemma act_jac o w : length w = (n + n)%nat -> exists J, is_jac (n + n) (n + n) (FT (act m f d o)) w J.
Proof.
  intros Hw.
  assert (HF : is_jac (n + n) n (fun w => firstn n w) w mid).
  { intros i Hi. apply (is_dif_ext (n + n) (fun w => nth i w 0)); auto.
    - intros y Hy. symmetry. now apply nth_firstn.
    - apply is_dif_proj. lia. }
  assert (HL : forall y : list R, length y = (n + n)%nat -> length (firstn n y) = n) by (intros; rewrite firstn_length; lia).
  exists (fun i j => match o with
    | Drift a => if (i <? n)%nat then mid i j + (a * cs m i) * mid (n + i) j else mid i j
    | Kick b => if (i <? n)%nat then mid i j else mid i j + b * mmul n (Hess (firstn n w)) mid (i - n) j end).
  intros i Hi. eapply is_dif_ext; [exact Hw|intros y Hy; symmetry; now apply act_coords|].
  destruct o as [b|a]; destruct (Nat.ltb_spec i n) as [Hlt|Hge].
  - now apply is_dif_proj.
  - apply is_dif_plus; [now apply is_dif_proj|]. apply is_dif_scal.
    apply (is_jac_chain (n + n) n n (fun w => firstn n w) (fun q => lp_grad f q d) w mid (Hess (firstn n w)) HF HL).
    + apply HH. auto.
    + lia.
  - eapply is_dif_ext; [exact Hw| |apply is_dif_plus; [apply (is_dif_proj (n + n) i); lia|apply (is_dif_scal (n+n) (a * cs m i) (fun y => nth (n + i) y 0)); apply is_dif_proj; lia]].
    intros y Hy. cbv beta. ring.
  - now apply is_dif_proj.
Qed.

Lemma act_det o w J : length w = (n + n)%nat -> is_jac (n + n) (n + n) (FT (act m f d o)) w J -> mdet (n + n) J = 1.
Proof.
  intros Hw HJ.
  assert (P1 : forall (S : nat -> bool), Rprod (n + n) (fun i => if S i then 1 else 1) = 1).
  { intros S. generalize (n + n)%nat as k. induction k; cbn [Rprod]; [reflexivity|]. rewrite IHk. destruct (S k); ring. }
  rewrite (shear_det (n + n) _ w J (match o with Drift _ => fun i => (n <=? i)%nat | Kick _ => fun i => (i <? n)%nat end) (fun _ => 1) Hw HJ).
  - apply P1.
  - intros i y Hi Hy Si. rewrite act_coords by auto. destruct o; rewrite ?Si; auto.
    destruct (Nat.ltb_spec i n); auto. apply Nat.leb_le in Si. lia.
  - intros i j t Hi Hj Hij Si Sj. rewrite !act_coords by (rewrite ?set_nth_length; auto). destruct o.
    + rewrite Si. rewrite nth_set_nth_neq by auto. f_equal. f_equal. f_equal. f_equal.
      apply Nat.ltb_ge in Sj. apply (list_eq_nth 0). { rewrite !firstn_length, set_nth_length. auto. }
      intros k Hk. rewrite firstn_length, set_nth_length in Hk. rewrite !nth_firstn by lia. apply nth_set_nth_neq. lia.
    + apply Nat.leb_gt in Si. apply Nat.leb_gt in Sj. destruct (Nat.ltb_spec i n); [|lia].
      rewrite !nth_set_nth_neq by lia. reflexivity.
  - intros i Hi Si.
    apply (is_derive_ext (fun t : R => t + (nth i (FT (act m f d o) w) 0 - nth i w 0))).
    + intros t. rewrite !act_coords by (rewrite ?set_nth_length; auto).
      change (AbsRing.sort R_AbsRing) with R in * . assert (E : nth i (set_nth i t w) 0 = t) by (apply (nth_set_nth_eq (A := R)); rewrite Hw; auto). change (AbsRing.sort R_AbsRing) with R in E. rewrite !E.
      destruct o.
      * rewrite Si. apply Nat.ltb_ge in Si.
        replace (firstn n (set_nth i t w)) with (firstn n w).
        { match goal with |- ?a = ?b => change (@eq R a b) end. ring. }
        apply (list_eq_nth 0). { rewrite !firstn_length, set_nth_length. auto. }
        intros k Hk. rewrite firstn_length in Hk. rewrite !nth_firstn by lia. symmetry. apply nth_set_nth_neq. lia.
      * apply Nat.leb_gt in Si. destruct (Nat.ltb_spec i n); [|lia]. rewrite nth_set_nth_neq by lia. match goal with |- ?a = ?b => change (@eq R a b) end. ring.
    + auto_derive; auto.
Qed.

Lemma run_jac l w : length w = (n + n)%nat -> exists J, is_jac (n + n) (n + n) (FT (run m f d l)) w J /\ mdet (n + n) J = 1.
Proof.
  revert w. induction l as [|o l IH]; intros w Hw.
  - exists mid. split; [|apply mdet_id]. apply (is_jac_ext _ _ (fun y => y)); auto; [|apply is_jac_id].
    intros y Hy. unfold FT, flat, unflat, run. cbn. symmetry. apply firstn_skipn.
  - destruct (act_jac o w Hw) as [J1 H1]. pose proof (act_det o w J1 Hw H1) as D1.
    assert (HT : forall z, ok n z -> ok n (act m f d o z)) by (intros; now apply act_ok).
    assert (Lw : length (FT (act m f d o) w) = (n + n)%nat) by now apply FT_len.
    destruct (IH _ Lw) as (J2 & H2 & D2).
    exists (mmul (n + n) J2 J1). split.
    + eapply is_jac_ext; [exact Hw| |exact (is_jac_chain _ _ _ _ _ _ _ _ H1 (fun y Hy => FT_len _ y HT Hy) H2)].
      intros y Hy. unfold FT at 1. unfold FT at 1. rewrite unflat_flat by apply HT, unflat_ok, Hy. reflexivity.
    + rewrite mdet_mul, D1, D2. ring.
Qed.

Lemma C20_volume_proof h w : length w = (n + n)%nat ->
  exists J, is_jac (n + n) (n + n) (fun w => flat (leapfrog h m f d (unflat n w))) w J /\ mdet (n + n) J = 1.
Proof.
  intros Hw. destruct (run_jac (ops (h_step h) (h_leap h)) w Hw) as (J & H & D). exists J. split; auto.
  eapply is_jac_ext; [exact Hw| |exact H]. intros y Hy. unfold FT. f_equal. symmetry.
  apply leapfrog_ops with (n := n); auto using unflat_ok.
Qed.
End Volume.
