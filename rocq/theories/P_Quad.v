(** HMC and MALA on Gaussian targets. *)
From Coq Require Import Reals Psatz.
From Coquelicot Require Import Coquelicot.
From Verif Require Import Prelude Num M_Core M_Kernels P_Lists P_Kernels RNum Spec_Kernels Spec_Prog Spec_Real Spec_HMC
  P_Real1 P_Real2 P_Real3 P_Jac P_Leapfrog P_HMC P_Units1 Spec_Quad.
Open Scope R_scope.

Lemma nat_above x : exists K, x < INR K.
Proof.
  destruct (archimed x) as [A _]. destruct (Z_le_gt_dec 0 (up x)) as [P|P].
  - exists (Z.to_nat (up x)). rewrite INR_IZR_INZ, Z2Nat.id by exact P. lra.
  - exists 0%nat. assert (IZR (up x) < 0) by (apply IZR_lt; lia). cbn. lra.
Qed.
Section Quad.
Variables (n : nat) (lam mu : nat -> R) (f : @lpdf RNum) (d : @datad RNum) (m : list (list R)).
Hypothesis (Q : quadratic_target n lam mu f d) (SM : square_mat m n).
Lemma quad_shape : @grad_shape RNum f d n.
Proof. destruct Q as (c & H). intros x Hx. apply (H x Hx). Qed.
Notation c_ i := (inverse_mass n m i).
Lemma cs_mass i : cs m i = c_ i.
Proof. exact (csR m n i SM). Qed.

(** One velocity Verlet step, coordinate by coordinate: a linear map. *)
Lemma verlet_linear eps (z : list R * list R) i : ok n z -> (i < n)%nat -> let z' := vv m f d eps z in ok n z' /\
  nth i (fst z') 0 - mu i = (1 - eps ^ 2 * c_ i * lam i / 2) * (nth i (fst z) 0 - mu i) + eps * c_ i * nth i (snd z) 0 /\
  nth i (snd z') 0 = (1 - eps ^ 2 * c_ i * lam i / 2) * nth i (snd z) 0 - eps * lam i * (1 - eps ^ 2 * c_ i * lam i / 4) * (nth i (fst z) 0 - mu i).
Proof.
  intros O Hi z'. pose proof quad_shape as GS. destruct Q as (c0 & H).
  unfold z'. rewrite (vv_run m f d n GS eps z O). unfold run. cbn [fold_left act].
  set (z1 := kick f d (eps / 2) z). assert (O1 : ok n z1) by now apply kick_ok.
  set (z2 := drift m eps z1). assert (O2 : ok n z2) by now apply drift_ok.
  split; [now apply kick_ok|].
  assert (E1 : nth i (snd z1) 0 = nth i (snd z) 0 + eps / 2 * - (lam i * (nth i (fst z) 0 - mu i))).
  { unfold z1. rewrite (kickR f d n GS) by auto. f_equal. f_equal. now apply (H (fst z) (proj1 O)). }
  assert (E2 : nth i (fst z2) 0 = nth i (fst z) 0 + eps * (nth i (snd z1) 0 * c_ i)).
  { unfold z2. rewrite (driftR m n) by auto. rewrite cs_mass. reflexivity. }
  change (nth i (fst (kick f d (eps / 2) z2)) 0) with (nth i (fst z2) 0). split.
  - rewrite E2, E1. field.
  - rewrite (kickR f d n GS) by auto. change (snd z2) with (snd z1).
    replace (nth i (lp_grad f (fst z2) d) 0) with (- (lam i * (nth i (fst z2) 0 - mu i))) by (symmetry; now apply (H (fst z2) (proj1 O2))).
    rewrite E2, E1. field.
Qed.
(** The quadratic form it conserves. *)
Definition shadow eps (z : list R * list R) (i : nat) : R :=
  lam i * (1 - eps ^ 2 * c_ i * lam i / 4) * (nth i (fst z) 0 - mu i) ^ 2 + c_ i * nth i (snd z) 0 ^ 2.
Lemma shadow_iter eps k : forall z, ok n z -> ok n (iter k (vv m f d eps) z) /\
  forall i, (i < n)%nat -> shadow eps (iter k (vv m f d eps) z) i = shadow eps z i.
Proof.
  induction k as [|k IH]; intros z O; [split; auto|]. cbn [iter].
  assert (O1 : ok n (vv m f d eps z)). { rewrite (vv_run m f d n quad_shape eps z O). apply run_ok; [exact quad_shape|exact O]. }
  destruct (IH _ O1) as [O2 IH2]. split; [exact O2|]. intros i Hi. rewrite IH2 by auto. destruct (verlet_linear eps z i O Hi) as (_ & E1 & E2).
  unfold shadow. rewrite E1, E2. field.
Qed.
Lemma leapfrog_shadow (h : @hmc RNum) (q p : list R) : length q = n -> length p = n -> let z' := leapfrog h m f d (q, p) in
  ok n z' /\ forall i, (i < n)%nat -> shadow (h_step h) z' i = shadow (h_step h) (q, p) i.
Proof.
  intros Hq Hp z'. unfold z'. rewrite (C19_verlet_proof m f d n quad_shape (h_step h) h (q, p) eq_refl (conj Hq Hp)).
  apply shadow_iter. split; assumption.
Qed.
Lemma shadow_energy eps th (z : list R * list R) : 0 <= th -> (forall i, (i < n)%nat -> 0 <= lam i /\ 0 <= c_ i /\ eps ^ 2 * c_ i * lam i <= 4 * th) ->
  (1 - th) * quad_energy n lam mu m z <= / 2 * Rsum n (shadow eps z) <= quad_energy n lam mu m z.
Proof.
  intros T0 H. unfold quad_energy.
  replace (/ 2 * Rsum n (fun i => lam i * (nth i (fst z) 0 - mu i) ^ 2) + / 2 * Rsum n (fun j => c_ j * nth j (snd z) 0 ^ 2))
    with (/ 2 * Rsum n (fun i => lam i * (nth i (fst z) 0 - mu i) ^ 2 + c_ i * nth i (snd z) 0 ^ 2)) by (rewrite Rsum_plus; ring).
  split.
  - replace ((1 - th) * (/ 2 * Rsum n (fun i => lam i * (nth i (fst z) 0 - mu i) ^ 2 + c_ i * nth i (snd z) 0 ^ 2)))
      with (/ 2 * Rsum n (fun i => (1 - th) * (lam i * (nth i (fst z) 0 - mu i) ^ 2 + c_ i * nth i (snd z) 0 ^ 2))) by (rewrite Rsum_scal; ring).
    apply Rmult_le_compat_l; [lra|]. apply Rsum_le. intros i Hi. destruct (H i Hi) as (L & C & B). unfold shadow.
    pose proof (pow2_ge_0 (nth i (fst z) 0 - mu i)) as P1. pose proof (pow2_ge_0 (nth i (snd z) 0)) as P2.
    set (u := (nth i (fst z) 0 - mu i) ^ 2) in * . set (v := nth i (snd z) 0 ^ 2) in * . pose proof (Rmult_le_pos _ _ L P1). pose proof (Rmult_le_pos _ _ C P2).
    assert (lam i * (1 - eps ^ 2 * c_ i * lam i / 4) * u = (lam i * u) * (1 - eps ^ 2 * c_ i * lam i / 4)) by ring. nra.
  - apply Rmult_le_compat_l; [lra|]. apply Rsum_le. intros i Hi. destruct (H i Hi) as (L & C & B). unfold shadow.
    pose proof (pow2_ge_0 (nth i (fst z) 0 - mu i)) as P1. pose proof (pow2_ge_0 eps) as P3.
    set (u := (nth i (fst z) 0 - mu i) ^ 2) in * . pose proof (Rmult_le_pos _ _ (Rmult_le_pos _ _ (Rmult_le_pos _ _ (Rmult_le_pos _ _ P3 C) L) L) P1).
    nra.
Qed.
(** Energy along a trajectory of any length. *)
Lemma energy_bounded (h : @hmc RNum) th (q p : list R) : 0 <= th < 1 ->
  (forall i, (i < n)%nat -> 0 <= lam i /\ 0 <= c_ i /\ h_step h ^ 2 * c_ i * lam i <= 4 * th) -> length q = n -> length p = n ->
  let H := quad_energy n lam mu m in let z' := leapfrog h m f d (q, p) in (1 - th) * H (q, p) <= H z' /\ (1 - th) * H z' <= H (q, p).
Proof.
  intros T S Hq Hp H z'. destruct (leapfrog_shadow h q p Hq Hp) as [_ E]. fold z' in E.
  pose proof (shadow_energy (h_step h) th (q, p) (proj1 T) S) as B1. pose proof (shadow_energy (h_step h) th z' (proj1 T) S) as B2.
  rewrite (Rsum_ext n _ _ E) in B2. fold H in B1, B2. lra.
Qed.

(** Above the threshold: coordinate i of a trajectory leaves every bound. *)
Section Unstable.
Variables (eps : R) (i : nat).
Hypothesis (Hi : (i < n)%nat) (E0 : 0 < eps) (L0 : 0 < lam i) (C0 : 0 < c_ i) (Big : 4 < eps ^ 2 * c_ i * lam i).
Notation al := (sqrt (lam i * (eps ^ 2 * c_ i * lam i / 4 - 1) / c_ i)).
Definition rho : R := 1 - eps ^ 2 * c_ i * lam i / 2 - al * (eps * c_ i).
Lemma al_sq : al * al * c_ i = lam i * (eps ^ 2 * c_ i * lam i / 4 - 1).
Proof.
  rewrite sqrt_sqrt; [field; lra|]. apply Rmult_le_pos; [|left; now apply Rinv_0_lt_compat]. apply Rmult_le_pos; lra.
Qed.
Definition expand (z : list R * list R) : R := nth i (snd z) 0 - al * (nth i (fst z) 0 - mu i).
Lemma expand_step z : ok n z -> expand (vv m f d eps z) = rho * expand z.
Proof.
  intros O. destruct (verlet_linear eps z i O Hi) as (_ & E1 & E2). unfold expand. rewrite E1, E2. unfold rho.
  pose proof al_sq as A. set (a := al) in * . set (q := nth i (fst z) 0 - mu i). set (p := nth i (snd z) 0).
  assert (T : eps * lam i * (1 - eps ^ 2 * c_ i * lam i / 4) * q = - eps * (a * a * c_ i) * q) by (rewrite A; field).
  rewrite T. field.
Qed.
Lemma expand_iter k : forall z, ok n z -> ok n (iter k (vv m f d eps) z) /\ expand (iter k (vv m f d eps) z) = rho ^ k * expand z.
Proof.
  induction k as [|k IH]; intros z O; [split; [exact O|cbn; ring]|]. cbn [iter].
  assert (O1 : ok n (vv m f d eps z)). { rewrite (vv_run m f d n quad_shape eps z O). apply run_ok; [exact quad_shape|exact O]. }
  destruct (IH _ O1) as [O2 E]. split; [exact O2|]. rewrite E, (expand_step z O). cbn [pow]. ring.
Qed.
Lemma rho_big : 1 < rho ^ 2.
Proof.
  assert (A : 0 <= al) by apply sqrt_pos. assert (B : 0 <= al * (eps * c_ i)) by (repeat apply Rmult_le_pos; lra).
  assert (1 < - rho) by (unfold rho; lra). replace (rho ^ 2) with ((- rho) * (- rho)) by ring. nra.
Qed.
Lemma expand_energy z : (forall j, (j < n)%nat -> 0 <= lam j /\ 0 <= c_ j) ->
  expand z ^ 2 <= (4 / c_ i + 4 * (al * al) / lam i) * quad_energy n lam mu m z.
Proof.
  intros H. set (a := al). set (q := nth i (fst z) 0 - mu i). set (p := nth i (snd z) 0).
  assert (Eq : lam i * q ^ 2 <= 2 * quad_energy n lam mu m z /\ c_ i * p ^ 2 <= 2 * quad_energy n lam mu m z).
  { assert (A1 : forall j, (j < n)%nat -> 0 <= lam j * (nth j (fst z) 0 - mu j) ^ 2) by (intros j Hj; apply Rmult_le_pos; [apply H; auto|apply pow2_ge_0]).
    assert (A2 : forall j, (j < n)%nat -> 0 <= c_ j * nth j (snd z) 0 ^ 2) by (intros j Hj; apply Rmult_le_pos; [apply H; auto|apply pow2_ge_0]).
    pose proof (Rsum_term n _ i A1 Hi). pose proof (Rsum_term n _ i A2 Hi). pose proof (Rsum_nonneg n _ A1). pose proof (Rsum_nonneg n _ A2).
    unfold quad_energy. cbn beta in * . fold q p in H0, H1. lra. }
  destruct Eq as [Q1 Q2]. set (en := quad_energy n lam mu m z) in * .
  assert (P1 : p ^ 2 <= 2 / c_ i * en). { apply (Rmult_le_reg_l (c_ i)); [lra|]. replace (c_ i * (2 / c_ i * en)) with (2 * en) by (field; lra). exact Q2. }
  assert (P2 : q ^ 2 <= 2 / lam i * en). { apply (Rmult_le_reg_l (lam i)); [lra|]. replace (lam i * (2 / lam i * en)) with (2 * en) by (field; lra). exact Q1. }
  change (expand z) with (p - a * q). assert (A0 : 0 <= a * a) by nra.
  assert (P3 : a * a * q ^ 2 <= a * a * (2 / lam i * en)) by now apply Rmult_le_compat_l.
  replace ((4 / c_ i + 4 * (a * a) / lam i) * en) with (2 * (2 / c_ i * en) + 2 * (a * a * (2 / lam i * en))) by (field; lra).
  pose proof (pow2_ge_0 (p + a * q)). nra.
Qed.
Lemma energy_diverges (q p : list R) : (forall j, (j < n)%nat -> 0 <= lam j /\ 0 <= c_ j) -> length q = n -> length p = n ->
  nth i p 0 <> al * (nth i q 0 - mu i) -> forall B, exists K, forall k, (K <= k)%nat -> B < quad_energy n lam mu m (iter k (vv m f d eps) (q, p)).
Proof.
  intros H Hq Hp Off B. set (u0 := expand (q, p)). assert (U : 0 < u0 ^ 2). { apply pow2_gt_0. unfold u0, expand. cbn [fst snd]. lra. }
  set (M := 4 / c_ i + 4 * (al * al) / lam i).
  assert (M0 : 0 < M). { unfold M. assert (0 < 4 / c_ i) by (apply Rdiv_lt_0_compat; lra). assert (0 <= 4 * (al * al) / lam i).
    { apply Rmult_le_pos; [|left; now apply Rinv_0_lt_compat]. pose proof (sqrt_pos (lam i * (eps ^ 2 * c_ i * lam i / 4 - 1) / c_ i)). nra. } lra. }
  pose proof rho_big as RB. set (w := rho ^ 2 - 1). assert (W : 0 < w) by (unfold w; lra).
  destruct (nat_above (Rabs B * M / (u0 ^ 2 * w))) as (K & HK). exists K. intros k Hk. apply le_INR in Hk.
  destruct (expand_iter k (q, p) (conj Hq Hp)) as (_ & E). fold u0 in E.
  pose proof (expand_energy (iter k (vv m f d eps) (q, p)) H) as X. rewrite E in X. fold M in X. set (en := quad_energy n lam mu m _) in * .
  assert (G1 : 1 + INR k * w <= (rho ^ 2) ^ k). { replace (rho ^ 2) with (1 + w) by (unfold w; ring). now apply poly. }
  replace ((rho ^ k * u0) ^ 2) with ((rho ^ 2) ^ k * u0 ^ 2) in X by (rewrite <- pow_mult, Nat.mul_comm, pow_mult; ring).
  assert (G2 : Rabs B * M < INR k * (u0 ^ 2 * w)).
  { assert (Z : 0 < u0 ^ 2 * w) by now apply Rmult_lt_0_compat.
    apply (Rmult_lt_reg_r (/ (u0 ^ 2 * w))); [now apply Rinv_0_lt_compat|].
    replace (INR k * (u0 ^ 2 * w) * / (u0 ^ 2 * w)) with (INR k) by (field; split; nra). unfold Rdiv in HK. lra. }
  assert (G3 : Rabs B * M < M * en). { eapply Rlt_le_trans; [exact G2|]. eapply Rle_trans; [|exact X]. nra. }
  assert (Rabs B < en) by nra. pose proof (RRle_abs B). lra.
Qed.
End Unstable.
End Quad.
