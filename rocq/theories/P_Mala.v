(** Proofs of C74: MALA with a matrix as step size. *)
From Coq Require Import Reals Psatz Classical ClassicalEpsilon.
From Coquelicot Require Import Coquelicot.
From Verif Require Import Prelude Num M_Core M_Kernels M_Flow M_Net M_Mala P_Lists P_Kernels RNum MxR Spec_Kernels Spec_Real P_Real1 P_Real2 Spec_Net Spec_TreeR P_Gauss P_Gauss2 Spec_Mala.
Open Scope R_scope.

(* ------------------------------------------------------------------ matrices *)
Lemma sq_bool n (m : list (list R)) : Spec_Net.square n m -> @M_Kernels.square RNum m n = true.
Proof.
  intros [L H]. unfold M_Kernels.square. apply andb_true_intro. split; [apply Nat.eqb_eq; exact L|].
  apply forallb_forall. intros r Hr. apply Nat.eqb_eq. exact (H r Hr).
Qed.
Lemma sq_row n (m : list (list R)) i : Spec_Net.square n m -> (i < n)%nat -> length (nth i m []) = n.
Proof. intros [L H] Hi. apply H, nth_In. rewrite L. exact Hi. Qed.
Lemma mat_sq_ent n (m : list (list R)) i j : Spec_Net.square n m -> (i < n)%nat -> (j < n)%nat -> ent (@mat_sq RNum m) i j = ent m i j * ent m i j.
Proof.
  intros Hs Hi Hj. pose proof (sq_row n m i Hs Hi) as Lr. destruct Hs as [L H]. unfold ent, mat_sq.
  assert (Hm : (i < length m)%nat) by (rewrite L; exact Hi).
  pose proof (nth_map' (fun row : list R => @vmul RNum row row) m i [] [] Hm) as E. rnorm. rewrite E.
  apply vmulR; rewrite Lr; exact Hj.
Qed.
Lemma mat_sq_square n (m : list (list R)) : Spec_Net.square n m -> Spec_Net.square n (@mat_sq RNum m).
Proof.
  intros [L H]. split; [unfold mat_sq; rnorm; now rewrite map_length|]. intros r Hr. unfold mat_sq in Hr. apply in_map_iff in Hr.
  destruct Hr as (q & <- & Hq). rewrite vmul_lenR. rewrite (H q Hq). apply Nat.min_id.
Qed.
Lemma mat_dot_len n (m : list (list R)) (v : list R) : Spec_Net.square n m -> @length R (@mat_dot RNum m v) = n.
Proof. intros [L H]. unfold mat_dot. rnorm. now rewrite map_length. Qed.
Lemma mat_dot_R n (m : list (list R)) (v : list R) i : Spec_Net.square n m -> length v = n -> (i < n)%nat ->
  @nth R i (@mat_dot RNum m v) 0 = Rsum n (fun j => ent m i j * nth j v 0).
Proof.
  intros Hs Hv Hi. pose proof (sq_row n m i Hs Hi) as Lr. destruct Hs as [L H].
  assert (Hm : (i < length m)%nat) by (rewrite L; exact Hi).
  etransitivity; [exact (nth_map' (fun row => @vdot RNum row v) m i [] 0 Hm)|]. exact (P_Gauss.vdot_R _ _ n Lr Hv).
Qed.
Lemma mean_len n (m : list (list R)) (x g : list R) : Spec_Net.square n m -> length x = n -> @length R (@mat_mala_mean RNum m x g) = n.
Proof.
  intros Hs Hx. unfold mat_mala_mean. pose proof (mat_dot_len n _ g (mat_sq_square n m Hs)) as L. rlen. rewrite L, Hx. apply Nat.min_id.
Qed.
Lemma mean_R n (m : list (list R)) (x g : list R) i : Spec_Net.square n m -> length x = n -> length g = n -> (i < n)%nat ->
  @nth R i (@mat_mala_mean RNum m x g) 0 = nth i x 0 + Rsum n (fun j => ent m i j ^ 2 * nth j g 0) / 2.
Proof.
  intros Hs Hx Hg Hi. pose proof (mat_sq_square n m Hs) as Hq. pose proof (mat_dot_len n _ g Hq) as L. unfold mat_mala_mean.
  rewrite vaddR; [|rewrite Hx; exact Hi|rlen; rewrite L; exact Hi]. apply (f_equal2 Rplus); [reflexivity|].
  assert (Hi' : (i < @length R (@mat_dot RNum (@mat_sq RNum m) g))%nat) by (rewrite L; exact Hi).
  etransitivity; [exact (nth_map' (fun y : R => y / 2) (@mat_dot RNum (@mat_sq RNum m) g) i 0 0 Hi')|].
  apply (f_equal2 Rdiv); [|reflexivity]. etransitivity; [exact (mat_dot_R n _ g i Hq Hg Hi)|].
  apply Rsum_ext. intros j Hj. rewrite (mat_sq_ent n) by auto. ring.
Qed.
Lemma propose_len n (m : list (list R)) (x g z : list R) : Spec_Net.square n m -> length x = n -> @length R (@mat_mala_propose RNum m x g z) = n.
Proof.
  intros Hs Hx. unfold mat_mala_propose. pose proof (mean_len n m x g Hs Hx) as L1. pose proof (mat_dot_len n m z Hs) as L2.
  rewrite vadd_lenR. rewrite L1, L2. apply Nat.min_id.
Qed.
Lemma propose_R n (m : list (list R)) (x g z : list R) i : Spec_Net.square n m -> length x = n -> length g = n -> length z = n -> (i < n)%nat ->
  @nth R i (@mat_mala_propose RNum m x g z) 0 =
  nth i x 0 + Rsum n (fun j => ent m i j ^ 2 * nth j g 0) / 2 + Rsum n (fun j => ent m i j * nth j z 0).
Proof.
  intros Hs Hx Hg Hz Hi. unfold mat_mala_propose. pose proof (mean_len n m x g Hs Hx) as L1. pose proof (mat_dot_len n m z Hs) as L2.
  rewrite vaddR; [|rewrite L1; exact Hi|rewrite L2; exact Hi]. rewrite (mean_R n) by auto. rewrite (mat_dot_R n) by auto. reflexivity.
Qed.
Lemma mat_wrong_shape (N : Num) (G : Rng) chol dt k f d (x : list F) lp :
  M_Kernels.square dt (length x) = false -> mat_mala_kernel chol dt k x lp f d = Raise TypeError.
Proof. intros H. unfold mat_mala_kernel. now rewrite H. Qed.

Section Calls.
Context {G : @Rng RNum}.
Variable chol : list (list R) -> list (list R).
Lemma mat_metropolis n dt k f d (x z : list R) : Spec_Net.square n dt -> length x = n ->
  let y := @mat_mala_propose RNum dt x (lp_grad f x d) z in
  metropolis (@mat_mala_run G chol dt k f d x z) x y (lp_val f x d) (lp_val f y d) (@mat_mala_ratio RNum chol dt f d x y).
Proof.
  intros Hs Hx y u. unfold mat_mala_run, mat_mala_kernel. rnorm. rewrite Hx. rewrite (sq_bool n dt Hs). cbn [normal uniform with_draws].
  fold y. unfold mh_accept. cbn [uniform with_draws].
  change (fln u <.? mat_mala_ratio chol dt f d x y) with (Rltb (ln u) (@mat_mala_ratio RNum chol dt f d x y)).
  destruct (Rltb _ _); reflexivity.
Qed.
Lemma mat_outcome dt k f d (x z : list R) n : Spec_Net.square n dt -> length x = n -> length z = n -> @grad_shape RNum f d n ->
  exists (y : list R) r, length y = n /\
  (forall i, (i < n)%nat -> nth i y 0 = nth i x 0 + Rsum n (fun j => ent dt i j ^ 2 * nth j (lp_grad f x d) 0) / 2 + Rsum n (fun j => ent dt i j * nth j z 0)) /\
  proposes (@mat_mala_run G chol dt k f d x z) y /\ accept_prob (@mat_mala_run G chol dt k f d x z) (Rmin 1 (exp r)) /\
  forall u, @mat_mala_run G chol dt k f d x z u = Ok (y, lp_val f y d, true) \/ @mat_mala_run G chol dt k f d x z u = Ok (x, lp_val f x d, false).
Proof.
  intros Hs Hx Hz Hg. pose proof (mat_metropolis n dt k f d x z Hs Hx) as M. cbv zeta in M. pose proof (Hg x Hx) as Lg.
  exists (@mat_mala_propose RNum dt x (lp_grad f x d) z), (@mat_mala_ratio RNum chol dt f d x (@mat_mala_propose RNum dt x (lp_grad f x d) z)). split; [exact (propose_len n dt x _ z Hs Hx)|]. split; [intros i Hi; exact (propose_R n dt x _ z i Hs Hx Lg Hz Hi)|].
  split; [apply (metropolis_proposes _ _ _ _ _ _ _ M); reflexivity|]. split; [exact (metropolis_accept _ _ _ _ _ _ M)|].
  intros u. rewrite (M u). destruct (Rltb _ _); auto.
Qed.
Lemma mat_apply n (m : list (list R)) (e : nat -> nat -> R) (v : list R) i : (forall i j, (i < n)%nat -> (j < n)%nat -> mmul n (ent m) e i j = mid i j) -> (i < n)%nat -> length v = n ->
  Rsum n (fun j => ent m i j * Rsum n (fun q => e j q * nth q v 0)) = nth i v 0.
Proof.
  intros He Hi Hv. 
  rewrite (Rsum_ext n _ (fun j => Rsum n (fun q => ent m i j * e j q * nth q v 0))) by (intros j Hj; rewrite <- Rsum_scal; apply Rsum_ext; intros; ring).
  rewrite Rsum_swap. rewrite (Rsum_ext n _ (fun q => mid i q * nth q v 0)).
  - rewrite (Rsum_single n (fun q => mid i q * nth q v 0) i Hi); [unfold mid; rewrite Nat.eqb_refl; ring|].
    intros q Hq Hne. unfold mid. destruct (Nat.eqb_spec i q); [congruence|ring].
  - intros q Hq. rewrite <- (He i q Hi Hq). unfold mmul. rewrite Rmult_comm, <- Rsum_scal. apply Rsum_ext. intros; ring.
Qed.

Lemma mat_inj n (m : list (list R)) (z z' : list R) : invertible n m -> length z = n -> length z' = n ->
  (forall i, (i < n)%nat -> Rsum n (fun j => ent m i j * nth j z 0) = Rsum n (fun j => ent m i j * nth j z' 0)) -> z = z'.
Proof.
  intros [e He] Hz Hz' H. apply (list_eq_nth (0 : R)); [congruence|]. rewrite Hz. intros q Hq.
  pose proof (@mat_inv_comm n (ent m) e He) as Hc.
  assert (K : forall v : list R, length v = n -> Rsum n (fun i => e q i * Rsum n (fun j => ent m i j * nth j v 0)) = nth q v 0).
  { intros v Hv. rewrite (Rsum_ext n _ (fun i => Rsum n (fun j => e q i * ent m i j * nth j v 0))) by (intros i Hi; rewrite <- Rsum_scal; apply Rsum_ext; intros; ring).
    rewrite Rsum_swap. rewrite (Rsum_ext n _ (fun j => mid q j * nth j v 0)).
    - rewrite (Rsum_single n (fun j => mid q j * nth j v 0) q Hq); [unfold mid; rewrite Nat.eqb_refl; ring|].
      intros j Hj Hne. unfold mid. destruct (Nat.eqb_spec q j); [congruence|ring].
    - intros j Hj. rewrite <- (Hc q j Hq Hj). unfold mmul. rewrite (Rmult_comm _ (nth j v 0)), <- Rsum_scal. apply Rsum_ext. intros; ring. }
  rewrite <- (K z Hz), <- (K z' Hz'). apply Rsum_ext. intros i Hi. now rewrite H.
Qed.
Lemma mat_all_pairs n dt k f d (x y : list R) : Spec_Net.square n dt -> invertible n dt ->
  length x = n -> length y = n -> @grad_shape RNum f d n ->
  exists z, length z = n /\ proposes (@mat_mala_run G chol dt k f d x z) y /\
    forall z', length z' = n -> proposes (@mat_mala_run G chol dt k f d x z') y -> z' = z.
Proof.
  intros Hs Hi Hx Hy Hg. pose proof (Hg x Hx) as Lg. pose proof Hi as [e He].
  pose proof (mean_len n dt x (lp_grad f x d) Hs Hx) as Lm. 
  set (v := @vsub RNum y (@mat_mala_mean RNum dt x (lp_grad f x d))).
  assert (Lv : @length R v = n) by (unfold v; rewrite vsub_lenR, Lm, Hy; apply Nat.min_id).
  set (z := map (fun j => Rsum n (fun q => e j q * @nth R q v 0)) (seq 0 n)).
  assert (Lz : length z = n) by (unfold z; now rewrite map_length, seq_length).
  assert (Ez : forall j, (j < n)%nat -> nth j z 0 = Rsum n (fun q => e j q * @nth R q v 0)) by (intros j Hj; exact (nth_map_seq (fun j => Rsum n (fun q => e j q * @nth R q v 0)) n j 0 Hj)).
  assert (P : forall z', length z' = n -> (proposes (@mat_mala_run G chol dt k f d x z') y <-> y = @mat_mala_propose RNum dt x (lp_grad f x d) z')) by (intros z' Hz'; exact (metropolis_proposes _ _ _ _ _ _ _ (mat_metropolis n dt k f d x z' Hs Hx))).
  assert (Ey : y = @mat_mala_propose RNum dt x (lp_grad f x d) z).
  { apply (list_eq_nth (0 : R)); [rewrite Hy; symmetry; exact (propose_len n dt x _ z Hs Hx)|]. rewrite Hy. intros i Hi'.
    rewrite (propose_R n dt x _ z i Hs Hx Lg Lz Hi').
    rewrite (Rsum_ext n (fun j => ent dt i j * nth j z 0) (fun j => ent dt i j * Rsum n (fun q => e j q * @nth R q v 0))) by (intros j Hj; now rewrite Ez).
    rewrite (mat_apply n dt e v i He Hi' Lv). unfold v. rewrite vsubR; [|rewrite Hy; exact Hi'|rewrite Lm; exact Hi'].
    rewrite (mean_R n) by auto. ring. }
  exists z. split; [exact Lz|]. split; [now apply P|]. intros z' Lz' H. apply P in H; auto.
  apply (mat_inj n dt); auto. intros i Hi'. 
  assert (Q : @nth R i (@mat_mala_propose RNum dt x (lp_grad f x d) z') 0 = @nth R i (@mat_mala_propose RNum dt x (lp_grad f x d) z) 0) by (rewrite <- H, <- Ey; reflexivity).
  rewrite (propose_R n dt x _ z i Hs Hx Lg Lz Hi') in Q. rewrite (propose_R n dt x _ z' i Hs Hx Lg Lz' Hi') in Q. lra.
Qed.

(* ------------------------------------------------------------------ the covariance *)
Lemma covariance_iff n dt :
  (forall i j, (i < n)%nat -> (j < n)%nat -> ent dt i j ^ 2 = noise_cov n dt i j) <-> is_diagonal n dt.
Proof.
  split.
  - intros H i j Hi Hj Hne. pose proof (H i i Hi Hi) as E. unfold noise_cov in E.
    assert (Q : Rsum n (fun k => (if (k =? i)%nat then 0 else ent dt i k ^ 2)) = 0).
    { rewrite (Rsum_ext n _ (fun k => ent dt i k * ent dt i k - (if (k =? i)%nat then ent dt i i ^ 2 else 0))) by (intros k Hk; destruct (Nat.eqb_spec k i) as [->|]; ring).
      rewrite Rsum_minus. rewrite (Rsum_single n (fun k => if (k =? i)%nat then ent dt i i ^ 2 else 0) i Hi); [rewrite Nat.eqb_refl; lra|].
      intros k Hk Hk'. destruct (Nat.eqb_spec k i); [contradiction|reflexivity]. }
    assert (B : (if (j =? i)%nat then 0 else ent dt i j ^ 2) <= 0).
    { eapply Rle_trans; [|right; exact Q]. apply (P_Jac.Rsum_term n (fun k => if (k =? i)%nat then 0 else ent dt i k ^ 2) j); auto.
      intros k Hk. destruct (k =? i)%nat; [lra|apply pow2_ge_0]. }
    destruct (Nat.eqb_spec j i); [congruence|]. pose proof (pow2_ge_0 (ent dt i j)). apply Rsqr_eq_0. unfold Rsqr. nra.
  - intros H i j Hi Hj. unfold noise_cov. rewrite (Rsum_single n (fun k => ent dt i k * ent dt j k) i Hi).
    + destruct (Nat.eq_dec i j) as [<-|Hne]; [ring|]. rewrite (H i j), (H j i) by auto. ring.
    + intros k Hk Hne. rewrite (H i k) by auto. ring.
Qed.

(* ------------------------------------------------------------------ detailed balance *)
Let T (dt : list (list R)) (v : list R) : list R := @forward_subst RNum (chol (@mat_sq RNum dt)) v [].
Lemma ratio_R n dt f d (x y : list R) : Spec_Net.square n dt -> cholesky_shape n (chol (@mat_sq RNum dt)) -> length x = n -> length y = n ->
  @mat_mala_ratio RNum chol dt f d x y = lp_val f y d - lp_val f x d
   + / 2 * Rsum n (fun i => @nth R i (T dt (@vsub RNum y (@mat_mala_mean RNum dt x (lp_grad f x d)))) 0 ^ 2)
   - / 2 * Rsum n (fun i => @nth R i (T dt (@vsub RNum x (@mat_mala_mean RNum dt y (lp_grad f y d)))) 0 ^ 2).
Proof.
  intros Hs Hl Hx Hy. unfold mat_mala_ratio.
  pose proof (logp_R n _ Hl _ (mean_len n dt x (lp_grad f x d) Hs Hx) y Hy) as E1.
  pose proof (logp_R n _ Hl _ (mean_len n dt y (lp_grad f y d) Hs Hy) x Hx) as E2. unfold T.
  cbn [F RNum] in * . rewrite E1, E2. cbn [fadd fsub RNum]. 
  match goal with |- @eq _ ?a ?b => change (@eq R a b) end. ring.
Qed.

(** Both gradients are c and y = x + delta: with L a = delta, L b = C c / 2 the two squared norms are |a - b|^2 and |a + b|^2. *)
Lemma ratio_linear n dt f d (x y c delta : list R) : chol_law chol -> Spec_Net.square n dt -> squares_factor n dt ->
  length x = n -> length c = n -> length delta = n -> y = @vadd RNum x delta -> lp_grad f x d = c -> lp_grad f y d = c ->
  @mat_mala_ratio RNum chol dt f d x y = lp_val f y d - lp_val f x d - Rsum n (fun i => nth i c 0 * nth i delta 0).
Proof.
  intros Hch Hs (l0 & Hl0 & F0) Hx Hc Hd Ey Gx Gy.
  destruct (Hch n (@mat_sq RNum dt) (mat_sq_square n dt Hs)) as [Hl Hf].
  { exists l0. split; auto. intros i j Hi Hj. rewrite (mat_sq_ent n) by auto. rewrite <- F0 by auto. ring. }
  set (l := chol (@mat_sq RNum dt)) in * .
  assert (Fl : forall i j, (i < n)%nat -> (j < n)%nat -> ent dt i j ^ 2 = Rsum n (fun k => ent l i k * ent l j k)).
  { intros i j Hi Hj. rewrite <- (Hf i j Hi Hj). rewrite (mat_sq_ent n) by auto. ring. }
  assert (Ly : length y = n). { rewrite Ey, vadd_lenR, Hx, Hd. apply Nat.min_id. }
  assert (Ny : forall i, (i < n)%nat -> nth i y 0 = nth i x 0 + nth i delta 0) by (intros i Hi; rewrite Ey; apply vaddR; [rewrite Hx|rewrite Hd]; exact Hi).
  set (a := @forward_subst RNum l delta []). assert (La : @length R a = n) by (apply fs_len; auto).
  set (b := map (fun k => Rsum n (fun j => ent l j k * nth j c 0) / 2) (seq 0 n)).
  assert (Lb : length b = n) by (unfold b; now rewrite map_length, seq_length).
  assert (Nb : forall k, (k < n)%nat -> nth k b 0 = Rsum n (fun j => ent l j k * nth j c 0) / 2) by (intros k Hk; exact (nth_map_seq (fun k => Rsum n (fun j => ent l j k * nth j c 0) / 2) n k 0 Hk)).
  assert (Sa : forall i, (i < n)%nat -> Rsum n (fun j => ent l i j * @nth R j a 0) = nth i delta 0) by (intros; now apply fs_solves).
  assert (Sb : forall i, (i < n)%nat -> Rsum n (fun j => ent l i j * nth j b 0) = Rsum n (fun j => ent dt i j ^ 2 * nth j c 0) / 2).
  { intros i Hi. rewrite (Rsum_ext n _ (fun k => / 2 * Rsum n (fun j => ent l i k * ent l j k * nth j c 0))).
    - rewrite Rsum_scal, Rsum_swap. unfold Rdiv. rewrite Rmult_comm. f_equal. apply Rsum_ext. intros j Hj. rewrite (Fl i j Hi Hj).
      rewrite (Rmult_comm _ (nth j c 0)), <- Rsum_scal. apply Rsum_ext. intros; ring.
    - intros k Hk. rewrite (Nb k Hk). replace (ent l i k * (Rsum n (fun j => ent l j k * nth j c 0) / 2)) with (/ 2 * (ent l i k * Rsum n (fun j => ent l j k * nth j c 0))) by field.
      f_equal. rewrite <- Rsum_scal. apply Rsum_ext. intros; ring. }
  assert (K : forall (s : R) (v : list R), length v = n -> (forall i, (i < n)%nat -> nth i v 0 = s * nth i delta 0 - Rsum n (fun j => ent dt i j ^ 2 * nth j c 0) / 2) ->
    forall i, (i < n)%nat -> @nth R i (@forward_subst RNum l v []) 0 = s * @nth R i a 0 - nth i b 0).
  { intros s v Lv Hv. set (t := map (fun i => s * @nth R i a 0 - nth i b 0) (seq 0 n)).
    assert (Lt : length t = n) by (unfold t; now rewrite map_length, seq_length).
    assert (Nt : forall k, (k < n)%nat -> nth k t 0 = s * @nth R k a 0 - nth k b 0) by (intros k Hk; exact (nth_map_seq (fun i => s * @nth R i a 0 - nth i b 0) n k 0 Hk)).
    assert (E : @forward_subst RNum l v [] = t).
    { apply (tri_inj n l Hl v); auto; [apply fs_len; auto|]. intros i Hi. rewrite fs_solves by auto. rewrite Hv by auto. rewrite <- (Sa i Hi), <- (Sb i Hi).
      rewrite <- Rsum_scal, <- Rsum_minus. apply Rsum_ext. intros j Hj. rewrite (Nt j Hj). ring. }
    intros i Hi. rewrite E. now apply Nt. }
  rewrite (ratio_R n dt f d x y Hs Hl Hx Ly). unfold T. fold l.
  pose proof (mean_len n dt x (lp_grad f x d) Hs Hx) as M1. pose proof (mean_len n dt y (lp_grad f y d) Hs Ly) as M2.
  rewrite (Rsum_ext n _ (fun i => (1 * @nth R i a 0 - nth i b 0) ^ 2)).
  2:{ intros i Hi. f_equal. apply K; auto; [rewrite vsub_lenR, M1, Ly; apply Nat.min_id|]. intros j Hj. rewrite vsubR; [|rewrite Ly; exact Hj|rewrite M1; exact Hj].
      rewrite (mean_R n) by (auto; now rewrite Gx). rewrite Ny, Gx by auto. ring. }
  rewrite (Rsum_ext n (fun i => @nth R i (forward_subst l (vsub x (mat_mala_mean dt y (lp_grad f y d))) []) 0 ^ 2) (fun i => (-1 * @nth R i a 0 - nth i b 0) ^ 2)).
  2:{ intros i Hi. f_equal. apply K; auto; [rewrite vsub_lenR, M2, Hx; apply Nat.min_id|]. intros j Hj. rewrite vsubR; [|rewrite Hx; exact Hj|rewrite M2; exact Hj].
      rewrite (mean_R n) by (auto; now rewrite Gy). rewrite Ny, Gy by auto. ring. }
  assert (E : Rsum n (fun i => nth i c 0 * nth i delta 0) = 2 * Rsum n (fun i => @nth R i a 0 * nth i b 0)).
  { rewrite (Rsum_ext n _ (fun i => Rsum n (fun k => nth i c 0 * (ent l i k * @nth R k a 0)))) by (intros i Hi; rewrite <- (Sa i Hi), <- Rsum_scal; reflexivity).
    rewrite Rsum_swap, <- Rsum_scal. apply Rsum_ext. intros k Hk. rewrite (Nb k Hk).
    replace (2 * (@nth R k a 0 * (Rsum n (fun j => ent l j k * nth j c 0) / 2))) with (@nth R k a 0 * Rsum n (fun j => ent l j k * nth j c 0)) by field.
    rewrite <- Rsum_scal. apply Rsum_ext. intros; ring. }
  rewrite E. assert (D : Rsum n (fun i => (1 * @nth R i a 0 - nth i b 0) ^ 2) - Rsum n (fun i => (-1 * @nth R i a 0 - nth i b 0) ^ 2) = -4 * Rsum n (fun i => @nth R i a 0 * nth i b 0)).
  { rewrite <- Rsum_minus, <- Rsum_scal. apply Rsum_ext. intros; ring. }
  lra.
Qed.
Lemma ln_std n (z : list R) : ln (std_density n z) = - / 2 * Rsum n (fun i => nth i z 0 ^ 2) - INR n / 2 * ln (2 * PI).
Proof.
  rewrite std_density_gauss, ln_gauss by (intros; lra).
  rewrite (Rsum_ext n _ (fun i => - / 2 * nth i z 0 ^ 2 - ln (2 * PI) / 2)).
  - rewrite Rsum_minus, Rsum_scal, Rsum_const. field.
  - intros i Hi. rewrite Rabs_R1, ln_1. field.
Qed.
Lemma std_pos n z : 0 < std_density n z.
Proof. rewrite std_density_gauss. apply gauss_density_pos. intros. lra. Qed.
Lemma inv_det n m : invertible n m -> mdet n (ent m) <> 0.
Proof.
  intros [e He] E. pose proof (@mdet_mul n (ent m) e) as Q. rewrite (@mdet_ext n _ mid He), mdet_id, E in Q. lra.
Qed.
Lemma mat_refuted n dt : chol_law chol ->
  Spec_Net.square n dt -> invertible n dt -> squares_factor n dt -> ~ is_diagonal n dt ->
  exists c delta : list R, length c = n /\ length delta = n /\
  forall k f d (x y z z' : list R) a b q q', length x = n -> length z = n -> length z' = n ->
  y = @vadd RNum x delta -> lp_grad f x d = c -> lp_grad f y d = c ->
  lp_val f y d = lp_val f x d + Rsum n (fun i => nth i c 0 * nth i delta 0) ->
  proposes (@mat_mala_run G chol dt k f d x z) y -> proposes (@mat_mala_run G chol dt k f d y z') x ->
  accept_prob (@mat_mala_run G chol dt k f d x z) a -> accept_prob (@mat_mala_run G chol dt k f d y z') b ->
  noise_density n dt z q -> noise_density n dt z' q' ->
  a = 1 /\ b = 1 /\ exp (lp_val f x d) * q * a <> exp (lp_val f y d) * q' * b.
Proof.
  intros Hch Hs Hinv Hsf Hnd. pose proof Hinv as [E HE].
  assert (exists i0 j0, (i0 < n)%nat /\ (j0 < n)%nat /\ i0 <> j0 /\ ent dt i0 j0 <> 0) as (i0 & j0 & Hi0 & Hj0 & Hne & Hd).
  { apply NNPP. intros N. apply Hnd. intros i j Hi Hj Hij. apply NNPP. intros Z. apply N. exists i, j. auto. }
  set (c := map (fun i => mid i0 i) (seq 0 n)). assert (Lc : length c = n) by (unfold c; now rewrite map_length, seq_length).
  assert (Nc : forall i, (i < n)%nat -> nth i c 0 = mid i0 i) by (intros i Hi; exact (nth_map_seq (fun i => mid i0 i) n i 0 Hi)).
  assert (Cc : forall g : nat -> R, Rsum n (fun j => g j * nth j c 0) = g i0).
  { intros g. rewrite (Rsum_single n (fun j => g j * nth j c 0) i0 Hi0); [rewrite Nc by auto; unfold mid; rewrite Nat.eqb_refl; ring|].
    intros j Hj Hj'. rewrite Nc by auto. unfold mid. destruct (Nat.eqb_spec i0 j); [congruence|ring]. }
  set (h := map (fun i => ent dt i i0 ^ 2) (seq 0 n)). assert (Lh : length h = n) by (unfold h; now rewrite map_length, seq_length).
  assert (Nh : forall i, (i < n)%nat -> nth i h 0 = ent dt i i0 ^ 2) by (intros i Hi; exact (nth_map_seq (fun i => ent dt i i0 ^ 2) n i 0 Hi)).
  set (w := fun j => Rsum n (fun q => E j q * nth q h 0)).
  assert (Dw : forall i, (i < n)%nat -> Rsum n (fun j => ent dt i j * w j) = ent dt i i0 ^ 2) by (intros i Hi; unfold w; rewrite (mat_apply n dt E h i HE Hi Lh); now apply Nh).
  set (e := fun j => ent dt i0 j - w j).
  set (delta := map (fun i => Rsum n (fun j => ent dt i j * e j)) (seq 0 n)). assert (Ld : length delta = n) by (unfold delta; now rewrite map_length, seq_length).
  assert (Nd : forall i, (i < n)%nat -> nth i delta 0 = Rsum n (fun j => ent dt i j * e j)) by (intros i Hi; exact (nth_map_seq (fun i => Rsum n (fun j => ent dt i j * e j)) n i 0 Hi)).
  exists c, delta. split; auto. split; auto.
  intros k f d x y z z' a b q q' Hx Hz Hz' Ey Gx Gy Ev P1 P2 A1 A2 Q1 Q2.
  assert (Ly : length y = n). { rewrite Ey, vadd_lenR, Hx, Ld. apply Nat.min_id. }
  assert (Ny : forall i, (i < n)%nat -> nth i y 0 = nth i x 0 + nth i delta 0) by (intros i Hi; rewrite Ey; apply vaddR; [rewrite Hx|rewrite Ld]; exact Hi).
  pose proof (mat_metropolis n dt k f d x z Hs Hx) as M1. cbv zeta in M1.
  pose proof (mat_metropolis n dt k f d y z' Hs Ly) as M2. cbv zeta in M2.
  pose proof (proj1 (metropolis_proposes _ _ _ _ _ _ _ M1) P1) as Y1. pose proof (proj1 (metropolis_proposes _ _ _ _ _ _ _ M2) P2) as X1.
  rewrite <- Y1 in M1. rewrite <- X1 in M2.
  assert (Cd : Rsum n (fun i => nth i c 0 * nth i delta 0) = Rsum n (fun j => ent dt i0 j * e j)).
  { rewrite (Rsum_ext n _ (fun j => nth j delta 0 * nth j c 0)) by (intros; ring). rewrite (Cc (fun j => nth j delta 0)). now apply Nd. }
  pose proof (ratio_linear n dt f d x y c delta Hch Hs Hsf Hx Lc Ld Ey Gx Gy) as R1. rewrite Ev in R1.
  assert (R2 : @mat_mala_ratio RNum chol dt f d y x = 0).
  { assert (Lm : length (map Ropp delta) = n) by (now rewrite map_length).
    rewrite (ratio_linear n dt f d y x c (map Ropp delta) Hch Hs Hsf Ly Lc Lm); auto.
    - rewrite Ev. rewrite (Rsum_ext n (fun i => nth i c 0 * nth i (map Ropp delta) 0) (fun i => -1 * (nth i c 0 * nth i delta 0))).
      + rewrite Rsum_scal. match goal with |- @eq _ ?a ?b => change (@eq R a b) end. ring.
      + intros i Hi. rewrite mapR by (rewrite Ld; exact Hi). ring.
    - apply (list_eq_nth (0 : R)); [rewrite vadd_lenR, Ly, Lm, Hx; symmetry; apply Nat.min_id|]. rewrite Hx. intros i Hi.
      rewrite vaddR; [|rewrite Ly; exact Hi|rewrite Lm; exact Hi]. rewrite mapR by (rewrite Ld; exact Hi). rewrite Ny by auto. ring. }
  assert (R1' : @mat_mala_ratio RNum chol dt f d x y = 0) by (rewrite R1; match goal with |- @eq _ ?a ?b => change (@eq R a b) end; ring).
  assert (Ea : a = 1). { rewrite (accept_unique _ _ _ A1 (metropolis_accept _ _ _ _ _ _ M1)), R1', exp_0. apply Rmin_left. lra. }
  assert (Eb : b = 1). { rewrite (accept_unique _ _ _ A2 (metropolis_accept _ _ _ _ _ _ M2)), R2, exp_0. apply Rmin_left. lra. }
  split; auto. split; auto. rewrite Ea, Eb, !Rmult_1_r. intros B.
  (* noise vectors *)
  assert (Z1 : forall i, (i < n)%nat -> nth i delta 0 = ent dt i i0 ^ 2 / 2 + Rsum n (fun j => ent dt i j * nth j z 0)).
  { intros i Hi. pose proof (Ny i Hi) as E1. rewrite Y1 in E1 at 1. rewrite (propose_R n dt x _ z i Hs Hx) in E1; auto; [|now rewrite Gx].
    rewrite Gx, (Cc (fun j => ent dt i j ^ 2)) in E1. lra. }
  assert (Z2 : forall i, (i < n)%nat -> - nth i delta 0 = ent dt i i0 ^ 2 / 2 + Rsum n (fun j => ent dt i j * nth j z' 0)).
  { intros i Hi. pose proof (Ny i Hi) as E1. assert (E2 : nth i x 0 = @nth R i (@mat_mala_propose RNum dt y (lp_grad f y d) z') 0) by (rewrite <- X1; reflexivity).
    rewrite (propose_R n dt y _ z' i Hs Ly) in E2; auto; [|now rewrite Gy]. rewrite Gy, (Cc (fun j => ent dt i j ^ 2)) in E2. lra. }
  assert (Ez : forall v : list R, length v = n -> forall g : nat -> R, (forall i, (i < n)%nat -> Rsum n (fun j => ent dt i j * nth j v 0) = Rsum n (fun j => ent dt i j * g j)) -> forall j, (j < n)%nat -> nth j v 0 = g j).
  { intros v Lv g H. set (t := map g (seq 0 n)). assert (Lt : length t = n) by (unfold t; now rewrite map_length, seq_length).
    assert (Nt : forall j, (j < n)%nat -> nth j t 0 = g j) by (intros j Hj; exact (nth_map_seq g n j 0 Hj)).
    assert (Evt : v = t). { apply (mat_inj n dt); auto. intros i Hi. rewrite (H i Hi). apply Rsum_ext. intros j Hj. now rewrite Nt. }
    intros j Hj. rewrite Evt. now apply Nt. }
  assert (N1 : forall j, (j < n)%nat -> nth j z 0 = e j - w j / 2).
  { apply (Ez z Hz (fun j => e j - w j / 2)). intros i Hi. pose proof (Z1 i Hi) as A. rewrite (Nd i Hi), <- (Dw i Hi) in A.
    rewrite (Rsum_ext n (fun j => ent dt i j * (e j - w j / 2)) (fun j => ent dt i j * e j - / 2 * (ent dt i j * w j))) by (intros; field).
    rewrite Rsum_minus, Rsum_scal. lra. }
  assert (N2 : forall j, (j < n)%nat -> nth j z' 0 = - e j - w j / 2).
  { apply (Ez z' Hz' (fun j => - e j - w j / 2)). intros i Hi. pose proof (Z2 i Hi) as A. rewrite (Nd i Hi), <- (Dw i Hi) in A.
    rewrite (Rsum_ext n (fun j => ent dt i j * (- e j - w j / 2)) (fun j => -1 * (ent dt i j * e j) - / 2 * (ent dt i j * w j))) by (intros; field).
    rewrite Rsum_minus, !Rsum_scal. lra. }
  (* logarithms *)
  pose proof (inv_det n dt Hinv) as Hdet. pose proof (Rabs_pos_lt _ Hdet) as Pd. set (D := Rabs (mdet n (ent dt))) in * .
  unfold noise_density in Q1, Q2. fold D in Q1, Q2. pose proof (std_pos n z) as S1. pose proof (std_pos n z') as S2.
  assert (B' : exp (lp_val f x d) * std_density n z = exp (lp_val f y d) * std_density n z').
  { rewrite <- Q1, <- Q2. rewrite <- !Rmult_assoc. now rewrite B. }
  apply (f_equal ln) in B'. rewrite !ln_mult, !ln_exp, !ln_std in B' by (auto; apply exp_pos).
  rewrite Ev, Cd in B'.
  assert (W : Rsum n (fun i => nth i z' 0 ^ 2) - Rsum n (fun i => nth i z 0 ^ 2) = 2 * Rsum n (fun i => e i * w i)).
  { rewrite <- Rsum_minus, <- Rsum_scal. apply Rsum_ext. intros j Hj. rewrite (N1 j Hj), (N2 j Hj). field. }
  assert (Z : Rsum n (fun j => e j * e j) = 0).
  { rewrite (Rsum_ext n _ (fun j => ent dt i0 j * e j - e j * w j)) by (intros j Hj; unfold e; ring). rewrite Rsum_minus. lra. }
  assert (Ze : forall j, (j < n)%nat -> e j = 0).
  { intros j Hj. assert (Le : e j * e j <= Rsum n (fun j => e j * e j)) by (apply (P_Jac.Rsum_term n (fun j => e j * e j) j); auto; intros; nra). nra. }
  assert (S0 : Rsum n (fun j => ent dt i0 j * ent dt i0 j) = ent dt i0 i0 ^ 2).
  { rewrite <- (Dw i0 Hi0). apply Rsum_ext. intros j Hj. pose proof (Ze j Hj) as Q. unfold e in Q. replace (w j) with (ent dt i0 j) by lra. reflexivity. }
  assert (X : Rsum n (fun j => if (j =? i0)%nat then 0 else ent dt i0 j ^ 2) = 0).
  { rewrite (Rsum_ext n _ (fun j => ent dt i0 j * ent dt i0 j - (if (j =? i0)%nat then ent dt i0 i0 ^ 2 else 0))) by (intros j Hj; destruct (Nat.eqb_spec j i0) as [->|]; ring).
    rewrite Rsum_minus, S0. rewrite (Rsum_single n (fun j => if (j =? i0)%nat then ent dt i0 i0 ^ 2 else 0) i0 Hi0); [rewrite Nat.eqb_refl; ring|].
    intros j Hj Hj'. destruct (Nat.eqb_spec j i0); [contradiction|reflexivity]. }
  assert (Y : (if (j0 =? i0)%nat then 0 else ent dt i0 j0 ^ 2) <= 0).
  { eapply Rle_trans; [|right; exact X]. apply (P_Jac.Rsum_term n (fun j => if (j =? i0)%nat then 0 else ent dt i0 j ^ 2) j0); auto.
    intros j Hj. destruct (j =? i0)%nat; [lra|apply pow2_ge_0]. }
  destruct (Nat.eqb_spec j0 i0); [congruence|]. assert (0 < ent dt i0 j0 ^ 2) by (apply pow2_gt_0; exact Hd). lra.
Qed.
End Calls.

(* ------------------------------------------------------------------ diagonal matrices *)
Lemma diag_ent v i j : (i < length v)%nat -> (j < length v)%nat -> ent (diagonal_matrix v) i j = if (i =? j)%nat then nth i v 0 else 0.
Proof.
  intros Hi Hj. unfold ent, diagonal_matrix. rewrite (nth_map_seq (fun i => map (fun j => if (i =? j)%nat then nth i v 0 else 0) (seq 0 (length v))) _ i [] Hi).
  exact (nth_map_seq (fun j => if (i =? j)%nat then nth i v 0 else 0) _ j 0 Hj).
Qed.
Lemma diag_square v : Spec_Net.square (length v) (diagonal_matrix v).
Proof.
  unfold diagonal_matrix. split; [now rewrite map_length, seq_length|]. intros r Hr. apply in_map_iff in Hr. destruct Hr as (i & <- & _). now rewrite map_length, seq_length.
Qed.
Lemma diag_sum n (v : list R) (g : nat -> R -> R) (t : nat -> R) i : length v = n -> (i < n)%nat -> (forall a, g i 0 * a = 0) ->
  Rsum n (fun j => g i (ent (diagonal_matrix v) i j) * t j) = g i (nth i v 0) * t i.
Proof.
  intros Hv Hi H0. rewrite (Rsum_single n (fun j => g i (ent (diagonal_matrix v) i j) * t j) i Hi).
  - rewrite diag_ent by (rewrite Hv; exact Hi). now rewrite Nat.eqb_refl.
  - intros j Hj Hne. rewrite diag_ent by (rewrite Hv; auto). destruct (Nat.eqb_spec i j); [congruence|]. apply H0.
Qed.
(** The Cholesky factor of a diagonal matrix is the diagonal of square roots. *)
Lemma chol_diag n (v : list R) (l M : list (list R)) : cholesky_shape n l -> factor_of n l M -> (forall i, (i < n)%nat -> nth i v 0 <> 0) ->
  (forall i j, (i < n)%nat -> (j < n)%nat -> ent M i j = if (i =? j)%nat then nth i v 0 * nth i v 0 else 0) ->
  forall i j, (i < n)%nat -> (j < n)%nat -> ent l i j = if (i =? j)%nat then Rabs (nth i v 0) else 0.
Proof.
  intros (_ & Hu & Hp) Hf Hv HM.
  assert (K : forall j, (j < n)%nat -> ent l j j = Rabs (nth j v 0) /\ forall i, (j < i < n)%nat -> ent l i j = 0).
  { induction j as [j IH] using (well_founded_induction lt_wf). intros Hj.
    assert (E : forall i, (j <= i < n)%nat -> (if (i =? j)%nat then nth i v 0 * nth i v 0 else 0) = ent l i j * ent l j j).
    { intros i Hi. pose proof (Hf i j ltac:(lia) Hj) as Q. rewrite HM in Q by lia. rewrite Q.
      apply (Rsum_single n (fun k => ent l i k * ent l j k) j Hj). intros k Hk Hne. destruct (Nat.lt_ge_cases j k) as [Hlt|Hge].
      - rewrite (Hu j k) by lia. ring.
      - destruct (IH k ltac:(lia) Hk) as [_ Z]. rewrite (Z j) by lia. ring. }
    pose proof (Hp j Hj) as Pj. split.
    - pose proof (E j ltac:(lia)) as Ej. rewrite Nat.eqb_refl in Ej. rewrite <- sqrt_Rsqr_abs. unfold Rsqr. rewrite Ej. symmetry. apply sqrt_square. lra.
    - intros i Hi. pose proof (E i ltac:(lia)) as Ei. destruct (Nat.eqb_spec i j); [lia|].
      symmetry in Ei. apply Rmult_integral in Ei. destruct Ei; lra. }
  intros i j Hi Hj. destruct (Nat.eqb_spec i j) as [->|Hne]; [exact (proj1 (K j Hj))|].
  destruct (Nat.lt_ge_cases i j); [apply Hu; lia|]. apply (proj2 (K j Hj)). lia.
Qed.
Lemma logp_diag n (v : list R) (l : list (list R)) (mean x : list R) : cholesky_shape n l -> (forall i, (i < n)%nat -> nth i v 0 <> 0) ->
  (forall i j, (i < n)%nat -> (j < n)%nat -> ent l i j = if (i =? j)%nat then Rabs (nth i v 0) else 0) -> length mean = n -> length x = n ->
  @gaussian_logp RNum mean l x = ln (gauss_density n (fun i => nth i mean 0) (fun i => nth i v 0) x).
Proof.
  intros Hl Hv He Hm Hx. rewrite (logp_R n l Hl mean Hm x Hx), ln_gauss by auto.
  assert (Ls : @length R (@vsub RNum x mean) = n) by (rewrite vsub_lenR, Hx, Hm; apply Nat.min_id).
  rewrite (Rsum_ext n (fun i => @nth R i (@forward_subst RNum l (@vsub RNum x mean) []) 0 ^ 2) (fun i => ((nth i x 0 - nth i mean 0) / nth i v 0) ^ 2)).
  2:{ intros i Hi. rewrite (fs_nth n l Hl _ i Ls Hi). rewrite (Rsum_0 i) by (intros j Hj; rewrite He by lia; destruct (Nat.eqb_spec i j); [lia|ring]). rewrite He, Nat.eqb_refl by auto.
      rewrite vsubR; [|rewrite Hx; exact Hi|rewrite Hm; exact Hi]. pose proof (Rabs_no_R0 _ (Hv i Hi)) as Ha.
      assert (E : Rabs (nth i v 0) ^ 2 = nth i v 0 ^ 2) by (rewrite pow2_abs; reflexivity).
      replace (((nth i x 0 - nth i mean 0 - 0) / Rabs (nth i v 0)) ^ 2) with ((nth i x 0 - nth i mean 0) ^ 2 / Rabs (nth i v 0) ^ 2) by (field; auto).
      rewrite E. field. auto. }
  rewrite (Rsum_ext n (fun i => ln (ent l i i)) (fun i => ln (Rabs (nth i v 0)))) by (intros i Hi; rewrite He by auto; now rewrite Nat.eqb_refl).
  rewrite !Rsum_minus, Rsum_const, <- Rsum_scal.
  rewrite (Rsum_ext n (fun i => - / 2 * ((nth i x 0 - nth i mean 0) / nth i v 0) ^ 2) (fun i => - (nth i x 0 - nth i mean 0) ^ 2 / (2 * nth i v 0 ^ 2))) by (intros i Hi; field; auto).
  match goal with |- @eq _ ?a ?b => change (@eq R a b) end. field.
Qed.
Lemma mat_diagonal (G : @Rng RNum) chol : chol_law chol -> forall v k f d (x z : list R) u,
  length v = length x -> length z = length x -> @grad_shape RNum f d (length x) -> (forall i, (i < length x)%nat -> nth i v 0 <> 0) ->
  @mat_mala_run G chol (diagonal_matrix v) k f d x z u = @mala_run G (SDiag v) k f d x z u.
Proof.
  intros Hch v k f d x z u Hv Hz Hg Hnz. remember (length x) as n eqn:Hx. symmetry in Hx.
  assert (Hs : Spec_Net.square n (diagonal_matrix v)) by (rewrite <- Hv; apply diag_square).
  assert (Hok : @mala_ok_step RNum (SDiag v) n) by exact Hv.
  assert (Cm : forall i j, (i < n)%nat -> (j < n)%nat -> ent (@mat_sq RNum (diagonal_matrix v)) i j = if (i =? j)%nat then nth i v 0 * nth i v 0 else 0).
  { intros i j Hi Hj. rewrite (mat_sq_ent n) by auto. rewrite diag_ent by (rewrite Hv; auto). destruct (i =? j)%nat; ring. }
  destruct (Hch n (@mat_sq RNum (diagonal_matrix v)) (mat_sq_square n _ Hs)) as [Hl Hf].
  { exists (diagonal_matrix (map Rabs v)).
    assert (La : length (map Rabs v) = n) by (now rewrite map_length).
    assert (Na : forall i, (i < n)%nat -> nth i (map Rabs v) 0 = Rabs (nth i v 0)) by (intros i Hi; apply mapR; rewrite Hv; exact Hi).
    assert (De : forall i j, (i < n)%nat -> (j < n)%nat -> ent (diagonal_matrix (map Rabs v)) i j = if (i =? j)%nat then Rabs (nth i v 0) else 0).
    { intros i j Hi Hj. rewrite diag_ent by (rewrite La; auto). now rewrite Na. }
    split; [split; [rewrite <- La; apply diag_square|split]|].
    - intros i j Hij. rewrite De by lia. destruct (Nat.eqb_spec i j); [lia|reflexivity].
    - intros i Hi. rewrite De, Nat.eqb_refl by auto. now apply Rabs_pos_lt, Hnz.
    - intros i j Hi Hj. rewrite (Cm i j Hi Hj). rewrite (Rsum_single n (fun k => ent (diagonal_matrix (map Rabs v)) i k * ent (diagonal_matrix (map Rabs v)) j k) i Hi).
      + rewrite (De i i), (De j i), Nat.eqb_refl, (Nat.eqb_sym j i) by auto. destruct (Nat.eqb_spec i j) as [<-|]; [|ring].
        rewrite <- Rabs_mult. symmetry. apply Rabs_pos_eq. nra.
      + intros q Hq Hne. rewrite (De i q) by auto. destruct (Nat.eqb_spec i q); [congruence|ring]. }
  pose proof (chol_diag n v _ _ Hl Hf Hnz Cm) as Dl.
  assert (Hok' : @mala_ok_step RNum (SDiag v) (length x)) by (rewrite Hx; exact Hok).
  assert (Hz' : length z = length x) by (now rewrite Hx).
  assert (Hg' : @grad_shape RNum f d (length x)) by (rewrite Hx; exact Hg).
  destruct (mala_metropolis (G := G) (SDiag v) k f d x z Hok' Hz' Hg') as (y & r & M & Er & Ly & Sy). rewrite Hx in Ly, Sy.
  pose proof (mat_metropolis chol n (diagonal_matrix v) k f d x z Hs Hx) as M'. cbv zeta in M'.
  assert (Ey : y = @mat_mala_propose RNum (diagonal_matrix v) x (lp_grad f x d) z).
  { apply (list_eq_nth (0 : R)); [rewrite Ly; symmetry; exact (propose_len n _ x _ z Hs Hx)|]. rewrite Ly. intros i Hi.
    pose proof (diag_sum n v (fun _ e => e ^ 2) (fun j => @nth R j (lp_grad f x d) 0) i Hv Hi ltac:(intros; cbv beta; ring)) as D1.
    pose proof (diag_sum n v (fun _ e => e) (fun j => nth j z 0) i Hv Hi ltac:(intros; cbv beta; ring)) as D2. cbv beta in D1, D2.
    etransitivity; [exact (Sy i Hi)|]. etransitivity; [|symmetry; exact (propose_R n _ x _ z i Hs Hx (Hg x Hx) Hz Hi)]. cbn [step_of].
    etransitivity; [|symmetry; exact (f_equal2 Rplus (f_equal2 Rplus eq_refl (f_equal2 Rdiv D1 eq_refl)) D2)].
    change (@f0 RNum) with 0. match goal with |- @eq _ ?a ?b => change (@eq R a b) end. rnorm. field. }
  rewrite <- Ey in M'. rewrite (M u), (M' u).
  enough (E : @mat_mala_ratio RNum chol (diagonal_matrix v) f d x y = r) by (now rewrite E).
  assert (Q : forall a b : list R, length a = n -> length b = n -> forall t, mvn_logpdf b (mala_mean (SDiag v) a (lp_grad f a d)) (ss_sq (SDiag v)) = Ok t ->
    @gaussian_logp RNum (@mat_mala_mean RNum (diagonal_matrix v) a (lp_grad f a d)) (chol (@mat_sq RNum (diagonal_matrix v))) b = t).
  { intros a b Ha Hb t Ht. assert (Hoka : @mala_ok_step RNum (SDiag v) (length a)) by (rewrite Ha; exact Hok).
    assert (Lga : length (lp_grad f a d) = length a) by (rewrite (Hg a Ha); now rewrite Ha).
    destruct (mala_mean_spec (SDiag v) a (lp_grad f a d) Hoka Lga) as [L S]. rnorm. rewrite Ha in L, S.
    pose proof (mvn_is_gauss (SDiag v) b (mala_mean (SDiag v) a (lp_grad f a d)) n Hok Hb L Hnz) as Eg. rnorm. rewrite Eg in Ht. injection Ht as <-.
    rewrite (logp_diag n v _ _ b Hl Hnz Dl (mean_len n _ a _ Hs Ha) Hb). f_equal. unfold gauss_density. apply Rprod_ext. intros i Hi. f_equal.
    etransitivity; [exact (mean_R n _ a _ i Hs Ha (Hg a Ha) Hi)|]. etransitivity; [|symmetry; exact (S i Hi)].
    pose proof (diag_sum n v (fun _ e => e ^ 2) (fun j => @nth R j (lp_grad f a d) 0) i Hv Hi ltac:(intros; cbv beta; ring)) as D1. cbv beta in D1.
    etransitivity; [exact (f_equal2 Rplus eq_refl (f_equal2 Rdiv D1 eq_refl))|]. cbn [step_of].
    change (@fadd RNum) with Rplus. change (@fmul RNum) with Rmult. change (@fdiv RNum) with Rdiv. change (@f2 RNum) with 2. change (@f0 RNum) with 0.
    match goal with |- @eq _ ?a ?b => change (@eq R a b) end. rnorm. field. }
  unfold mala_ratio in Er.
  destruct (mvn_logpdf y (mala_mean (SDiag v) x (lp_grad f x d)) (ss_sq (SDiag v))) as [ta|] eqn:Ea; [|discriminate Er].
  cbn [rbind] in Er.
  destruct (mvn_logpdf x (mala_mean (SDiag v) y (lp_grad f y d)) (ss_sq (SDiag v))) as [tb|] eqn:Eb; [|discriminate Er].
  cbn [rbind] in Er. injection Er as <-. unfold mat_mala_ratio.
  pose proof (Q x y Hx Ly ta Ea) as Q1. pose proof (Q y x Ly Hx tb Eb) as Q2. cbn [F RNum] in Q1, Q2. cbn [F RNum]. rewrite Q1, Q2. reflexivity.
Qed.
(** The acceptance probability, in terms of the quadratic forms of the squared-entries matrix. *)
Lemma mat_acceptance (G : @Rng RNum) chol : chol_law chol -> forall n dt k f d (x y z u w : list R),
  Spec_Net.square n dt -> squares_factor n dt -> @grad_shape RNum f d n ->
  length x = n -> length z = n -> length u = n -> length w = n -> proposes (@mat_mala_run G chol dt k f d x z) y ->
  let mu (p : list R) i := nth i p 0 + Rsum n (fun j => ent dt i j ^ 2 * nth j (lp_grad f p d) 0) / 2 in
  (forall i, (i < n)%nat -> Rsum n (fun j => ent dt i j ^ 2 * nth j u 0) = nth i y 0 - mu x i) ->
  (forall i, (i < n)%nat -> Rsum n (fun j => ent dt i j ^ 2 * nth j w 0) = nth i x 0 - mu y i) ->
  accept_prob (@mat_mala_run G chol dt k f d x z)
   (Rmin 1 (exp (lp_val f y d - lp_val f x d + / 2 * Rsum n (fun i => (nth i y 0 - mu x i) * nth i u 0)
                                             - / 2 * Rsum n (fun i => (nth i x 0 - mu y i) * nth i w 0)))).
Proof.
  intros Hch n dt k f d x y z u w Hs (l0 & Hl0 & F0) Hg Hx Hz Hu Hw Hp mu H1 H2.
  destruct (Hch n (@mat_sq RNum dt) (mat_sq_square n dt Hs)) as [Hl Hf].
  { exists l0. split; auto. intros i j Hi Hj. rewrite (mat_sq_ent n) by auto. rewrite <- F0 by auto. ring. }
  pose proof (mat_metropolis (G := G) chol n dt k f d x z Hs Hx) as M. cbv zeta in M.
  pose proof (proj1 (metropolis_proposes _ _ _ _ _ _ _ M) Hp) as Ey. rewrite <- Ey in M.
  assert (Ly : length y = n) by (rewrite Ey; exact (propose_len n dt x _ z Hs Hx)).
  assert (Q : forall a b v : list R, length a = n -> length b = n -> length v = n -> (forall i, (i < n)%nat -> Rsum n (fun j => ent dt i j ^ 2 * nth j v 0) = nth i b 0 - mu a i) ->
    @gaussian_logp RNum (@mat_mala_mean RNum dt a (lp_grad f a d)) (chol (@mat_sq RNum dt)) b =
    - / 2 * Rsum n (fun i => (nth i b 0 - mu a i) * nth i v 0) - INR n / 2 * ln (2 * PI) - / 2 * ln (mdet n (ent (@mat_sq RNum dt)))).
  { intros a b v Ha Hb Hv H. pose proof (mean_len n dt a (lp_grad f a d) Hs Ha) as Lm.
    assert (Nm : forall i, (i < n)%nat -> @nth R i (@mat_mala_mean RNum dt a (lp_grad f a d)) 0 = mu a i) by (intros i Hi; exact (mean_R n dt a _ i Hs Ha (Hg a Ha) Hi)).
    destruct (textbook_proof n _ (@mat_sq RNum dt) _ Hl Hf Lm b v Hb Hv) as [_ E].
    - intros i Hi. rewrite Nm by auto. rewrite <- H by auto. apply Rsum_ext. intros j Hj. rewrite (mat_sq_ent n) by auto. ring.
    - etransitivity; [exact E|]. apply (f_equal2 Rminus); [apply (f_equal2 Rminus)|]; try reflexivity. apply (f_equal2 Rmult); [reflexivity|].
      apply Rsum_ext. intros i Hi. now rewrite Nm. }
  enough (E : @mat_mala_ratio RNum chol dt f d x y = lp_val f y d - lp_val f x d + / 2 * Rsum n (fun i => (nth i y 0 - mu x i) * nth i u 0) - / 2 * Rsum n (fun i => (nth i x 0 - mu y i) * nth i w 0)).
  { rewrite <- E. exact (metropolis_accept _ _ _ _ _ _ M). }
  unfold mat_mala_ratio. pose proof (Q x y u Hx Ly Hu H1) as E1. pose proof (Q y x w Ly Hx Hw H2) as E2. cbn [F RNum] in * .
  rewrite E1, E2. cbn [fadd fsub RNum]. match goal with |- @eq _ ?a ?b => change (@eq R a b) end. ring.
Qed.
(** A log-linear target on which detailed balance fails. *)
Definition linear_target (n : nat) (c : list R) : @lpdf RNum :=
  @mkLpdf RNum (fun x _ => Rsum n (fun i => nth i c 0 * @nth R i x 0)) (fun _ _ => c).
Lemma mat_balance_fails (G : @Rng RNum) chol n dt k : chol_law chol ->
  Spec_Net.square n dt -> invertible n dt -> squares_factor n dt -> ~ is_diagonal n dt ->
  exists (c : list R), length c = n /\ forall (x : list R) d, length x = n -> exists (y z z' : list R) q q',
  let f := linear_target n c in
  proposes (@mat_mala_run G chol dt k f d x z) y /\ proposes (@mat_mala_run G chol dt k f d y z') x /\
  accept_prob (@mat_mala_run G chol dt k f d x z) 1 /\ accept_prob (@mat_mala_run G chol dt k f d y z') 1 /\
  noise_density n dt z q /\ noise_density n dt z' q' /\
  exp (lp_val f x d) * q * 1 <> exp (lp_val f y d) * q' * 1.
Proof.
  intros Hch Hs Hi Hf Hd. destruct (mat_refuted (G := G) chol n dt Hch Hs Hi Hf Hd) as (c & delta & Lc & Ld & K). exists c. split; auto. intros x d Hx.
  set (f := linear_target n c). set (y := @vadd RNum x delta). assert (Ly : @length R y = n) by (unfold y; rewrite vadd_lenR, Hx, Ld; apply Nat.min_id).
  assert (Hg : @grad_shape RNum f d n) by (intros u Hu; exact Lc).
  destruct (mat_all_pairs (G := G) chol n dt k f d x y Hs Hi Hx Ly Hg) as (z & Lz & P1 & _).
  destruct (mat_all_pairs (G := G) chol n dt k f d y x Hs Hi Ly Hx Hg) as (z' & Lz' & P2 & _).
  destruct (mat_outcome (G := G) chol dt k f d x z n Hs Hx Lz Hg) as (_ & r1 & _ & _ & _ & A1 & _).
  destruct (mat_outcome (G := G) chol dt k f d y z' n Hs Ly Lz' Hg) as (_ & r2 & _ & _ & _ & A2 & _).
  pose proof (Rabs_no_R0 _ (inv_det n dt Hi)) as Hdet.
  assert (D : forall v, noise_density n dt v (std_density n v / Rabs (mdet n (ent dt)))) by (intros v; unfold noise_density; field; exact Hdet).
  exists y, z, z', (std_density n z / Rabs (mdet n (ent dt))), (std_density n z' / Rabs (mdet n (ent dt))). cbv zeta.
  assert (V : lp_val f y d = lp_val f x d + Rsum n (fun i => nth i c 0 * nth i delta 0)).
  { unfold f, linear_target. cbn [lp_val]. etransitivity; [|apply Rsum_plus]. apply Rsum_ext. intros i Hi'. unfold y. rewrite vaddR; [|rewrite Hx; exact Hi'|rewrite Ld; exact Hi']. ring. }
  destruct (K k f d x y z z' _ _ _ _ Hx Lz Lz' eq_refl eq_refl eq_refl V P1 P2 A1 A2 (D z) (D z')) as (E1 & E2 & B).
  rewrite E1 in A1, B. rewrite E2 in A2, B. repeat split; auto.
Qed.
