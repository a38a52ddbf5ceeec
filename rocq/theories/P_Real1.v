(** Proofs of C15-C18: acceptance probabilities and detailed balance over the reals. *)
From Coq Require Import Reals Psatz.
From Coquelicot Require Import Coquelicot.
From Verif Require Import Prelude Num M_Core M_Kernels Spec_Steps Spec_Kernels P_Lists P_Kernels RNum Spec_Real.

Ltac rnorm := change (@F RNum) with R in * .
Ltac rlia := rnorm; lia.
(** Element-wise lemmas with all types spelled R. *)
Lemma mapR (f : R -> R) (l : list R) i : (i < length l)%nat -> nth i (map f l) 0 = f (nth i l 0).
Proof. intros. now apply (nth_map' f l i 0 0). Qed.
Lemma vaddR (u v : list R) i : (i < length u)%nat -> (i < length v)%nat -> @nth R i (vadd u v) 0 = nth i u 0 + nth i v 0.
Proof. exact (nth_vadd u v i). Qed.
Lemma vsubR (u v : list R) i : (i < length u)%nat -> (i < length v)%nat -> @nth R i (vsub u v) 0 = nth i u 0 - nth i v 0.
Proof. exact (nth_vsub u v i). Qed.
Lemma vmulR (u v : list R) i : (i < length u)%nat -> (i < length v)%nat -> @nth R i (vmul u v) 0 = nth i u 0 * nth i v 0.
Proof. exact (nth_vmul u v i). Qed.
Lemma vscaleR a (u : list R) i : (i < length u)%nat -> @nth R i (vscale a u) 0 = a * nth i u 0.
Proof. exact (nth_vscale a u i). Qed.
Lemma map2R (f : R -> R -> R) (u v : list R) i : (i < length u)%nat -> (i < length v)%nat -> nth i (map2 f u v) 0 = f (nth i u 0) (nth i v 0).
Proof. exact (nth_map2 f u v i 0 0 0). Qed.
Lemma vadd_lenR (u v : list R) : @length R (vadd u v) = Nat.min (length u) (length v).
Proof. exact (vadd_length u v). Qed.
Lemma vsub_lenR (u v : list R) : @length R (vsub u v) = Nat.min (length u) (length v).
Proof. exact (vsub_length u v). Qed.
Lemma vmul_lenR (u v : list R) : @length R (vmul u v) = Nat.min (length u) (length v).
Proof. exact (vmul_length u v). Qed.
Lemma vscale_lenR a (u : list R) : @length R (vscale a u) = length u.
Proof. exact (vscale_length a u). Qed.
Lemma fsumR (l : list R) : @fsum RNum l = Rsum (length l) (fun i => nth i l 0).
Proof. exact (fsum_Rsum l). Qed.
Ltac rlen := rnorm; repeat first [rewrite vadd_lenR|rewrite vsub_lenR|rewrite vmul_lenR|rewrite vscale_lenR|rewrite map_length|rewrite map2_length|rewrite seq_length].
(* ------------------------------------------------------------------ acceptance probability *)
Lemma mh_R (G : Rng) k r : mh_accept k r = Rltb (ln (uniform k)) r.
Proof. reflexivity. Qed.

Lemma Rltb_true x y : x < y -> Rltb x y = true.
Proof. intros. unfold Rltb. destruct (Rlt_dec x y); auto; lra. Qed.
Lemma Rltb_false x y : y <= x -> Rltb x y = false.
Proof. intros. unfold Rltb. destruct (Rlt_dec x y); auto; lra. Qed.

Lemma ln_lt_iff u r : 0 < u -> ln u < r <-> u < exp r.
Proof.
  intros Hu. split; intros H.
  - rewrite <- (exp_ln u Hu). now apply exp_increasing.
  - rewrite <- (ln_exp r). now apply ln_increasing.
Qed.

Lemma accept_mixture (r a b : R) :
  is_RInt (fun u => if Rltb (ln u) r then a else b) 0 1
          (Rmin 1 (exp r) * a + (1 - Rmin 1 (exp r)) * b).
Proof.
  set (p := Rmin 1 (exp r)). pose proof (exp_pos r) as He.
  assert (Hp : 0 < p <= 1). { unfold p, Rmin. destruct (Rle_dec 1 (exp r)); lra. }
  replace (p * a + (1 - p) * b) with (@plus R_NormedModule ((p - 0) * a) ((1 - p) * b)) by (unfold plus; simpl; ring).
  apply (is_RInt_Chasles (V := R_NormedModule)) with (b := p).
  - apply is_RInt_ext with (fun _ => a).
    + rewrite Rmin_left, Rmax_right by lra. intros u Hu. rewrite Rltb_true; auto. apply ln_lt_iff; [lra|].
      unfold p, Rmin in Hu. destruct (Rle_dec 1 (exp r)); lra.
    + apply (is_RInt_const (V := R_NormedModule)).
  - apply is_RInt_ext with (fun _ => b).
    + rewrite Rmin_left, Rmax_right by lra. intros u Hu. rewrite Rltb_false; auto.
      apply Rnot_lt_le. rewrite ln_lt_iff by lra. unfold p, Rmin in Hu. destruct (Rle_dec 1 (exp r)); lra.
    + apply (is_RInt_const (V := R_NormedModule)).
Qed.

Section Probs.
Context {G : @Rng RNum}.

(** Shape of an outcome function: one proposal, one ratio. *)
Definition metropolis (run : outcome) (x y : list R) (lx ly r : R) : Prop :=
  forall u, run u = Ok (if Rltb (ln u) r then (y, ly, true) else (x, lx, false)).

Lemma metropolis_prob run x y lx ly r : metropolis run x y lx ly r ->
  forall h, is_RInt (fun u => test h (run u)) 0 1
     (Rmin 1 (exp r) * h (y, ly, true) + (1 - Rmin 1 (exp r)) * h (x, lx, false)).
Proof.
  intros H h. apply is_RInt_ext with (fun u => if Rltb (ln u) r then h (y, ly, true) else h (x, lx, false)).
  - intros u _. rewrite H. destruct (Rltb (ln u) r); reflexivity.
  - apply accept_mixture.
Qed.
Lemma metropolis_accept run x y lx ly r : metropolis run x y lx ly r ->
  accept_prob run (Rmin 1 (exp r)).
Proof.
  intros H. unfold accept_prob.
  replace (Rmin 1 (exp r)) with (Rmin 1 (exp r) * 1 + (1 - Rmin 1 (exp r)) * 0) by ring.
  apply is_RInt_ext with (fun u => if Rltb (ln u) r then 1 else 0).
  - intros u _. rewrite H. destruct (Rltb (ln u) r); reflexivity.
  - apply accept_mixture.
Qed.
Lemma accept_unique run p p' : accept_prob run p -> accept_prob run p' -> p = p'.
Proof. intros H H'. rewrite <- (is_RInt_unique _ _ _ _ H). apply is_RInt_unique, H'. Qed.
Lemma metropolis_proposes run x y lx ly r y' : metropolis run x y lx ly r -> (proposes run y' <-> y' = y).
Proof.
  intros H. split.
  - intros (u & l & Hu & E). rewrite H in E. destruct (Rltb (ln u) r); congruence.
  - intros ->. pose proof (exp_pos r).
    exists (Rmin (1/2) (exp r / 2)), ly.
    assert (Q : 0 < Rmin (1/2) (exp r / 2) < 1 /\ Rmin (1/2) (exp r / 2) < exp r).
    { unfold Rmin. destruct (Rle_dec (1/2) (exp r / 2)); lra. }
    split; [lra|]. rewrite H. rewrite Rltb_true; auto. apply ln_lt_iff; lra.
Qed.

Lemma grw_metropolis ss k f d x z : ok_grw ss (length x) -> length z = length x ->
  exists y, metropolis (grw_run ss k f d x z) x y (lp_val f x d) (lp_val f y d) (lp_val f y d - lp_val f x d) /\
    length y = length x /\
    forall i, (i < length x)%nat -> nth i y 0 = nth i x 0 + nth i z 0 * step_of ss i.
Proof.
  intros Hok Hz.
  assert (Q : exists m, grw_move ss z = Ok m).
  { destruct ss; simpl in *; eauto; [|tauto]. rewrite (proj2 (Nat.eqb_eq _ _)) by congruence. eauto. }
  destruct Q as [m Em]. destruct (grw_move_spec _ _ _ Em) as [Lm Sm]. rnorm. rewrite Hz in Lm, Sm.
  exists (vadd x m). split; [|split].
  - intros u. unfold grw_run, grw_kernel. cbn [normal uniform with_draws]. rewrite Em. cbn [rbind].
    unfold mh_accept. cbn [uniform with_draws].
    change (fln u <.? (lp_val f (vadd x m) d -. lp_val f x d)) with (Rltb (ln u) (lp_val f (vadd x m) d - lp_val f x d)).
    destruct (Rltb _ _); reflexivity.
  - rewrite vadd_length. rlia.
  - intros i Hi. change 0 with (@f0 RNum). rewrite nth_vadd by rlia. rewrite Sm by auto. reflexivity.
Qed.

Lemma mala_propose_spec ss x g z : mala_ok_step ss (length x) -> length g = length x -> length z = length x ->
  length (mala_propose ss x g z) = length x /\
  forall i, (i < length x)%nat -> nth i (mala_propose ss x g z) 0 =
      (nth i x 0 + (step_of ss i * step_of ss i * nth i g 0) / 2) + step_of ss i * nth i z 0.
Proof.
  intros Hok Hg Hz. unfold mala_propose. destruct (mala_mean_spec ss x g Hok Hg) as [L S].
  assert (L2 : length (ss_dot ss z) = length x) by (rewrite ss_dot_length; rewrite Hz; auto).
  rewrite vadd_length, L, L2. split; [rlia|]. intros i Hi. change 0 with (@f0 RNum).
  rewrite nth_vadd by rlia. rewrite S by auto. rewrite nth_ss_dot by (rewrite ?Hz; auto). reflexivity.
Qed.

Lemma mala_ratio_ok ss f d x y : mala_ok_step ss (length x) -> length y = length x -> grad_shape f d (length x) ->
  exists r, mala_ratio ss f d x y = Ok r.
Proof.
  intros Hok Ly Hg. unfold mala_ratio, mvn_logpdf. destruct ss as [s|v|v]; [cbn [ss_sq rbind]; eauto|destruct Hok|].
  cbn [ss_sq]. destruct (mala_mean_spec (SDiag v) x (lp_grad f x d) Hok (Hg x eq_refl)) as [-> _].
  cbn [mala_ok_step] in Hok. rewrite vmul_length, Nat.min_id, Hok, Nat.eqb_refl. cbn [rbind].
  destruct (mala_mean_spec (SDiag v) y (lp_grad f y d)) as [-> _].
  { cbn. rlia. } { rewrite Ly. apply Hg. auto. }
  rewrite Ly, Nat.eqb_refl. cbn [rbind]. eauto.
Qed.

Lemma mala_metropolis ss k f d x z : mala_ok_step ss (length x) -> length z = length x -> grad_shape f d (length x) ->
  exists y r, metropolis (mala_run ss k f d x z) x y (lp_val f x d) (lp_val f y d) r /\
    mala_ratio ss f d x y = Ok r /\ length y = length x /\
    forall i, (i < length x)%nat -> nth i y 0 =
      (nth i x 0 + (step_of ss i * step_of ss i * nth i (lp_grad f x d) 0) / 2) + step_of ss i * nth i z 0.
Proof.
  intros Hok Hz Hg. set (y := mala_propose ss x (lp_grad f x d) z).
  destruct (mala_propose_spec ss x (lp_grad f x d) z Hok (Hg x eq_refl) Hz) as [Ly Sy]. fold y in Ly, Sy.
  destruct (mala_ratio_ok ss f d x y Hok Ly Hg) as [r Er].
  exists y, r. split; [|auto]. intros u. unfold mala_run, mala_kernel. cbn [normal uniform with_draws]. fold y.
  assert (Q : (let* ratio := mala_ratio ss f d x y in
     let acc := @mh_accept RNum (with_draws G z u) (split k 2 1) ratio in
     Ok (if acc then y else x, if acc then lp_val f y d else lp_val f x d, acc))
     = Ok (if Rltb (ln u) r then (y, lp_val f y d, true) else (x, lp_val f x d, false))).
  { rewrite Er. cbn [rbind]. unfold mh_accept. cbn [uniform with_draws].
    change (fln u <.? r) with (Rltb (ln u) r). destruct (Rltb (ln u) r); reflexivity. }
  destruct ss as [s|v|v]; [exact Q|destruct Hok|].
  cbn [mala_ok_step] in Hok. rnorm. rewrite (proj2 (Nat.eqb_eq _ _) Hok). exact Q.
Qed.

Lemma hmc_metropolis h m k f d x z : h_cond h = CMat m -> square m (length x) = true ->
  let p := hmc_momentum h z in
  let q' := fst (leapfrog h m f d (x, p)) in
  let p' := snd (leapfrog h m f d (x, p)) in
  metropolis (hmc_run h k f d x z) x q' (lp_val f x d) (lp_val f q' d)
    ((- lp_val f x d + kinetic p m) - (- lp_val f q' d + kinetic p' m)).
Proof.
  intros Hc Hs p q' p' u. unfold hmc_run, hmc_kernel. rewrite Hc. cbn [normal uniform with_draws]. rewrite Hs.
  unfold mh_accept, hmc_ratio. cbn [uniform with_draws]. fold p. fold q' p'.
  change (fln u <.? (fneg (lp_val f x d) +. kinetic p m -. (fneg (lp_val f q' d) +. kinetic p' m)))
    with (Rltb (ln u) (- lp_val f x d + kinetic p m - (- lp_val f q' d + kinetic p' m))).
  destruct (Rltb _ _); [|reflexivity]. do 3 f_equal. cbn. now rewrite Ropp_involutive.
Qed.
End Probs.

(* ------------------------------------------------------------------ detailed balance *)
Lemma balance_min a b : 0 < a -> 0 < b -> a * Rmin 1 (b / a) = b * Rmin 1 (a / b).
Proof.
  intros Ha Hb. unfold Rmin.
  assert (E1 : a * (b / a) = b) by (field; lra). assert (E2 : b * (a / b) = a) by (field; lra).
  destruct (Rle_dec 1 (b / a)) as [H1|H1], (Rle_dec 1 (a / b)) as [H2|H2]; rewrite ?E1, ?E2; try lra.
  - assert (a <= b). { apply (Rmult_le_compat_l a) in H1; lra. }
    assert (b <= a). { apply (Rmult_le_compat_l b) in H2; lra. } lra.
  - apply Rnot_le_lt in H1. apply Rnot_le_lt in H2.
    apply (Rmult_lt_compat_l a) in H1; [|lra]. apply (Rmult_lt_compat_l b) in H2; [|lra]. lra.
Qed.

Lemma balance_exp a b r : 0 < a -> 0 < b -> exp r = b / a -> a * Rmin 1 (exp r) = b * Rmin 1 (exp (- r)).
Proof.
  intros Ha Hb E. rewrite exp_Ropp, E. replace (/ (b / a)) with (a / b) by (field; lra). now apply balance_min.
Qed.

Lemma normal_pdf_pos mu s y : s <> 0 -> 0 < normal_pdf mu s y.
Proof.
  intros Hs. unfold normal_pdf. apply Rdiv_lt_0_compat; [apply exp_pos|].
  apply Rmult_lt_0_compat; [now apply Rabs_pos_lt|]. apply sqrt_lt_R0. pose proof PI_RGT_0. lra.
Qed.
Lemma gauss_density_pos n mu s y : (forall i, (i < n)%nat -> s i <> 0) -> 0 < gauss_density n mu s y.
Proof. intros H. apply Rprod_pos. intros. now apply normal_pdf_pos, H. Qed.

Lemma ln_normal_pdf mu s y : s <> 0 ->
  ln (normal_pdf mu s y) = - (y - mu) ^ 2 / (2 * s ^ 2) - ln (Rabs s) - ln (2 * PI) / 2.
Proof.
  intros Hs. unfold normal_pdf. pose proof PI_RGT_0.
  assert (0 < sqrt (2 * PI)) by (apply sqrt_lt_R0; lra). pose proof (Rabs_pos_lt s Hs).
  unfold Rdiv at 1. rewrite ln_mult, ln_exp, ln_Rinv, ln_mult; auto; try apply exp_pos; try apply Rinv_0_lt_compat; try now apply Rmult_lt_0_compat.
  replace (ln (sqrt (2 * PI))) with (ln (2 * PI) / 2). { ring. }
  rewrite <- (sqrt_sqrt (2 * PI)) at 1 by lra. rewrite ln_mult by auto. field.
Qed.

Lemma ln_gauss n mu s y : (forall i, (i < n)%nat -> s i <> 0) ->
  ln (gauss_density n mu s y) =
  Rsum n (fun i => - (nth i y 0 - mu i) ^ 2 / (2 * s i ^ 2) - ln (Rabs (s i)) - ln (2 * PI) / 2).
Proof.
  intros H. unfold gauss_density. rewrite ln_Rprod by (intros; now apply normal_pdf_pos, H).
  apply Rsum_ext. intros. now apply ln_normal_pdf, H.
Qed.

Lemma std_density_gauss n z : std_density n z = gauss_density n (fun _ => 0) (fun _ => 1) z.
Proof. reflexivity. Qed.

(** The proposal y_i = mu_i + s_i z_i with z standard normal has this density: it is the density of z
    divided by the (constant) Jacobian of z -> y. *)
Lemma gauss_density_change n mu s y z : (forall i, (i < n)%nat -> s i <> 0) ->
  (forall i, (i < n)%nat -> nth i y 0 = mu i + s i * nth i z 0) ->
  gauss_density n mu s y * Rprod n (fun i => Rabs (s i)) = std_density n z.
Proof.
  intros Hs Hy. unfold gauss_density, std_density. rewrite <- Rprod_mult. apply Rprod_ext. intros i Hi.
  rewrite (Hy i Hi). unfold normal_pdf. pose proof (Hs i Hi). pose proof PI_RGT_0.
  assert (sqrt (2 * PI) <> 0). { apply Rgt_not_eq, sqrt_lt_R0. lra. }
  replace (- (mu i + s i * nth i z 0 - mu i) ^ 2 / (2 * s i ^ 2)) with (- (nth i z 0 - 0) ^ 2 / (2 * 1 ^ 2)) by (field; auto).
  rewrite Rabs_R1. field. split; auto. now apply Rabs_no_R0.
Qed.

(** One coordinate: the probability that mu + s z falls in [mu + s a, mu + s b] is that of z in
    [a, b]. *)
Lemma normal_pdf_cont mu s y : s <> 0 -> continuous (normal_pdf mu s) y.
Proof.
  intros Hs. apply (ex_derive_continuous (V := R_NormedModule)). unfold normal_pdf. auto_derive.
  pose proof PI_RGT_0. assert (sqrt (2 * PI) <> 0). { apply Rgt_not_eq, sqrt_lt_R0. lra. }
  repeat split; auto.
Qed.
Lemma normal_pdf_pushforward mu s a b : 0 < s ->
  RInt (normal_pdf mu s) (mu + s * a) (mu + s * b) = RInt (normal_pdf 0 1) a b.
Proof.
  intros Hs. symmetry.
  assert (E : ex_RInt (normal_pdf mu s) (s * a + mu) (s * b + mu)).
  { apply (ex_RInt_continuous (V := R_CompleteNormedModule)). intros. apply normal_pdf_cont. lra. }
  pose proof (RInt_comp_lin (V := R_CompleteNormedModule) (normal_pdf mu s) s mu a b E) as Q.
  rewrite (Rplus_comm mu), (Rplus_comm mu). rewrite <- Q. apply RInt_ext. intros z _.
  unfold scal. simpl. unfold mult. simpl. unfold normal_pdf. pose proof PI_RGT_0.
  assert (sqrt (2 * PI) <> 0). { apply Rgt_not_eq, sqrt_lt_R0. lra. }
  replace (- (s * z + mu - mu) ^ 2 / (2 * s ^ 2)) with (- (z - 0) ^ 2 / (2 * 1 ^ 2)) by (field; lra).
  rewrite Rabs_R1, Rabs_pos_eq by lra. field. split; auto. lra.
Qed.
