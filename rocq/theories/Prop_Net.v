(** C55: base distributions.  C53: what the optimiser does to parameters without gradients.  C58: clipping and bias correction. *)
From Coq Require Import Reals Psatz.
From Verif Require Import Prelude Num M_Core M_Kernels M_Flow M_Net RNum MxR Spec_Jac Spec_Flow Spec_FM Spec_Real Spec_Net P_Decay P_Adamw P_Gauss P_Gauss2.
Open Scope R_scope.

(* ==================================================================================== *)
(** C53.  The optimiser of the bundles (clip, then adamw with weight decay) multiplies a parameter whose
    gradient is always 0 by (1 - lr * weight_decay) in every step, from any starting parameters. *)
Theorem C53_decay : forall (a : @adamw RNum) (gs : list (list R)) (p : list R) j,
  0 <= aw_b1 a < 1 -> 0 <= aw_b2 a < 1 -> 0 < aw_eps a -> (j < length p)%nat ->
  (forall g, In g gs -> nth j g 0 = 0) ->
  @nth R j (fst (adamw_steps a gs p (adamw_init p))) 0 = nth j p 0 * (1 - aw_lr a * aw_decay a) ^ length gs.
Proof. intros a gs p j _ _ _. exact (decay_proof a gs p j). Qed.
(** RealNVP keeps its masks among the floating-point parameters, behind stop_gradient: after one or more
    training steps the entries 0 are still 0, but the entries 1 lie strictly between 0 and 1 ... *)
Theorem C53_masks_leave_binary : forall n (mask rest : list R) lr momentum (gs : list (list R)) j,
  binary_mask n mask -> 0 <= momentum < 1 -> 0 < lr < 10000 -> gs <> [] -> (j < n)%nat ->
  (forall g, In g gs -> nth j g 0 = 0) ->
  let p := mask ++ rest in
  let p' := fst (adamw_steps (@optimizer_new RNum lr momentum) gs p (adamw_init p)) in
  (nth j mask 0 = 0 -> @nth R j p' 0 = 0) /\ (nth j mask 0 = 1 -> 0 < @nth R j p' 0 < 1).
Proof. intros n mask rest lr momentum gs j Hb _. exact (trained_mask_proof n mask rest lr momentum gs j Hb). Qed.
(** ... so a trained coupling layer whose scale network gives s_j <> 0 at a passed-through coordinate (here:
    networks with constant outputs) is neither undone by its inverse nor reports the log-determinant of its
    Jacobian, at any point: C30, C31 and C32 stop holding for RealNVP with the first training step. *)
Theorem C53_trained_realnvp_refuted : forall n (mask rest ss ts : list R) lr momentum (gs : list (list R)) j,
  binary_mask n mask -> length ss = n -> length ts = n -> 0 < lr < 10000 -> gs <> [] ->
  (forall g i, In g gs -> (i < n)%nat -> nth i g 0 = 0) ->
  (j < n)%nat -> nth j mask 0 = 1 -> nth j ss 0 <> 0 ->
  let p := mask ++ rest in
  let p' := fst (adamw_steps (@optimizer_new RNum lr momentum) gs p (adamw_init p)) in
  let c := @mkCoupling RNum (firstn n p') (@mlp_affine RNum (fun _ => ss) (fun _ => ts) 1) in
  ~ exact_inverse n (coupling_fwd c) (coupling_inv c) /\
  (forall x, length x = n -> ~ reports_logdet n (coupling_fwd c) x).
Proof. exact trained_realnvp_proof. Qed.
(** The data statistics decay too: after T steps the training data whitened by the returned model have
    mean (1 - r) mu / sqrt(r v) and variance 1 / r instead of 0 and 1, with r = (1 - lr / 10000)^T. *)
Theorem C53_trained_statistics : forall d (data : list (list R)) (ls : list (@layer RNum)) (rest : list R) lr momentum (gs : list (list R)),
  (forall r, In r data -> length r = d) -> (2 <= length data)%nat ->
  (forall j, (j < d)%nat -> exists i i', (i < length data)%nat /\ (i' < length data)%nat /\ nth j (nth i data []) 0 <> nth j (nth i' data []) 0) ->
  0 < lr < 10000 -> gs <> [] -> (forall g i, In g gs -> (i < d + d)%nat -> nth i g 0 = 0) ->
  let p := (@data_mean RNum d data ++ diag (@data_cov RNum d data) ++ rest)%list in
  let p' := fst (adamw_steps (@optimizer_new RNum lr momentum) gs p (adamw_init p)) in
  let m := @mkFlow RNum d ls (firstn d p') (firstn d (skipn d p')) in
  let r := (1 - lr * (1 / 10000)) ^ length gs in
  forall j, (j < d)%nat ->
  let col i := nth j (nth i data []) 0 in
  let w i := @nth R j (whiten m (nth i data [])) 0 in
  let mu := mean_of (length data) col in let v := var_of (length data) col in
  mean_of (length data) w = (1 - r) * mu / sqrt (r * v) /\ var_of (length data) w = 1 / r.
Proof. exact trained_stats_proof. Qed.

(** The covariance of the base distribution (initially the identity, behind stop_gradient) decays to r times
    the identity.  RealNVP.sample draws from it, but RealNVP.log_prob keeps using the standard normal: for
    every trained RealNVP there are points whose log_prob difference is not the difference of the logarithms
    of the density of its samples. *)
Theorem C53_trained_base_covariance : forall n lr momentum (gs : list (list R)) (rest : list R), 0 < lr < 10000 -> gs <> [] ->
  (forall g i, In g gs -> (i < n * n)%nat -> nth i g 0 = 0) ->
  let eye := map (fun i => map (fun j => if (i =? j)%nat then 1 else 0) (seq 0 n)) (seq 0 n) in
  let p := (concat eye ++ rest)%list in
  let p' := fst (adamw_steps (@optimizer_new RNum lr momentum) gs p (adamw_init p)) in
  let cov := reshape_rows n n (firstn (n * n) p') in
  forall i j, (i < n)%nat -> (j < n)%nat -> ent cov i j = (if (i =? j)%nat then 1 else 0) * (1 - lr * (1 / 10000)) ^ length gs.
Proof. intros n lr momentum gs rest _ _. exact (cov_ent n lr momentum gs rest). Qed.
Theorem C53_trained_base_refuted : forall n lr momentum (gs : list (list R)) (rest : list R) (l : list (list R)), 0 < lr < 10000 -> gs <> [] ->
  (forall g i, In g gs -> (i < n * n)%nat -> nth i g 0 = 0) ->
  cholesky_shape n l ->
  let eye := map (fun i => map (fun j => if (i =? j)%nat then 1 else 0) (seq 0 n)) (seq 0 n) in
  let p := (concat eye ++ rest)%list in
  let p' := fst (adamw_steps (@optimizer_new RNum lr momentum) gs p (adamw_init p)) in
  factor_of n l (reshape_rows n n (firstn (n * n) p')) ->
  forall (m : @flow RNum) nets, fl_n m = n -> (0 < n)%nat -> good_stats m ->
  fl_layers m = map coupling_layer (realnvp_layers (fl_n m) nets) -> nets_shape (fl_n m) nets ->
  (forall s t c, In (s, t) nets -> length c = fl_n m -> differentiable (fl_n m) s c /\ differentiable (fl_n m) t c) ->
  exists z1 z2 : list R, length z1 = n /\ length z2 = n /\
  let base y := exp (@gaussian_logp RNum (repeat 0 n) l y) in
  let x1 := nth 0 (flow_sample m [z1; z2]) [] in let x2 := nth 1 (flow_sample m [z1; z2]) [] in
  exists d1 d2, 0 < d1 /\ 0 < d2 /\ density_through n (latent m) base x1 d1 /\ density_through n (latent m) base x2 d2 /\
    realnvp_log_prob m x1 - realnvp_log_prob m x2 <> ln d1 - ln d2.
Proof. intros n lr momentum gs rest l H1 H2 H3 H4 eye p p' H5. exact (trained_base_proof n lr momentum gs rest l H1 H2 H3 H4 H5). Qed.

(* ==================================================================================== *)
(** C55.  Gaussian.log_prob is the density of Gaussian.sample: a sample is mean + L z for a block z of standard
    normal numbers, [forward_subst L (x - mean)] recovers z from x, and log_prob is the logarithm of the density
    at x of points whose z is standard normal. *)
Theorem C55_samples : forall (G : @Rng RNum) n (l : list (list R)) (mean : list R) k s i, cholesky_shape n l -> length mean = n ->
  length (@normal RNum G k (s * n)) = (s * n)%nat -> (i < s)%nat ->
  let z := @slice R (i * n) (i * n + n) (@normal RNum G k (s * n)) in
  let x := @nth (list R) i (@gaussian_sample RNum G mean l k s) [] in
  length (@gaussian_sample RNum G mean l k s) = s /\ length x = n /\
  (forall r, (r < n)%nat -> @nth R r x 0 = nth r mean 0 + Rsum n (fun j => ent l r j * nth j z 0)) /\
  @forward_subst RNum l (@vsub RNum x mean) [] = z.
Proof. exact gaussian_samples_proof. Qed.
Theorem C55_density : forall n (l : list (list R)), cholesky_shape n l -> forall mean : list R, length mean = n ->
  forall x : list R, length x = n ->
  exists d, density_through n (fun y => @forward_subst RNum l (@vsub RNum y mean) []) (std_density n) x d /\ 0 < d /\
    @gaussian_logp RNum mean l x = ln d.
Proof. exact gaussian_density_proof. Qed.
(** The usual formula: with cov = L L^T and cov w = x - mean,
    log_prob x = -1/2 (x - mean).w - n/2 ln(2 pi) - 1/2 ln det cov. *)
Theorem C55_formula : forall n (l cov : list (list R)) (mean : list R), cholesky_shape n l -> factor_of n l cov -> length mean = n ->
  forall x w : list R, length x = n -> length w = n ->
  (forall i, (i < n)%nat -> Rsum n (fun j => ent cov i j * nth j w 0) = nth i x 0 - nth i mean 0) ->
  0 < mdet n (ent cov) /\
  @gaussian_logp RNum mean l x =
  - / 2 * Rsum n (fun i => (nth i x 0 - nth i mean 0) * nth i w 0) - INR n / 2 * ln (2 * PI) - / 2 * ln (mdet n (ent cov)).
Proof. exact textbook_proof. Qed.
(** Composable.log_prob, on the concatenation of blocks the partitions describe, is the sum of the parts'
    log_prob ... *)
Theorem C55_composable : forall (G : @Rng RNum) (ds : list (@dist RNum G)) (ps : list (string * (nat * nat))) (ys : list (list R)),
  length ds = length ps -> length ys = length ps -> consecutive 0 (map snd ps) (length (concat ys)) ->
  (forall k, (k < length ps)%nat -> length (nth k ys []) = (snd (snd (nth k ps (""%string, (0, 0)%nat))) - fst (snd (nth k ps (""%string, (0, 0)%nat))))%nat) ->
  @composable_logp RNum G (mkComp ds ps) (concat ys) =
  Rsum (length ds) (fun k => ds_logp (nth k ds (mkDist (fun _ => 0) (fun _ _ => []))) (nth k ys [])).
Proof. exact @composable_proof. Qed.
(** ... but Composable.sample returns a dict from partition names to the parts' samples, each part with
    its own key, not the array of concatenated samples that log_prob and the flows take. *)
Theorem C55_composable_sample : forall (N : Num) (G : Rng) (ds : list dist) (ps : list (string * (nat * nat))) k n,
  length ds = length ps -> NoDup (map fst ps) ->
  let out := composable_sample (mkComp ds ps) k n in
  dkeys out = map fst ps /\
  forall i, (i < length ps)%nat ->
    dget out (fst (nth i ps (""%string, (0, 0)%nat))) =
    Some (ds_sample (nth i ds (mkDist (fun _ => f0) (fun _ _ => []))) (split (iter i (fun q => split q 2 0) k) 2 1) n).
Proof. exact @composable_sample_proof. Qed.

(* ==================================================================================== *)
(** C58.  Gradients with Euclidean norm below 1 are used unchanged, longer ones are rescaled to norm 1; so the
    gradient an update sees has norm at most 1. *)
Theorem C58_clip : forall g : list R, let s := sqrt (sq_norm (length g) g) in
  length (@clip_norm RNum g) = length g /\
  (s < 1 -> @clip_norm RNum g = g) /\
  (1 <= s -> forall j, (j < length g)%nat -> @nth R j (clip_norm g) 0 = nth j g 0 / s).
Proof. exact clip_proof. Qed.
Theorem C58_clip_bound : forall g : list R, sq_norm (length g) (@clip_norm RNum g) <= 1.
Proof. exact clip_bound. Qed.
(** Bias correction is exact: as long as the (clipped) gradient of a parameter is the same number c, every
    step, from the first one on, subtracts lr * (c / (|c| + eps) + weight_decay * value). *)
Theorem C58_constant_gradient : forall (a : @adamw RNum) c j (gs : list (list R)) (p : list R),
  (j < length p)%nat -> 0 <= aw_b1 a < 1 -> 0 <= aw_b2 a < 1 -> 0 < aw_eps a ->
  (forall g, In g gs -> @nth R j (clip_norm g) 0 = c) ->
  @nth R j (fst (adamw_steps a gs p (adamw_init p))) 0 =
  iter (length gs) (fun v => v - aw_lr a * (c / (Rabs c + aw_eps a) + aw_decay a * v)) (nth j p 0).
Proof. exact const_proof. Qed.

(* ==================================================================================== *)
(** Concrete cases. *)
Example C55_case : cholesky_shape 2 [[2; 0]; [1; 3]] /\ factor_of 2 [[2; 0]; [1; 3]] [[4; 2]; [2; 10]].
Proof.
  split; [split; [split; [reflexivity|]|split]|].
  - intros row [<-|[<-|[]]]; reflexivity.
  - intros i j H. assert (i = 0 /\ j = 1)%nat as [-> ->] by lia. reflexivity.
  - intros [|[|i]] Hi; unfold ent; cbn; try lra; lia.
  - intros [|[|i]] [|[|j]] Hi Hj; unfold ent; cbn; try lra; lia.
Qed.
Example C53_base_case : let r := 1 - 1 * (1 / 10000) in let l := [[sqrt r]] in
  cholesky_shape 1 l /\
  factor_of 1 l (reshape_rows 1 1 (firstn 1 (fst (adamw_steps (@optimizer_new RNum 1 (9/10)) [[0; 3]] ([1] ++ [7])%list (adamw_init ([1] ++ [7])%list))))).
Proof.
  cbv zeta. split; [split; [split; [reflexivity|]|split]|].
  - intros row [<-|[]]; reflexivity.
  - intros i j H. lia.
  - intros i Hi. replace i with 0%nat by lia. unfold ent. cbn [nth]. apply sqrt_lt_R0. lra.
  - intros i j Hi Hj.
    assert (E : ent (reshape_rows 1 1 (firstn 1 (fst (adamw_steps (@optimizer_new RNum 1 (9/10)) [[0; 3]] ([1] ++ [7])%list (adamw_init ([1] ++ [7])%list))))) i j =
       (if (i =? j)%nat then 1 else 0) * (1 - 1 * (1 / 10000)) ^ 1).
    { refine (C53_trained_base_covariance 1 1 (9/10) [[0; 3]] [7] _ _ _ i j Hi Hj); try lra; try discriminate.
      intros g q [<-|[]] Hq. replace q with 0%nat by lia. reflexivity. }
    rewrite E. replace i with 0%nat by lia. replace j with 0%nat by lia. cbn [Nat.eqb Rsum]. unfold ent. cbn [nth]. rewrite sqrt_sqrt by lra. lra.
Qed.
Example C55_blocks : consecutive 0 (map snd [("a"%string, (0, 2)%nat); ("b"%string, (2, 3)%nat)]) (length (concat [[1; 2]; [3]])).
Proof. cbn. lia. Qed.
Example C58_case : forall j, (j < 2)%nat -> @nth R j (@clip_norm RNum [3; 4]) 0 = nth j [3; 4] 0 / 5.
Proof.
  intros j Hj. destruct (C58_clip [3; 4]) as (_ & _ & H). 
  assert (E : sqrt (sq_norm (length [3; 4]) [3; 4]) = 5).
  { replace (sq_norm (length [3; 4]) [3; 4]) with (5 * 5); [apply sqrt_square; lra|]. unfold sq_norm. cbn. ring. }
  rewrite E in H. exact (H ltac:(lra) j Hj).
Qed.
Example C53_case :
  let c := @mkCoupling RNum (firstn 2 (fst (adamw_steps (@optimizer_new RNum (1/1000) (9/10)) [[0; 0; 5]; [0; 0; -2]] ([1; 0] ++ [3]) (adamw_init ([1; 0] ++ [3])))))
             (@mlp_affine RNum (fun _ => [1; 2]) (fun _ => [0; 1]) 1) in
  ~ exact_inverse 2 (coupling_fwd c) (coupling_inv c).
Proof.
  refine (proj1 (C53_trained_realnvp_refuted 2 [1; 0] [3] [1; 2] [0; 1] (1/1000) (9/10) [[0; 0; 5]; [0; 0; -2]] 0 _ eq_refl eq_refl _ _ _ _ eq_refl _)); try lra; try lia; try discriminate.
  - split; [reflexivity|]. intros [|[|i]] Hi; cbn; auto; lia.
  - intros g i [<-|[<-|[]]] Hi; destruct i as [|[|i]]; cbn; auto; lia.
  - cbn. lra.
Qed.
Print Assumptions C53_decay.
Print Assumptions C53_masks_leave_binary.
Print Assumptions C53_trained_realnvp_refuted.
Print Assumptions C53_trained_statistics.
Print Assumptions C58_clip.
Print Assumptions C58_clip_bound.
Print Assumptions C58_constant_gradient.
Print Assumptions C53_trained_base_covariance.
Print Assumptions C53_trained_base_refuted.
Print Assumptions C55_samples.
Print Assumptions C55_density.
Print Assumptions C55_formula.
Print Assumptions C55_composable.
Print Assumptions C55_composable_sample.
