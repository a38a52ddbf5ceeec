(** Properties C29-C33: coupling layers and flows, in exact real arithmetic. *)
From Coq Require Import Reals Psatz.
From Coquelicot Require Import Coquelicot.
From Verif Require Import Prelude Num M_Core M_Kernels M_Flow RNum MxR Spec_Jac P_Jac Spec_Real Spec_Spline Spec_Flow P_Real1 P_Flow P_Flow2 P_Flow3 P_Flow4 P_Flow5 P_Flow6.
Open Scope R_scope.

(* ==================================================================================== *)
(** C29.  Coupling layers are exactly invertible with opposite log-determinants, for every 0/1
    mask and every conditioner. *)
Theorem C29_mlp_affine : forall n m s t (dt : R), binary_mask n m -> net_shape n s -> net_shape n t ->
  exact_inverse n (coupling_fwd (mkCoupling m (mlp_affine s t dt))) (coupling_inv (mkCoupling m (mlp_affine s t dt))).
Proof. exact mlp_layer_exact. Qed.
Theorem C29_scalar_affine : forall n m (scale shift : R), binary_mask n m ->
  exact_inverse n (coupling_fwd (mkCoupling m (scalar_affine scale shift))) (coupling_inv (mkCoupling m (scalar_affine scale shift))).
Proof. exact scalar_layer_exact. Qed.
Theorem C29_rqspline : forall n m (q : @rqspline RNum), binary_mask n m -> rq_admissible q -> rq_shape q n -> rq_conditioned q n ->
  exact_inverse n (coupling_fwd (mkCoupling m (rqspline_bij q))) (coupling_inv (mkCoupling m (rqspline_bij q))).
Proof. exact rq_layer_exact. Qed.
Theorem C29_affine_coupling : forall n (a : @affine_coupling RNum),
  binary_mask n (ac_mask a) -> net_shape n (ac_scale a) -> net_shape n (ac_translate a) ->
  exact_inverse n (ac_fwd a) (ac_inv a).
Proof. exact ac_exact. Qed.
(** Coordinates with mask 1 pass through unchanged (mask 0 for AffineCoupling, whose convention is
    the opposite one). *)
Theorem C29_pass_through : forall n m (b : @bij RNum) (x : list R) i, binary_mask n m -> length x = n -> (i < n)%nat -> nth i m 0 = 1 ->
  (length (fst (bj_fwd b x (vmul x m))) = n -> nth i (fst (coupling_fwd (mkCoupling m b) x)) 0 = nth i x 0) /\
  (length (fst (bj_inv b x (vmul x m))) = n -> nth i (fst (coupling_inv (mkCoupling m b) x)) 0 = nth i x 0).
Proof. intros n m b x i H1 H2 H3 H4. exact (conj (pass_through n m b x i H1 H2 H3 H4) (pass_through_inv n m b x i H1 H2 H3 H4)). Qed.
Theorem C29_affine_coupling_pass : forall n (a : @affine_coupling RNum),
  binary_mask n (ac_mask a) -> net_shape n (ac_scale a) -> net_shape n (ac_translate a) ->
  forall (x : list R) i, length x = n -> (i < n)%nat -> nth i (ac_mask a) 0 = 0 ->
  nth i (fst (ac_fwd a x)) 0 = nth i x 0 /\ nth i (fst (ac_inv a x)) 0 = nth i x 0.
Proof. exact ac_pass. Qed.

(* ==================================================================================== *)
(** C30.  RealNVP is exactly invertible at every depth. *)
Theorem C30_realnvp : forall n nets, nets_shape n nets ->
  exact_inverse n (flow_fwd (map coupling_layer (realnvp_layers n nets))) (flow_inv (map coupling_layer (realnvp_layers n nets))).
Proof. exact realnvp_exact. Qed.
(** A RQSpline flow is exactly invertible as long as every scalar affine layer still has its initial
    parameters (scale 0, shift 0) ... *)
Theorem C30_rqspline_untrained_affine : forall n ps, rqs_ok n ps -> (forall a b q, In (a, b, q) ps -> a = 0 /\ b = 0) ->
  exact_inverse n (flow_fwd (map rqs_model_layer (rqs_layers n ps))) (flow_inv (map rqs_model_layer (rqs_layers n ps))).
Proof. exact rqs_flow_zero_exact. Qed.
(** ... but not once they have been trained: with one feature and one layer, any non-zero shift and
    any outermost spline slope other than 1 give a point where inverse(forward(x)) <> x. *)
Theorem C30_rqspline_trained_refuted : forall (q : @rqspline RNum) (shift : R),
  rq_admissible q -> rq_shape q 1 -> rq_conditioned q 1 -> shift <> 0 ->
  (forall xp yp sl, nth 0 (get_params q 1 [0]) ([], [], []) = (xp, yp, sl) -> nth (rq_bins q) sl 0 <> 1) ->
  let model := map rqs_model_layer (rqs_layers 1 [(0, shift, q)]) in
  exists x : R, fst (flow_inv model (fst (flow_fwd model [x]))) <> [x].
Proof. exact one_refuted'. Qed.
(** Undoing the spline before the affine map in each layer would make the inverse exact. *)
Theorem C30_rqspline_swapped_order : forall n ps, rqs_ok n ps ->
  exact_inverse n (flow_fwd (map rqs_model_layer (rqs_layers n ps))) (flow_inv (map rqs_fixed (rqs_layers n ps))).
Proof. exact rqs_fixed_exact. Qed.

(* ==================================================================================== *)
(** C31.  The accumulated log-determinant is ln |det J| of the whole map. *)
Theorem C31_realnvp : forall n nets (x : list R), nets_shape n nets ->
  (forall s t c, In (s, t) nets -> length c = n -> differentiable n s c /\ differentiable n t c) -> length x = n ->
  reports_logdet n (flow_fwd (map coupling_layer (realnvp_layers n nets))) x.
Proof. exact realnvp_logdet_smooth. Qed.
Theorem C31_rqspline : forall n ps (x : list R), (forall a b q, In (a, b, q) ps -> rq_admissible q /\ rq_shape q n /\
    forall c, length c = n -> differentiable_to n (n * (rq_bins q * 3 + 1)) (rq_cond q) c) -> length x = n ->
  reports_logdet n (flow_fwd (map rqs_model_layer (rqs_layers n ps))) x.
Proof. exact rqs_logdet_smooth. Qed.
(** Pointwise: it suffices that each layer has a Jacobian at the point the flow reaches there (for
    instance networks with relu activations away from the kinks). *)
Theorem C31_realnvp_pointwise : forall n nets (x : list R), nets_shape n nets -> length x = n ->
  layers_differentiable n (map coupling_layer (realnvp_layers n nets)) x ->
  reports_logdet n (flow_fwd (map coupling_layer (realnvp_layers n nets))) x.
Proof. exact realnvp_logdet. Qed.
Theorem C31_rqspline_layer_differentiable : forall n m (q : @rqspline RNum) (x : list R), binary_mask n m -> rq_admissible q -> rq_shape q n -> length x = n ->
  differentiable_to n (n * (rq_bins q * 3 + 1)) (rq_cond q) (vmul x m) ->
  differentiable n (fun y => fst (coupling_fwd (mkCoupling m (rqspline_bij q)) y)) x.
Proof. exact rq_layer_differentiable. Qed.
Theorem C31_affine_coupling : forall n (a : @affine_coupling RNum),
  binary_mask n (ac_mask a) -> net_shape n (ac_scale a) -> net_shape n (ac_translate a) ->
  forall x : list R, length x = n -> differentiable n (fun y => fst (ac_fwd a y)) x -> reports_logdet n (ac_fwd a) x.
Proof. exact ac_logdet. Qed.

(* ==================================================================================== *)
(** C32.  log_prob is the logarithm of the density of the model's samples plus the constant
    sum of ln(std_i).  [density_through .. (latent m) p x d] says d is the density at x of points
    whose latent image has density p; [C32_samples] says samples are such points. *)
Theorem C32_realnvp : forall (m : @flow RNum) nets (x : list R), good_stats m ->
  fl_layers m = map coupling_layer (realnvp_layers (fl_n m) nets) -> nets_shape (fl_n m) nets ->
  (forall s t c, In (s, t) nets -> length c = fl_n m -> differentiable (fl_n m) s c /\ differentiable (fl_n m) t c) -> length x = fl_n m ->
  exists d, 0 < d /\ density_through (fl_n m) (latent m) (std_density (fl_n m)) x d /\
    realnvp_log_prob m x = ln d + Rsum (fl_n m) (fun i => ln (sqrt (nth i (fl_var m) 0))).
Proof. intros m nets x Hg. exact (realnvp_density m Hg nets x). Qed.
Theorem C32_rqspline : forall (m : @flow RNum) ps (p : list R -> R) (x : list R), good_stats m ->
  fl_layers m = map rqs_model_layer (rqs_layers (fl_n m) ps) ->
  (forall a b q, In (a, b, q) ps -> rq_admissible q /\ rq_shape q (fl_n m) /\
    forall c, length c = fl_n m -> differentiable_to (fl_n m) (fl_n m * (rq_bins q * 3 + 1)) (rq_cond q) c) ->
  (forall y, 0 < p y) -> length x = fl_n m ->
  exists d, 0 < d /\ density_through (fl_n m) (latent m) p x d /\
    rqs_log_prob (fun y => ln (p y)) m x = ln d + Rsum (fl_n m) (fun i => ln (sqrt (nth i (fl_var m) 0))).
Proof. intros m ps p x Hg. exact (rqs_density m Hg ps p x). Qed.
Theorem C32_samples : forall (m : @flow RNum) (zs : list (list R)) k, good_stats m ->
  exact_inverse (fl_n m) (flow_fwd (fl_layers m)) (flow_inv (fl_layers m)) ->
  (k < length zs)%nat -> length (nth k zs []) = fl_n m ->
  length (flow_sample m zs) = length zs /\ length (nth k (flow_sample m zs) []) = fl_n m /\
  latent m (nth k (flow_sample m zs) []) = nth k zs [].
Proof. intros m zs k Hg. exact (flow_sample_nth m Hg zs k). Qed.
(** RealNVP ignores a custom base distribution in log_prob (but not in sample): whenever the base
    density p differs in shape from the standard normal, log_prob ratios are wrong. *)
Theorem C32_realnvp_custom_base_refuted : forall (m : @flow RNum) nets (p : list R -> R) (z1 z2 : list R), good_stats m ->
  fl_layers m = map coupling_layer (realnvp_layers (fl_n m) nets) -> nets_shape (fl_n m) nets ->
  (forall s t c, In (s, t) nets -> length c = fl_n m -> differentiable (fl_n m) s c /\ differentiable (fl_n m) t c) ->
  (forall y, 0 < p y) -> length z1 = fl_n m -> length z2 = fl_n m ->
  ln (p z1) - ln (std_density (fl_n m) z1) <> ln (p z2) - ln (std_density (fl_n m) z2) ->
  let x1 := nth 0 (flow_sample m [z1; z2]) [] in let x2 := nth 1 (flow_sample m [z1; z2]) [] in
  exists d1 d2, 0 < d1 /\ 0 < d2 /\ density_through (fl_n m) (latent m) p x1 d1 /\ density_through (fl_n m) (latent m) p x2 d2 /\
    realnvp_log_prob m x1 - realnvp_log_prob m x2 <> ln d1 - ln d2.
Proof. exact custom_base. Qed.

(* ==================================================================================== *)
(** C33.  Masks are 0/1 and consecutive masks are complementary; the number of bins is recovered. *)
Theorem C33_realnvp_masks : forall n i, binary_mask n (@realnvp_mask RNum n i) /\
  forall j, (j < n)%nat -> nth j (@realnvp_mask RNum n (S i)) 0 = 1 - nth j (@realnvp_mask RNum n i) 0.
Proof. intros n i. exact (conj (realnvp_mask_binary n i) (fun j => realnvp_mask_alt n i j)). Qed.
Theorem C33_rqspline_masks : forall n i, binary_mask n (@rqs_mask RNum n i) /\
  forall j, (j < n)%nat -> nth j (@rqs_mask RNum n (S i)) 0 = 1 - nth j (@rqs_mask RNum n i) 0.
Proof. intros n i. exact (conj (rqs_mask_binary n i) (fun j => rqs_mask_alt n i j)). Qed.
(** Which coordinates the first layers transform (mask 0 = transformed). *)
Theorem C33_first_masks : forall n j, (j < n)%nat ->
  nth j (@realnvp_mask RNum n 0) 0 = (if (j <? n / 2)%nat then 1 else 0) /\
  nth j (@rqs_mask RNum n 0) 0 = (if Nat.odd j then 1 else 0).
Proof. exact first_masks. Qed.
Theorem C33_num_bins : forall n b, (0 < n)%nat -> num_bins_of (n * (b * 3 + 1)) n = b.
Proof. exact num_bins_ok. Qed.

(* ==================================================================================== *)
(** Concrete cases meeting the hypotheses. *)
Definition ex_net (a b : R) (c : list R) : list R := map (fun v => a * v + b) c.
Example ex_net_shape n a b : net_shape n (ex_net a b).
Proof. intros c Hc. unfold ex_net. now rewrite map_length. Qed.
Example ex_net_diff n a b c : length c = n -> differentiable n (ex_net a b) c.
Proof.
  intros Hc. exists (fun i j => a * mid i j). intros i Hi. apply (is_dif_ext n (fun y => a * nth i y 0 + b)); auto.
  - intros y Hy. unfold ex_net. rewrite (mapR (fun v => a * v + b)) by lia. reflexivity.
  - eapply is_dif_gext; [|apply is_dif_plus; [apply is_dif_scal; now apply is_dif_proj|apply is_dif_const]]. intros j Hj. cbn beta. ring.
Qed.
(** A RealNVP with three features and two layers with non-constant networks and non-trivial data
    statistics satisfies C30, C31 and C32. *)
Definition ex_nets := [(ex_net 2 1, ex_net (-1) 3); (ex_net 1 0, ex_net 5 2)].
Definition ex_flow : @flow RNum := @mkFlow RNum 3 (map coupling_layer (realnvp_layers 3 ex_nets)) [1; 2; 3] [4; 1; 9].
Example ex_nets_ok : nets_shape 3 ex_nets /\ forall s t c, In (s, t) ex_nets -> length c = 3%nat -> differentiable 3 s c /\ differentiable 3 t c.
Proof.
  split.
  - intros s t [E|[E|[]]]; injection E as <- <-; split; apply ex_net_shape.
  - intros s t c [E|[E|[]]] Hc; injection E as <- <-; split; now apply ex_net_diff.
Qed.
Example ex_good : good_stats ex_flow.
Proof. repeat split; auto. intros [|[|[|i]]] Hi; cbn in *; try lia; lra. Qed.
Example ex_C32 : exists d, 0 < d /\ density_through 3 (latent ex_flow) (std_density 3) [1; 0; 0] d /\
    realnvp_log_prob ex_flow [1; 0; 0] = ln d + Rsum 3 (fun i => ln (sqrt (nth i [4; 1; 9] 0))).
Proof. exact (C32_realnvp ex_flow ex_nets [1; 0; 0] ex_good eq_refl (proj1 ex_nets_ok) (proj2 ex_nets_ok) eq_refl). Qed.
(** The refutation of C30 is not vacuous: default settings, two bins, all unnormalised parameters 1. *)
Example ex_C30_refuted : exists x : R,
  let model := map rqs_model_layer (rqs_layers 1 [(0, 1, const_q)]) in fst (flow_inv model (fst (flow_fwd model [x]))) <> [x].
Proof.
  apply (C30_rqspline_trained_refuted const_q 1 (proj1 const_q_ok) (proj2 const_q_ok) const_cond ltac:(lra)).
  intros xp yp sl E H. pose proof (const_slope [0] 2 eq_refl ltac:(lia)) as C. unfold par_s in C. rewrite E in C.
  change (rq_bins const_q) with 2%nat in H. pose (v := nth 2 sl 0 : R). change (v = 1) in H. change (1 < v < 2) in C. lra.
Qed.
(** ... and the same parameters with zero shift satisfy the positive statement. *)
Example ex_C30_zero : rqs_ok 1 [(0, 0, const_q)].
Proof. intros a b q [E|[]]. injection E as <- <- <-. exact (conj (proj1 const_q_ok) (conj (proj2 const_q_ok) const_cond)). Qed.

Print Assumptions C29_mlp_affine.
Print Assumptions C29_scalar_affine.
Print Assumptions C29_rqspline.
Print Assumptions C29_affine_coupling.
Print Assumptions C29_pass_through.
Print Assumptions C29_affine_coupling_pass.
Print Assumptions C30_realnvp.
Print Assumptions C30_rqspline_untrained_affine.
Print Assumptions C30_rqspline_trained_refuted.
Print Assumptions C30_rqspline_swapped_order.
Print Assumptions C31_realnvp.
Print Assumptions C31_rqspline.
Print Assumptions C31_realnvp_pointwise.
Print Assumptions C31_rqspline_layer_differentiable.
Print Assumptions C31_affine_coupling.
Print Assumptions C32_realnvp.
Print Assumptions C32_rqspline.
Print Assumptions C32_samples.
Print Assumptions C32_realnvp_custom_base_refuted.
Print Assumptions C33_realnvp_masks.
Print Assumptions C33_rqspline_masks.
Print Assumptions C33_first_masks.
Print Assumptions C33_num_bins.
