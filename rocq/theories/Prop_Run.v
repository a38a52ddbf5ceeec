(** C70: runs of the bundles with the flow and the optimiser they build themselves. *)
From Coq Require Import Reals Lra.
From Verif Require Import Prelude Num M_Core M_Kernels M_Strategies M_PT M_Bundle M_Flow M_Net M_Model M_Tree M_Spline P_Lists RNum
  Spec Spec_Core Spec_Sampler Spec_Steps Spec_Kernels Spec_Train Spec_PT Spec_Bundle Spec_Jac Spec_Flow Spec_Net Spec_Tree Spec_Run P_Tree1 P_Tree2 P_Tree3 P_Run1 P_Run2 P_Run3 P_Run4 Toy.
Open Scope nat_scope.

(** C70.  The bundles build a spline flow and an optimiser for it that satisfy the standing conditions of C45-C47
    on flow models: nothing about the flow has to be assumed. *)
Theorem C70_conditions : forall (N : Num) (G : Rng) li chol grad a d xs, args_ok a chol d xs ->
  exists lv0, rqs_tree li (a_n_dims a) (a_layers a) (a_bins a) (a_hidden a) (fofZ (-10)) (fofZ 10) (split (a_key a) 2 1) = Ok lv0 /\
  @run_ok N G (spline_ops chol grad a) (spline_config li chol grad a) d xs (only_floats_differ lv0).
Proof.
  intros N G li chol grad a d xs H. destruct (spline_model_ok li a (split (a_key a) 2 1)) as (lv0 & E0 & _).
  exists lv0. exact (conj E0 (spline_run_ok li chol grad a d xs lv0 H E0)).
Qed.

(** After a successful run the resources "model", the flow kernel and "optimizer" hold one and the same history:
    the constructor's tree trained n_training_loops times, each time on n_max_examples rows that are finite
    positions recorded in positions_training. *)
Theorem C70_trained : forall (N : Num) (G : Rng) li chol grad a h bd n nc k o kw s d xs k' xs' w',
  RQSpline_MALA li chol grad a = Ok (h, bd) ->
  @sampler_init N G (spline_ops chol grad a) n nc k None None o (Some bd) kw = Ok s -> args_ok a chol d xs ->
  sampler_sample s (P2 xs) d h = (Ok (k', xs'), w') ->
  exists lv0 ds lv st,
    rqs_tree li (a_n_dims a) (a_layers a) (a_bins a) (a_hidden a) (fofZ (-10)) (fofZ 10) (split (a_key a) 2 1) = Ok lv0 /\
    length ds = a_train_loops a /\
    @Spec_Tree.training_run N G (spline_ops chol grad a) (optimizer_new (a_lr a) (fofZ 9 /. fofZ 10)) lv0 (tree_optimizer_init lv0) ds lv st /\
    (forall data, In data ds -> length data = a_max a /\ forall x, In x data -> recorded_row w' "positions_training" (a_n_chains a) (a_n_dims a) x) /\
    content_of w' "model" = CPlain (@RModel N G (spline_ops chol grad a) lv) /\
    content_of w' "global_sampler" = CPlain (@RNFP N G (spline_ops chol grad a) (@mkNfp N G (spline_ops chol grad a) lv (a_nf_bs a))) /\
    content_of w' "optimizer" = CObject (Some (OOpt (@mkOptimizer N G (spline_ops chol grad a) (optimizer_new (a_lr a) (fofZ 9 /. fofZ 10)) st))).
Proof. exact @spline_trained. Qed.
Theorem C70_pt_trained : forall (N : Num) (G : Rng) li chol grad a nt mt steps prior h bd n nc k o kw s d xs k' xs' w',
  RQSpline_MALA_PT li chol grad a nt mt steps prior = Ok (h, bd) ->
  @sampler_init N G (spline_ops chol grad a) n nc k None None o (Some bd) kw = Ok s -> args_ok a chol d xs ->
  grad_shape prior d (a_n_dims a) -> 0 < a_n_chains a ->
  sampler_sample s (P2 xs) d h = (Ok (k', xs'), w') ->
  exists lv0 ds lv st,
    rqs_tree li (a_n_dims a) (a_layers a) (a_bins a) (a_hidden a) (fofZ (-10)) (fofZ 10) (split (a_key a) 2 1) = Ok lv0 /\
    length ds = a_train_loops a /\
    @Spec_Tree.training_run N G (spline_ops chol grad a) (optimizer_new (a_lr a) (fofZ 9 /. fofZ 10)) lv0 (tree_optimizer_init lv0) ds lv st /\
    (forall data, In data ds -> length data = a_max a /\ forall x, In x data -> recorded_row w' "positions_training" (a_n_chains a) (a_n_dims a) x) /\
    content_of w' "model" = CPlain (@RModel N G (spline_ops chol grad a) lv) /\
    content_of w' "global_sampler" = CPlain (@RNFP N G (spline_ops chol grad a) (@mkNfp N G (spline_ops chol grad a) lv (a_nf_bs a))) /\
    content_of w' "optimizer" = CObject (Some (OOpt (@mkOptimizer N G (spline_ops chol grad a) (optimizer_new (a_lr a) (fofZ 9 /. fofZ 10)) st))).
Proof. exact @spline_pt_trained. Qed.

(** Hence the flow a user takes out of the resources after a run of either bundle has the constructor's structure,
    masks, range and numbers of bins, and can be saved and loaded into a newly built flow of the same sizes. *)
Theorem C70_result : forall (N : Num) (G : Rng) li, linear_law li -> bias_law li -> forall chol grad a h bd n nc k o kw s d xs k' xs' w',
  (RQSpline_MALA li chol grad a = Ok (h, bd) \/
   (exists nt mt steps prior, RQSpline_MALA_PT li chol grad a nt mt steps prior = Ok (h, bd) /\ grad_shape prior d (a_n_dims a) /\ 0 < a_n_chains a)) ->
  @sampler_init N G (spline_ops chol grad a) n nc k None None o (Some bd) kw = Ok s -> args_ok a chol d xs ->
  sampler_sample s (P2 xs) d h = (Ok (k', xs'), w') ->
  exists lv, content_of w' "model" = CPlain (@RModel N G (spline_ops chol grad a) lv) /\
    (forall i, i < a_layers a -> row_at (a_n_dims a) (lv_at lv 9) i = rqs_mask (a_n_dims a) i /\ row_at (a_n_dims a) (lv_at lv 6) i = repeat f0 (a_n_dims a)) /\
    lv_at lv 10 = LFloat (fofZ (-10)) /\ lv_at lv 11 = LFloat (fofZ 10) /\
    forall lo hi k1 like, rqs_tree li (a_n_dims a) (a_layers a) (a_bins a) (a_hidden a) lo hi k1 = Ok like ->
      forall fs path, load_model (save_model fs path lv) path like = Ok lv.
Proof. exact @spline_result. Qed.

(** Over the reals: the flow after a run reports the log-determinant of its Jacobian everywhere, and as long as its
    stored variances are positive the log_prob its kernel uses is the density of C65; as long as it is invertible
    (C30: the trained affine layers may break that) the samples its kernel uses are the points whose latent images
    are the draws of the base distribution. *)
Theorem C70_log_prob : forall (G : @Rng RNum) li, linear_law li -> bias_law li -> forall (chol : list (list R) -> list (list R)) grad (a : @args RNum G) h bd n nc k o kw s d xs k' xs' w',
  (RQSpline_MALA li chol grad a = Ok (h, bd) \/
   (exists nt mt steps prior, RQSpline_MALA_PT li chol grad a nt mt steps prior = Ok (h, bd) /\ grad_shape prior d (a_n_dims a) /\ 0 < a_n_chains a)) ->
  @sampler_init RNum G (spline_ops chol grad a) n nc k None None o (Some bd) kw = Ok s -> args_ok a chol d xs ->
  sampler_sample s (P2 xs) d h = (Ok (k', xs'), w') -> 1 <= a_bins a -> (INR (a_bins a) < 200000)%R ->
  exists lv, content_of w' "model" = CPlain (@RModel RNum G (spline_ops chol grad a) lv) /\
  let m := rqs_flow (a_layers a) (a_bins a) (a_hidden a) lv in
  (forall x : list R, length x = a_n_dims a -> reports_logdet (a_n_dims a) (flow_fwd (fl_layers m)) x) /\
  ((forall i, i < a_n_dims a -> (0 < @nth R i (fl_var m) 0)%R) -> forall x : list R, length x = a_n_dims a ->
    exists dens, (0 < dens)%R /\ density_through (a_n_dims a) (latent m) (fun y => exp (ds_logp (@tree_base RNum G chol lv) y)) x dens /\
      @m_logp RNum G (spline_ops chol grad a) lv x = (ln dens + Rsum (a_n_dims a) (fun i => ln (sqrt (nth i (fl_var m) 0))))%R) /\
  ((forall i, i < a_n_dims a -> (0 < @nth R i (fl_var m) 0)%R) ->
   exact_inverse (a_n_dims a) (flow_fwd (fl_layers m)) (flow_inv (fl_layers m)) ->
   forall kk ns i, i < ns ->
    length (@m_sample RNum G (spline_ops chol grad a) lv kk ns) = ns /\
    latent m (nth i (@m_sample RNum G (spline_ops chol grad a) lv kk ns) []) = nth i (ds_sample (@tree_base RNum G chol lv) kk ns) []).
Proof. exact @spline_result_R. Qed.

(* ==================================================================================== *)
(** Both bundles on the executable instance: 2 chains, 2 dimensions, two layers of 3 bins with one hidden layer. *)
Definition z_linear (a b : nat) (k : @key ZNum ZRng) (bias : bool) : @linear ZNum :=
  @mkLinear ZNum (repeat (repeat 1%Z a) b) (if bias then Some (repeat 0%Z b) else None).
Definition z_grad (lv : list (@leaf ZNum)) (xs : list (list Z)) : list Z := map (fun _ => 1%Z) (@ravel ZNum lv).
Definition z_args : @args ZNum ZRng := @mkArgs ZNum ZRng [7] 2 2 zlp 4 2 2 2 3 (@SScalar ZNum 1%Z) 1 [2] 3 2 1%Z 2 6 2 1 2 100.
Definition z_bundle := @RQSpline_MALA ZNum ZRng z_linear (fun m => m) z_grad z_args.
Definition z_pt_bundle := @RQSpline_MALA_PT ZNum ZRng z_linear (fun m => m) z_grad z_args 3 4%Z 2 zlp.
Definition z_succeeds (b : res (list (@obj ZNum ZRng (spline_ops (fun m => m) z_grad z_args)) * @bundle ZNum ZRng (spline_ops (fun m => m) z_grad z_args))) : bool :=
  match b with
  | Raise _ => false
  | Ok (h, bd) =>
      match @sampler_init ZNum ZRng (spline_ops (fun m => m) z_grad z_args) 2 2 [3] None None ONone (Some bd) [] with
      | Raise _ => false
      | Ok s => zok (sampler_sample s (@P2 ZNum zstart) [] h)
      end
  end.
Example C70_args : @args_ok ZNum ZRng z_args (fun m => m) [] zstart /\ @grad_shape ZNum zlp [] 2 /\ @linear_law ZNum ZRng z_linear /\ @bias_law ZNum ZRng z_linear.
Proof.
  assert (Hg : @grad_shape ZNum zlp [] 2) by (intros x Hx; cbn; now rewrite map_length).
  split; [|split; [exact Hg|split]].
  - constructor; try reflexivity; try (cbn; lia); try exact Hg.
    + intros x [<-|[<-|[]]]; reflexivity.
    + intros k n. cbn. now rewrite map_length, seq_length.
    + intros k n c. cbn. split; [now rewrite map_length, seq_length|]. intros Hn i Hi. apply in_map_iff in Hi as (j & <- & _). apply Nat.mod_upper_bound. lia.
    + intros m. reflexivity.
  - intros a b k bias. split; [apply repeat_length|]. split; [intros row Hr; apply repeat_spec in Hr; subst; apply repeat_length|].
    intros v. destruct bias; cbn; intros E; [injection E as <-; apply repeat_length|discriminate].
  - intros a b k. eexists. reflexivity.
Qed.
Example C70_runs : z_succeeds z_bundle = true.
Proof. vm_compute. reflexivity. Qed.
Example C70_pt_runs : z_succeeds z_pt_bundle = true.
Proof. vm_compute. reflexivity. Qed.
Print Assumptions C70_conditions.
Print Assumptions C70_trained.
Print Assumptions C70_pt_trained.
Print Assumptions C70_result.
Print Assumptions C70_log_prob.
