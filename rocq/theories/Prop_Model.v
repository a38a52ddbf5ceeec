(** C60: global steps with the repository's own flows: detailed balance against the distribution the
    flow really samples from.

    [model_sample m k 1 = [y]] : the flow proposes y from key k.  [latent m] undoes sampling: it maps the
    proposal back to the standard normal noise it came from, so [density_through n (latent m)
    (std_density n) y d] says that d is the true density with which y is proposed.  [accept_prob run a]:
    a is the probability that the global step accepts.  Balance: target(x) * proposal density(y) * a is
    symmetric in x and y. *)
From Coq Require Import Reals Psatz.
From Coquelicot Require Import Coquelicot.
From Verif Require Import Prelude Num M_Core M_Kernels M_Flow M_Net M_Model RNum MxR Spec_Kernels Spec_Jac Spec_Real Spec_Spline Spec_Flow Spec_Net P_Flow P_Flow6 P_Net3 P_Net4 P_Model P_Model2 P_Model3 P_Model4.
Open Scope R_scope.

(** For any flow model: global steps are balanced against proposal densities dx, dy if and only if
    exp(log_prob) is in the same ratio as these densities. *)
Theorem C60_balance_iff : forall (G : @Rng RNum) (NF : @NFOps RNum G) (pr : @nfp RNum G NF) k k' f d (x y : list R) a b dx dy,
  (0 < nfp_bs pr)%nat -> ignores_n_steps f ->
  m_sample (nfp_model pr) (split k 2 1) 1 = [y] -> m_sample (nfp_model pr) (split k' 2 1) 1 = [x] ->
  accept_prob (flow_run pr k f d x) a -> accept_prob (flow_run pr k' f d y) b ->
  (exp (lp_val f x d) * dy * a = exp (lp_val f y d) * dx * b <->
   exp (m_logp (nfp_model pr) x) * dy = exp (m_logp (nfp_model pr) y) * dx).
Proof. exact @balance_iff. Qed.

Theorem C60_realnvp_balance : forall (G : @Rng RNum), @normal_shape RNum G -> forall decode put grad p bs k k' f d (x y : list R) a b nets,
  let m := decode p in
  good_stats m -> fl_layers m = map coupling_layer (realnvp_layers (fl_n m) nets) -> nets_shape (fl_n m) nets ->
  (forall s t c, In (s, t) nets -> length c = fl_n m -> differentiable (fl_n m) s c /\ differentiable (fl_n m) t c) ->
  (0 < bs)%nat -> ignores_n_steps f ->
  model_sample m (split k 2 1) 1 = [y] -> model_sample m (split k' 2 1) 1 = [x] ->
  let NF := realnvp_ops decode put grad in
  accept_prob (flow_run (@mkNfp RNum G NF p bs) k f d x) a -> accept_prob (flow_run (@mkNfp RNum G NF p bs) k' f d y) b ->
  latent m y = normal (split k 2 1) (fl_n m) /\ latent m x = normal (split k' 2 1) (fl_n m) /\
  exists dx dy, 0 < dx /\ 0 < dy /\
    density_through (fl_n m) (latent m) (std_density (fl_n m)) x dx /\
    density_through (fl_n m) (latent m) (std_density (fl_n m)) y dy /\
    exp (lp_val f x d) * dy * a = exp (lp_val f y d) * dx * b.
Proof. exact @realnvp_balance. Qed.

(** With the affine parts of all layers at their initial value 0. *)
Theorem C60_rqspline_zero_affine_balance : forall (G : @Rng RNum), @normal_shape RNum G -> forall decode put grad p bs k k' f d (x y : list R) a b ps,
  let m := decode p in
  good_stats m -> fl_layers m = map rqs_model_layer (rqs_layers (fl_n m) ps) -> rqs_ok (fl_n m) ps ->
  (forall a b q, In (a, b, q) ps -> a = 0 /\ b = 0 /\
    forall c, length c = fl_n m -> differentiable_to (fl_n m) (fl_n m * (rq_bins q * 3 + 1)) (rq_cond q) c) ->
  (0 < bs)%nat -> ignores_n_steps f ->
  model_sample m (split k 2 1) 1 = [y] -> model_sample m (split k' 2 1) 1 = [x] ->
  let NF := rqs_ops decode put grad in
  accept_prob (flow_run (@mkNfp RNum G NF p bs) k f d x) a -> accept_prob (flow_run (@mkNfp RNum G NF p bs) k' f d y) b ->
  latent m y = normal (split k 2 1) (fl_n m) /\ latent m x = normal (split k' 2 1) (fl_n m) /\
  exists dx dy, 0 < dx /\ 0 < dy /\
    density_through (fl_n m) (latent m) (std_density (fl_n m)) x dx /\
    density_through (fl_n m) (latent m) (std_density (fl_n m)) y dy /\
    exp (lp_val f x d) * dy * a = exp (lp_val f y d) * dx * b.
Proof. exact @rqs_balance. Qed.

(** A model just built by MaskedCouplingRQSpline(...) with the default range. *)
Theorem C60_fresh_rqspline_balance : forall (G : @Rng RNum) li, linear_law li -> @normal_shape RNum G ->
  forall decode put grad p bs k k' f d (x y : list R) a b, (0 < bs)%nat -> ignores_n_steps f ->
  forall n bins w hs L k0, linear_bounded li -> (0 < n)%nat -> (1 <= bins)%nat -> INR bins < 200000 -> (1 <= w)%nat -> INR w <= 399999990 ->
  rqs_new li n L bins (hs ++ [w]) (-10) 10 k0 = Ok (decode p) ->
  let m := decode p in
  model_sample m (split k 2 1) 1 = [y] -> model_sample m (split k' 2 1) 1 = [x] ->
  let NF := rqs_ops decode put grad in
  accept_prob (flow_run (@mkNfp RNum G NF p bs) k f d x) a -> accept_prob (flow_run (@mkNfp RNum G NF p bs) k' f d y) b ->
  latent m y = normal (split k 2 1) n /\ latent m x = normal (split k' 2 1) n /\
  exists dx dy, 0 < dx /\ 0 < dy /\
    density_through n (latent m) (std_density n) x dx /\ density_through n (latent m) (std_density n) y dy /\
    exp (lp_val f x d) * dy * a = exp (lp_val f y d) * dx * b.
Proof. exact @fresh_rqs_balance. Qed.

(** A model just built by RealNVP(...): at points where no relu of its networks is exactly at 0. *)
Theorem C60_fresh_realnvp_balance : forall (G : @Rng RNum) li, linear_law li -> @normal_shape RNum G ->
  forall decode put grad p bs k k' f d (x y : list R) a b, (0 < bs)%nat -> ignores_n_steps f ->
  forall n h L k0, realnvp_new li n L h k0 = Ok (decode p) ->
  let m := decode p in
  model_sample m (split k 2 1) 1 = [y] -> model_sample m (split k' 2 1) 1 = [x] ->
  let NF := realnvp_ops decode put grad in
  accept_prob (flow_run (@mkNfp RNum G NF p bs) k f d x) a -> accept_prob (flow_run (@mkNfp RNum G NF p bs) k' f d y) b ->
  exists ms, Forall2 (fun i st => nvp_pair li n h (split k0 L i) st) (seq 0 L) ms /\
  (flow_off_kinks n 0 ms x -> flow_off_kinks n 0 ms y ->
  latent m y = normal (split k 2 1) n /\ latent m x = normal (split k' 2 1) n /\
  exists dx dy, 0 < dx /\ 0 < dy /\
    density_through n (latent m) (std_density n) x dx /\ density_through n (latent m) (std_density n) y dy /\
    exp (lp_val f x d) * dy * a = exp (lp_val f y d) * dx * b).
Proof. exact @fresh_realnvp_balance. Qed.

(** Once training has moved a layer's shift away from 0, the balance fails: sampling applies the inverses
    of affine part and spline in the wrong order, so log_prob is not the density of what is proposed.
    One-dimensional flow, one layer, any target. *)
Theorem C60_rqspline_trained_refuted : forall (G : @Rng RNum) (decode : list R -> @flow RNum) put grad (p : list R) bs (tg : @lpdf RNum) (d : @datad RNum) (q : @rqspline RNum) (shift : R),
  @normal_shape RNum G -> (forall z : R, exists k, @normal RNum G (split k 2 1) 1 = [z]) ->
  rq_admissible q -> rq_shape q 1 -> rq_conditioned q 1 -> shift <> 0 ->
  (forall xp yp sl, nth 0 (get_params q 1 [0]) ([], [], []) = (xp, yp, sl) -> nth (rq_bins q) sl 0 <> 1) ->
  let m := decode p in
  fl_n m = 1%nat -> good_stats m -> fl_layers m = map rqs_model_layer (rqs_layers 1 [(0, shift, q)]) ->
  (0 < bs)%nat -> ignores_n_steps tg ->
  let S z := unwhiten m (fst (flow_inv (fl_layers m) z)) in
  let NF := rqs_ops decode put grad in
  exists T : list R -> list R,
    (forall z, length z = 1%nat -> T (S z) = z) /\ (forall x, length x = 1%nat -> S (T x) = x) /\
  exists k k' (x y : list R) a b dx dy,
    model_sample m (split k 2 1) 1 = [y] /\ model_sample m (split k' 2 1) 1 = [x] /\
    accept_prob (flow_run (@mkNfp RNum G NF p bs) k tg d x) a /\ accept_prob (flow_run (@mkNfp RNum G NF p bs) k' tg d y) b /\
    density_through 1 T (std_density 1) x dx /\ density_through 1 T (std_density 1) y dy /\
    exp (lp_val tg x d) * dy * a <> exp (lp_val tg y d) * dx * b.
Proof. exact @trained_unbalanced. Qed.

(** Training also unbalances a RealNVP: after one or more optimiser steps from a 0/1 mask the layer's mask
    entries 1 have decayed (C53), and the global steps are no longer balanced.  One layer with constant
    networks, any dimension, any target, any data statistics. *)
Theorem C60_realnvp_trained_refuted : forall (G : @Rng RNum) (decode : list R -> @flow RNum) put grad (p : list R) bs (tg : @lpdf RNum) (d : @datad RNum) (mask rest ss ts : list R) lr momentum (gs : list (list R)) j,
  @normal_shape RNum G ->
  let m := decode p in let n := fl_n m in
  (forall z : list R, length z = n -> exists k, @normal RNum G (split k 2 1) n = z) ->
  good_stats m -> binary_mask n mask -> length ss = n -> length ts = n ->
  0 < lr < 10000 -> gs <> [] -> (forall g i, In g gs -> (i < n)%nat -> nth i g 0 = 0) ->
  let start := (mask ++ rest)%list in
  let mask' := firstn n (fst (adamw_steps (@optimizer_new RNum lr momentum) gs start (adamw_init start))) in
  fl_layers m = [coupling_layer (@mkCoupling RNum mask' (@mlp_affine RNum (fun _ => ss) (fun _ => ts) 1))] ->
  (j < n)%nat -> nth j mask 0 = 1 -> nth j ss 0 <> 0 ->
  (0 < bs)%nat -> ignores_n_steps tg ->
  let S z := unwhiten m (fst (flow_inv (fl_layers m) z)) in
  let NF := realnvp_ops decode put grad in
  exists T : list R -> list R,
    (forall z, length z = n -> T (S z) = z) /\ (forall x, length x = n -> S (T x) = x) /\
  exists k k' (x y : list R) a b dx dy, 0 < dx /\ 0 < dy /\
    model_sample m (split k 2 1) 1 = [y] /\ model_sample m (split k' 2 1) 1 = [x] /\
    accept_prob (flow_run (@mkNfp RNum G NF p bs) k tg d x) a /\ accept_prob (flow_run (@mkNfp RNum G NF p bs) k' tg d y) b /\
    density_through n T (std_density n) x dx /\ density_through n T (std_density n) y dy /\
    exp (lp_val tg x d) * dy * a <> exp (lp_val tg y d) * dx * b.
Proof. exact @trained_nvp_steps. Qed.

(** Concrete cases: a random source whose keys are the noise itself, so every noise value occurs. *)
Definition noise_rng : @Rng RNum := @mkRng RNum R (fun k _ _ => k) (fun k n => repeat k n) (fun k => k)
  (fun _ => 1 / 2) (fun _ n => seq 0 n) (fun _ _ m => repeat 0%nat m).
Example ex_normal_shape : @normal_shape RNum noise_rng.
Proof. intros k n. apply repeat_length. Qed.
Example ex_all_noise z : exists k, @normal RNum noise_rng (@split RNum noise_rng k 2 1) 1 = [z].
Proof. exists z. reflexivity. Qed.
Definition ex_target : @lpdf RNum := @mkLpdf RNum (fun x _ => - (hd 0 x) ^ 2 / 2) (fun x _ => map Ropp x).
Example ex_target_ok : ignores_n_steps ex_target.
Proof. intros x d v. reflexivity. Qed.
(** A one-dimensional spline flow whose only layer has shift b. *)
Definition ex_trained (b : R) : @flow RNum := @mkFlow RNum 1 (map rqs_model_layer (rqs_layers 1 [(0, b, const_q)])) [2] [9].
Example ex_trained_good b : good_stats (ex_trained b).
Proof. repeat split; auto. intros [|i] Hi; cbn in *; try lia; lra. Qed.
Example ex_trained_ok : rqs_ok 1 [(0, 0, const_q)].
Proof. intros a b q [E|[]]. injection E as <- <- <-. exact (conj (proj1 const_q_ok) (conj (proj2 const_q_ok) const_cond)). Qed.
(** Shift 1: not balanced. *)
Example ex_C60_refuted : exists k k' (x y : list R) a b,
  @model_sample RNum noise_rng (ex_trained 1) k 1 = [y] /\ @model_sample RNum noise_rng (ex_trained 1) k' 1 = [x] /\
  accept_prob (flow_run (@mkNfp RNum noise_rng (rqs_ops (fun _ => ex_trained 1) (fun p _ _ => p) (fun p _ => p)) [] 10) k ex_target [] x) a /\
  accept_prob (flow_run (@mkNfp RNum noise_rng (rqs_ops (fun _ => ex_trained 1) (fun p _ _ => p) (fun p _ => p)) [] 10) k' ex_target [] y) b.
Proof.
  destruct (C60_rqspline_trained_refuted noise_rng (fun _ => ex_trained 1) (fun p _ _ => p) (fun p _ => p) [] 10 ex_target [] const_q 1
    ex_normal_shape ex_all_noise (proj1 const_q_ok) (proj2 const_q_ok) const_cond ltac:(lra)) as (T & _ & _ & k & k' & x & y & a & b & _ & _ & H1 & H2 & H3 & H4 & _); auto.
  - intros xp yp sl E H. pose proof (const_slope [0] 2 eq_refl ltac:(lia)) as C. unfold par_s in C. rewrite E in C.
    change (rq_bins const_q) with 2%nat in H. pose (v := nth 2 sl 0 : R). change (v = 1) in H. change (1 < v < 2) in C. lra.
  - apply ex_trained_good.
  - lia.
  - exact ex_target_ok.
  - exists k, k', x, y, a, b. auto.
Qed.
(** Shift 0: proposals from any two keys are balanced. *)
Example ex_C60_zero (k k' : R) (x y : list R) a b : 
  @model_sample RNum noise_rng (ex_trained 0) k 1 = [y] -> @model_sample RNum noise_rng (ex_trained 0) k' 1 = [x] ->
  accept_prob (flow_run (@mkNfp RNum noise_rng (rqs_ops (fun _ => ex_trained 0) (fun p _ _ => p) (fun p _ => p)) [] 10) k ex_target [] x) a ->
  accept_prob (flow_run (@mkNfp RNum noise_rng (rqs_ops (fun _ => ex_trained 0) (fun p _ _ => p) (fun p _ => p)) [] 10) k' ex_target [] y) b ->
  exists dx dy, 0 < dx /\ 0 < dy /\ exp (- (hd 0 x) ^ 2 / 2) * dy * a = exp (- (hd 0 y) ^ 2 / 2) * dx * b.
Proof.
  intros H1 H2 H3 H4.
  destruct (C60_rqspline_zero_affine_balance noise_rng ex_normal_shape (fun _ => ex_trained 0) (fun p _ _ => p) (fun p _ => p) [] 10 k k' ex_target [] x y a b
    [(0, 0, const_q)] (ex_trained_good 0) eq_refl ex_trained_ok) as (_ & _ & dx & dy & Px & Py & _ & _ & E); auto.
  - intros a' b' q [E|[]]. injection E as <- <- <-. split; [auto|split; [auto|]]. intros c Hc. exists (fun _ _ => 0). intros i Hi.
    apply (P_Jac.is_dif_ext _ (fun _ => @nth R i (repeat 1 7) 0)); auto. apply P_Jac.is_dif_const.
  - lia.
  - exact ex_target_ok.
  - exists dx, dy. auto.
Qed.
(** A two-dimensional RealNVP layer after two training steps, with a random source in which every noise
    vector occurs. *)
Definition vec_rng : @Rng RNum := @mkRng RNum (list R) (fun k _ _ => k) (fun k n => firstn n (k ++ repeat 0 n)) (fun k => 0)
  (fun _ => 1 / 2) (fun _ n => seq 0 n) (fun _ _ m => repeat 0%nat m).
Example vec_normal_shape : @normal_shape RNum vec_rng.
Proof. intros k n. cbn [normal vec_rng]. apply firstn_length_le. rewrite app_length, repeat_length. lia. Qed.
Example vec_all_noise n (z : list R) : length z = n -> exists k, @normal RNum vec_rng (@split RNum vec_rng k 2 1) n = z.
Proof. intros Hz. exists z. cbn [normal split vec_rng]. rewrite firstn_app, Hz, Nat.sub_diag, app_nil_r. rewrite <- Hz. apply firstn_all. Qed.
Definition ex_nvp : @flow RNum := @mkFlow RNum 2 [coupling_layer (@mkCoupling RNum
    (firstn 2 (fst (adamw_steps (@optimizer_new RNum (1/1000) (9/10)) [[0; 0; 5]; [0; 0; -2]] ([1; 0] ++ [3])%list (adamw_init ([1; 0] ++ [3])%list))))
    (@mlp_affine RNum (fun _ => [1; 2]) (fun _ => [0; 1]) 1))] [1; 2] [4; 9].
Example ex_nvp_refuted : exists k k' (x y : list R) a b dx dy, 0 < dx /\ 0 < dy /\
    @model_sample RNum vec_rng ex_nvp k 1 = [y] /\ @model_sample RNum vec_rng ex_nvp k' 1 = [x] /\
    accept_prob (flow_run (@mkNfp RNum vec_rng (realnvp_ops (fun _ => ex_nvp) (fun p _ _ => p) (fun p _ => p)) [] 10) k ex_target [] x) a /\
    accept_prob (flow_run (@mkNfp RNum vec_rng (realnvp_ops (fun _ => ex_nvp) (fun p _ _ => p) (fun p _ => p)) [] 10) k' ex_target [] y) b /\
    exp (lp_val ex_target x []) * dy * a <> exp (lp_val ex_target y []) * dx * b.
Proof.
  destruct (C60_realnvp_trained_refuted vec_rng (fun _ => ex_nvp) (fun p _ _ => p) (fun p _ => p) [] 10 ex_target [] [1; 0] [3] [1; 2] [0; 1] (1/1000) (9/10) [[0; 0; 5]; [0; 0; -2]] 0
     vec_normal_shape (vec_all_noise 2)) as (T & _ & _ & k & k' & x & y & a & b & dx & dy & H1 & H2 & H3 & H4 & H5 & H6 & _ & _ & H7); try reflexivity.
  - repeat split; auto. intros [|[|i]] Hi; cbn in *; try lia; lra.
  - split; [reflexivity|]. intros [|[|i]] Hi; cbn in *; auto; lia.
  - lra.
  - discriminate.
  - intros g i [<-|[<-|[]]] Hi; destruct i as [|[|i]]; cbn in *; auto; lia.
  - cbn. lia.
  - cbn. lra.
  - lia.
  - exact ex_target_ok.
  - exists k, k', x, y, a, b, dx, dy. auto 10.
Qed.
Print Assumptions C60_balance_iff.
Print Assumptions C60_realnvp_trained_refuted.
Print Assumptions C60_realnvp_balance.
Print Assumptions C60_rqspline_zero_affine_balance.
Print Assumptions C60_fresh_rqspline_balance.
Print Assumptions C60_fresh_realnvp_balance.
Print Assumptions C60_rqspline_trained_refuted.
