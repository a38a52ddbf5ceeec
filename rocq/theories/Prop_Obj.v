(** C61: the training objective of the flows, and which model a recorded loss belongs to. *)
From Coq Require Import Reals Psatz.
From Coquelicot Require Import Coquelicot.
From Verif Require Import Prelude Num M_Core M_Kernels M_Strategies M_Flow M_Net M_Model RNum MxR Spec Spec_Core Spec_Steps Spec_Kernels Spec_Train Spec_Jac Spec_Real Spec_Spline Spec_Flow Spec_FM Spec_Net Spec_Obj P_Obj P_Obj2 P_Obj3.

Open Scope nat_scope.
(** The loss of an epoch is minus the mean log_prob that the model *before the epoch's last update* gives to
    the epoch's last batch; the model returned with it is one optimiser update further.  (Arbitrary
    arithmetic; [decode p] is the flow with leaves p, [grad] its gradient.) *)
Theorem C61_epoch_loss : forall (N : Num) (G : Rng) (decode : vec -> flow) put logp grad p k tx st data bs v p' st', permutation_law -> 0 < bs <= length data ->
  let NF := model_ops decode put logp grad in
  @train_epoch N G NF p k tx st data bs = Ok (v, p', st') ->
  exists front batch vs p1 st1,
    @updates N G NF tx (p, st) front vs (p1, st1) /\ S (length front) = length data / bs /\
    length batch = bs /\ incl batch data /\
    v = fneg (fmean (map (logp (decode p1)) batch)) /\ adamw_step tx (grad p1 batch) p1 st1 = (p', st').
Proof. exact @C61_epoch_proof. Qed.
(** The same for a whole training run: unless every loss is 1e9 or more (or NaN), the returned model is one
    update after the model that had the smallest recorded loss on some batch of the data. *)
Theorem C61_returned_model : forall (N : Num) (G : Rng) (decode : vec -> flow) put logp grad p k data tx st n bs kf p' st' losses, NumLaws -> permutation_law -> 0 < bs ->
  let NF := model_ops decode put logp grad in
  @train N G NF p k data tx st n bs = Ok (kf, (p', st'), losses) ->
  (exists i v batch p1 st1, first_best (fofZ 1000000000) losses i /\ nth_error losses i = Some v /\
     length batch = Nat.min bs (length data) /\ incl batch data /\
     v = fneg (fmean (map (logp (decode p1)) batch)) /\ adamw_step tx (grad p1 batch) p1 st1 = (p', st')) \/
  ((forall u, In u losses -> (u <.? fofZ 1000000000) = false) /\ (p', st') = (p, st)).
Proof. exact @C61_train_proof. Qed.

Open Scope R_scope.
(** The loss is minus the mean log-density, under the density of the flow's samples, minus the sum of the log
    standard deviations of the data statistics. *)
Theorem C61_realnvp_objective : forall (m : @flow RNum) nets (xs : list (list R)), good_stats m ->
  fl_layers m = map coupling_layer (realnvp_layers (fl_n m) nets) -> nets_shape (fl_n m) nets ->
  (forall s t c, In (s, t) nets -> length c = fl_n m -> differentiable (fl_n m) s c /\ differentiable (fl_n m) t c) ->
  (0 < length xs)%nat -> (forall x, In x xs -> length x = fl_n m) ->
  exists ds : list R, length ds = length xs /\
    (forall i, (i < length xs)%nat -> 0 < nth i ds 0 /\ density_through (fl_n m) (latent m) (std_density (fl_n m)) (nth i xs []) (nth i ds 0)) /\
    @nf_loss RNum (realnvp_log_prob m) xs = - mean_of (length xs) (fun i => ln (nth i ds 0)) - Rsum (fl_n m) (fun i => ln (sqrt (nth i (fl_var m) 0))).
Proof. exact realnvp_objective. Qed.
(** For the spline flow the density is the one of the forward map (which is the density of its samples only
    while sampling inverts the forward map, C30 and C60). *)
Theorem C61_rqspline_objective : forall (G : @Rng RNum) (m : @flow RNum) ps (xs : list (list R)), good_stats m ->
  fl_layers m = map rqs_model_layer (rqs_layers (fl_n m) ps) ->
  (forall a b q, In (a, b, q) ps -> rq_admissible q /\ rq_shape q (fl_n m) /\
    forall c, length c = fl_n m -> differentiable_to (fl_n m) (fl_n m * (rq_bins q * 3 + 1)) (rq_cond q) c) ->
  (0 < length xs)%nat -> (forall x, In x xs -> length x = fl_n m) ->
  exists ds : list R, length ds = length xs /\
    (forall i, (i < length xs)%nat -> 0 < nth i ds 0 /\ density_through (fl_n m) (latent m) (std_density (fl_n m)) (nth i xs []) (nth i ds 0)) /\
    @nf_loss RNum (@rqs_model_logp RNum G m) xs = - mean_of (length xs) (fun i => ln (nth i ds 0)) - Rsum (fl_n m) (fun i => ln (sqrt (nth i (fl_var m) 0))).
Proof. exact @rqs_objective. Qed.
(** Hence, between models with the same data variances, a smaller loss is a larger likelihood. *)
Theorem C61_maximum_likelihood : forall (m1 m2 : @flow RNum) nets1 nets2 (xs : list (list R)), good_stats m1 -> good_stats m2 ->
  fl_n m1 = fl_n m2 -> fl_var m1 = fl_var m2 ->
  fl_layers m1 = map coupling_layer (realnvp_layers (fl_n m1) nets1) -> nets_shape (fl_n m1) nets1 ->
  (forall s t c, In (s, t) nets1 -> length c = fl_n m1 -> differentiable (fl_n m1) s c /\ differentiable (fl_n m1) t c) ->
  fl_layers m2 = map coupling_layer (realnvp_layers (fl_n m2) nets2) -> nets_shape (fl_n m2) nets2 ->
  (forall s t c, In (s, t) nets2 -> length c = fl_n m2 -> differentiable (fl_n m2) s c /\ differentiable (fl_n m2) t c) ->
  (0 < length xs)%nat -> (forall x, In x xs -> length x = fl_n m1) ->
  exists d1 d2 : list R,
    (forall i, (i < length xs)%nat -> 0 < nth i d1 0 /\ density_through (fl_n m1) (latent m1) (std_density (fl_n m1)) (nth i xs []) (nth i d1 0)) /\
    (forall i, (i < length xs)%nat -> 0 < nth i d2 0 /\ density_through (fl_n m2) (latent m2) (std_density (fl_n m2)) (nth i xs []) (nth i d2 0)) /\
    (@nf_loss RNum (realnvp_log_prob m1) xs <= @nf_loss RNum (realnvp_log_prob m2) xs <->
     Rprod (length xs) (fun i => nth i d2 0) <= Rprod (length xs) (fun i => nth i d1 0)).
Proof. exact realnvp_likelihood. Qed.

(** "The returned model has the recorded loss" and "training never returns a model worse than the one given"
    are false.  [shift_flow] is a one-dimensional RealNVP with one trainable parameter; [shift_grad] is the true
    derivative of its loss ... *)
Theorem C61_shift_gradient : forall p (xs : list (list R)), length p = 3%nat -> 0 < nth 2 p 0 -> (0 < length xs)%nat -> (forall x, In x xs -> length x = 1%nat) ->
  is_derive (fun t => @nf_loss RNum (realnvp_log_prob (shift_flow (set_nth 0 t p))) xs) (nth 0 p 0) (nth 0 (shift_grad p xs) 0).
Proof. exact shift_grad_true. Qed.
(** ... and one epoch with learning rate 1 on the data -1, 1 returns a model with a larger loss on the data than
    the given model, whose loss is the one recorded. *)
Theorem C61_returned_not_recorded_refuted : forall (G : @Rng RNum) (k : @key RNum G),
  let p0 := [/ 100; 0; 2] in let data := [[-1]; [1]] in
  exists kf st' p' v,
  @train RNum G (realnvp_ops shift_flow shift_put shift_grad) p0 k data (@optimizer_new RNum 1 (9 / 10)) (adamw_init p0) 1 5 = Ok (kf, (p', st'), [v]) /\
  v = @nf_loss RNum (realnvp_log_prob (shift_flow p0)) data /\
  v < @nf_loss RNum (realnvp_log_prob (shift_flow p')) data.
Proof. exact @worse_proof. Qed.

(** Concrete cases. *)
Example C61_objective_case : exists ds : list R, length ds = 2%nat /\
    (forall i, (i < 2)%nat -> 0 < nth i ds 0 /\ density_through 1 (latent (shift_flow [3; 0; 2])) (std_density 1) (nth i [[-1]; [1]] []) (nth i ds 0)) /\
    @nf_loss RNum (realnvp_log_prob (shift_flow [3; 0; 2])) [[-1]; [1]] = - mean_of 2 (fun i => ln (nth i ds 0)) - Rsum 1 (fun i => ln (sqrt (nth i [2] 0))).
Proof.
  apply (C61_realnvp_objective (shift_flow [3; 0; 2]) [(fun _ => [0], fun _ => [3])] [[-1]; [1]]).
  - repeat split; auto. intros [|i] Hi; cbn in *; [lra|lia].
  - reflexivity.
  - intros s t [E|[]]. injection E as <- <-. split; intros c Hc; reflexivity.
  - intros s t c [E|[]] Hc. injection E as <- <-. split; exists (fun _ _ => 0); intros i Hi; apply P_Jac.is_dif_const.
  - cbn. lia.
  - intros x [<-|[<-|[]]]; reflexivity.
Qed.
(** An epoch of two batches of one example each meets the hypotheses of C61_epoch_loss. *)
Example C61_epoch_case : exists v p' st' p1 batch,
  @train_epoch RNum P_Real3.RRng (realnvp_ops shift_flow shift_put shift_grad) [3; 0; 2] true (@optimizer_new RNum 1 (9 / 10)) (adamw_init [3; 0; 2]) [[-1]; [1]] 1 = Ok (v, p', st') /\
  length batch = 1%nat /\ incl batch [[-1]; [1]] /\ v = @nf_loss RNum (realnvp_log_prob (shift_flow p1)) batch.
Proof.
  assert (PL : @permutation_law RNum P_Real3.RRng) by (intros k n; apply Permutation.Permutation_refl).
  assert (Hb : (0 < 1 <= @length (list R) ([[-1]; [1]])%R)%nat) by (cbn; lia).
  destruct (@P_Train.C35_proof RNum P_Real3.RRng (realnvp_ops shift_flow shift_put shift_grad) [3; 0; 2] true (@optimizer_new RNum 1 (9 / 10)) (adamw_init [3; 0; 2]) [[-1]; [1]] 1 PL Hb)
    as (_ & _ & _ & v & p' & st' & E & _).
  destruct (C61_epoch_loss RNum P_Real3.RRng shift_flow shift_put realnvp_log_prob shift_grad _ _ _ _ _ _ _ _ _ PL Hb E) as (fr & batch & vs & p1 & st1 & _ & _ & H1 & H2 & H3 & _).
  exists v, p', st', p1, batch. auto.
Qed.
Print Assumptions C61_epoch_loss.
Print Assumptions C61_returned_model.
Print Assumptions C61_realnvp_objective.
Print Assumptions C61_rqspline_objective.
Print Assumptions C61_maximum_likelihood.
Print Assumptions C61_shift_gradient.
Print Assumptions C61_returned_not_recorded_refuted.
