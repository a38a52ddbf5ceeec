(** C92: how far the optimisers reach. *)
From Coq Require Import Reals Psatz.
From Coquelicot Require Import Coquelicot.
From Verif Require Import Prelude Num M_Core M_Kernels M_Strategies M_PT M_Bundle M_Flow M_Net M_Model M_Tree M_Spline M_Adam P_Lists RNum Spec Spec_Core Spec_Sampler Spec_Kernels Spec_PT Spec_Bundle Spec_Net Spec_Tree Spec_Run
  P_Tree3 P_Adam Spec_Adam P_Adam1 P_Adam2 P_Adam3 P_Adam4 Prop_Run.
Open Scope R_scope.

(** C92.  AdamOptimization with n_steps steps moves a coordinate that starts inside its bounds by at most 7.3 learning rates
    per step and leaves it inside, for every target, gradient, noise level and key. *)
Theorem C92_optimization : forall (G : @Rng RNum) (NF : @NFOps RNum G) f (lr noise : R) bounds d n ns k (xs : list (list R)) w k' ys w',
  grad_shape f d n -> (forall x, In x xs -> length x = n) ->
  @adam_strategy RNum G NF (adam_optimization f ns lr noise bounds) k xs d w = (Ok (k', ys), w') ->
  forall c j, (c < length xs)%nat -> (j < n)%nat -> coord_in_box bounds j (nth c xs []) ->
  coord_in_box bounds j (nth c ys []) /\ Rabs (nth j (nth c ys []) 0 - nth j (nth c xs []) 0) <= INR ns * (73 / 10) * Rabs lr.
Proof.
  intros G NF f lr noise bounds d n ns k xs w k' ys w' GS HX H c j Hc Hj B.
  destruct (adam_reach_proof f lr noise bounds d n GS ns k xs w k' ys w' HX H c j Hc Hj B) as [B2 D2]. split; [exact B2|exact (reach_steps _ _ _ D2)].
Qed.
(** The first step: every coordinate moves by almost exactly one learning rate, along the gradient times the noise factor
    1 + noise_level * z (one z for all coordinates), then to its bounds. *)
Theorem C92_first_step : forall (G : @Rng RNum) (NF : @NFOps RNum G) f (lr noise : R) bounds d n k (xs : list (list R)) w k' ys w',
  grad_shape f d n -> (forall x, In x xs -> length x = n) ->
  @adam_strategy RNum G NF (adam_optimization f 1 lr noise bounds) k xs d w = (Ok (k', ys), w') ->
  forall c j, (c < length xs)%nat -> (j < n)%nat ->
  let x := nth c xs [] in let s := nth j (lp_grad f x d) 0 * (1 + normal0 (split (split (split k 2 1) (length xs) c) 2 1) * noise) in
  nth j (nth c ys []) 0 = Rmin (Rmax (nth j x 0 + lr * (s / (Rabs s + 1 / 100000000))) (bound bounds j 0)) (bound bounds j 1).
Proof. intros G NF f lr noise bounds d n k xs w k' ys w' GS. exact (adam_one_proof f lr noise bounds d n GS k xs w k' ys w'). Qed.
(** So whenever the noise factor is negative (with the default level 10: z < -1/10) the first step lowers the log-density to
    first order in every coordinate: it goes against the gradient. *)
Theorem C92_wrong_way : forall (G : @Rng RNum) (NF : @NFOps RNum G) f (lr noise : R) bounds d n k (xs : list (list R)) w k' ys w',
  grad_shape f d n -> (forall x, In x xs -> length x = n) -> 0 < lr ->
  @adam_strategy RNum G NF (adam_optimization f 1 lr noise bounds) k xs d w = (Ok (k', ys), w') ->
  forall c j, (c < length xs)%nat -> (j < n)%nat -> let x := nth c xs [] in
  bound bounds j 0 <= nth j x 0 - lr -> nth j x 0 + lr <= bound bounds j 1 ->
  1 + normal0 (split (split (split k 2 1) (length xs) c) 2 1) * noise < 0 -> nth j (lp_grad f x d) 0 <> 0 ->
  (nth j (nth c ys []) 0 - nth j x 0) * nth j (lp_grad f x d) 0 < 0.
Proof.
  intros G NF f lr noise bounds d n k xs w k' ys w' GS HX L H c j Hc Hj x H1 H2 Z Gn.
  pose proof (adam_one_proof f lr noise bounds d n GS k xs w k' ys w' HX H c j Hc Hj) as E. cbv zeta in E. fold x in E.
  pose proof (first_sign lr (nth j x 0) _ _ _ _ L Z Gn H1 H2) as Sg. 
  exact (eq_ind_r (fun v : R => (v - nth j x 0) * nth j (lp_grad f x d) 0 < 0) Sg E).
Qed.

(** C92, training: after any gradients, the next optimiser step moves a parameter by at most the learning rate times
    reach(momentum) + |parameter| / 10000, whatever the gradient. *)
Theorem C92_training_step : forall (lr momentum : R) (gs : list (list R)) (g p : list R) j, 0 <= momentum <= 9 / 10 -> (j < length p)%nat ->
  let a := @optimizer_new RNum lr momentum in let o := adamw_steps a gs p (adamw_init p) in
  Rabs (@nth R j (fst (adamw_step a g (fst o) (snd o))) 0 - @nth R j (fst o) 0) <= Rabs lr * (reach momentum + Rabs (@nth R j (fst o) 0) / 10000).
Proof. intros lr momentum gs g p j [B0 B1]. exact (step_reach_proof lr momentum B0 B1 gs g p j). Qed.
(** Through any history of training calls, on any data, for any number of epochs, a parameter of a flow never exceeds
    the larger of its initial size and 10000 * reach(momentum).  (The data statistics, arrays 1 and 2, are set from the data.) *)
Theorem C92_training_bounded : forall (G : @Rng RNum) li (logp : list (@leaf RNum) -> list R -> R) (sample : list (@leaf RNum) -> key -> nat -> list (list R)) grad
    lv0 n (lr momentum : R) ds lv s i dt sh (v : list R),
  (exists L h k, nvp_tree li n L h k = Ok lv0) \/ (exists L bins hidden (lo hi : R) k, rqs_tree li n L bins hidden lo hi k = Ok lv0) ->
  0 <= momentum <= 9 / 10 -> 0 <= lr <= 10000 ->
  @training_run RNum G (tree_ops logp sample grad) (@optimizer_new RNum lr momentum) lv0 (tree_optimizer_init lv0) ds lv s ->
  lv_at lv0 i = LArr dt sh v -> dt <> DBool -> i <> 1%nat -> i <> 2%nat ->
  exists v', lv_at lv i = LArr dt sh v' /\ length v' = length v /\ forall j, Rabs (nth j v' 0) <= Rmax (Rabs (nth j v 0)) (reach momentum * 10000).
Proof.
  intros G li logp sample grad lv0 n lr momentum ds lv s i dt sh v HT [B0 B1] LR H E Hd N1 N2.
  assert (Hh : @stats_header RNum n lv0).
  { destruct HT as [(L & h & k & HT)|(L & bins & hidden & lo & hi & k & HT)]; [exact (nvp_stats li n L h k lv0 HT)|exact (rqs_stats li n L bins hidden lo hi k lv0 HT)]. }
  exact (proj1 (kept_run logp sample grad lv0 i n dt sh v lr momentum Hd Hh B0 B1 LR ds lv s E N1 N2 H)).
Qed.
(** Hence the flow a user takes out of the resources after a run of RQSpline_MALA: every parameter is at most 73000 in
    absolute value, or no larger than in the flow the constructor made. *)
Theorem C92_bundle : forall (G : @Rng RNum) li chol grad (a : @args RNum G) h bd n nc k o kw s d xs k' xs' w',
  RQSpline_MALA li chol grad a = Ok (h, bd) ->
  @sampler_init RNum G (spline_ops chol grad a) n nc k None None o (Some bd) kw = Ok s -> args_ok a chol d xs -> (0 <= a_lr a <= 10000)%R ->
  sampler_sample s (P2 xs) d h = (Ok (k', xs'), w') ->
  exists lv0 lv,
    rqs_tree li (a_n_dims a) (a_layers a) (a_bins a) (a_hidden a) (fofZ (-10)) (fofZ 10) (split (a_key a) 2 1) = Ok lv0 /\
    content_of w' "model"%string = CPlain (@RModel RNum G (spline_ops chol grad a) lv) /\
    forall i dt sh (v : list R), lv_at lv0 i = LArr dt sh v -> dt <> DBool -> i <> 1%nat -> i <> 2%nat ->
    exists v', lv_at lv i = LArr dt sh v' /\ length v' = length v /\ forall j, Rabs (nth j v' 0) <= Rmax (Rabs (nth j v 0)) 73000.
Proof.
  intros G li chol grad a h bd n nc k o kw s d xs k' xs' w' Hb Hs Ha LR H.
  destruct (C70_trained RNum G li chol grad a h bd n nc k o kw s d xs k' xs' w' Hb Hs Ha H) as (lv0 & ds & lv & st & E0 & _ & HR & _ & HM & _).
  exists lv0, lv. split; [exact E0|]. split; [exact HM|]. intros i dt sh v E Hd N1 N2.
  destruct (C92_training_bounded G li _ _ _ lv0 (a_n_dims a) (a_lr a) (9 / 10) ds lv st i dt sh v (or_intror (ex_intro _ _ (ex_intro _ _ (ex_intro _ _ (ex_intro _ _ (ex_intro _ _ (ex_intro _ _ E0))))))) ltac:(lra) LR HR E Hd N1 N2) as (v' & V1 & V2 & V3).
  exists v'. split; [exact V1|]. split; [exact V2|]. intros j. eapply Rle_trans; [exact (V3 j)|]. pose proof reach_usual as U.
  apply Rmax_case; [apply Rmax_l|eapply Rle_trans; [|apply Rmax_r]]. lra.
Qed.

(* ------------------------------------------------------------------ a concrete case *)
Example C92_case_reach : 0 < reach (9 / 10) <= 73 / 10.
Proof. split; [apply reach_pos; lra|exact reach_usual]. Qed.
(** The default settings, 100 steps of 0.01: the call succeeds from any start, and one inside +-1000 moves by at most 7.3. *)
Example C92_case_default : forall (G : @Rng RNum) (NF : @NFOps RNum G) f d n k (xs : list (list R)) w, grad_shape f d n ->
  (forall x, In x xs -> length x = n /\ forall j, Rabs (nth j x 0) <= 1000) ->
  exists k' ys w', @adam_strategy RNum G NF (adam_defaults f) k xs d w = (Ok (k', ys), w') /\
  forall c j, (c < length xs)%nat -> (j < n)%nat -> Rabs (nth j (nth c ys []) 0 - nth j (nth c xs []) 0) <= 73 / 10.
Proof.
  intros G NF f d n k xs w GS HX.
  destruct (proj2 (proj2 (proj2 (C43_bounds_proof (adam_defaults f) (neg_lpdf f) k xs d))) (or_introl eq_refl)) as ([[k' ys] lps] & E).
  assert (ES : @adam_strategy RNum G NF (adam_defaults f) k xs d w = (Ok (k', ys), w)).
  { unfold adam_strategy. change (ad_logpdf (adam_defaults f)) with f. unfold mbind, mlift, mret. rewrite E. reflexivity. }
  exists k', ys, w. split; [exact ES|]. intros c j Hc Hj.
  assert (B : coord_in_box (ad_bounds (adam_defaults f)) j (nth c xs [])).
  { pose proof (proj2 (HX _ (nth_In xs [] Hc)) j) as A. apply Rabs_le_between in A. unfold coord_in_box. 
    change (bound (ad_bounds (adam_defaults f)) j 0) with (- Rbig). change (bound (ad_bounds (adam_defaults f)) j 1) with (- - Rbig).
    assert (1000 <= Rbig). { unfold Rbig. lra. } lra. }
  destruct (C92_optimization G NF f (1 / 100) 10 (ad_bounds (adam_defaults f)) d n 100 k xs w k' ys w GS (fun x Hx => proj1 (HX x Hx)) ES c j Hc Hj B) as [_ D].
  assert (T : INR 100 * (73 / 10) * Rabs (1 / 100) <= 73 / 10).
  { rewrite (Rabs_right (1 / 100)) by lra. rewrite INR_IZR_INZ. change (Z.of_nat 100) with 100%Z. lra. }
  exact (Rle_trans _ _ _ D T).
Qed.

Print Assumptions C92_optimization.
Print Assumptions C92_first_step.
Print Assumptions C92_wrong_way.
Print Assumptions C92_training_step.
Print Assumptions C92_training_bounded.
Print Assumptions C92_bundle.
