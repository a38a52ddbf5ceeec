(** C70: what the two bundles build from the arguments users give them. *)
From Verif Require Import Prelude Num M_Core M_Kernels M_Strategies M_PT M_Bundle M_Flow M_Net M_Model M_Tree M_Spline P_Lists
  Spec Spec_Core Spec_Steps Spec_Train Spec_PT Spec_Bundle P_Tree2 P_Bundle6.
Open Scope nat_scope.

(** C70.  Every argument reaches the object it is meant for.  [window] is history_window for the tempered bundle and 100
    for the other one. *)
Theorem C70_arguments : forall (N : Num) (G : Rng) li chol grad (a : args) h bd window,
  (RQSpline_MALA li chol grad a = Ok (h, bd) /\ window = 100) \/
  (exists nt mt steps prior, RQSpline_MALA_PT li chol grad a nt mt steps prior = Ok (h, bd) /\ window = a_window a) ->
  let w := mkWorld h (bd_resources bd) in
  (exists m, rqs_tree li (a_n_dims a) (a_layers a) (a_bins a) (a_hidden a) (fofZ (-10)) (fofZ 10) (split (a_key a) 2 1) = Ok m /\
     dget (rdict w) "model" = Some (@RModel N G (spline_ops chol grad a) m) /\
     dget (rdict w) "global_sampler" = Some (@RNFP N G (spline_ops chol grad a) (@mkNfp N G (spline_ops chol grad a) m (a_nf_bs a))) /\
     exists ol, optimizer_named w "optimizer" ol (@mkOptimizer N G (spline_ops chol grad a) (optimizer_new (a_lr a) (fofZ 9 /. fofZ 10)) (tree_optimizer_init m))) /\
  dget (rdict w) "local_sampler" = Some (RSer (mala_kernel (a_step a))) /\
  (exists lp, dget (rdict w) "logpdf" = Some (RLog lp) /\ l_pdf lp = a_logpdf a /\ length (l_vars lp) = a_n_dims a /\
     forall i, i < a_n_dims a -> nth_error (l_vars lp) i = Some (mkVar (append "x_" (str_of_nat i)) true)) /\
  (exists cl cg, cl <> cg /\
     dget (bd_strategies bd) "local_stepper" = Some (take_serial_steps (mkTakeSteps "logpdf" "local_sampler" "sampler_state"
       "target_positions" "target_log_prob" "target_local_accs" (a_local a) (a_local_th a) (a_chain_batch a) cl)) /\
     dget (bd_strategies bd) "global_stepper" = Some (take_group_steps (mkTakeSteps "logpdf" "global_sampler" "sampler_state"
       "target_positions" "target_log_prob" "target_global_accs" (a_global a) (a_global_th a) (a_chain_batch a) cg))) /\
  dget (bd_strategies bd) "model_trainer" = Some (train_model (mkTrainModel "model" "positions_training" "optimizer" "loss_buffer"
       (a_epochs a) (a_batch a) (a_max a) window)).
Proof.
  intros N G li chol grad a h bd window H w.
  destruct (rqs_tree_ok li (a_n_dims a) (a_layers a) (a_bins a) (a_hidden a) (fofZ (-10)) (fofZ 10) (split (a_key a) 2 1)) as [m Em].
  assert (E : spline_model li a (split (a_key a) 2 1) = m) by (unfold spline_model; rewrite Em; reflexivity).
  assert (V : forall i, i < a_n_dims a -> nth_error (map (fun i => mkVar (append "x_" (str_of_nat i)) true) (seq 0 (a_n_dims a))) i = Some (mkVar (append "x_" (str_of_nat i)) true)).
  { intros i Hi. erewrite map_nth_error; [reflexivity|]. rewrite nth_error_nth' with (d := 0) by (now rewrite seq_length). now rewrite seq_nth. }
  assert (Hc : L_lcur <> L_gcur) by discriminate.
  destruct H as [[H ->]|(nt & mt & steps & prior & H & ->)].
  - unfold RQSpline_MALA, rqspline_mala_bundle in H. destruct (_ || _); [discriminate|]. injection H as <- <-. subst w.
    split; [exists m; split; [exact Em|]; split; [|split; [|exists L_opt; split]]; cbn; rewrite ?E; reflexivity|].
    split; [reflexivity|]. split; [eexists; split; [reflexivity|]; split; [reflexivity|]; split; [cbn; now rewrite map_length, seq_length|exact V]|].
    split; [exists L_lcur, L_gcur; split; [exact Hc|split; reflexivity]|reflexivity].
  - unfold RQSpline_MALA_PT, rqspline_mala_pt_bundle in H. destruct (_ || _); [discriminate|]. destruct (_ =? 0); [discriminate|]. injection H as <- <-. subst w.
    split; [exists m; split; [exact Em|]; split; [|split; [|exists L_opt; split]]; cbn; rewrite ?E; reflexivity|].
    split; [reflexivity|]. split; [eexists; split; [reflexivity|]; split; [reflexivity|]; split; [cbn; now rewrite map_length, seq_length|exact V]|].
    split; [exists L_lcur, L_gcur; split; [exact Hc|split; reflexivity]|reflexivity].
Qed.
(** The further arguments of the tempered bundle: the prior, the temperatures from 1 to max_temperature, and the number of
    tempered steps (n_local_steps if it is not positive). *)
Theorem C70_pt_arguments : forall (N : Num) (G : Rng) li chol grad (a : args) nt mt steps prior h bd,
  RQSpline_MALA_PT li chol grad a nt mt steps prior = Ok (h, bd) ->
  let w := mkWorld h (bd_resources bd) in
  (exists t, dget (rdict w) "tempered_logpdf" = Some (RTemp t) /\ t_prior t = prior /\ dget (rdict w) "logpdf" = Some (RLog (t_base t))) /\
  (exists l b, buffer_named w "temperatures" l b /\ temps_of b = linspace f1 mt nt) /\
  (exists l b, buffer_named w "tempered_positions" l b /\ ashape (b_data b) = [a_n_chains a; nt - 1; a_n_dims a]) /\
  exists n, (if (0 <? steps)%Z then Z.of_nat n = steps else n = a_local a) /\
    dget (bd_strategies bd) "parallel_tempering" = Some (parallel_tempering
      (mkPtemp n "tempered_logpdf" "local_sampler" "tempered_positions" "temperatures" "sampler_state")).
Proof.
  intros N G li chol grad a nt mt steps prior h bd H w. unfold RQSpline_MALA_PT, rqspline_mala_pt_bundle in H.
  destruct (_ || _); [discriminate|]. destruct (_ =? 0) eqn:E0; [discriminate|]. injection H as <- <-. subst w.
  split; [eexists; split; [reflexivity|split; reflexivity]|].
  split; [exists L_temp; eexists; split; [split; [reflexivity|reflexivity]|]; exact (temps_initial (spline_pt_config li chol grad a nt mt steps prior))|].
  split; [exists L_tpos; eexists; split; [split; reflexivity|reflexivity]|].
  exists (if (steps <=? 0)%Z then a_local a else Z.to_nat steps). split; [|reflexivity].
  destruct (Z.ltb_spec 0 steps), (Z.leb_spec steps 0); lia.
Qed.

Print Assumptions C70_arguments. Print Assumptions C70_pt_arguments.
