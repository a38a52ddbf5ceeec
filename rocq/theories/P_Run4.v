(** What a user finds in the resources after a run. *)
From Verif Require Import Prelude Num M_Core M_Kernels M_Strategies M_PT M_Bundle M_Flow M_Net M_Model M_Tree M_Spline P_Lists
  Spec Spec_Core Spec_Sampler Spec_Steps Spec_Kernels Spec_Train Spec_PT Spec_Bundle Spec_Net Spec_Tree Spec_Run P_Tree1 P_Tree2 P_Tree3 P_Tree4 P_Tree5 P_Tree8 P_Tree13 P_Run1 P_Run2.
Section Result.
Context {N : Num} {G : Rng}.
Variable li : nat -> nat -> key -> bool -> linear.
Hypothesis Hli : linear_law li.
Hypothesis Hbl : bias_law li.
Lemma spline_final chol grad a h bd n nc k o kw s d xs k' xs' w' :
  (RQSpline_MALA li chol grad a = Ok (h, bd) \/
   (exists nt mt steps prior, RQSpline_MALA_PT li chol grad a nt mt steps prior = Ok (h, bd) /\ grad_shape prior d (a_n_dims a) /\ 0 < a_n_chains a)) ->
  @sampler_init N G (spline_ops chol grad a) n nc k None None o (Some bd) kw = Ok s -> args_ok a chol d xs ->
  sampler_sample s (P2 xs) d h = (Ok (k', xs'), w') ->
  exists lv0 lv, content_of w' "model" = CPlain (@RModel N G (spline_ops chol grad a) lv) /\
    rqs_tree li (a_n_dims a) (a_layers a) (a_bins a) (a_hidden a) (fofZ (-10)) (fofZ 10) (split (a_key a) 2 1) = Ok lv0 /\
    only_floats_differ lv0 lv.
Proof.
  intros Hb Hs Hok H.
  assert (K : exists lv0 ds lv st,
    rqs_tree li (a_n_dims a) (a_layers a) (a_bins a) (a_hidden a) (fofZ (-10)) (fofZ 10) (split (a_key a) 2 1) = Ok lv0 /\
    @Spec_Tree.training_run N G (spline_ops chol grad a) (optimizer_new (a_lr a) (fofZ 9 /. fofZ 10)) lv0 (tree_optimizer_init lv0) ds lv st /\
    content_of w' "model" = CPlain (@RModel N G (spline_ops chol grad a) lv)).
  { destruct Hb as [Hb|(nt & mt & steps & prior & Hb & Hp & Hc)].
    - destruct (spline_trained li chol grad a h bd n nc k o kw s d xs k' xs' w' Hb Hs Hok H) as (lv0 & ds & lv & st & E0 & _ & R & _ & C & _). exists lv0, ds, lv, st. auto.
    - destruct (spline_pt_trained li chol grad a nt mt steps prior h bd n nc k o kw s d xs k' xs' w' Hb Hs Hok Hp Hc H) as (lv0 & ds & lv & st & E0 & _ & R & _ & C & _). exists lv0, ds, lv, st. auto. }
  destruct K as (lv0 & ds & lv & st & E0 & R & C). exists lv0, lv. split; [exact C|]. split; [exact E0|].
  exact (run_ofd _ _ grad _ _ _ _ _ _ _ (rqs_stats li _ _ _ _ _ _ _ _ E0) R).
Qed.
Lemma spline_result chol grad a h bd n nc k o kw s d xs k' xs' w' :
  (RQSpline_MALA li chol grad a = Ok (h, bd) \/
   (exists nt mt steps prior, RQSpline_MALA_PT li chol grad a nt mt steps prior = Ok (h, bd) /\ grad_shape prior d (a_n_dims a) /\ 0 < a_n_chains a)) ->
  @sampler_init N G (spline_ops chol grad a) n nc k None None o (Some bd) kw = Ok s -> args_ok a chol d xs ->
  sampler_sample s (P2 xs) d h = (Ok (k', xs'), w') ->
  exists lv, content_of w' "model" = CPlain (@RModel N G (spline_ops chol grad a) lv) /\
    (forall i, i < a_layers a -> row_at (a_n_dims a) (lv_at lv 9) i = rqs_mask (a_n_dims a) i /\ row_at (a_n_dims a) (lv_at lv 6) i = repeat f0 (a_n_dims a)) /\
    lv_at lv 10 = LFloat (fofZ (-10)) /\ lv_at lv 11 = LFloat (fofZ 10) /\
    forall lo hi k1 like, rqs_tree li (a_n_dims a) (a_layers a) (a_bins a) (a_hidden a) lo hi k1 = Ok like ->
      forall fs path, load_model (save_model fs path lv) path like = Ok lv.
Proof.
  intros Hb Hs Hok H. destruct (spline_final chol grad a h bd n nc k o kw s d xs k' xs' w' Hb Hs Hok H) as (lv0 & lv & C & E0 & Ho).
  exists lv. split; [exact C|].
  destruct (rqs_trained_facts li Hli Hbl (ao_normal _ _ _ _ Hok) _ _ _ _ _ _ _ _ _ E0 Ho) as [_ f2 f3 f4 f5 _ _ _ _].
  split; [|split; [exact f4|split; [exact f5|]]].
  - intros i Hi. rewrite f2, f3. split.
    + apply (row_mask (rqs_mask (a_n_dims a))); auto using rqs_mask_len.
    + apply (row_mask (fun _ => repeat f0 (a_n_dims a))); auto. intros. apply repeat_length.
  - intros lo hi k1 like E1 fs path. rewrite (load_save0 fs path lv like). rewrite <- (app_nil_r (serialise lv)). apply deser_ok.
    unfold same_structure. rewrite (rqs_tree_skel li _ _ _ _ _ _ _ _ E1), <- (rqs_tree_skel li _ _ _ _ _ _ _ _ E0). exact (ofd_skel _ _ Ho).
Qed.
End Result.
