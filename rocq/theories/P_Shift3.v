(** Adding a constant to the log-density: the bundles, any history of calls. *)
From Verif Require Import Prelude Num M_Core M_Kernels M_Strategies M_PT M_Bundle M_Net M_Mala M_Tree M_Spline M_Flow P_Lists P_Kernels P_Steps
  Spec_Train Spec_Bundle Spec_Kinds Spec_Shift P_Shift1 P_Shift2.
Open Scope nat_scope.

Section Shift.
Context {N : Num} {G : Rng} {NF : NFOps}.
Hypothesis LAWS : ShiftLaws N.
Hypothesis HS : forall m k n, length (m_sample m k n) = n.
Variables c q : F.

Lemma plus_zero_rel (b : buffer) sh name dim : b = buffer_init name sh dim -> brel c b b.
Proof. intros ->. unfold brel. cbn. repeat (split; [reflexivity|]). auto. Qed.
Lemma init_state_ok : state_ok init_state.
Proof.
  intros key v Hk H. destruct Hk as [<-|[<-|[<-|[<-|[]]]]]; cbn in H; injection H as <-; left; reflexivity.
Qed.
(** The objects the bundles create. *)
Lemma heap_ok (h : list obj) (w w' : world) : heap w = h -> heap w' = h ->
  (forall l o, nth_error h l = Some o -> objrel c l o o) -> forall l, optrel (objrel c l) (hget l w) (hget l w').
Proof. intros E1 E2 H l. unfold hget. rewrite E1, E2. specialize (H l). destruct (nth_error h l); cbn; auto. Qed.
Lemma base_objs cf m l o : nth_error (base_heap cf m) l = Some o -> objrel c l o o.
Proof.
  unfold base_heap.
  do 13 (destruct l as [|l]; [cbn [nth_error]; intros E; injection E as <-; unfold objrel; cbn [is_lp L_lp_tr L_lp_pr Nat.eqb orb];
    first [ eexists _, _; split; [reflexivity|split; [reflexivity|eapply plus_zero_rel; reflexivity]]
          | split; [reflexivity|intros s E; first [discriminate E | injection E as <-; apply init_state_ok]]]|]).
  cbn. destruct l; discriminate.
Qed.
Lemma pt_objs pc m l o : nth_error (pt_heap pc m) l = Some o -> objrel c l o o.
Proof.
  unfold pt_heap. destruct (Nat.ltb l 13) eqn:E.
  - apply Nat.ltb_lt in E. rewrite nth_error_app1 by (cbn; exact E). apply base_objs.
  - apply Nat.ltb_ge in E. rewrite nth_error_app2 by (cbn; exact E). change (length (base_heap (p_base pc) m)) with 13.
    assert (Hl : is_lp l = false).
    { unfold is_lp, L_lp_tr, L_lp_pr. destruct (Nat.eqb_spec l 1), (Nat.eqb_spec l 6); try reflexivity; exfalso; subst; lia. }
    intros H. unfold objrel. rewrite Hl. split; [reflexivity|]. intros s ->. destruct (l - 13) as [|[|[|]]]; discriminate H.
Qed.

Ltac names := repeat match goal with |- context [String.eqb ?n ?s] => let E := fresh in destruct (String.eqb n s) eqn:E;
  [apply String.eqb_eq in E; subst n; cbn [optrel entrel]; try (split; [reflexivity|]); auto|] end.
Lemma base_dict cf g m : plus_constant c (c_logpdf cf) g -> forall name,
  optrel (entrel c q name) (dget (base_resources cf m) name) (dget (base_resources (with_target cf g) m) name).
Proof.
  intros H name. unfold base_resources. cbn [dget]. names.
  - eexists; split; [reflexivity|]. split; [exact H|reflexivity].
  - apply (mala_shift LAWS).
  - exact I.
Qed.
Lemma dget_app' {V} (a b : dict V) n : dget (a ++ b) n = match dget a n with Some v => Some v | None => dget b n end.
Proof. induction a as [|[k v] a IH]; cbn; auto. destruct (String.eqb n k); auto. Qed.
Lemma pt_dict pc g p m : plus_constant c (c_logpdf (p_base pc)) g -> plus_constant q (p_prior pc) p -> forall name,
  optrel (entrel c q name) (dget (pt_resources pc m) name) (dget (pt_resources (with_targets pc g p) m) name).
Proof.
  intros H Hp name. unfold pt_resources. rewrite !dget_app'. pose proof (base_dict (p_base pc) g m H name) as K.
  change (p_base (with_targets pc g p)) with (with_target (p_base pc) g).
  destruct (dget (base_resources (p_base pc) m) name), (dget (base_resources (with_target (p_base pc) g) m) name); cbn [optrel] in K; try contradiction; [exact K|].
  cbn [dget]. names; [|exact I]. eexists; split; [reflexivity|]. split; [split; [exact H|exact Hp]|reflexivity].
Qed.
Lemma named_lp (R : dict resource) : dget R "log_prob_training" = Some (RObj L_lp_tr) -> dget R "log_prob_production" = Some (RObj L_lp_pr) ->
  forall name l, dget tab name = Some l -> is_lp l = true -> dget R name = Some (RObj l).
Proof.
  intros H1 H2 name l Ht Hl. pose proof (lp_name_spec _ _ Ht Hl) as E. unfold lp_name in E. apply orb_prop in E as [E|E]; apply String.eqb_eq in E; subst name.
  - rewrite H1. vm_compute in Ht. injection Ht as <-. reflexivity.
  - rewrite H2. vm_compute in Ht. injection Ht as <-. reflexivity.
Qed.
Lemma base_rel cf g m : plus_constant c (c_logpdf cf) g ->
  rel c q (mkWorld (base_heap cf m) (base_resources cf m)) (mkWorld (base_heap (with_target cf g) m) (base_resources (with_target cf g) m)).
Proof.
  intros H. constructor; cbn [heap rdict].
  - apply (heap_ok (base_heap cf m)); [reflexivity|reflexivity|apply base_objs].
  - now apply base_dict.
  - now apply named_lp.
  - intros l Hl. apply orb_prop in Hl as [E|E]; apply Nat.eqb_eq in E; subst l; discriminate.
Qed.
Lemma pt_rel pc g p m : plus_constant c (c_logpdf (p_base pc)) g -> plus_constant q (p_prior pc) p ->
  rel c q (mkWorld (pt_heap pc m) (pt_resources pc m)) (mkWorld (pt_heap (with_targets pc g p) m) (pt_resources (with_targets pc g p) m)).
Proof.
  intros H Hp. constructor; cbn [heap rdict].
  - apply (heap_ok (pt_heap pc m)); [reflexivity|reflexivity|apply pt_objs].
  - now apply pt_dict.
  - now apply named_lp.
  - intros l Hl. apply orb_prop in Hl as [E|E]; apply Nat.eqb_eq in E; subst l; discriminate.
Qed.

(** Any calls of sample. *)
Lemma sim_calls (S0 : dict strategy) : (forall name st, dget S0 name = Some st -> strat_sim c q st) ->
  forall args s s' h h', sm_strategies s = S0 -> sm_strategies s' = S0 -> sm_order s' = sm_order s -> sm_key s' = sm_key s ->
  rel c q (mkWorld h (sm_resources s)) (mkWorld h' (sm_resources s')) -> rel c q (calls_of s h args) (calls_of s' h' args).
Proof.
  intros HSt. induction args as [|[init d] args IH]; intros s s' h h' E1 E2 E3 E4 R; cbn [calls_of]; [exact R|].
  assert (K : rel c q (snd (sampler_sample s init d h)) (snd (sampler_sample s' init d h'))).
  { unfold sampler_sample. rewrite E3, E4, E1, E2. destruct (sm_order s); try exact R. apply (sim_run c q S0 HSt); exact R. }
  apply IH; cbn; auto. revert K. destruct (snd (sampler_sample s init d h)), (snd (sampler_sample s' init d h')). auto.
Qed.

(** What the relation says. *)
Lemma rel_log_probs w w' name l : rel c q w w' -> dget tab name = Some l -> is_lp l = true -> log_probs_moved c w w' name.
Proof.
  intros R Ht Hl. pose proof (rl_named _ _ _ _ R _ _ Ht Hl) as E. pose proof (rl_dict _ _ _ _ R name) as D. rewrite E in D.
  destruct (dget (rdict w') name) as [r'|] eqn:E'; cbn [optrel entrel] in D; [|contradiction]. destruct D as [-> _].
  pose proof (rl_heap _ _ _ _ R l) as K. pose proof (rl_some _ _ _ _ R l Hl) as K'. unfold objrel in K. rewrite Hl in K.
  destruct (hget l w) as [o|] eqn:F, (hget l w') as [o'|] eqn:F'; cbn [optrel] in K; try contradiction.
  destruct K as (b & b' & -> & -> & B1 & B2 & B3 & B4 & B5). exists l, b, l, b'. unfold buffer_named. auto 12.
Qed.
Lemma rel_same w w' : rel c q w w' ->
  same_but_log_probs c w w'.
Proof.
  intros R. split; [|split; [|split]].
  - intros name Hn. unfold content_of. pose proof (rl_dict _ _ _ _ R name) as D.
    destruct (dget (rdict w) name) as [r|] eqn:E, (dget (rdict w') name) as [r'|]; cbn [optrel] in D; try contradiction; [|reflexivity].
    destruct r as [l|a|a|kf|p|m]; cbn [entrel] in D; try (exfalso; apply Hn; destruct D as (b & _ & _ & ->); cbn; tauto); destruct D as [-> D]; try reflexivity.
    f_equal. pose proof (rl_heap _ _ _ _ R l) as K. unfold objrel in K. destruct (is_lp l) eqn:El.
    + exfalso. apply Hn. pose proof (lp_name_spec _ _ D El) as L. unfold lp_name in L. apply orb_prop in L as [L|L]; apply String.eqb_eq in L; rewrite L; cbn; tauto.
    + destruct (hget l w), (hget l w'); cbn [optrel] in K; try contradiction; [|reflexivity]. destruct K as [-> _]. reflexivity.
  - intros l z. pose proof (rl_heap _ _ _ _ R l) as K. unfold objrel in K. destruct (is_lp l).
    + destruct (hget l w), (hget l w'); cbn [optrel] in K; try contradiction; [|tauto]. destruct K as (b & b' & -> & -> & _). split; discriminate.
    + destruct (hget l w), (hget l w'); cbn [optrel] in K; try contradiction; [|tauto]. destruct K as [-> _]. tauto.
  - now apply (rel_log_probs w w' _ L_lp_tr).
  - now apply (rel_log_probs w w' _ L_lp_pr).
Qed.

Lemma base_shift cf g h bd h' bd' n nc k o kw s s' args init d j k0 :
  plus_constant c (c_logpdf cf) g ->
  rqspline_mala_bundle cf = Ok (h, bd) -> rqspline_mala_bundle (with_target cf g) = Ok (h', bd') ->
  sampler_init n nc k None None o (Some bd) kw = Ok s -> sampler_init n nc k None None o (Some bd') kw = Ok s' ->
  let r := run_order (bd_strategies bd) (firstn j (bd_order bd)) k0 (atleast_2d init) d (calls_of s h args) in
  let r' := run_order (bd_strategies bd') (firstn j (bd_order bd')) k0 (atleast_2d init) d (calls_of s' h' args) in
  fst r' = fst r /\ same_but_log_probs c (snd r) (snd r').
Proof.
  intros H B B' I I'. unfold rqspline_mala_bundle in B, B'.
  change (c_local_th (with_target cf g)) with (c_local_th cf) in B'. change (c_global_th (with_target cf g)) with (c_global_th cf) in B'.
  destruct (_ || _); [discriminate|]. injection B as <- <-. injection B' as <- <-. cbn [sampler_init] in I, I'. injection I as <-. injection I' as <-.
  cbn [bd_strategies bd_order].
  assert (HSt : forall name st, dget (base_strategies cf 100) name = Some st -> strat_sim c q st) by (intros; eapply base_sim; eauto).
  destruct (sim_run c q _ HSt (firstn j (base_order cf)) k0 (atleast_2d init) d _ _
    (sim_calls _ HSt args
      (mkSampler n nc k (base_resources cf (c_model cf (split (c_key cf) 2 1))) (base_strategies cf 100) (OList (base_order cf)) (apply_kwargs kw))
      (mkSampler n nc k (base_resources (with_target cf g) (c_model cf (split (c_key cf) 2 1))) (base_strategies cf 100) (OList (base_order cf)) (apply_kwargs kw))
      _ _ eq_refl eq_refl eq_refl eq_refl (base_rel cf g (c_model cf (split (c_key cf) 2 1)) H))) as [R1 R2].
  split; [|exact (rel_same _ _ R2)].
  revert R1. match goal with |- rrel eq ?a ?b -> _ => change (rrel eq a b -> b = a); destruct a, b; cbn; try contradiction; congruence end.
Qed.
Lemma pt_shift pc g p h bd h' bd' n nc k o kw s s' args init d j k0 :
  plus_constant c (c_logpdf (p_base pc)) g -> plus_constant q (p_prior pc) p ->
  rqspline_mala_pt_bundle pc = Ok (h, bd) -> rqspline_mala_pt_bundle (with_targets pc g p) = Ok (h', bd') ->
  sampler_init n nc k None None o (Some bd) kw = Ok s -> sampler_init n nc k None None o (Some bd') kw = Ok s' ->
  let r := run_order (bd_strategies bd) (firstn j (bd_order bd)) k0 (atleast_2d init) d (calls_of s h args) in
  let r' := run_order (bd_strategies bd') (firstn j (bd_order bd')) k0 (atleast_2d init) d (calls_of s' h' args) in
  fst r' = fst r /\ same_but_log_probs c (snd r) (snd r').
Proof.
  intros H Hp B B' I I'. unfold rqspline_mala_pt_bundle in B, B'. cbv zeta in B, B'.
  change (c_local_th (p_base (with_targets pc g p))) with (c_local_th (p_base pc)) in B'. change (c_global_th (p_base (with_targets pc g p))) with (c_global_th (p_base pc)) in B'.
  change (p_n_temps (with_targets pc g p)) with (p_n_temps pc) in B'.
  destruct (_ || _); [discriminate|]. destruct (p_n_temps pc =? 0); [discriminate|].
  injection B as <- <-. injection B' as <- <-. cbn [sampler_init] in I, I'. injection I as <-. injection I' as <-.
  cbn [bd_strategies bd_order].
  assert (HSt : forall name st, dget (pt_strategies pc) name = Some st -> strat_sim c q st) by (intros; eapply pt_sim; eauto).
  destruct (sim_run c q _ HSt (firstn j (pt_order pc)) k0 (atleast_2d init) d _ _
    (sim_calls _ HSt args
      (mkSampler n nc k (pt_resources pc (c_model (p_base pc) (split (c_key (p_base pc)) 2 1))) (pt_strategies pc) (OList (pt_order pc)) (apply_kwargs kw))
      (mkSampler n nc k (pt_resources (with_targets pc g p) (c_model (p_base pc) (split (c_key (p_base pc)) 2 1))) (pt_strategies pc) (OList (pt_order pc)) (apply_kwargs kw))
      _ _ eq_refl eq_refl eq_refl eq_refl (pt_rel pc g p (c_model (p_base pc) (split (c_key (p_base pc)) 2 1)) H Hp))) as [R1 R2].
  split; [|exact (rel_same _ _ R2)].
  revert R1. match goal with |- rrel eq ?a ?b -> _ => change (rrel eq a b -> b = a); destruct a, b; cbn; try contradiction; congruence end.
Qed.
End Shift.

Section Kernels.
Context {N : Num} {G : Rng}.
Hypothesis LAWS : ShiftLaws N.
Lemma one_step_shift kern : one_step_kernel kern -> kshift kern.
Proof.
  intros [[ss ->]|[[ss ->]|[(chol & dt & ->)|[h ->]]]]; [now apply grw_shift|now apply mala_shift|now apply mat_mala_shift|now apply hmc_shift].
Qed.
Lemma kernels_shift c f g kern k x lp d : plus_constant c f g -> one_step_kernel kern -> same_step c (kern k x lp f d) (kern k x (lp +. c) g d).
Proof. intros H K. apply same_step_rrel. now apply one_step_shift. Qed.
Lemma steps_rrel c r r' : rrel (Forall2 (orel c)) r r' -> same_steps c r r'.
Proof.
  destruct r as [l|e], r' as [l'|e']; cbn; try tauto. intros H. split.
  - symmetry. clear -H. induction H; cbn; congruence.
  - intros i Hi. exact (proj2 (same_step_rrel c (Ok _) (Ok _)) (Forall2_nth' _ _ _ ([], f0, false) ([], f0, false) i H Hi)).
Qed.
Lemma serial_shift c f g kern d n k x : plus_constant c f g -> one_step_kernel kern ->
  same_steps c (serial_sample kern f d n k x) (serial_sample kern g d n k x).
Proof.
  intros H K. apply steps_rrel. unfold serial_sample. rewrite (proj1 (H x d)). apply serial_scan_shift; [now apply one_step_shift|exact H].
Qed.
End Kernels.
Lemma group_shift (N : Num) (G : Rng) (NF : NFOps) (LAWS : ShiftLaws N) c f g p d n k x : plus_constant c f g ->
  (forall m k n, length (m_sample m k n) = n) -> same_steps c (group_sample p f d n k x) (group_sample p g d n k x).
Proof.
  intros H HS. apply steps_rrel. unfold group_sample. rewrite (proj1 (H x d)).
  pose proof (nfp_shift LAWS HS c f g p k x (lp_val f x d) (with_n_steps d n) n H (dget_dset_eq _ _ _)) as K.
  destruct (nfp_kernel p k x (lp_val f x d) f (with_n_steps d n)), (nfp_kernel p k x (lp_val f x d +. c) g (with_n_steps d n)); cbn in K |- * ; tauto.
Qed.
Lemma adam_strategy_shift (N : Num) (G : Rng) (NF : NFOps) c (a : adam) g k xs d w : plus_constant c (ad_logpdf a) g ->
  adam_strategy (adam_with a g) k xs d w = adam_strategy a k xs d w.
Proof.
  intros H. unfold adam_strategy, adam_optimize. change (ad_bounds (adam_with a g)) with (ad_bounds a).
  destruct ((nth 0 (ashape (ad_bounds a)) 0 =? 1) || (nth 0 (ashape (ad_bounds a)) 0 =? length (nth 0 xs []))); [|reflexivity].
  unfold mbind, mlift, mret. f_equal. f_equal. f_equal. apply map_ext. intros kx.
  change (single_optimize (adam_with a g) (neg_lpdf (ad_logpdf (adam_with a g))) d (fst kx) (snd kx)) with (single_optimize a (neg_lpdf g) d (fst kx) (snd kx)).
  apply adam_shift. intros y. cbn. now rewrite (proj2 (H y d)).
Qed.
Lemma spline_count (N : Num) (G : Rng) chol grad a m k n : length (@m_sample N G (spline_ops chol grad a) m k n) = n.
Proof.
  cbn [spline_ops tree_ops m_sample]. unfold rqs_tree_sample, flow_sample. rewrite map_length.
  unfold tree_base, gaussian, gaussian_sample. cbn. unfold reshape_rows. now rewrite !map_length, seq_length.
Qed.
