(** The bundles with their own spline flow: outcomes. *)
From Verif Require Import Prelude Num M_Core M_Kernels M_Strategies M_PT M_Bundle M_Flow M_Net M_Model M_Tree M_Spline P_Lists
  Spec Spec_Core Spec_Sampler Spec_Steps Spec_Kernels Spec_Train Spec_PT Spec_Bundle Spec_Tree Spec_Run Spec_Prog P_Run1 P_Run2 P_Prog2 P_Prog3 P_Prog4 P_Prog5.

Section Prog.
Context {N : Num} {G : Rng}.
Variable li : nat -> nat -> key -> bool -> linear.
Variable chol : list vec -> list vec.
Variable grad : list leaf -> list vec -> vec.

Lemma spline_never_raises (a : args) h bd n nc k o kw s d xs : NumLaws -> args_ok a chol d xs ->
  counts_ok (spline_config li chol grad a) ->
  rules_out_nonfinite (a_logpdf a) d (a_n_dims a) -> rules_out_nonfinite (a_logpdf a) (with_n_steps d (a_global a)) (a_n_dims a) ->
  (forall x, In x xs -> finite_row x = true) ->
  @sampler_init N G (spline_ops chol grad a) n nc k None None o (Some bd) kw = Ok s ->
  RQSpline_MALA li chol grad a = Ok (h, bd) \/
  (exists nt mt steps prior, RQSpline_MALA_PT li chol grad a nt mt steps prior = Ok (h, bd) /\
     grad_shape prior d (a_n_dims a) /\ rules_out_nonfinite prior d (a_n_dims a)) ->
  exists k' xs' w', sampler_sample s (P2 xs) d h = (Ok (k', xs'), w').
Proof.
  intros NL Ha Hc R1 R2 Hx Hs Hb.
  destruct (spline_model_ok li a (split (a_key a) 2 1)) as (lv0 & E0 & _).
  pose proof (spline_run_ok li chol grad a d xs lv0 Ha E0) as Hok.
  destruct Hb as [Hb|(nt & mt & steps & prior & Hb & Hp & Rp)].
  - exact (@base_never_raises N G (spline_ops chol grad a) (spline_config li chol grad a) h bd n nc k o kw s d xs _ NL Hb Hs Hok Hc R1 R2 Hx).
  - exact (@pt_never_raises N G (spline_ops chol grad a) NL (spline_pt_config li chol grad a nt mt steps prior) h bd n nc k o kw s d xs _ Hb Hs Hok Hp Hc R1 R2 Rp Hx).
Qed.
End Prog.
