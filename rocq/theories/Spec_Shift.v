(** Specification vocabulary: the normalisation constant of the target. *)
From Verif Require Import Prelude Num M_Core M_Kernels M_Strategies M_PT M_Bundle M_Net M_Mala Spec_Train Spec_Bundle.

(** The arithmetic laws behind it (all of them hold for exact reals and integers, none for floating-point numbers). *)
Record ShiftLaws {N : Num} : Prop := mkShiftLaws {
  sl_diff : forall a b c : F, (a +. c) -. (b +. c) = a -. b;
  sl_temper : forall t a c p q : F, t *. (a +. c) +. (p +. q) = (t *. a +. p) +. (t *. c +. q);
  sl_energy : forall a b c k k' : F, (fneg (a +. c) +. k) -. (fneg (b +. c) +. k') = (fneg a +. k) -. (fneg b +. k');
  sl_neg : forall a c : F, fneg (fneg (a +. c)) = fneg (fneg a) +. c }.
Arguments ShiftLaws N : clear implicits.

Section SpecShift.
Context {N : Num} {G : Rng} {NF : NFOps}.
(** [g] is the log-density [f] plus the constant [c]: the same density up to a factor. *)
Definition plus_constant (c : F) (f g : lpdf) : Prop :=
  forall x d, lp_val g x d = lp_val f x d +. c /\ lp_grad g x d = lp_grad f x d.

(** Outcomes of one kernel step: the same exception, or the same position and the same flag, the log-probability moved by [c]. *)
Definition same_step (c : F) (r r' : res (vec * F * bool)) : Prop :=
  match r, r' with
  | Ok (x, lp, a), Ok (x', lp', a') => x' = x /\ lp' = lp +. c /\ a' = a
  | Raise e, Raise e' => e' = e
  | _, _ => False
  end.
(** The same for the steps of a chain. *)
Definition same_steps (c : F) (r r' : res (list (vec * F * bool))) : Prop :=
  match r, r' with
  | Ok l, Ok l' => length l' = length l /\ forall i, i < length l -> same_step c (Ok (nth i l ([], f0, false))) (Ok (nth i l' ([], f0, false)))
  | Raise e, Raise e' => e' = e
  | _, _ => False
  end.

(** The repository's one-step kernels. *)
Definition one_step_kernel (kern : skernel) : Prop :=
  (exists ss, kern = grw_kernel ss) \/ (exists ss, kern = mala_kernel ss) \/ (exists chol dt, kern = mat_mala_kernel chol dt) \/
  (exists h, kern = hmc_kernel h).
(** AdamOptimization with another target. *)
Definition adam_with (a : adam) (g : lpdf) : adam :=
  mkAdam g (ad_n_steps a) (ad_noise a) (ad_bounds a) (ad_st a) (ad_init a) (ad_update a).

(** The bundles' arguments with another target (and another prior). *)
Definition with_target (c : config) (g : lpdf) : config :=
  mkConfig (c_key c) (c_n_chains c) (c_n_dims c) g (c_local c) (c_global c) (c_train_loops c) (c_prod_loops c) (c_epochs c)
    (c_step c) (c_chain_batch c) (c_batch c) (c_max c) (c_local_th c) (c_global_th c) (c_nf_bs c) (c_window c) (c_model c) (c_tx c) (c_opt c).
Definition with_targets (pc : pt_config) (g q : lpdf) : pt_config :=
  mkPtConfig (with_target (p_base pc) g) (p_n_temps pc) (p_max_temp pc) (p_steps pc) q.

(** The log-probability buffer called [name]: same name, shape and cursors in both worlds; every entry was never written
    (-inf in both) or is the other one plus [c]. *)
Definition log_probs_moved (c : F) (w w' : world) (name : string) : Prop :=
  exists l b l' b', buffer_named w name l b /\ buffer_named w' name l' b' /\
    b_name b' = b_name b /\ ashape (b_data b') = ashape (b_data b) /\ b_cursor b' = b_cursor b /\ b_cursor_dim b' = b_cursor_dim b /\
    forall ix, in_shape (ashape (b_data b)) ix = true ->
      (aget (b_data b) ix = fninf /\ aget (b_data b') ix = fninf) \/ aget (b_data b') ix = aget (b_data b) ix +. c.
(** Nothing else differs: every resource except the targets themselves and the two log-probability buffers is the same,
    and so are the steppers' cursors. *)
Definition same_but_log_probs (c : F) (w w' : world) : Prop :=
  (forall name, ~ In name ["logpdf"; "tempered_logpdf"; "log_prob_training"; "log_prob_production"]%string ->
     content_of w' name = content_of w name) /\
  (forall l z, hget l w = Some (OCursor z) <-> hget l w' = Some (OCursor z)) /\
  log_probs_moved c w w' "log_prob_training" /\ log_probs_moved c w w' "log_prob_production".
End SpecShift.
