(** C77: the data reach the sampler only through the target. *)
From Verif Require Import Prelude Num M_Core M_Kernels M_Strategies M_PT M_Bundle M_Net M_Mala P_Lists
  Spec_Kernels Spec_Bundle Spec_Kinds Spec_Shift Spec_Data P_Data Toy Prop_Bundle Prop_Hist.
Open Scope nat_scope.

(** C77.  A step of any kernel depends on the target and the data only through the values and gradients the target takes on
    those data.  No law of arithmetic is needed: this holds bit for bit in floating point. *)
Theorem C77_kernels : forall (N : Num) (G : Rng) f g d d' kern k x lp, same_target f g d d' -> one_step_kernel kern ->
  kern k x lp g d' = kern k x lp f d.
Proof. intros N G f g d d' kern k x lp H K. exact (one_step_data kern K f g d d' k x lp H). Qed.
(** The chains of TakeSerialSteps and of TakeGroupSteps (the latter writes "n_steps" into the data it passes on). *)
Theorem C77_serial : forall (N : Num) (G : Rng) f g d d' kern n k x, same_target f g d d' -> one_step_kernel kern ->
  serial_sample kern g d' n k x = serial_sample kern f d n k x.
Proof. intros N G f g d d' kern n k x H K. exact (serial_data f g d d' kern n k x (one_step_data kern K) H). Qed.
Theorem C77_group : forall (N : Num) (G : Rng) (NF : NFOps) f g d d' p n k x, interchangeable f g d d' ->
  group_sample p g d' n k x = group_sample p f d n k x.
Proof. exact @group_data. Qed.
(** AdamOptimization. *)
Theorem C77_optimizer : forall (N : Num) (G : Rng) (NF : NFOps) a g k xs d d' w, same_target (ad_logpdf a) g d d' ->
  adam_strategy (adam_with a g) k xs d' w = adam_strategy a k xs d w.
Proof. exact @adam_data. Qed.
(** The base bundle.  Two samplers built alike but for the target, called with the same initial positions and with data the
    two targets do not tell apart: after any calls (returning or raising) and any number of strategies of a further one,
    the key and positions or the exception are the same, every object is the same, and every resource but the target. *)
Theorem C77_base : forall (N : Num) (G : Rng) (NF : NFOps) cf g h bd h' bd' n nc k o kw s s' args args' init d d' j k0,
  same_calls (interchangeable (c_logpdf cf) g) args args' -> interchangeable (c_logpdf cf) g d d' ->
  rqspline_mala_bundle cf = Ok (h, bd) -> rqspline_mala_bundle (with_target cf g) = Ok (h', bd') ->
  sampler_init n nc k None None o (Some bd) kw = Ok s -> sampler_init n nc k None None o (Some bd') kw = Ok s' ->
  let r := run_order (bd_strategies bd) (firstn j (bd_order bd)) k0 (atleast_2d init) d (calls_of s h args) in
  let r' := run_order (bd_strategies bd') (firstn j (bd_order bd')) k0 (atleast_2d init) d' (calls_of s' h' args') in
  fst r' = fst r /\ same_but_target (snd r) (snd r').
Proof. exact @base_top. Qed.
(** The bundle with parallel tempering: also the prior. *)
Theorem C77_pt : forall (N : Num) (G : Rng) (NF : NFOps) pc g p' h bd h' bd' n nc k o kw s s' args args' init d d' j k0,
  let P := fun d d' => interchangeable (c_logpdf (p_base pc)) g d d' /\ same_target (p_prior pc) p' d d' in
  same_calls P args args' -> P d d' ->
  rqspline_mala_pt_bundle pc = Ok (h, bd) -> rqspline_mala_pt_bundle (with_targets pc g p') = Ok (h', bd') ->
  sampler_init n nc k None None o (Some bd) kw = Ok s -> sampler_init n nc k None None o (Some bd') kw = Ok s' ->
  let r := run_order (bd_strategies bd) (firstn j (bd_order bd)) k0 (atleast_2d init) d (calls_of s h args) in
  let r' := run_order (bd_strategies bd') (firstn j (bd_order bd')) k0 (atleast_2d init) d' (calls_of s' h' args') in
  fst r' = fst r /\ same_but_target (snd r) (snd r').
Proof. exact @pt_top. Qed.
(** In particular it makes no difference whether the data are passed to sample or built into the log-density (which may not
    look at the entry "n_steps"): then any other data may be passed. *)
Theorem C77_closure : forall (N : Num) (G : Rng) (NF : NFOps) pc h bd h' bd' n nc k o kw s s' calls init d e j k0,
  (forall x v, lp_val (c_logpdf (p_base pc)) x (dset d "n_steps" v) = lp_val (c_logpdf (p_base pc)) x d /\
               lp_grad (c_logpdf (p_base pc)) x (dset d "n_steps" v) = lp_grad (c_logpdf (p_base pc)) x d) ->
  rqspline_mala_pt_bundle pc = Ok (h, bd) ->
  rqspline_mala_pt_bundle (with_targets pc (closed_over (c_logpdf (p_base pc)) d) (closed_over (p_prior pc) d)) = Ok (h', bd') ->
  sampler_init n nc k None None o (Some bd) kw = Ok s -> sampler_init n nc k None None o (Some bd') kw = Ok s' ->
  let r := run_order (bd_strategies bd) (firstn j (bd_order bd)) k0 (atleast_2d init) d (calls_of s h (map (fun a => (fst a, d)) calls)) in
  let r' := run_order (bd_strategies bd') (firstn j (bd_order bd')) k0 (atleast_2d init) e (calls_of s' h' calls) in
  fst r' = fst r /\ same_but_target (snd r) (snd r').
Proof.
  intros N G NF pc h bd h' bd' n nc k o kw s s' calls init d e j k0 H.
  assert (P : forall e, interchangeable (c_logpdf (p_base pc)) (closed_over (c_logpdf (p_base pc)) d) d e /\ same_target (p_prior pc) (closed_over (p_prior pc) d) d e).
  { intros e0. split; [now apply closed_ok|apply closed_target]. }
  apply C77_pt; [now apply closed_calls|apply P].
Qed.

(** A target that reads the data, the toy bundle, data passed or built in. *)
Definition zread : @lpdf ZNum := @mkLpdf ZNum (fun x d => match dget d "y" with Some (DInt z) => (@lp_val ZNum zlp x d - z)%Z | _ => 0%Z end) (@lp_grad ZNum zlp).
Definition zy : @datad ZNum := [("y", DInt 7)]%string.
Definition zpcr := with_targets zpcfg zread zread.
Definition zpcl := with_targets zpcr (closed_over zread zy) (closed_over zread zy).
Definition zhr := match @rqspline_mala_pt_bundle ZNum ZRng ZNF zpcr with Ok p => p | Raise _ => ([], mkBundle [] [] []) end.
Definition zhl := match @rqspline_mala_pt_bundle ZNum ZRng ZNF zpcl with Ok p => p | Raise _ => ([], mkBundle [] [] []) end.
Example C77_case :
  let r := @run_order ZNum ZRng ZNF (bd_strategies (snd zhr)) (firstn 30 (bd_order (snd zhr))) [5] zstart zy (calls_of (zsamp (snd zhr)) (fst zhr) (map (fun a => (fst a, zy)) z_hist)) in
  let r' := @run_order ZNum ZRng ZNF (bd_strategies (snd zhl)) (firstn 30 (bd_order (snd zhl))) [5] zstart [] (calls_of (zsamp (snd zhl)) (fst zhl) z_hist) in
  fst r' = fst r /\ @same_but_target ZNum ZRng ZNF (snd r) (snd r').
Proof.
  refine (@C77_closure ZNum ZRng ZNF zpcr (fst zhr) (snd zhr) (fst zhl) (snd zhl) 2 2 [3] ONone []
    (zsamp (snd zhr)) (zsamp (snd zhl)) z_hist (@P2 ZNum zstart) zy [] 30 [5] _ _ _ _ _); try reflexivity.
  intros x v. split; reflexivity.
Qed.
(** There the data do matter: without them the recorded log-probabilities differ. *)
Example C77_matters :
  let w := calls_of (zsamp (snd zhr)) (fst zhr) (map (fun a => (fst a, zy)) z_hist) in let w' := calls_of (zsamp (snd zhr)) (fst zhr) z_hist in
  Z.eqb (zdata w' L_lp_tr [0; 0]) (zdata w L_lp_tr [0; 0]) = false.
Proof. vm_compute. reflexivity. Qed.

Print Assumptions C77_kernels. Print Assumptions C77_serial. Print Assumptions C77_group. Print Assumptions C77_optimizer.
Print Assumptions C77_base. Print Assumptions C77_pt. Print Assumptions C77_closure.
