(** C76: only differences of the log-density matter. *)
From Coq Require Import Reals Lra.
From Verif Require Import Prelude Num M_Core M_Kernels M_Strategies M_PT M_Bundle M_Net M_Mala M_Tree M_Spline P_Lists Float32 RNum
  Spec_Kernels Spec_Train Spec_Bundle Spec_Kinds Spec_Shift P_Shift1 P_Shift2 P_Shift3 Toy Prop_Bundle Prop_Hist.
Open Scope nat_scope.

(** C76.  Adding a constant to the target (its gradient being unchanged) and to the log-probability the step starts from
    changes neither the proposal nor the decision of any kernel: same position, same flag, same exception; the returned
    log-probability moves by the constant. *)
Theorem C76_kernels : forall (N : Num) (G : Rng) (LAWS : ShiftLaws N) c f g kern k x lp d, plus_constant c f g -> one_step_kernel kern ->
  same_step c (kern k x lp f d) (kern k x (lp +. c) g d).
Proof. exact @kernels_shift. Qed.
(** The chains of TakeSerialSteps (with any of these kernels) and of TakeGroupSteps (flow proposals). *)
Theorem C76_serial : forall (N : Num) (G : Rng) (LAWS : ShiftLaws N) c f g kern d n k x, plus_constant c f g -> one_step_kernel kern ->
  same_steps c (serial_sample kern f d n k x) (serial_sample kern g d n k x).
Proof. exact @serial_shift. Qed.
Theorem C76_group : forall (N : Num) (G : Rng) (NF : NFOps) (LAWS : ShiftLaws N) c f g p d n k x, plus_constant c f g ->
  (forall m k n, length (m_sample m k n) = n) ->
  same_steps c (group_sample p f d n k x) (group_sample p g d n k x).
Proof. exact @group_shift. Qed.
(** AdamOptimization ends at the same key and positions (or the same exception). *)
Theorem C76_optimizer : forall (N : Num) (G : Rng) (NF : NFOps) c (a : adam) g k xs d w, plus_constant c (ad_logpdf a) g ->
  adam_strategy (adam_with a g) k xs d w = adam_strategy a k xs d w.
Proof. exact @adam_strategy_shift. Qed.
(** The base bundle.  Two samplers that differ only in that the target of the second is that of the first plus a
    constant: after any calls of sample (returning or raising) and any number of strategies of a further one, the key and
    positions or the exception are the same, and every resource is the same (positions, flags, losses, model, optimiser,
    state, cursors), except that every recorded log-probability is moved by the constant. *)
Theorem C76_base : forall (N : Num) (G : Rng) (NF : NFOps) (LAWS : ShiftLaws N) (HS : forall m k n, length (m_sample m k n) = n)
  c cf g h bd h' bd' n nc k o kw s s' args init d j k0,
  plus_constant c (c_logpdf cf) g ->
  rqspline_mala_bundle cf = Ok (h, bd) -> rqspline_mala_bundle (with_target cf g) = Ok (h', bd') ->
  sampler_init n nc k None None o (Some bd) kw = Ok s -> sampler_init n nc k None None o (Some bd') kw = Ok s' ->
  let r := run_order (bd_strategies bd) (firstn j (bd_order bd)) k0 (atleast_2d init) d (calls_of s h args) in
  let r' := run_order (bd_strategies bd') (firstn j (bd_order bd')) k0 (atleast_2d init) d (calls_of s' h' args) in
  fst r' = fst r /\ same_but_log_probs c (snd r) (snd r').
Proof. intros N G NF LAWS HS c. exact (base_shift LAWS HS c c). Qed.
(** The bundle with parallel tempering: the target moved by [c], the prior by [q]; also the temperatures and the tempered
    ensemble are the same. *)
Theorem C76_pt : forall (N : Num) (G : Rng) (NF : NFOps) (LAWS : ShiftLaws N) (HS : forall m k n, length (m_sample m k n) = n)
  c q pc g p h bd h' bd' n nc k o kw s s' args init d j k0,
  plus_constant c (c_logpdf (p_base pc)) g -> plus_constant q (p_prior pc) p ->
  rqspline_mala_pt_bundle pc = Ok (h, bd) -> rqspline_mala_pt_bundle (with_targets pc g p) = Ok (h', bd') ->
  sampler_init n nc k None None o (Some bd) kw = Ok s -> sampler_init n nc k None None o (Some bd') kw = Ok s' ->
  let r := run_order (bd_strategies bd) (firstn j (bd_order bd)) k0 (atleast_2d init) d (calls_of s h args) in
  let r' := run_order (bd_strategies bd') (firstn j (bd_order bd')) k0 (atleast_2d init) d (calls_of s' h' args) in
  fst r' = fst r /\ same_but_log_probs c (snd r) (snd r').
Proof. exact @pt_shift. Qed.

(** The laws hold in exact arithmetic ... *)
Example C76_reals : ShiftLaws RNum.
Proof. constructor; intros; cbn; ring. Qed.
Example C76_integers : ShiftLaws ZNum.
Proof. constructor; intros; cbn; ring. Qed.
(** ... and not in binary32: 2^30 absorbs 1. *)
Example C76_binary32 pi fe fl ft : ~ ShiftLaws (B32Num pi fe fl ft).
Proof.
  intros L. pose proof (sl_diff L (b32_ofZ 1) (b32_ofZ 0) (b32_ofZ 1073741824)) as E.
  apply (f_equal (@Flocq.IEEE754.BinarySingleNaN.B2SF 24 128)) in E. vm_compute in E. discriminate E.
Qed.
(** The repository's spline flow returns as many samples as it is asked for. *)
Example C76_flow (N : Num) (G : Rng) chol grad a m k n : length (@m_sample N G (spline_ops chol grad a) m k n) = n.
Proof. exact (spline_count N G chol grad a m k n). Qed.
(** The toy bundles with the target moved by 5 and the prior by -3, the histories of C72_case. *)
Definition zup (z : Z) : @lpdf ZNum := @mkLpdf ZNum (fun x d => (@lp_val ZNum zlp x d + z)%Z) (@lp_grad ZNum zlp).
Definition zhb5 := match @rqspline_mala_bundle ZNum ZRng ZNF (with_target zcfg (zup 5)) with Ok p => p | Raise _ => ([], mkBundle [] [] []) end.
Definition zhp5 := match @rqspline_mala_pt_bundle ZNum ZRng ZNF (with_targets zpcfg (zup 5) (zup (-3))) with Ok p => p | Raise _ => ([], mkBundle [] [] []) end.
Example C76_case : 
  let r := @run_order ZNum ZRng ZNF (bd_strategies (snd zhp)) (firstn 30 (bd_order (snd zhp))) [5] zstart [] (calls_of (zsamp (snd zhp)) (fst zhp) z_hist) in
  let r' := @run_order ZNum ZRng ZNF (bd_strategies (snd zhp5)) (firstn 30 (bd_order (snd zhp5))) [5] zstart [] (calls_of (zsamp (snd zhp5)) (fst zhp5) z_hist) in
  fst r' = fst r /\ @same_but_log_probs ZNum ZRng ZNF 5%Z (snd r) (snd r').
Proof.
  refine (@C76_pt ZNum ZRng ZNF C76_integers _ 5%Z (-3)%Z zpcfg (zup 5) (zup (-3)) (fst zhp) (snd zhp) (fst zhp5) (snd zhp5) 2 2 [3] ONone []
    (zsamp (snd zhp)) (zsamp (snd zhp5)) z_hist (@P2 ZNum zstart) [] 30 [5] _ _ _ _ _ _); try reflexivity.
  - intros m k n. cbn. now rewrite map_length, seq_length.
  - intros x d. cbn. auto.
  - intros x d. cbn. auto.
Qed.
(** There the log-probabilities really move. *)
Example C76_moves :
  let w := calls_of (zsamp (snd zhb)) (fst zhb) z_hist in let w' := calls_of (zsamp (snd zhb5)) (fst zhb5) z_hist in
  map (fun s => zdata w' L_lp_tr [0; s]) (seq 0 4) = map (fun s => (zdata w L_lp_tr [0%nat; s] + 5)%Z) (seq 0 4) /\
  map (fun s => zdata w' L_pos_tr [0; s; 1]) (seq 0 4) = map (fun s => zdata w L_pos_tr [0; s; 1]) (seq 0 4).
Proof. split; vm_compute; reflexivity. Qed.

Print Assumptions C76_kernels. Print Assumptions C76_serial. Print Assumptions C76_group. Print Assumptions C76_optimizer.
Print Assumptions C76_base. Print Assumptions C76_pt.
