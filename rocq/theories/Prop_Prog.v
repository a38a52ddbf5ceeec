(** C71: when a run of a bundle ends with its result, and when it stops with an error. *)
From Coq Require Import Reals Lra.
From Verif Require Import Prelude Num M_Core M_Kernels M_Strategies M_PT M_Bundle M_Flow M_Net M_Model M_Tree M_Spline P_Lists RNum Float32
  Spec Spec_Core Spec_Sampler Spec_Steps Spec_Kernels Spec_Train Spec_PT Spec_Bundle Spec_Flow Spec_Jac Spec_Net Spec_Tree Spec_Run Spec_Prog
  P_Kernels P_Run1 P_Run2 P_Prog2 P_Prog3 P_Prog4 P_Prog5 P_Prog6 Toy Prop_Bundle Prop_Run.
Open Scope nat_scope.

(** C71.  A run of the base bundle whose standing conditions hold and whose counts are positive either returns, or it
    raises TypeError or ValueError because in one of its training loops the recorded positions were refused: the number
    of finite ones is no multiple of the number of chains, or there are none.  No other error is possible. *)
Theorem C71_base_outcome : forall (N : Num) (G : Rng) (NF : NFOps) c h bd n nc k o kw s d xs good,
  rqspline_mala_bundle c = Ok (h, bd) -> sampler_init n nc k None None o (Some bd) kw = Ok s -> run_ok c d xs good -> counts_ok c ->
  let m := c_model c (split (c_key c) 2 1) in
  (exists k' xs' w', sampler_sample s (P2 xs) d h = (Ok (k', xs'), w')) \/
  exists err w', sampler_sample s (P2 xs) d h = (Raise err, w') /\
    stops_early nothing_before c 100 d (c_train_loops c) (mkR k xs m (c_opt c m) tt) err.
Proof. exact @base_outcome. Qed.
Theorem C71_pt_outcome : forall (N : Num) (G : Rng) (NF : NFOps) pc h bd n nc k o kw s d xs good,
  rqspline_mala_pt_bundle pc = Ok (h, bd) -> sampler_init n nc k None None o (Some bd) kw = Ok s ->
  run_ok (p_base pc) d xs good -> grad_shape (p_prior pc) d (c_n_dims (p_base pc)) -> counts_ok (p_base pc) ->
  let c := p_base pc in let m := c_model c (split (c_key c) 2 1) in
  (exists k' xs' w', sampler_sample s (P2 xs) d h = (Ok (k', xs'), w')) \/
  exists err w' e0, sampler_sample s (P2 xs) d h = (Raise err, w') /\ initial_ensemble pc xs e0 /\
    stops_early (tempering pc d true) c (c_window c) d (c_train_loops c) (mkR k xs m (c_opt c m) e0) err.
Proof.
  intros N G NF pc h bd n nc k o kw s d xs good H1 H2 H3 H4 H5 c m.
  destruct (pt_outcome _ _ _ _ _ _ _ _ _ _ _ _ H1 H2 H3 H4 H5) as [A|(err & w' & e0 & A & B & _ & C)]; [left; exact A|right].
  exists err, w', e0. auto.
Qed.

(** A run that meets only finite positions does not stop. *)
Theorem C71_finite_run_goes_on : forall (N : Num) (G : Rng) (NF : NFOps) (E : Type) before c window d loops (s0 : rstate E) err,
  counts_ok c -> 0 < c_local_th c -> c_local c mod c_local_th c = 0 ->
  (forall past s e0 k0 xs0 lout xs1, length past < loops -> Spec_Bundle.training_run before c window d s0 past s ->
     before (r_ext s) (r_key s) (r_pos s) e0 k0 xs0 -> local_run c d k0 xs0 lout xs1 ->
     forall h x, In h (recorded_so_far c past lout) -> In x h -> finite_row x = true) ->
  ~ stops_early before c window d loops s0 err.
Proof. exact @finite_never_stops. Qed.

(** If the target's value is NaN or -inf at positions with a coordinate that is NaN or infinite and the initial positions
    are finite, the run returns: for every key, every number of loops and whatever the flow learns. *)
Theorem C71_base_returns : forall (N : Num) (G : Rng) (NF : NFOps) c h bd n nc k o kw s d xs good, NumLaws ->
  rqspline_mala_bundle c = Ok (h, bd) -> sampler_init n nc k None None o (Some bd) kw = Ok s -> run_ok c d xs good -> counts_ok c ->
  rules_out_nonfinite (c_logpdf c) d (c_n_dims c) -> rules_out_nonfinite (c_logpdf c) (with_n_steps d (c_global c)) (c_n_dims c) ->
  (forall x, In x xs -> finite_row x = true) ->
  exists k' xs' w', sampler_sample s (P2 xs) d h = (Ok (k', xs'), w').
Proof. exact @base_never_raises. Qed.
(** With tempering, the same of the prior. *)
Theorem C71_pt_returns : forall (N : Num) (G : Rng) (NF : NFOps), NumLaws -> forall pc h bd n nc k o kw s d xs good,
  rqspline_mala_pt_bundle pc = Ok (h, bd) -> sampler_init n nc k None None o (Some bd) kw = Ok s ->
  run_ok (p_base pc) d xs good -> grad_shape (p_prior pc) d (c_n_dims (p_base pc)) -> counts_ok (p_base pc) ->
  rules_out_nonfinite (c_logpdf (p_base pc)) d (c_n_dims (p_base pc)) ->
  rules_out_nonfinite (c_logpdf (p_base pc)) (with_n_steps d (c_global (p_base pc))) (c_n_dims (p_base pc)) ->
  rules_out_nonfinite (p_prior pc) d (c_n_dims (p_base pc)) ->
  (forall x, In x xs -> finite_row x = true) ->
  exists k' xs' w', sampler_sample s (P2 xs) d h = (Ok (k', xs'), w').
Proof. exact @pt_never_raises. Qed.
(** The bundles with their own spline flow and optimiser: nothing is assumed about the flow. *)
Theorem C71_spline_returns : forall (N : Num) (G : Rng) li chol grad (a : args) h bd n nc k o kw s d xs, NumLaws -> args_ok a chol d xs ->
  counts_ok (spline_config li chol grad a) ->
  rules_out_nonfinite (a_logpdf a) d (a_n_dims a) -> rules_out_nonfinite (a_logpdf a) (with_n_steps d (a_global a)) (a_n_dims a) ->
  (forall x, In x xs -> finite_row x = true) ->
  @sampler_init N G (spline_ops chol grad a) n nc k None None o (Some bd) kw = Ok s ->
  RQSpline_MALA li chol grad a = Ok (h, bd) \/
  (exists nt mt steps prior, RQSpline_MALA_PT li chol grad a nt mt steps prior = Ok (h, bd) /\
     grad_shape prior d (a_n_dims a) /\ rules_out_nonfinite prior d (a_n_dims a)) ->
  exists k' xs' w', sampler_sample s (P2 xs) d h = (Ok (k', xs'), w').
Proof. exact @spline_never_raises. Qed.

(* ==================================================================================== *)
(** All three outcomes occur.  The executable instance from finite positions, from positions one of which is infinite,
    and for a target whose chains stay at infinite positions. *)
Example C71_counts : @counts_ok ZNum ZRng ZNF zcfg.
Proof. constructor; cbn; auto; lia. Qed.
Definition z_infinite : list (list Z) := [[1; 2]; [-1000000; 3]]%Z.
Example C71_type_error : @run_ok ZNum ZRng ZNF zcfg [] z_infinite (fun _ => True) /\
  fst (@sampler_sample ZNum ZRng ZNF (zsamp (snd zhb)) (@P2 ZNum z_infinite) [] (fst zhb)) = Raise TypeError.
Proof.
  split; [|vm_compute; reflexivity]. destruct z_run_ok as [O1 O2 O3 O4 O5 O6 O7 O7b O8 O9 O10 O11]. constructor; auto.
  intros x [<-|[<-|[]]]; reflexivity.
Qed.
Definition z_stuck : @lpdf ZNum := @mkLpdf ZNum (fun x d => if (nth 0 x 0 =? -1000000)%Z then 1000%Z else (-1000)%Z) (fun x d => map (fun a => 0%Z) x).
Definition z_stuck_cfg : @config ZNum ZRng ZNF := @mkConfig ZNum ZRng ZNF
  [7] 2 2 z_stuck 4 2 2 2 3 (@SScalar ZNum 1%Z) 1 2 6 2 1 2 100 (fun k => Z.of_nat (length k)) 1%Z (fun m => 0%Z).
Definition z_stuck_bundle := match @rqspline_mala_bundle ZNum ZRng ZNF z_stuck_cfg with Ok p => p | Raise _ => ([], mkBundle [] [] []) end.
Definition z_infinite2 : list (list Z) := [[-1000000; 2]; [-1000000; 3]]%Z.
Example C71_value_error :
  fst (@sampler_sample ZNum ZRng ZNF (zsamp (snd z_stuck_bundle)) (@P2 ZNum z_infinite2) [] (fst z_stuck_bundle)) = Raise ValueError.
Proof. vm_compute. reflexivity. Qed.

(** C71_spline_returns on IEEE binary32 arithmetic: a target that is 0 at finite positions and NaN elsewhere, with
    tempering; whatever the elementary functions, the random numbers, the gradients of the flow's loss and the key. *)
Section B32.
Variables (pi : B32) (fe fl ft : B32 -> B32).
Let BN := B32Num pi fe fl ft.
Definition b_rng (bits : nat -> B32) : @Rng BN := @mkRng BN nat (fun k n i => k * n + i) (fun k n => map bits (seq k n)) (fun k => bits k)
  (fun k => bits k) (fun _ n => seq 0 n) (fun _ _ m => repeat 0 m).
Definition b_target : @lpdf BN := @mkLpdf BN (fun x _ => if @finite_row BN x then @f0 BN else BinarySingleNaN.B754_nan) (fun x _ => map (fun _ => @f0 BN) x).
Definition b_args bits : @args BN (b_rng bits) := @mkArgs BN (b_rng bits) 5 3 2 b_target 4 6 10 20 3 (@SScalar BN (@f1 BN)) 3 [8; 8] 4 2 (@f1 BN) 10 100 2 3 7 50.
Definition b_linear bits (a b : nat) (k : @key BN (b_rng bits)) (bias : bool) : @linear BN :=
  @mkLinear BN (repeat (repeat (@f1 BN) a) b) (if bias then Some (repeat (@f0 BN) b) else None).
Definition b_start : list (list (@F BN)) := repeat [@f1 BN; @f0 BN] 3.

Lemma b_rules d : @rules_out_nonfinite BN b_target d 2.
Proof. intros x _ Hf. left. cbn [lp_val b_target]. rewrite Hf. reflexivity. Qed.
Lemma b_grad d : @grad_shape BN b_target d 2.
Proof. intros x Hx. cbn. now rewrite map_length. Qed.
Example C71_binary32_args bits grad : @args_ok BN (b_rng bits) (b_args bits) (fun m => m) [] b_start /\
  @counts_ok BN (b_rng bits) (spline_ops (fun m => m) grad (b_args bits)) (spline_config (b_linear bits) (fun m => m) grad (b_args bits)) /\
  (forall x, In x b_start -> @finite_row BN x = true).
Proof.
  split; [|split].
  - constructor; try reflexivity; try (cbn; lia); try exact (b_grad []).
    + intros x Hx. apply repeat_spec in Hx. subst x. reflexivity.
    + intros k n. cbn. now rewrite map_length, seq_length.
    + intros k n c. cbn. split; [apply repeat_length|]. intros Hn i Hi. apply repeat_spec in Hi. lia.
    + intros m. reflexivity.
  - constructor; cbn; auto; lia.
  - intros x Hx. apply repeat_spec in Hx. subst x. vm_compute. reflexivity.
Qed.
Example C71_binary32_run bits grad : exists h bd s k' xs' w',
  RQSpline_MALA_PT (b_linear bits) (fun m => m) grad (b_args bits) 4 (@f1 BN) 5 b_target = Ok (h, bd) /\
  @sampler_init BN (b_rng bits) (spline_ops (fun m => m) grad (b_args bits)) 2 3 9 None None ONone (Some bd) [] = Ok s /\
  sampler_sample s (P2 b_start) [] h = (Ok (k', xs'), w').
Proof.
  destruct (C71_binary32_args bits grad) as (A1 & A2 & A3).
  do 3 eexists.
  assert (HR : forall h bd s, RQSpline_MALA_PT (b_linear bits) (fun m => m) grad (b_args bits) 4 (@f1 BN) 5 b_target = Ok (h, bd) ->
    @sampler_init BN (b_rng bits) (spline_ops (fun m => m) grad (b_args bits)) 2 3 9 None None ONone (Some bd) [] = Ok s ->
    exists k' xs' w', sampler_sample s (P2 b_start) [] h = (Ok (k', xs'), w')).
  { intros h bd s H1 H2. refine (C71_spline_returns BN (b_rng bits) (b_linear bits) (fun m => m) grad (b_args bits) h bd 2 3 9 ONone [] s [] b_start
      (B32_laws pi fe fl ft) A1 A2 (b_rules []) (b_rules _) A3 H2 (or_intror _)).
    exists 4, (@f1 BN), 5%Z, b_target. split; [exact H1|]. split; [exact (b_grad [])|exact (b_rules [])]. }
  edestruct HR as (k' & xs' & w' & E); [reflexivity|reflexivity|]. exists k', xs', w'. split; [reflexivity|]. split; [reflexivity|exact E].
Qed.
End B32.

(** A run over the reals (so the hypotheses of C70_log_prob are met as well): flat target, no noise. *)
Section Real.
Definition r_rng : @Rng RNum := @mkRng RNum unit (fun k _ _ => k) (fun _ n => repeat 0%R n) (fun _ => 0%R)
  (fun _ => (1 / 2)%R) (fun _ n => seq 0 n) (fun _ _ m => repeat 0 m).
Definition r_target : @lpdf RNum := @mkLpdf RNum (fun x _ => 0%R) (fun x _ => map (fun _ => 0%R) x).
Definition r_args : @args RNum r_rng := @mkArgs RNum r_rng tt 2 1 r_target 4 2 1 2 3 (@SScalar RNum 1%R) 2 [2] 3 2 (1 / 1000)%R 2 6 2 1 2 100.
Definition r_linear (a b : nat) (k : @key RNum r_rng) (bias : bool) : @linear RNum :=
  @mkLinear RNum (repeat (repeat 1%R a) b) (if bias then Some (repeat 0%R b) else None).
Definition r_start : list (list R) := ([[1]; [2]])%R.
Lemma r_args_ok : @args_ok RNum r_rng r_args (fun m => m) [] r_start.
Proof.
  constructor; try reflexivity; try (cbn; lia).
  - intros x [<-|[<-|[]]]; reflexivity.
  - intros x Hx. cbn. now rewrite map_length.
  - exact ninf_R.
  - intros k n. cbn. apply repeat_length.
  - intros k n c. cbn. split; [apply repeat_length|]. intros Hn i Hi. apply repeat_spec in Hi. lia.
  - intros m. reflexivity.
Qed.
Lemma r_step k r lp o : @mala_kernel RNum r_rng (@SScalar RNum 1%R) k [r] lp r_target [] = Ok o -> s_pos o = [r].
Proof.
  unfold mala_kernel. match goal with |- (let* q := ?a in _) = _ -> _ => destruct a as [q|] end; [|discriminate]. cbn [rbind]. intros H.
  assert (E : @mala_propose RNum (@SScalar RNum 1%R) [r] (lp_grad r_target [r] []) (normal (split k 2 0) (length [r])) = [r]).
  { cbn. apply (f_equal (fun z => [z])). field. }
  rewrite E in H. injection H as <-. match goal with |- context [if ?b then _ else _] => destruct b end; reflexivity.
Qed.
Lemma r_serial n k r co : @serial_sample RNum r_rng (mala_kernel (@SScalar RNum 1%R)) r_target [] n k [r] = Ok co -> forall o, In o co -> s_pos o = [r].
Proof.
  intros H. unfold serial_sample in H.
  apply (serial_scan_inv (fun x _ => x = [r]) (mala_kernel (@SScalar RNum 1%R)) r_target []) with (3 := H); [|reflexivity].
  intros q x lp o -> Ho. exact (r_step _ _ _ _ Ho).
Qed.
Example C71_real_run grad : exists h bd s k' xs' w',
  RQSpline_MALA r_linear (fun m => m) grad r_args = Ok (h, bd) /\
  @sampler_init RNum r_rng (spline_ops (fun m => m) grad r_args) 1 2 tt None None ONone (Some bd) [] = Ok s /\
  sampler_sample s (P2 r_start) [] h = (Ok (k', xs'), w').
Proof.
  assert (HC : @counts_ok RNum r_rng (spline_ops (fun m => m) grad r_args) (spline_config r_linear (fun m => m) grad r_args)) by (constructor; cbn; auto; lia).
  assert (HR : forall h bd s, RQSpline_MALA r_linear (fun m => m) grad r_args = Ok (h, bd) ->
    @sampler_init RNum r_rng (spline_ops (fun m => m) grad r_args) 1 2 tt None None ONone (Some bd) [] = Ok s ->
    exists k' xs' w', sampler_sample s (P2 r_start) [] h = (Ok (k', xs'), w')).
  { intros h bd s H1 H2. destruct (C70_conditions RNum r_rng r_linear (fun m => m) grad r_args [] r_start r_args_ok) as (lv0 & _ & Hok).
    destruct (C71_base_outcome RNum r_rng (spline_ops (fun m => m) grad r_args) _ h bd 1 2 tt ONone [] s [] r_start _ H1 H2 Hok HC) as [A|(err & w' & _ & A)]; [exact A|exfalso].
    revert A. apply C71_finite_run_goes_on; [exact HC|cbn; lia|reflexivity|].
    intros past st e0 k0 xs0 lout xs1 Hp Hr [Hk Hx] Hl. cbn [spline_config c_train_loops r_args a_train_loops] in Hp.
    destruct past as [|? ?]; [|cbn in Hp; lia].
    assert (Est : r_pos st = r_start).
    { inversion Hr as [|s1 p1 s2 l s3 Q1 Q2 Q3 Q4 Q5]; [reflexivity|]. destruct p1; discriminate. }
    rewrite Est in Hx. subst xs0. clear Hr Est.
    intros hist x Hh Hxh. unfold recorded_so_far in Hh. apply in_map_iff in Hh as (i & <- & Hi). apply in_seq in Hi. cbn in Hi.
    cbn [chain_history map concat app] in Hxh. apply in_map_iff in Hxh as (o & <- & Ho).
    destruct Hl as (_ & _ & L3). destruct (L3 i ltac:(cbn; lia)) as (Hs & Hlen & _).
    assert (Hin : In o (nth i lout [])).
    { destruct (kept_in (spline_config r_linear (fun m => m) grad r_args) (ok_bs _ _ _ _ Hok) _ _ _ _ Hlen Ho) as [Q|Q]; [exact Q|discriminate Q]. }
    assert (HF : forall r : R, (Rabs r < Rbig)%R -> @finite_row RNum [r] = true).
    { intros r Hr. unfold finite_row. cbn [forallb]. rewrite (finite_R r Hr). reflexivity. }
    destruct i as [|[|i]]; [| |lia].
    - rewrite (r_serial _ _ _ _ Hs o Hin). apply HF. rewrite Rabs_pos_eq; unfold Rbig; lra.
    - rewrite (r_serial _ _ _ _ Hs o Hin). apply HF. rewrite Rabs_pos_eq; unfold Rbig; lra. }
  do 3 eexists. edestruct HR as (k' & xs' & w' & E); [reflexivity|reflexivity|]. exists k', xs', w'. split; [reflexivity|]. split; [reflexivity|exact E].
Qed.
End Real.
Print Assumptions C71_base_outcome.
Print Assumptions C71_pt_outcome.
Print Assumptions C71_finite_run_goes_on.
Print Assumptions C71_base_returns.
Print Assumptions C71_pt_returns.
Print Assumptions C71_spline_returns.
