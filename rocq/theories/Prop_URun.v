(** C88: a whole bundle run in other units. *)
From Coq Require Import Reals Lra.
From Verif Require Import Prelude Num M_Core M_Kernels M_Strategies M_PT M_Bundle M_Flow M_Net M_Model M_Tree M_Spline P_Lists RNum
  Spec Spec_Core Spec_Sampler Spec_Steps Spec_Kernels Spec_Train Spec_PT Spec_Bundle Spec_Net Spec_Tree Spec_Run Spec_Prog Spec_Real Spec_HMC Spec_Units Spec_URun Spec_USpline
  P_Kernels P_Closed P_URun3 P_USpline2 Prop_Units.
Open Scope nat_scope.

(** C88.  Run a bundle twice from the same keys: once with a target, and once with the same target in other units
    (y_i = a_i x_i + b_i) with the MALA steps converted and the initial positions converted.  If the flow converts
    ([flows_convert]: what it learns from converted data is the converted flow), the two runs are the same run in the two
    units: they return the same key; all positions recorded in the training and production buffers, and the final ones, are
    converted, in the same slots; all log-probabilities, acceptance entries and losses are equal; the optimiser state is the
    same, and the trained flow is converted.  The flow before the first training need not be converted if the first
    training replaces it; and a conversion must not carry a training position across the largest finite number. *)
Theorem C88_bundle : forall (G : @Rng RNum) (NF : @NFOps RNum G) n a b c c' h h' bd bd' n1 n2 nc1 nc2 k o1 o2 kw1 kw2 s s' d xs xs' good good' okst pre conv k1 x1 w1 k1' x1' w1',
  @permutation_law RNum G -> (forall i, i < n -> a i <> 0%R) -> config_in_units n a b c c' -> flows_convert n a b (c_tx c) (c_max c) okst pre conv -> 0 < c_n_chains c ->
  rqspline_mala_bundle c = Ok (h, bd) -> rqspline_mala_bundle c' = Ok (h', bd') ->
  sampler_init n1 nc1 k None None o1 (Some bd) kw1 = Ok s -> sampler_init n2 nc2 k None None o2 (Some bd') kw2 = Ok s' ->
  run_ok c d xs good -> run_ok c' d xs' good' -> Forall2 (in_units n a b) xs xs' ->
  sampler_sample s (P2 xs) d h = (Ok (k1, x1), w1) -> sampler_sample s' (P2 xs') d h' = (Ok (k1', x1'), w1') ->
  let m := c_model c (split (c_key c) 2 1) in let m' := c_model c' (split (c_key c) 2 1) in
  okst (c_opt c m) -> pre m m' -> (conv m m' \/ first_training_kept c w1) -> same_range n (c_n_chains c) w1 w1' ->
  runs_in_units n a b c conv k1 x1 w1 k1' x1' w1'.
Proof. exact @base_units. Qed.

(** With tempering: the prior is converted too, and so are the tempered walkers; the adapted temperatures are the same. *)
Theorem C88_pt_bundle : forall (G : @Rng RNum) (NF : @NFOps RNum G) n a b p p' h h' bd bd' n1 n2 nc1 nc2 k o1 o2 kw1 kw2 s s' d xs xs' good good' okst pre conv k1 x1 w1 k1' x1' w1',
  let c := p_base p in let c' := p_base p' in
  @permutation_law RNum G -> (forall i, i < n -> a i <> 0%R) -> pt_config_in_units n a b p p' -> flows_convert n a b (c_tx c) (c_max c) okst pre conv -> 0 < c_n_chains c ->
  rqspline_mala_pt_bundle p = Ok (h, bd) -> rqspline_mala_pt_bundle p' = Ok (h', bd') ->
  sampler_init n1 nc1 k None None o1 (Some bd) kw1 = Ok s -> sampler_init n2 nc2 k None None o2 (Some bd') kw2 = Ok s' ->
  run_ok c d xs good -> run_ok c' d xs' good' -> grad_shape (p_prior p) d n -> grad_shape (p_prior p') d n -> Forall2 (in_units n a b) xs xs' ->
  sampler_sample s (P2 xs) d h = (Ok (k1, x1), w1) -> sampler_sample s' (P2 xs') d h' = (Ok (k1', x1'), w1') ->
  let m := c_model c (split (c_key c) 2 1) in let m' := c_model c' (split (c_key c) 2 1) in
  okst (c_opt c m) -> pre m m' -> (conv m m' \/ first_training_kept c w1) -> same_range n (c_n_chains c) w1 w1' ->
  runs_in_units n a b c conv k1 x1 w1 k1' x1' w1' /\ ensembles_in_units n a b (c_n_chains c) (p_n_temps p - 1) w1 w1'.
Proof. exact @pt_units. Qed.

(** The bundles with their own spline flow, for conversions y_i = s_i x_i with s_i > 0: the statistics the flow keeps are those of
    converted data, its other parameters are the same numbers.  (With a shift of the origin the claim is false: weight decay
    shrinks the stored mean towards 0, C53, wherever the origin is.)  Nothing is assumed of the constructor, and of automatic differentiation
    only that the gradient is a function of the whitened batch and zero for the statistics. *)
Theorem C88_spline : forall (G : @Rng RNum) li chol grad (a : @args RNum G) f' ss' sc h h' bd bd' n1 n2 nc1 nc2 k o1 o2 kw1 kw2 s s' d xs xs' k1 x1 w1 k1' x1' w1',
  let n := a_n_dims a in let a' := with_target_and_step a f' ss' in
  @permutation_law RNum G -> (forall i, i < n -> (0 < sc i)%R) -> gradient_through_whitening n (rqs_flow (a_layers a) (a_bins a) (a_hidden a)) grad ->
  target_in_units n sc (fun _ => 0%R) (a_logpdf a) f' ->
  step_accepted (a_step a) n -> step_accepted ss' n -> (forall i, i < n -> step_of (a_step a) i <> 0%R) -> steps_in_units n sc (a_step a) ss' ->
  0 < a_n_chains a ->
  RQSpline_MALA li chol grad a = Ok (h, bd) -> RQSpline_MALA li chol grad a' = Ok (h', bd') ->
  @sampler_init RNum G (spline_ops chol grad a) n1 nc1 k None None o1 (Some bd) kw1 = Ok s ->
  @sampler_init RNum G (spline_ops chol grad a) n2 nc2 k None None o2 (Some bd') kw2 = Ok s' ->
  args_ok a chol d xs -> Forall2 (in_units n sc (fun _ => 0%R)) xs xs' ->
  sampler_sample s (P2 xs) d h = (Ok (k1, x1), w1) -> sampler_sample s' (P2 xs') d h' = (Ok (k1', x1'), w1') ->
  @first_training_kept G (spline_ops chol grad a) (spline_config li chol grad a) w1 -> same_range n (a_n_chains a) w1 w1' ->
  @runs_in_units G (spline_ops chol grad a) n sc (fun _ => 0%R) (spline_config li chol grad a) (stats_in_units n sc) k1 x1 w1 k1' x1' w1'.
Proof. exact @spline_base_units. Qed.
Theorem C88_spline_pt : forall (G : @Rng RNum) li chol grad (a : @args RNum G) f' ss' sc nt mt steps prior prior' h h' bd bd' n1 n2 nc1 nc2 k o1 o2 kw1 kw2 s s' d xs xs' k1 x1 w1 k1' x1' w1',
  let n := a_n_dims a in let a' := with_target_and_step a f' ss' in
  @permutation_law RNum G -> (forall i, i < n -> (0 < sc i)%R) -> gradient_through_whitening n (rqs_flow (a_layers a) (a_bins a) (a_hidden a)) grad ->
  target_in_units n sc (fun _ => 0%R) (a_logpdf a) f' -> target_in_units n sc (fun _ => 0%R) prior prior' ->
  step_accepted (a_step a) n -> step_accepted ss' n -> (forall i, i < n -> step_of (a_step a) i <> 0%R) -> steps_in_units n sc (a_step a) ss' ->
  0 < a_n_chains a ->
  RQSpline_MALA_PT li chol grad a nt mt steps prior = Ok (h, bd) -> RQSpline_MALA_PT li chol grad a' nt mt steps prior' = Ok (h', bd') ->
  @sampler_init RNum G (spline_ops chol grad a) n1 nc1 k None None o1 (Some bd) kw1 = Ok s ->
  @sampler_init RNum G (spline_ops chol grad a) n2 nc2 k None None o2 (Some bd') kw2 = Ok s' ->
  args_ok a chol d xs -> grad_shape prior d n -> Forall2 (in_units n sc (fun _ => 0%R)) xs xs' ->
  sampler_sample s (P2 xs) d h = (Ok (k1, x1), w1) -> sampler_sample s' (P2 xs') d h' = (Ok (k1', x1'), w1') ->
  @first_training_kept G (spline_ops chol grad a) (spline_config li chol grad a) w1 -> same_range n (a_n_chains a) w1 w1' ->
  @runs_in_units G (spline_ops chol grad a) n sc (fun _ => 0%R) (spline_config li chol grad a) (stats_in_units n sc) k1 x1 w1 k1' x1' w1' /\
  ensembles_in_units n sc (fun _ => 0%R) (a_n_chains a) (nt - 1) w1 w1'.
Proof. exact @spline_pt_units. Qed.

(* ==================================================================================== *)
(** A gradient with the two properties that depends on the batch through the whitening. *)
Example C88_case_gradient (G : @Rng RNum) n (fl : list (@leaf RNum) -> @flow RNum) :
  gradient_through_whitening n fl (fun lv xs => repeat 0%R (n + n * n) ++ [@fsum RNum (map (fun x => @nth R 0 (whiten (fl lv) x) 0%R) xs)]).
Proof.
  split.
  - intros lv xs j Hj. rewrite app_nth1 by (rewrite repeat_length; exact Hj). apply nth_repeat.
  - intros lv lv' xs xs' _ H. f_equal. f_equal. f_equal. induction H as [|x x' xs xs' E H IH]; [reflexivity|]. cbn [map]. now rewrite E, IH.
Qed.

(** A flow that learns: offset the first example, scale half the difference of the first two, its scale then shrinks in every training step. *)
Definition LNF (G : @Rng RNum) (z : key -> nat -> nat -> R) : @NFOps RNum G :=
  @mkNFOps RNum G ((nat -> R) * (nat -> R)) nat unit
    (fun m (y : list R) => (- (((nth 0 y 0 - snd m 0%nat) / fst m 0%nat) ^ 2 + ((nth 1 y 0 - snd m 1%nat) / fst m 1%nat) ^ 2) / 2)%R)
    (fun m k s => map (fun j => uflow (z k j) m) (seq 0 s))
    (fun m batch _ st => (@fsum RNum (map (fun y => ((nth 0 y 0 - snd m 0%nat) / fst m 0%nat) ^ 2)%R batch), ((fun i => fst m i * 9 / 10)%R, snd m), S st))
    (fun m data => ((fun i => (nth i (nth 0 data []) 0 - nth i (nth 1 data []) 0) / 2)%R, (fun i => nth i (nth 0 data []) 0%R))).
Definition lconv (a b : nat -> R) (m m' : (nat -> R) * (nat -> R)) : Prop :=
  forall i, i < 2 -> fst m' i = (a i * fst m i)%R /\ snd m' i = (a i * snd m i + b i)%R.
Example C88_case_learning (G : @Rng RNum) (z : key -> nat -> nat -> R) (a b : nat -> R) (tx : unit) max :
  (forall i, i < 2 -> a i <> 0%R) -> 2 <= max -> @flows_convert G (LNF G z) 2 a b tx max (fun _ => True) (fun _ _ => True) (lconv a b).
Proof.
  intros A0 Hm. assert (Q : forall m m' i x y, i < 2 -> lconv a b m m' -> in_units 2 a b x y -> ((nth i y 0 - snd m' i) / fst m' i = (nth i x 0 - snd m i) / fst m i)%R).
  { intros m m' i x y Hi C (_ & _ & X). destruct (C i Hi) as [E1 E2]. rewrite (X i Hi), E1, E2. pose proof (A0 i Hi) as Z.
    unfold Rdiv. rewrite Rinv_mult, <- Rmult_assoc. f_equal. field. exact Z. }
  constructor.
  - auto.
  - intros m m' C. split.
    + intros k s. cbn [m_sample LNF]. split; [now rewrite map_length, seq_length|].
      assert (W : forall s j, Forall2 (in_units 2 a b) (map (fun j => uflow (z k j) m) (seq j s)) (map (fun j => uflow (z k j) m') (seq j s))); [|apply W]. clear s.
      induction s as [|s IH]; intros j; cbn [seq map]; constructor; [|apply IH].
      split; [reflexivity|]. split; [reflexivity|]. intros [|[|i]] Hi; [| |lia]; destruct (C _ Hi) as [E1 E2]; cbn [uflow seq map nth]; rewrite E1, E2; ring.
    + exists 0%R. intros x y X. cbn [m_logp LNF]. pose proof (Q m m' 0 x y ltac:(lia) C X) as Q0. pose proof (Q m m' 1 x y ltac:(lia) C X) as Q1. change (@F RNum) with R in * . rewrite Q0, Q1. lra.
  - intros m m' data data' _ L X. destruct X as [|x0 y0 r r' X0 X]; [cbn in L; lia|]. destruct X as [|x1 y1 q q' X1 X]; [cbn in L; lia|].
    intros i Hi. cbn [m_stats LNF fst snd nth]. destruct X0 as (_ & _ & X0), X1 as (_ & _ & X1). change (@F RNum) with R in * . rewrite (X0 i Hi), (X1 i Hi). split; field.
  - intros m m' batch batch' st C _ X. cbn [m_step LNF fst snd]. split; [|split; [|split; [reflexivity|exact I]]].
    + f_equal. induction X as [|x y batch batch' X0 X IH]; [reflexivity|]. cbn [map]. rewrite IH. f_equal. pose proof (Q m m' 0 x y ltac:(lia) C X0) as Q0. change (@F RNum) with R in * . now rewrite Q0.
    + intros i Hi. destruct (C i Hi) as [E1 E2]. cbn [fst snd]. rewrite E1. split; [field|exact E2].
Qed.

(* ------------------------------------------------------------------ two runs *)
(** A sampler without noise (normal draws 0, uniform draws 1/2), the Gaussian target of C86 and an affine flow, in the two systems of units. *)
Definition nrng : @Rng RNum := @mkRng RNum nat (fun k n i => k * n + i) (fun k n => repeat 0%R n) (fun k => 0%R) (fun k => (1/2)%R) (fun _ n => seq 0 n) (fun _ _ m => repeat 0 m).
Definition ndraw (k j i : nat) : R := match j with O => 0%R | _ => (-1)%R end.
Definition unf : @NFOps RNum nrng := UNF nrng ndraw.
Definition um : (nat -> R) * (nat -> R) := ((fun _ => 5%R), (fun _ => 7%R)).
Definition um' : (nat -> R) * (nat -> R) := ((fun i => ua i * 5)%R, (fun i => ua i * 7 + ub i)%R).
Definition ucfg f ss m : @config RNum nrng unf := @mkConfig RNum nrng unf 5 2 2 f 4 2 2 1 3 ss 1 2 6 2 1 2 100 (fun _ => m) tt (fun _ => tt).
Definition uc := ucfg uf (@SScalar RNum (1/2)%R) um.
Definition uc' := ucfg ug (@SDiag RNum [1; 3/2]%R) um'.
Definition ubd (c : @config RNum nrng unf) := match @rqspline_mala_bundle RNum nrng unf c with Ok p => p | Raise _ => ([], mkBundle [] [] []) end.
Definition usamp (c : @config RNum nrng unf) : @sampler RNum nrng unf :=
  @mkSampler RNum nrng unf 2 2 3 (bd_resources (snd (ubd c))) (bd_strategies (snd (ubd c))) (OList (bd_order (snd (ubd c)))) [].
Definition ux : list (list R) := [[1; 2]; [-4; 3]]%R.
Definition ux' : list (list R) := [[3; 5]; [-7; 8]]%R.
Definition uP (x : list R) : Prop := length x = 2 /\ forall i, i < 2 -> (Rabs (nth i x 0%R) <= 10)%R.
Definition uP' (y : list R) : Prop := length y = 2 /\ (Rabs (nth 0 y 0 - 1) <= 20)%R /\ (Rabs (nth 1 y 0 + 1) <= 30)%R.
Lemma big_R (x : R) : (Rabs x <= 100)%R -> @ffinite RNum x = true.
Proof. intros H. apply finite_R. unfold Rbig. lra. Qed.
Lemma u_fin x : uP x -> @finite_row RNum x = true.
Proof.
  intros [L H]. destruct x as [|p [|q [|]]]; try discriminate L. pose proof (H 0 ltac:(lia)) as H0. pose proof (H 1 ltac:(lia)) as H1. cbn [nth] in H0, H1.
  unfold finite_row. cbn [forallb]. rewrite !big_R by lra. reflexivity.
Qed.
Lemma abs_between (x b : R) : (- b <= x <= b)%R -> (Rabs x <= b)%R.
Proof. intros H. apply Rabs_le. exact H. Qed.
Lemma between_abs (x b : R) : (Rabs x <= b)%R -> (- b <= x <= b)%R.
Proof. intros H. pose proof (Rle_abs x). pose proof (Rle_abs (- x)). rewrite Rabs_Ropp in * . lra. Qed.
Lemma u_fin' y : uP' y -> @finite_row RNum y = true.
Proof.
  intros (L & H0 & H1). destruct y as [|p [|q [|]]]; try discriminate L. cbn [nth] in H0, H1. apply between_abs in H0, H1.
  unfold finite_row. cbn [forallb]. rewrite !big_R by (apply abs_between; lra). reflexivity.
Qed.
Lemma u_normal : @normal_shape RNum nrng.
Proof. intros k n. apply repeat_length. Qed.
Lemma u_class m : @model_class RNum nrng unf (fun m' => m' = m) 2.
Proof.
  split; [|split].
  - intros m' -> k s. cbn [m_sample unf UNF]. split; [now rewrite map_length, seq_length|]. intros x Hx. apply in_map_iff in Hx as (j & <- & _). reflexivity.
  - intros m' data ->. reflexivity.
  - intros m' b tx st ->. reflexivity.
Qed.
Lemma u_ok f ss m xs : length xs = 2 -> (forall x, In x xs -> length x = 2) -> grad_shape f [] 2 -> @run_ok RNum nrng unf (ucfg f ss m) [] xs (fun m' => m' = m).
Proof.
  intros L D Gr. constructor; try reflexivity; try (cbn; lia); auto.
  - exact ninf_R.
  - exact u_normal.
  - intros k n q. cbn [choice nrng]. split; [apply repeat_length|]. intros Hn i Hi. apply repeat_spec in Hi. lia.
  - exact (u_class m).
Qed.
Lemma u_counts f ss m : @step_accepted RNum ss 2 -> @counts_ok RNum nrng unf (ucfg f ss m).
Proof. intros H. constructor; try (cbn; lia). exact H. Qed.
Lemma u_grads : grad_shape uf [] 2 /\ grad_shape ug [] 2.
Proof. split; intros x Hx; reflexivity. Qed.
Lemma u_draw0 i n : @nth R i (@normal RNum nrng 0 n) 0%R = 0%R.
Proof. apply nth_repeat. Qed.

Lemma u_local q (x : list R) (lp : R) o : uP x -> @mala_kernel RNum nrng (@SScalar RNum (1/2)%R) q x lp uf [] = Ok o -> uP (s_pos o).
Proof.
  intros [L H] K. apply mala_contract in K as (y & r & _ & Hy & _ & _ & A & B). destruct (s_acc o); [|destruct (B eq_refl) as [-> _]; split; assumption].
  destruct (A eq_refl) as [-> _]. destruct (Hy u_normal) as [Ly Ey]; [intros z _; cbn; change (length x = 2) in L; now rewrite L|].
  split; [exact (eq_trans Ly L)|]. intros i Hi. specialize (Ey i ltac:(change (i < length x); rewrite L; exact Hi)). specialize (H i Hi). apply between_abs in H.
  assert (E : @nth R i y 0%R = (7 / 8 * nth i x 0)%R).
  { etransitivity; [exact Ey|]. cbn [step_of uf lp_grad normal nrng]. change (@f0 RNum) with 0%R. change (@f2 RNum) with 2%R. change (@F RNum) with R in * .
    rewrite nth_repeat. destruct i as [|[|i]]; [cbn [nth]|cbn [nth]|lia]; cbn [fadd fmul fdiv RNum]; field. }
  apply abs_between. change (@F RNum) with R in * . rewrite E. lra.
Qed.
Lemma u_local' q (x : list R) (lp : R) o : uP' x -> @mala_kernel RNum nrng (@SDiag RNum [1; 3/2]%R) q x lp ug [] = Ok o -> uP' (s_pos o).
Proof.
  intros (L & H0 & H1) K. apply mala_contract in K as (y & r & _ & Hy & _ & _ & A & B). destruct (s_acc o); [|destruct (B eq_refl) as [-> _]; split; auto].
  destruct (A eq_refl) as [-> _]. destruct (Hy u_normal) as [Ly Ey]; [intros z _; cbn; change (length x = 2) in L; now rewrite L|].
  split; [exact (eq_trans Ly L)|]. apply between_abs in H0, H1. change (@F RNum) with R in * .
  pose proof (Ey 0 ltac:(change (0 < length x); rewrite L; lia)) as E0. pose proof (Ey 1 ltac:(change (1 < length x); rewrite L; lia)) as E1.
  assert (F0 : @nth R 0 y 0%R = (nth 0 x 0 - (nth 0 x 0 - 1) / 8)%R).
  { etransitivity; [exact E0|]. cbn [step_of ug lp_grad normal nrng]. change (@f0 RNum) with 0%R. change (@f2 RNum) with 2%R. change (@F RNum) with R in * . rewrite nth_repeat. cbn [nth]. cbn [fadd fmul fdiv RNum]. field. }
  assert (F1 : @nth R 1 y 0%R = (nth 1 x 0 - (nth 1 x 0 + 1) / 8)%R).
  { etransitivity; [exact E1|]. cbn [step_of ug lp_grad normal nrng]. change (@f0 RNum) with 0%R. change (@f2 RNum) with 2%R. change (@F RNum) with R in * . rewrite nth_repeat. cbn [nth]. cbn [fadd fmul fdiv RNum]. field. }
  split; apply abs_between; [rewrite F0|rewrite F1]; lra.
Qed.
Lemma u_samples q s (x : list R) : In x (@m_sample RNum nrng unf um q s) -> uP x.
Proof.
  intros H. cbn [m_sample unf UNF] in H. apply in_map_iff in H as (j & <- & _). split; [reflexivity|].
  intros i Hi. apply abs_between. destruct i as [|[|i]]; [cbn [uflow um fst snd seq map nth]|cbn [uflow um fst snd seq map nth]|lia]; destruct j; unfold ndraw; lra.
Qed.
Lemma u_samples' q s (x : list R) : In x (@m_sample RNum nrng unf um' q s) -> uP' x.
Proof.
  intros H. cbn [m_sample unf UNF] in H. apply in_map_iff in H as (j & <- & _). split; [reflexivity|].
  split; apply abs_between; cbn [uflow um' fst snd seq map nth ua ub]; destruct j; unfold ndraw; lra.
Qed.

(** The hypotheses of C88_bundle hold for them: both runs (two training loops, one production loop, two chains) return. *)
Example C88_case_run : exists k1 x1 w1 k1' x1' w1',
  @permutation_law RNum nrng /\ @config_in_units nrng unf 2 ua ub uc uc' /\
  @flows_convert nrng unf 2 ua ub (c_tx uc) (c_max uc) (fun _ => True) (fun m m' => m = um /\ m' = um') (fun m m' => m = um /\ m' = um') /\
  @rqspline_mala_bundle RNum nrng unf uc = Ok (ubd uc) /\ @rqspline_mala_bundle RNum nrng unf uc' = Ok (ubd uc') /\
  @run_ok RNum nrng unf uc [] ux (fun m => m = um) /\ @run_ok RNum nrng unf uc' [] ux' (fun m => m = um') /\ Forall2 (in_units 2 ua ub) ux ux' /\
  @sampler_sample RNum nrng unf (usamp uc) (@P2 RNum ux) [] (fst (ubd uc)) = (Ok (k1, x1), w1) /\
  @sampler_sample RNum nrng unf (usamp uc') (@P2 RNum ux') [] (fst (ubd uc')) = (Ok (k1', x1'), w1') /\
  @same_range nrng unf 2 2 w1 w1' /\
  @runs_in_units nrng unf 2 ua ub uc (fun m m' => m = um /\ m' = um') k1 x1 w1 k1' x1' w1'.
Proof.
  assert (B : @rqspline_mala_bundle RNum nrng unf uc = Ok (fst (ubd uc), snd (ubd uc))) by reflexivity.
  assert (B' : @rqspline_mala_bundle RNum nrng unf uc' = Ok (fst (ubd uc'), snd (ubd uc'))) by reflexivity.
  assert (I : @sampler_init RNum nrng unf 2 2 3 None None ONone (Some (snd (ubd uc))) [] = Ok (usamp uc)) by reflexivity.
  assert (I' : @sampler_init RNum nrng unf 2 2 3 None None ONone (Some (snd (ubd uc'))) [] = Ok (usamp uc')) by reflexivity.
  assert (O : @run_ok RNum nrng unf uc [] ux (fun m => m = um)) by (apply u_ok; [reflexivity|intros x [<-|[<-|[]]]; reflexivity|exact (proj1 u_grads)]).
  assert (O' : @run_ok RNum nrng unf uc' [] ux' (fun m => m = um')) by (apply u_ok; [reflexivity|intros x [<-|[<-|[]]]; reflexivity|exact (proj2 u_grads)]).
  assert (X0 : forall x, In x ux -> uP x).
  { intros x [<-|[<-|[]]]; (split; [reflexivity|]); intros [|[|i]] Hi; try lia; cbn [nth]; apply abs_between; lra. }
  assert (X0' : forall x, In x ux' -> uP' x).
  { intros x [<-|[<-|[]]]; (split; [reflexivity|]); split; cbn [nth]; apply abs_between; lra. }
  assert (X : Forall2 (in_units 2 ua ub) ux ux').
  { repeat constructor; intros [|[|i]] Hi; try lia; cbn; lra. }
  destruct (@closed_returns RNum nrng unf uc [] (fun m => m = um) uP ltac:(cbn; lia) (u_class um) ltac:(cbn; lia) ltac:(cbn; lia) u_local
    (fun m q s y Hm => eq_ind_r (fun m => In y (@m_sample RNum nrng unf m q s) -> uP y) (u_samples q s y) Hm) u_fin _ _ _ _ _ _ _ _ _ B I O (u_counts uf (@SScalar RNum (1/2)%R) um Logic.I) X0)
    as (k1 & x1 & w1 & R1 & P1).
  destruct (@closed_returns RNum nrng unf uc' [] (fun m => m = um') uP' ltac:(cbn; lia) (u_class um') ltac:(cbn; lia) ltac:(cbn; lia) u_local'
    (fun m q s y Hm => eq_ind_r (fun m => In y (@m_sample RNum nrng unf m q s) -> uP' y) (u_samples' q s y) Hm) u_fin' _ _ _ _ _ _ _ _ _ B' I' O' (u_counts ug (@SDiag RNum [1; 3/2]%R) um' eq_refl) X0')
    as (k1' & x1' & w1' & R1' & P1').
  assert (PL : @permutation_law RNum nrng) by (intros k n; apply Permutation.Permutation_refl).
  assert (CU : @config_in_units nrng unf 2 ua ub uc uc').
  { constructor; try reflexivity; [exact (proj1 C86_case_target)|]. split; [exact Logic.I|]. split; [reflexivity|]. split.
    - intros i Hi. cbn [c_step uc ucfg step_of]. change (@F RNum) with R. lra.
    - intros [|[|i]] Hi; [cbn; lra|cbn; lra|lia]. }
  assert (FC : @flows_convert nrng unf 2 ua ub (c_tx uc) (c_max uc) (fun _ => True) (fun m m' => m = um /\ m' = um') (fun m m' => m = um /\ m' = um')).
  { constructor.
    - auto.
    - intros m m' [-> ->]. exact (C86_case_flow nrng ndraw).
    - intros m m' data data' [-> ->] _ _. split; reflexivity.
    - intros m m' b b' st [-> ->] _ _. repeat split; reflexivity. }
  exists k1, x1, w1, k1', x1', w1'.
  assert (SR : @same_range nrng unf 2 2 w1 w1').
  { intros l pb l' pb' Bn Bn' i sl Hi Hsl.
    assert (Hsl' : sl < nth 1 (ashape (b_data pb')) 0).
    { destruct (@P_Bundle5.C45_base_proof RNum nrng unf _ _ _ _ _ _ _ _ _ _ _ _ _ _ _ B I O R1) as (tl & pl & s1 & s2 & _ & _ & N1 & _ & _ & _ & (sl1 & l1 & pb1 & l2 & lb & l3 & ab & l4 & gb & (B1 & B2) & _ & _ & _ & S1 & _ & _ & _ & HR) & _).
      destruct (@P_Bundle5.C45_base_proof RNum nrng unf _ _ _ _ _ _ _ _ _ _ _ _ _ _ _ B' I' O' R1') as (tl' & pl' & s1' & s2' & _ & _ & N1' & _ & _ & _ & (sl1' & l1' & pb1' & l2' & lb' & l3' & ab' & l4' & gb' & (B1' & B2') & _ & _ & _ & S1' & _ & _ & _ & HR') & _).
      destruct Bn as [C1 C2], Bn' as [C1' C2']. change (append "positions_" "training") with "positions_training"%string in B1, B1'.
      rewrite B1 in C1. injection C1 as <-. rewrite B2 in C2. injection C2 as <-. rewrite B1' in C1'. injection C1' as <-. rewrite B2' in C2'. injection C2' as <-.
      rewrite S1 in Hsl. rewrite S1'. cbn [nth] in Hsl |- * .
      destruct (HR 0 ltac:(cbn; lia)) as [E _]. destruct (HR' 0 ltac:(cbn; lia)) as [E' _]. rewrite P_Bundle3.history_length in E, E'. rewrite N1 in E. rewrite N1' in E'. rewrite <- E'. rewrite <- E in Hsl. exact Hsl. }
    exact (eq_trans (u_fin _ (P1 l pb i sl Bn Hi Hsl)) (eq_sym (u_fin' _ (P1' l' pb' i sl Bn' Hi Hsl')))). }
  do 10 (split; [assumption || (destruct (ubd uc), (ubd uc'); assumption)|]). split; [exact SR|].
  refine (C88_bundle nrng unf 2 ua ub uc uc' _ _ _ _ 2 2 2 2 3 ONone ONone [] [] (usamp uc) (usamp uc') [] ux ux' _ _ (fun _ => True) _ _ k1 x1 w1 k1' x1' w1'
    PL (proj2 (proj2 C86_case_target)) CU FC ltac:(cbn; lia) B B' I I' O O' X R1 R1' Logic.I (conj eq_refl eq_refl) (or_introl (conj eq_refl eq_refl)) SR).
Qed.

Print Assumptions C88_bundle.
Print Assumptions C88_pt_bundle.
Print Assumptions C88_spline.
Print Assumptions C88_spline_pt.
