(** The spline bundles in other units. *)
From Coq Require Import Reals Psatz.
From Verif Require Import Prelude Num M_Core M_Kernels M_Strategies M_PT M_Bundle M_Flow M_Net M_Model M_Tree M_Spline P_Lists RNum
  Spec Spec_Core Spec_Sampler Spec_Steps Spec_Train Spec_PT Spec_Bundle Spec_Kernels Spec_Prog Spec_Real Spec_HMC Spec_Net Spec_Tree Spec_Run P_Real1 P_Tree3 P_Run1 P_Run2
  Spec_Units P_Units1 P_Units2 Spec_URun P_URun1 P_URun2 P_URun3 Spec_USpline P_USpline.
Open Scope nat_scope.

Lemma runs_weaken {G : @Rng RNum} {NF : @NFOps RNum G} n a b c (V W : mdl -> mdl -> Prop) k x w k' x' w' :
  (forall m m', V m m' -> W m m') -> runs_in_units n a b c V k x w k' x' w' -> runs_in_units n a b c W k x w k' x' w'.
Proof.
  intros H (A1 & A2 & A3 & A4 & A5 & A6 & m & m' & B1 & B2 & B3). repeat (split; [assumption|]). exists m, m'. auto.
Qed.
Lemma shape_units n sc (f f' : @lpdf RNum) (d : datad) : (forall i, i < n -> (0 < sc i)%R) -> target_in_units n sc (fun _ => 0%R) f f' -> grad_shape f' d n.
Proof.
  intros P T y Hy. change (list R) in y. pose (x := map (fun i => nth i y 0%R / sc i)%R (seq 0 n)).
  assert (X : in_units n sc (fun _ => 0%R) x y).
  { split; [unfold x; now rewrite map_length, seq_length|]. split; [exact Hy|]. intros i Hi. unfold x. pose proof (P i Hi) as Q. pose proof (nth_map_seq (fun i => nth i y 0%R / sc i)%R n i 0%R Hi) as E. rnorm. rewrite E.
    match goal with |- @eq _ ?u ?v => change (@eq R u v) end. generalize (@nth R i y 0%R). intros q. field. lra. }
  destruct (T x y d X) as (_ & _ & L & _). exact L.
Qed.

Section USpline2.
Context {G : @Rng RNum}.
Variable li : nat -> nat -> key -> bool -> @linear RNum.
Variable chol : list (list R) -> list (list R).
Variable grad : list (@leaf RNum) -> list (list R) -> list R.
Variables (a : @args RNum G) (f' : @lpdf RNum) (ss' : @stepsize RNum) (sc : nat -> R).
Notation n := (a_n_dims a).
Notation a' := (with_target_and_step a f' ss').
Notation NFO := (@spline_ops RNum G chol grad a).

Lemma spline_cu : target_in_units n sc (fun _ => 0%R) (a_logpdf a) f' ->
  step_accepted (a_step a) n -> step_accepted ss' n -> (forall i, i < n -> step_of (a_step a) i <> 0%R) -> steps_in_units n sc (a_step a) ss' ->
  @config_in_units G NFO n sc (fun _ => 0%R) (spline_config li chol grad a) (spline_config li chol grad a').
Proof. intros T S1 S2 S3 S4. constructor; try reflexivity; try exact T. split; [exact S1|]. split; [exact S2|]. split; [exact S3|exact S4]. Qed.

Lemma args_units d xs xs' : (forall i, i < n -> (0 < sc i)%R) -> target_in_units n sc (fun _ => 0%R) (a_logpdf a) f' -> Forall2 (in_units n sc (fun _ => 0%R)) xs xs' ->
  args_ok a chol d xs -> args_ok a' chol d xs'.
Proof.
  intros P T X [H1 H2 H3 H4 H5 H6 H7 H8 H9 H10 H11]. pose proof (f2_len _ _ _ X) as L. constructor; auto.
  - exact (eq_trans (eq_sym L) H5).
  - clear - X. induction X as [|x x' xs xs' (_ & L & _) X IH]; [intros y []|]. intros y [<-|Hy]; [exact L|exact (IH y Hy)].
  - exact (shape_units n sc (a_logpdf a) f' d P T).
Qed.

Lemma spline_base_units h h' bd bd' n1 n2 nc1 nc2 k o1 o2 kw1 kw2 s s' d xs xs' k1 x1 w1 k1' x1' w1' :
  @permutation_law RNum G -> (forall i, i < n -> (0 < sc i)%R) -> gradient_through_whitening n (rqs_flow (a_layers a) (a_bins a) (a_hidden a)) grad ->
  target_in_units n sc (fun _ => 0%R) (a_logpdf a) f' ->
  step_accepted (a_step a) n -> step_accepted ss' n -> (forall i, i < n -> step_of (a_step a) i <> 0%R) -> steps_in_units n sc (a_step a) ss' ->
  0 < a_n_chains a ->
  RQSpline_MALA li chol grad a = Ok (h, bd) -> RQSpline_MALA li chol grad a' = Ok (h', bd') ->
  @sampler_init RNum G NFO n1 nc1 k None None o1 (Some bd) kw1 = Ok s -> @sampler_init RNum G NFO n2 nc2 k None None o2 (Some bd') kw2 = Ok s' ->
  args_ok a chol d xs -> Forall2 (in_units n sc (fun _ => 0%R)) xs xs' ->
  sampler_sample s (P2 xs) d h = (Ok (k1, x1), w1) -> sampler_sample s' (P2 xs') d h' = (Ok (k1', x1'), w1') ->
  @first_training_kept G NFO (spline_config li chol grad a) w1 -> same_range n (a_n_chains a) w1 w1' ->
  @runs_in_units G NFO n sc (fun _ => 0%R) (spline_config li chol grad a) (stats_in_units n sc) k1 x1 w1 k1' x1' w1'.
Proof.
  intros PL P HG T S1 S2 S3 S4 HCh B B' I I' AO X RR RR' FK SR. pose proof (args_units d xs xs' P T X AO) as AO'.
  destruct (spline_model_ok li a (split (a_key a) 2 1)) as (lv0 & E0 & Em).
  pose proof (spline_run_ok li chol grad a d xs lv0 AO E0) as RO. pose proof (spline_run_ok li chol grad a' d xs' lv0 AO' E0) as RO'.
  refine (@runs_weaken G NFO n sc (fun _ => 0%R) _ (conv a sc lv0) (stats_in_units n sc) _ _ _ _ _ _ (fun m m' C => proj1 C) _).
  refine (@base_units G NFO n sc (fun _ => 0%R) (spline_config li chol grad a) (spline_config li chol grad a') h h' bd bd' n1 n2 nc1 nc2 k o1 o2 kw1 kw2 s s' d xs xs' _ _
    (okst a) (pre a lv0) (conv a sc lv0) k1 x1 w1 k1' x1' w1' PL _ (spline_cu T S1 S2 S3 S4) _ HCh B B' I I' RO RO' X RR RR' _ _ (or_intror FK) SR).
  - intros i Hi. pose proof (P i Hi). lra.
  - exact (spline_converts li chol grad a sc lv0 P HG (ao_chol _ _ _ _ AO) (ao_normal _ _ _ _ AO) E0 _ _).
  - exact (init_okst a _).
  - cbn [c_model spline_config c_key]. change (spline_model li a') with (spline_model li a). rewrite Em. exact (init_pre li a lv0 E0).
Qed.
Lemma spline_pt_units nt mt steps prior prior' h h' bd bd' n1 n2 nc1 nc2 k o1 o2 kw1 kw2 s s' d xs xs' k1 x1 w1 k1' x1' w1' :
  @permutation_law RNum G -> (forall i, i < n -> (0 < sc i)%R) -> gradient_through_whitening n (rqs_flow (a_layers a) (a_bins a) (a_hidden a)) grad ->
  target_in_units n sc (fun _ => 0%R) (a_logpdf a) f' -> target_in_units n sc (fun _ => 0%R) prior prior' ->
  step_accepted (a_step a) n -> step_accepted ss' n -> (forall i, i < n -> step_of (a_step a) i <> 0%R) -> steps_in_units n sc (a_step a) ss' ->
  0 < a_n_chains a ->
  RQSpline_MALA_PT li chol grad a nt mt steps prior = Ok (h, bd) -> RQSpline_MALA_PT li chol grad a' nt mt steps prior' = Ok (h', bd') ->
  @sampler_init RNum G NFO n1 nc1 k None None o1 (Some bd) kw1 = Ok s -> @sampler_init RNum G NFO n2 nc2 k None None o2 (Some bd') kw2 = Ok s' ->
  args_ok a chol d xs -> grad_shape prior d n -> Forall2 (in_units n sc (fun _ => 0%R)) xs xs' ->
  sampler_sample s (P2 xs) d h = (Ok (k1, x1), w1) -> sampler_sample s' (P2 xs') d h' = (Ok (k1', x1'), w1') ->
  @first_training_kept G NFO (spline_config li chol grad a) w1 -> same_range n (a_n_chains a) w1 w1' ->
  @runs_in_units G NFO n sc (fun _ => 0%R) (spline_config li chol grad a) (stats_in_units n sc) k1 x1 w1 k1' x1' w1' /\
  ensembles_in_units n sc (fun _ => 0%R) (a_n_chains a) (nt - 1) w1 w1'.
Proof.
  intros PL P HG T TP S1 S2 S3 S4 HCh B B' I I' AO GP X RR RR' FK SR. pose proof (args_units d xs xs' P T X AO) as AO'.
  destruct (spline_model_ok li a (split (a_key a) 2 1)) as (lv0 & E0 & Em).
  pose proof (spline_run_ok li chol grad a d xs lv0 AO E0) as RO. pose proof (spline_run_ok li chol grad a' d xs' lv0 AO' E0) as RO'.
  assert (A : @runs_in_units G NFO n sc (fun _ => 0%R) (spline_config li chol grad a) (conv a sc lv0) k1 x1 w1 k1' x1' w1' /\ ensembles_in_units n sc (fun _ => 0%R) (a_n_chains a) (nt - 1) w1 w1').
  { refine (@pt_units G NFO n sc (fun _ => 0%R) (spline_pt_config li chol grad a nt mt steps prior) (spline_pt_config li chol grad a' nt mt steps prior') h h' bd bd' n1 n2 nc1 nc2 k o1 o2 kw1 kw2 s s' d xs xs' _ _
    (okst a) (pre a lv0) (conv a sc lv0) k1 x1 w1 k1' x1' w1' PL _ _ _ HCh B B' I I' RO RO' GP (shape_units n sc prior prior' d P TP) X RR RR' _ _ (or_intror FK) SR).
  - intros i Hi. pose proof (P i Hi). lra.
  - constructor; try reflexivity; [exact (spline_cu T S1 S2 S3 S4)|exact TP].
  - exact (spline_converts li chol grad a sc lv0 P HG (ao_chol _ _ _ _ AO) (ao_normal _ _ _ _ AO) E0 _ _).
  - exact (init_okst a _).
  - cbn [c_model spline_config c_key spline_pt_config p_base]. change (spline_model li a') with (spline_model li a). rewrite Em. exact (init_pre li a lv0 E0). }
  destruct A as [A1 A2]. split; [|exact A2]. refine (@runs_weaken G NFO n sc (fun _ => 0%R) _ (conv a sc lv0) (stats_in_units n sc) _ _ _ _ _ _ (fun m m' C => proj1 C) _). exact A1.
Qed.
End USpline2.
