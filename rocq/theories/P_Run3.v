(** The trained flow of a bundle run, over the reals. *)
From Coq Require Import Reals Lra.
From Verif Require Import Prelude Num M_Core M_Kernels M_Strategies M_PT M_Bundle M_Flow M_Net M_Model M_Tree M_Spline P_Lists RNum
  Spec Spec_Core Spec_Sampler Spec_Steps Spec_Kernels Spec_Train Spec_PT Spec_Bundle Spec_Jac Spec_Flow Spec_Net Spec_Tree Spec_Run P_Tree1 P_Tree2 P_Tree3 P_Tree5 P_Tree6 P_Flow6 P_Run1 P_Run2 P_Run4.
Open Scope R_scope.
Section R.
Context {G : @Rng RNum}.
Variable li : nat -> nat -> key -> bool -> @linear RNum.
Hypothesis Hli : linear_law li.
Hypothesis Hbl : bias_law li.
Hypothesis Hno : normal_shape.
Variable chol : list (list R) -> list (list R).
Lemma trained_exact n L bins hidden (lo hi : R) k lv0 lv : rqs_tree li n L bins hidden lo hi k = Ok lv0 -> only_floats_differ lv0 lv ->
  (0 < n)%nat -> (1 <= bins)%nat -> INR bins / 10000 < hi - lo ->
  let m := rqs_flow L bins hidden lv in
  (forall x : list R, length x = n -> reports_logdet n (flow_fwd (fl_layers m)) x) /\
  ((forall i, (i < n)%nat -> 0 < @nth R i (fl_var m) 0) -> forall x : list R, length x = n ->
    exists d, 0 < d /\ density_through n (latent m) (fun y => exp (ds_logp (@tree_base RNum G chol lv) y)) x d /\
      @rqs_tree_logp RNum G chol L bins hidden lv x = ln d + Rsum n (fun i => ln (sqrt (nth i (fl_var m) 0)))).
Proof.
  intros Hnew Ho Hn H1 H2. cbv zeta.
  pose proof (rqs_trained_facts li Hli Hbl Hno _ _ _ _ _ _ _ _ _ Hnew Ho) as Hf.
  destruct (ofd_stats n lv0 lv Ho (rqs_stats li _ _ _ _ _ _ _ _ Hnew)) as (En & v1 & v2 & E1 & L1 & _).
  split.
  - intros x Hx. exact (trained_logdet n L bins hidden lo hi lv Hn H1 H2 Hf x Hx).
  - intros Hv x Hx. apply (trained_density n L bins hidden lo hi lv Hn H1 H2 Hf chol x); [|exact Hx].
    unfold good_stats, rqs_flow in * . cbn [tree_flow fl_n fl_mean fl_var] in * . rewrite En in * . split; [rewrite E1; exact L1|]. split; [|exact Hv].
    refine (eq_trans (diag_len _) _). unfold matrix_of. apply reshape_rows_length.
Qed.
End R.
Lemma spline_result_R (G : @Rng RNum) li : linear_law li -> bias_law li -> forall (chol : list (list R) -> list (list R)) grad (a : @args RNum G) h bd n nc k o kw s d xs k' xs' w',
  (RQSpline_MALA li chol grad a = Ok (h, bd) \/
   (exists nt mt steps prior, RQSpline_MALA_PT li chol grad a nt mt steps prior = Ok (h, bd) /\ grad_shape prior d (a_n_dims a) /\ (0 < a_n_chains a)%nat)) ->
  @sampler_init RNum G (spline_ops chol grad a) n nc k None None o (Some bd) kw = Ok s -> args_ok a chol d xs ->
  sampler_sample s (P2 xs) d h = (Ok (k', xs'), w') -> (1 <= a_bins a)%nat -> INR (a_bins a) < 200000 ->
  exists lv, content_of w' "model" = CPlain (@RModel RNum G (spline_ops chol grad a) lv) /\
  let m := rqs_flow (a_layers a) (a_bins a) (a_hidden a) lv in
  (forall x : list R, length x = a_n_dims a -> reports_logdet (a_n_dims a) (flow_fwd (fl_layers m)) x) /\
  ((forall i, (i < a_n_dims a)%nat -> 0 < @nth R i (fl_var m) 0) -> forall x : list R, length x = a_n_dims a ->
    exists dens, 0 < dens /\ density_through (a_n_dims a) (latent m) (fun y => exp (ds_logp (@tree_base RNum G chol lv) y)) x dens /\
      @m_logp RNum G (spline_ops chol grad a) lv x = ln dens + Rsum (a_n_dims a) (fun i => ln (sqrt (nth i (fl_var m) 0)))) /\
  ((forall i, (i < a_n_dims a)%nat -> 0 < @nth R i (fl_var m) 0) ->
   exact_inverse (a_n_dims a) (flow_fwd (fl_layers m)) (flow_inv (fl_layers m)) ->
   forall kk ns i, (i < ns)%nat ->
    length (@m_sample RNum G (spline_ops chol grad a) lv kk ns) = ns /\
    latent m (nth i (@m_sample RNum G (spline_ops chol grad a) lv kk ns) []) = nth i (ds_sample (@tree_base RNum G chol lv) kk ns) []).
Proof.
  intros Hli Hbl chol grad a h bd n nc k o kw s d xs k' xs' w' Hb Hs Hok H H1 H2.
  destruct (spline_final li chol grad a h bd n nc k o kw s d xs k' xs' w' Hb Hs Hok H) as (lv0 & lv & C & E0 & Ho).
  exists lv. split; [exact C|]. cbv zeta.
  assert (HB : INR (a_bins a) / 10000 < IZR 10 - IZR (-10)) by lra.
  destruct (trained_exact li Hli Hbl (ao_normal _ _ _ _ Hok) chol _ _ _ _ _ _ _ lv0 lv E0 Ho (ao_dims _ _ _ _ Hok) H1 HB) as [T1 T2].
  split; [exact T1|]. split; [exact T2|]. intros Hv EX kk ns i Hi.
  destruct (ofd_stats (a_n_dims a) lv0 lv Ho (rqs_stats li _ _ _ _ _ _ _ _ E0)) as (En & v1 & v2 & E1 & L1 & E2 & _).
  destruct (rqs_masks_len li _ _ _ _ _ _ _ _ E0) as (Hh0 & _). pose proof (header_ok_ofd _ _ _ Ho Hh0) as [K1 K2 K3].
  set (n0 := a_n_dims a) in * . set (m := rqs_flow (a_layers a) (a_bins a) (a_hidden a) lv) in * .
  destruct (@gaussian_shape RNum G (leaf_vals (lv_at lv 3)) (chol (matrix_of (tree_n lv) (lv_at lv 4))) n0 kk ns (ao_normal _ _ _ _ Hok) K3) as [D1 D2].
  { refine (eq_trans (ao_chol _ _ _ _ Hok _) _). unfold matrix_of. refine (eq_trans (reshape_rows_length _ _ _) _). exact K1. }
  assert (Hg : good_stats m).
  { unfold m, good_stats, rqs_flow in * . cbn [tree_flow fl_n fl_mean fl_var] in * . rewrite K1 in * . split; [exact K2|]. split; [|exact Hv].
    refine (eq_trans (diag_len _) _). unfold matrix_of. apply reshape_rows_length. }
  assert (Em : fl_n m = n0) by exact K1.
  destruct (flow_sample_nth m Hg (ds_sample (@tree_base RNum G chol lv) kk ns) i) as (S1 & _ & S3).
  - rewrite Em. exact EX.
  - exact (eq_ind _ (fun z => (i < z)%nat) Hi _ (eq_sym D1)).
  - rewrite Em. apply D2. apply nth_In. exact (eq_ind _ (fun z => (i < z)%nat) Hi _ (eq_sym D1)).
  - split; [exact (eq_trans S1 D1)|exact S3].
Qed.
