(** Trained spline models over the reals: the reported log-determinant and log_prob. *)
From Coq Require Import Reals Psatz.
From Coquelicot Require Import Coquelicot.
From Verif Require Import Prelude Num M_Core M_Kernels M_Strategies M_Flow M_Net M_Model M_Tree P_Lists RNum MxR Spec_Kernels Spec_Train Spec_Jac P_Jac Spec_Real Spec_Spline Spec_Flow P_Real1 P_Flow P_Flow2 P_Flow3 P_Flow4 P_Flow5 P_Flow6 Spec_Net P_Gauss P_Net P_Net2 P_Net3 P_Net4 Spec_Tree P_Tree1 P_Tree2 P_Tree3 P_Tree4 P_Tree5.
Open Scope R_scope.

(** A network of the right shape with tanh activations. *)
Lemma mok_len {N : Num} shape act (m : mlp) (x : vec) b : mlp_ok shape act m -> nth_error shape (length shape - 1) = Some b -> length (mlp_call m x) = b.
Proof. intros (_ & Ea & Hc & _) Hb. unfold mlp_call. exact (chain_call_len _ _ _ _ _ _ Hc Hb). Qed.
Lemma mok_dif shape act (m : @mlp RNum) a b (x : list R) : @mlp_ok RNum shape act m -> nth_error shape 0 = Some a -> nth_error shape (length shape - 1) = Some b ->
  length x = a -> act_ok act (ml_hidden m) x -> differentiable_to a b (mlp_call m) x.
Proof.
  intros (_ & Ea & Hc & _) Ha Hb Hx Ho. apply dif_jac. intros i Hi. unfold mlp_call. rewrite Ea.
  apply (chain_dif a x Hx act (ml_last m) (ml_hidden m) shape (fun y => y) a b Hc Ha Hb); auto. intros. now apply dif_proj.
Qed.
Section Tree6.
Context {G : @Rng RNum}.
Variables (n L bins : nat) (hidden : list nat) (lo hi : R) (lv : list (@leaf RNum)).
Hypothesis Hn : (0 < n)%nat.
Hypothesis Hb1 : (1 <= bins)%nat.
Hypothesis Hb2 : INR bins / 10000 < hi - lo.
Hypothesis Hf : @rqs_facts RNum n L bins hidden lo hi lv.
Lemma net_first : nth_error (rqs_net_shape n bins hidden) 0 = Some n.
Proof. reflexivity. Qed.
Lemma net_last : nth_error (rqs_net_shape n bins hidden) (length (rqs_net_shape n bins hidden) - 1) = Some (n * (bins * 3 + 1))%nat.
Proof. unfold rqs_net_shape. change (n :: hidden ++ [n * (bins * 3 + 1)])%nat with ((n :: hidden) ++ [n * (bins * 3 + 1)])%nat. apply nth_error_last2. Qed.
Lemma trained_ok a b q : In (a, b, q) (map (@trained_par RNum n L bins hidden lo hi lv) (seq 0 L)) -> rq_admissible q /\ rq_shape q n /\
  forall c, length c = n -> differentiable_to n (n * (rq_bins q * 3 + 1)) (rq_cond q) c.
Proof.
  intros H. apply in_map_iff in H as (i & E & Hi). apply in_seq in Hi.
  assert (M : @mlp_ok RNum (rqs_net_shape n bins hidden) ftanh (trained_net n bins hidden lv i)).
  { unfold trained_net. apply mlp_at_ok with (L := L); [apply rqs_shape_len|exact (rf_net _ _ _ _ _ _ _ Hf)|lia]. }
  unfold trained_par in E. injection E as _ _ <-. split; [|split].
  - constructor; cbn [rq_bins rq_min_bin rq_min_slope rq_max rq_min]; auto; try (change (0 <= 1 / 10000); lra).
    change (INR bins * (1 / 10000) < hi - lo). lra.
  - intros c Hc. cbn [rq_cond rq_bins]. exact (mok_len _ _ _ c _ M net_last).
  - intros c Hc. cbn [rq_cond rq_bins]. apply (mok_dif _ _ _ _ _ c M net_first net_last Hc). apply tanh_ok.
Qed.
Lemma trained_logdet (x : list R) : length x = n -> reports_logdet n (flow_fwd (fl_layers (rqs_flow L bins hidden lv))) x.
Proof.
  intros Hx. destruct (rqs_trained_layers n L bins hidden lo hi lv Hn Hf) as [_ ->]. apply rqs_logdet_smooth; auto. exact trained_ok.
Qed.
Lemma trained_density chol (x : list R) : good_stats (rqs_flow L bins hidden lv) -> length x = n ->
  exists d, 0 < d /\ density_through n (latent (rqs_flow L bins hidden lv)) (fun y => exp (ds_logp (@tree_base RNum G chol lv) y)) x d /\
    @rqs_tree_logp RNum G chol L bins hidden lv x = ln d + Rsum n (fun i => ln (sqrt (nth i (fl_var (rqs_flow L bins hidden lv)) 0))).
Proof.
  intros Hg Hx. destruct (rqs_trained_layers n L bins hidden lo hi lv Hn Hf) as [En El].
  destruct (rqs_density (rqs_flow L bins hidden lv) Hg (map (@trained_par RNum n L bins hidden lo hi lv) (seq 0 L)) (fun y => exp (ds_logp (@tree_base RNum G chol lv) y)) x) as (d & H1 & H2 & H3).
  - rewrite En. exact El.
  - rewrite En. exact trained_ok.
  - intros y. apply exp_pos.
  - rewrite En. exact Hx.
  - rewrite En in H2, H3. exists d. split; [exact H1|split; [exact H2|]]. etransitivity; [|exact H3]. unfold rqs_tree_logp, rqs_log_prob. destruct (flow_fwd _ _) as [y ld]. rewrite ln_exp. reflexivity.
Qed.
End Tree6.
