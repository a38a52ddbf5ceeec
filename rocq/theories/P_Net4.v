(** Proofs of C54: a fresh RQSpline flow is well conditioned, invertible and reports its density. *)
From Coq Require Import Reals Psatz.
From Coquelicot Require Import Coquelicot.
From Verif Require Import Prelude Num M_Core M_Kernels M_Flow M_Net P_Lists RNum MxR Spec_Kernels Spec_Jac P_Jac Spec_Real Spec_Spline Spec_Flow P_Real1 P_Real2 P_Spline P_Spline2 P_Spline3 P_Flow P_Flow2 P_Flow3 P_Flow4 P_Flow5 P_Flow6 Spec_Net P_Gauss P_Net P_Net2 P_Net3.
Open Scope R_scope.

Lemma slope_le (u w : R) : u <= w + 1 -> 0 <= w -> ln (1 + exp (u + ln (exp (1 - 1 / 10000) - 1))) + 1 / 10000 <= w + 4.
Proof.
  intros Hu Hw. pose proof exp_le_3 as E3.
  assert (A : exp (1 - 1 / 10000) < exp 1) by (apply exp_increasing; lra).
  assert (B : 1 < exp (1 - 1 / 10000)) by (rewrite <- exp_0 at 1; apply exp_increasing; lra).
  assert (Hc : ln (exp (1 - 1 / 10000) - 1) <= 1).
  { left. apply (Rlt_le_trans _ (ln (exp 1))); [apply ln_increasing; lra|rewrite ln_exp; lra]. }
  assert (H : ln (1 + exp (u + ln (exp (1 - 1 / 10000) - 1))) <= w + 3); [|lra].
  apply (Rle_trans _ (ln (exp (w + 3)))); [|rewrite ln_exp; lra]. assert (P : 0 < exp (u + ln (exp (1 - 1 / 10000) - 1))) by apply exp_pos.
  set (v := u + ln (exp (1 - 1 / 10000) - 1)) in * .
  assert (Q : exp v <= exp (w + 2)) by (assert (V : v <= w + 2) by (unfold v; lra); destruct V as [V|V]; [left; now apply exp_increasing|rewrite V; lra]).
  assert (T : 1 + exp (w + 2) <= exp (w + 3)).
  { replace (w + 3) with ((w + 2) + 1) by ring. rewrite (exp_plus (w + 2) 1). pose proof (exp_ineq1 1 ltac:(lra)) as I1. pose proof (exp_ineq1_le (w + 2)) as I2.
    clear - I1 I2 Hw. generalize dependent (exp (w + 2)). generalize dependent (exp 1). intros e He f Hf. assert (f * 2 <= f * e) by (apply Rmult_le_compat_l; lra). lra. }
  assert (V : 1 + exp v <= exp (w + 3)) by lra. destruct V as [V|V]; [left; apply ln_increasing; lra|rewrite V; lra].
Qed.

Section RQS.
Context {G : @Rng RNum}.
Variable li : nat -> nat -> key -> bool -> @linear RNum.
Hypothesis Hli : linear_law li.
Hypothesis Hlb : linear_bounded li.
Hypothesis Hno : normal_shape.
Variables (n bins w : nat) (hs : list nat).
Hypothesis Hn : (0 < n)%nat.
Hypothesis Hb1 : (1 <= bins)%nat.
Hypothesis Hb2 : INR bins < 200000.
Hypothesis Hw1 : (1 <= w)%nat.
Hypothesis Hw2 : INR w <= 399999990.
Let n_out := (n * (bins * 3 + 1))%nat.
Let shape := (n :: (hs ++ [w]) ++ [n_out])%list.
Lemma shape_last2 : nth_error shape (length shape - 2) = Some w /\ nth_error shape (length shape - 1) = Some n_out.
Proof.
  unfold shape. split; [|apply nth_error_last2]. cbn [length]. rewrite !app_length. cbn [length].
  replace (S (length hs + 1 + 1) - 2)%nat with (S (length hs)) by lia. cbn [nth_error].
  rewrite nth_error_app1 by (rewrite app_length; cbn; lia). rewrite nth_error_app2 by lia. now rewrite Nat.sub_diag.
Qed.
Definition rqs_net (ik : key) (mm : @mlp RNum) : Prop := @mlp_new RNum G li shape ik (1 / 100) (@ftanh RNum) true = Ok mm.
Definition spline_of (mm : @mlp RNum) : @rqspline RNum := mkRQ (-10) 10 bins (1 / 10000) (1 / 10000) (@mlp_call RNum mm).
Lemma net_len ik mm (c : list R) : rqs_net ik mm -> length (mlp_call mm c) = n_out.
Proof. intros H. exact (mlp_call_len li Hli Hno _ _ _ _ _ _ c n_out H (proj2 shape_last2)). Qed.
Lemma net_shape_ok ik mm : rqs_net ik mm -> rq_shape (spline_of mm) n.
Proof. intros H c _. exact (net_len ik mm c H). Qed.
Lemma net_admissible mm : rq_admissible (spline_of mm).
Proof. constructor; cbn [spline_of rq_bins rq_min_bin rq_min_slope rq_max rq_min]; auto; try lra. Qed.
Lemma net_hidden ik mm : rqs_net ik mm -> ml_hidden mm <> [].
Proof.
  intros H E. destruct (mlp_new_spec li Hli Hno _ _ _ _ _ _ H) as (_ & _ & Hc & _). rewrite E in Hc. unfold shape in Hc.
  clear -Hc. revert Hc. generalize n_out. clear n_out. intros o Hc. destruct hs as [|s1 [|s2 r]]; cbn in Hc; tauto.
Qed.
Lemma net_bound ik mm (c : list R) i : rqs_net ik mm -> (i < n_out)%nat -> Rabs (@nth R i (mlp_call mm c) 0) <= INR w + 1.
Proof.
  intros H Hi. pose proof (net_hidden _ _ H) as Hne. destruct (mlp_new_spec li Hli Hno _ _ _ _ _ _ H) as (_ & Ea & Hc & a & b & k' & El & Ha & Hb).
  destruct shape_last2 as [Sa Sb]. rewrite Sa in Ha. injection Ha as <-. rewrite Sb in Hb. injection Hb as <-.
  unfold mlp_call. rewrite Ea. change (@ftanh RNum) with tanh.
  destruct (Hlb w n_out k' true Hw1) as [B1 B2].
  apply (chain_bound (ml_last mm) (ml_hidden mm) shape c w n_out Hc Sa Sb Hne); auto.
  - rewrite El. exact B1.
  - intros j. unfold bias_at. rewrite El. destruct (ln_b (li w n_out k' true)) as [v|] eqn:Ev; [now apply B2|rewrite Rabs_R0; lra].
Qed.
Lemma net_conditioned ik mm : rqs_net ik mm -> rq_conditioned (spline_of mm) n.
Proof.
  intros H c j xp yp sl Hc Hj E. pose proof (net_admissible mm) as A. pose proof (net_shape_ok _ _ H) as Hs.
  apply (C28_default_proof (spline_of mm) n c j xp yp sl); auto; try reflexivity.
  intros i Hi. destruct (par_closed (spline_of mm) n c j A Hs Hc Hj) as (_ & P). destruct (P i Hi) as (_ & _ & Q).
  unfold par_s in Q. rewrite E in Q. eapply Rle_trans; [right; exact Q|]. cbn [spline_of rq_bins rq_min_slope rq_cond] in Hi |- * .
  assert (Hi2 : (j * (bins * 3 + 1) + (2 * bins + i) < n_out)%nat) by (unfold n_out; nia).
  pose proof (net_bound ik mm c _ H Hi2) as B. apply Rabs_le_between in B. pose proof (pos_INR w).
  eapply Rle_trans; [apply (slope_le _ (INR w)); [apply B|auto]|lra].
Qed.
Lemma net_dif ik mm (c : list R) : rqs_net ik mm -> length c = n -> differentiable_to n (n * (rq_bins (spline_of mm) * 3 + 1)) (rq_cond (spline_of mm)) c.
Proof.
  intros H Hc. cbn [spline_of rq_bins rq_cond]. apply (mlp_dif li Hli Hno _ _ _ _ _ _ n n_out c H eq_refl (proj2 shape_last2) Hc). apply tanh_ok.
Qed.
Lemma rqs_make_spec i ik : exists mm, rqs_net ik mm /\ rqs_make_layer li n bins (hs ++ [w]) (-10) 10 i ik = Ok (make_rqs_layer n i 0 0 (spline_of mm)).
Proof.
  destruct (@mlp_new_ok RNum G li shape ik (1 / 100) (@ftanh RNum) true) as [mm Hm].
  { unfold shape. cbn [length]. rewrite app_length. cbn. lia. }
  exists mm. split; auto. unfold rqs_make_layer. change (@fdiv RNum f1 (fofZ 100)) with (1 / 100). fold n_out. fold shape.
  rewrite Hm. cbn [rbind]. f_equal. unfold rqspline_new, n_out. rewrite num_bins_ok by auto. reflexivity.
Qed.
Definition layer_par (mm : @mlp RNum) : R * R * @rqspline RNum := (0, 0, spline_of mm).
Lemma rqs_new_spec L k0 : exists ms, Forall2 (fun i mm => rqs_net (split k0 L i) mm) (seq 0 L) ms /\
  rqs_new li n L bins (hs ++ [w]) (-10) 10 k0 = Ok (mkFlow n (map rqs_model_layer (rqs_layers n (map layer_par ms))) (repeat f0 n) (repeat f1 n)).
Proof.
  unfold rqs_new, per_layer.
  assert (K : forall sq, exists ms, Forall2 (fun i mm => rqs_net (split k0 L i) mm) sq ms /\
    rmapM (fun i => rqs_make_layer li n bins (hs ++ [w]) (-10) 10 i (split k0 L i)) sq =
    Ok (map (fun ip => let '(i, (scale, shift, q)) := ip in make_rqs_layer n i scale shift q) (combine sq (map layer_par ms)))).
  { induction sq as [|i sq (ms & F & E)]; [exists []; split; [constructor|reflexivity]|].
    destruct (rqs_make_spec i (split k0 L i)) as (mm & Hp & Em). exists (mm :: ms). split; [now constructor|].
    cbn [rmapM]. rewrite Em. cbn [rbind]. rewrite E. reflexivity. }
  destruct (K (seq 0 L)) as (ms & F & E). exists ms. split; auto. rewrite E. cbn [rbind]. f_equal. f_equal. unfold rqs_layers.
  rewrite map_length. assert (Lm : length ms = L) by (apply Forall2_length' in F; rewrite seq_length in F; congruence). rewrite Lm. reflexivity.
Qed.
Lemma fresh_rqs L k0 (p : list R -> R) : (forall y, 0 < p y) -> exists m, rqs_new li n L bins (hs ++ [w]) (-10) 10 k0 = Ok m /\
  fl_n m = n /\ length (fl_layers m) = L /\
  exact_inverse n (flow_fwd (fl_layers m)) (flow_inv (fl_layers m)) /\
  forall x, length x = n -> exists d, 0 < d /\ density_through n (latent m) p x d /\ rqs_log_prob (fun y => ln (p y)) m x = ln d.
Proof.
  intros Hp. destruct (rqs_new_spec L k0) as (ms & F & E). eexists. split; [exact E|].
  assert (Lm : length ms = L) by (apply Forall2_length' in F; rewrite seq_length in F; congruence).
  assert (HI : forall a b q, In (a, b, q) (map layer_par ms) -> a = 0 /\ b = 0 /\ exists ik mm, rqs_net ik mm /\ q = spline_of mm).
  { intros a b q Hin. apply in_map_iff in Hin as (mm & Em & Hin). unfold layer_par in Em. injection Em as <- <- <-. repeat split.
    clear -F Hin. induction F as [|i mm' l ms Hq F IH]; [destruct Hin|]. destruct Hin as [->|Hin]; [eauto|auto]. }
  split; [reflexivity|]. split.
  { cbn [fl_layers]. unfold rqs_layers. rewrite !map_length, combine_length, seq_length, map_length. lia. }
  split.
  - cbn [fl_layers]. apply rqs_flow_zero_exact.
    + intros a b q Hin. destruct (HI a b q Hin) as (_ & _ & ik & mm & Hq & ->). repeat split; [apply net_admissible..| |]; [exact (net_shape_ok _ _ Hq)|exact (net_conditioned _ _ Hq)].
    + intros a b q Hin. destruct (HI a b q Hin) as (-> & -> & _). auto.
  - intros x Hx. set (m := mkFlow n (map rqs_model_layer (rqs_layers n (map layer_par ms))) (repeat f0 n) (repeat f1 n)).
    destruct (rqs_density m (unit_good n _) (map layer_par ms) p x eq_refl) as (d & D0 & D1 & D2); auto.
    + intros a b q Hin. destruct (HI a b q Hin) as (_ & _ & ik & mm & Hq & ->). split; [apply net_admissible|]. split; [exact (net_shape_ok _ _ Hq)|]. intros c Hc. exact (net_dif ik mm c Hq Hc).
    + exists d. split; [exact D0|]. split; [exact D1|]. etransitivity; [exact D2|]. change (fl_n m) with n. change (fl_var m) with (repeat (@f1 RNum) n). pose proof (unit_logs n) as Q. rnorm. rewrite Q. ring.
Qed.
Lemma fresh_rqs_parts L k0 : exists ps, rqs_new li n L bins (hs ++ [w]) (-10) 10 k0 =
    Ok (mkFlow n (map rqs_model_layer (rqs_layers n ps)) (repeat f0 n) (repeat f1 n)) /\ rqs_ok n ps /\
  forall a b q, In (a, b, q) ps -> a = 0 /\ b = 0 /\ forall c, length c = n -> differentiable_to n (n * (rq_bins q * 3 + 1)) (rq_cond q) c.
Proof.
  destruct (rqs_new_spec L k0) as (ms & F & E). exists (map layer_par ms). split; [exact E|].
  assert (HI : forall a b q, In (a, b, q) (map layer_par ms) -> a = 0 /\ b = 0 /\ exists ik mm, rqs_net ik mm /\ q = spline_of mm).
  { intros a b q Hin. apply in_map_iff in Hin as (mm & Em & Hin). unfold layer_par in Em. injection Em as <- <- <-. repeat split.
    clear -F Hin. induction F as [|i mm' l ms Hq F IH]; [destruct Hin|]. destruct Hin as [->|Hin]; [eauto|auto]. }
  split.
  - intros a b q Hin. destruct (HI a b q Hin) as (_ & _ & ik & mm & Hq & ->). repeat split; [apply net_admissible..| |]; [exact (net_shape_ok _ _ Hq)|exact (net_conditioned _ _ Hq)].
  - intros a b q Hin. destruct (HI a b q Hin) as (-> & -> & ik & mm & Hq & ->). split; [auto|split; [auto|]]. intros c Hc. exact (net_dif ik mm c Hq Hc).
Qed.
End RQS.
(* ------------------------------------------------------------------ final forms *)
Lemma chain_length {N : Num} shape : forall ls : list linear, chain_shape shape ls -> length ls = (length shape - 1)%nat.
Proof.
  induction shape as [|a shape IH]; intros ls H; [destruct ls; contradiction|]. destruct shape as [|b shape].
  - destruct ls; [reflexivity|contradiction].
  - destruct ls as [|l ls]; [contradiction|]. destruct H as [_ H]. cbn [length]. rewrite (IH ls H). cbn [length]. lia.
Qed.
Lemma mlp_shape_proof : forall (N : Num) (G : Rng) li, linear_law li -> normal_shape ->
  forall (shape : list nat) k scale act bias,
  ((length shape < 2)%nat -> mlp_new li shape k scale act bias = Raise IndexError) /\
  ((2 <= length shape)%nat -> exists m, mlp_new li shape k scale act bias = Ok m /\
     length (ml_hidden m) = (length shape - 2)%nat /\
     (forall x b, nth_error shape (length shape - 1) = Some b -> length (mlp_call m x) = b) /\
     ((forall s, In s shape -> (0 < s)%nat) ->
        Some (mlp_n_input m) = nth_error shape 0 /\ Some (mlp_n_output m) = nth_error shape (length shape - 1))).
Proof.
  intros N G li Hli Hno shape k scale act bias. split; [apply mlp_new_short|]. intros H.
  destruct (mlp_new_ok li shape k scale act bias H) as [m Hm]. exists m. split; auto. split; [|split].
  - destruct (mlp_new_spec li Hli Hno _ _ _ _ _ _ Hm) as (_ & _ & Hc & _). apply chain_length in Hc. rewrite app_length in Hc. cbn [length] in Hc. lia.
  - intros x b Hb. exact (mlp_call_len li Hli Hno _ _ _ _ _ _ x b Hm Hb).
  - intros Hp. exact (mlp_n_io li Hli Hno _ _ _ _ _ _ Hm Hp).
Qed.
Lemma mlp_differentiable_proof : forall (G : @Rng RNum) li, linear_law li -> normal_shape ->
  forall (shape : list nat) k (scale : R) bias a b (x : list R),
  nth_error shape 0 = Some a -> nth_error shape (length shape - 1) = Some b -> length x = a ->
  (forall m, mlp_new li shape k scale tanh bias = Ok m -> differentiable_to a b (mlp_call m) x) /\
  (forall m, mlp_new li shape k scale (@relu RNum) bias = Ok m -> off_kinks m x -> differentiable_to a b (mlp_call m) x).
Proof.
  intros G li Hli Hno shape k scale bias a b x Ha Hb Hx. split; intros m Hm.
  - apply (mlp_dif li Hli Hno shape k scale tanh bias m a b x Hm Ha Hb Hx). apply tanh_ok.
  - intros Ho. apply (mlp_dif li Hli Hno shape k scale (@relu RNum) bias m a b x Hm Ha Hb Hx). apply relu_ok. unfold off_kinks in Ho.
    destruct (mlp_new_spec li Hli Hno _ _ _ _ _ _ Hm) as (_ & E & _). rewrite E in Ho. exact Ho.
Qed.
