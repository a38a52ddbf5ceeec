(** Trained spline models: base distribution and exact log_prob; trained RealNVP masks. *)
From Coq Require Import Reals Psatz.
From Coquelicot Require Import Coquelicot.
From Verif Require Import Prelude Num M_Core M_Kernels M_Strategies M_Flow M_Net M_Model M_Tree P_Lists RNum MxR Spec_Kernels Spec_Train Spec_FM Spec_Jac Spec_Real Spec_Spline Spec_Flow P_Real1 P_FM3 P_Decay Spec_Net P_Gauss P_Gauss2 P_Model Spec_Tree Spec_TreeR P_Tree1 P_Tree2 P_Tree3 P_Tree4 P_Tree5 P_Tree6 P_Tree7 P_Tree8 P_Tree9.
Open Scope R_scope.

Lemma ent_eye_scaled n r i j : (i < n)%nat -> (j < n)%nat -> ent (map (map (fun v => v * r)) (@eye RNum n)) i j = mid i j * r.
Proof.
  intros Hi Hj. destruct (eye_square n) as [E1 E2]. assert (E3 : (i < @length (list R) (@eye RNum n))%nat) by (refine (eq_ind_r (fun z => (i < z)%nat) Hi E1)).
  rewrite ent_scaled; [now rewrite ent_eye by auto|exact E3|]. pose proof (E2 (nth i (@eye RNum n) []) (nth_In _ _ E3)) as E4. refine (eq_ind_r (fun z => (j < z)%nat) Hj E4).
Qed.
Lemma Rsum_mid n i (f : nat -> R) : (i < n)%nat -> Rsum n (fun j => mid i j * f j) = f i.
Proof.
  intros Hi. rewrite (Rsum_single n (fun j => mid i j * f j) i Hi).
  2:{ intros j Hj Hne. unfold mid. destruct (Nat.eqb_spec i j); [congruence|ring]. }
  unfold mid. rewrite Nat.eqb_refl. ring.
Qed.
Lemma scaled_square n (r : R) : Spec_Net.square n (map (map (fun v => v * r)) (@eye RNum n)).
Proof.
  destruct (eye_square n) as [E1 E2]. split; [now rewrite map_length|]. intros row Hr. apply in_map_iff in Hr as (q & <- & Hq). rewrite map_length. now apply E2.
Qed.
Lemma scaled_root n c : 0 < c -> cholesky_shape n (map (map (fun v => v * sqrt c)) (@eye RNum n)) /\
  factor_of n (map (map (fun v => v * sqrt c)) (@eye RNum n)) (map (map (fun v => v * c)) (@eye RNum n)).
Proof.
  intros Hc. destruct (eye_square n) as [E1 E2]. pose proof (sqrt_lt_R0 c Hc) as Hs. split; [split; [split|split]|].
  - now rewrite map_length.
  - intros row H. apply in_map_iff in H as (q & <- & Hq). rewrite map_length. auto.
  - intros i j Hij. rewrite ent_eye_scaled by lia. unfold mid. destruct (Nat.eqb_spec i j); [lia|ring].
  - intros i Hi. rewrite ent_eye_scaled by lia. unfold mid. rewrite Nat.eqb_refl. lra.
  - intros i j Hi Hj. rewrite ent_eye_scaled by lia.
    rewrite (Rsum_ext n _ (fun k => mid i k * (sqrt c * (mid j k * sqrt c)))) by (intros k Hk; rewrite !ent_eye_scaled by lia; ring).
    rewrite (Rsum_mid n i (fun k => sqrt c * (mid j k * sqrt c))) by auto. rewrite <- (sqrt_sqrt c) at 1 by lra. unfold mid. rewrite (Nat.eqb_sym j i). ring.
Qed.
Lemma ln_gauss n c (y : list R) : 0 < c -> ln (gauss_density n (fun _ => 0) (fun _ => sqrt c) y) =
  - / 2 * Rsum n (fun i => nth i y 0 * (nth i y 0 / c)) - INR n / 2 * ln (2 * PI) - / 2 * (INR n * ln c).
Proof.
  intros Hc. pose proof PI_RGT_0 as HP. pose proof (sqrt_lt_R0 c Hc) as Hs.
  assert (P : forall t, 0 < normal_pdf 0 (sqrt c) t).
  { intros t. unfold normal_pdf. apply Rdiv_lt_0_compat; [apply exp_pos|]. apply Rmult_lt_0_compat; [apply Rabs_pos_lt; lra|apply sqrt_lt_R0; lra]. }
  assert (E : forall t, ln (normal_pdf 0 (sqrt c) t) = - / 2 * (t * (t / c)) - / 2 * ln (2 * PI) - / 2 * ln c).
  { intros t. unfold normal_pdf, Rdiv at 1. rewrite ln_mult; [|apply exp_pos|apply Rinv_0_lt_compat, Rmult_lt_0_compat; [apply Rabs_pos_lt; lra|apply sqrt_lt_R0; lra]].
    rewrite ln_exp, ln_Rinv by (apply Rmult_lt_0_compat; [apply Rabs_pos_lt; lra|apply sqrt_lt_R0; lra]).
    rewrite ln_mult by (try apply Rabs_pos_lt; try apply sqrt_lt_R0; lra). rewrite Rabs_pos_eq by lra.
    assert (LS : forall z, 0 < z -> ln (sqrt z) = / 2 * ln z).
    { intros z Hz. rewrite <- (sqrt_sqrt z) at 2 by lra. pose proof (sqrt_lt_R0 z Hz). rewrite ln_mult by auto. field. }
    rewrite !LS by lra. rewrite Rminus_0_r. replace (2 * sqrt c ^ 2) with (2 * c) by (cbn [pow]; rewrite Rmult_1_r, sqrt_sqrt; lra). field. lra. }
  unfold gauss_density. destruct (P_Decay.ln_Rprod n (fun i => normal_pdf 0 (sqrt c) (nth i y 0))) as [_ ->]; [intros; apply P|].
  rewrite (Rsum_ext n _ (fun i => - / 2 * (nth i y 0 * (nth i y 0 / c)) + (- / 2 * ln (2 * PI) - / 2 * ln c))) by (intros i Hi; rewrite E; ring).
  rewrite Rsum_plus, Rsum_scal, Rsum_const. field.
Qed.
Lemma Rprod_const n (c : R) : Rprod n (fun _ => c) = c ^ n.
Proof. induction n as [|n IH]; [reflexivity|]. cbn [Rprod pow]. rewrite IH. ring. Qed.
Lemma ln_pow_pos c n : 0 < c -> ln (c ^ n) = INR n * ln c.
Proof. intros H. induction n as [|n IH]; [cbn; rewrite ln_1; ring|]. cbn [pow]. rewrite ln_mult by (auto; now apply pow_lt). rewrite IH, S_INR. ring. Qed.
Lemma scaled_base n c (l : list (list R)) (y : list R) : 0 < c -> cholesky_shape n l -> factor_of n l (map (map (fun v => v * c)) (@eye RNum n)) -> length y = n ->
  @gaussian_logp RNum (repeat 0 n) l y = ln (gauss_density n (fun _ => 0) (fun _ => sqrt c) y).
Proof.
  intros Hc Hl Hf Hy. rewrite ln_gauss by auto.
  destruct (textbook_proof n l (map (map (fun v => v * c)) (@eye RNum n)) (repeat 0 n) Hl Hf (repeat_length _ _) y (map (fun v => v / c) y) Hy) as [_ E].
  - now rewrite map_length.
  - intros i Hi. rewrite (Rsum_ext n _ (fun j => mid i j * (c * nth j (map (fun v => v / c) y) 0))) by (intros j Hj; rewrite ent_eye_scaled by auto; ring).
    rewrite (Rsum_mid n i (fun j => c * nth j (map (fun v => v / c) y) 0)) by auto. rewrite (nth_map' (fun v => v / c) y i 0 0) by lia.
    rewrite nth_rep by auto. field. lra.
  - etransitivity; [exact E|]. f_equal; [f_equal|].
    + f_equal. apply Rsum_ext. intros i Hi. rewrite nth_rep by auto. rewrite (nth_map' (fun v => v / c) y i 0 0) by lia. ring.
    + f_equal. rewrite <- ln_pow_pos by auto. f_equal. rewrite (@mdet_lower n).
      * rewrite (Rprod_ext n _ (fun _ => c)); [apply Rprod_const|]. intros i Hi. rewrite ent_eye_scaled by auto. unfold mid. rewrite Nat.eqb_refl. ring.
      * intros i j Hi Hj Hij. rewrite ent_eye_scaled by lia. unfold mid. destruct (Nat.eqb_spec i j); [lia|ring].
Qed.

Section Assembled.
Context {G : @Rng RNum}.
Variable li : nat -> nat -> key -> bool -> @linear RNum.
Hypothesis Hli : linear_law li.
Hypothesis Hbl : bias_law li.
Hypothesis Hno : normal_shape.
Variable chol : list (list R) -> list (list R).

Lemma rqs_head n L bins hidden (lo hi : R) k lv0 : rqs_tree li n L bins hidden lo hi k = Ok lv0 ->
  lv_at lv0 2 = LArr DFloat32 [n; n] (concat (@eye RNum n)) /\ lv_at lv0 3 = LArr DFloat32 [n] (repeat 0 n) /\ lv_at lv0 4 = LArr DFloat32 [n; n] (concat (@eye RNum n)).
Proof. unfold rqs_tree. destruct (per_layer (fun _ => rqs_network li n bins hidden) L k) as [st|]; [|discriminate]. cbn [rbind]. intros H. apply ok_inj in H. subst lv0. repeat split. Qed.
Lemma eye_diag_pos n d sh j : (j < n)%nat -> 0 < @nth R j (@diag RNum (@matrix_of RNum n (LArr d sh (concat (@eye RNum n))))) 0.
Proof.
  intros Hj. pose proof (@diag_eye RNum n) as E. unfold matrix_of in * . cbn [leaf_vals] in * . rewrite E. 
  replace (@nth R j (repeat (@f1 RNum) n) 0) with 1; [lra|]. symmetry. exact (nth_rep (1 : R) 0 n j Hj).
Qed.
Section Spline.
Variables (n L bins : nat) (hidden : list nat) (lo hi : R) (k : key) (lv0 : list (@leaf RNum)).
Hypothesis Hnew : rqs_tree li n L bins hidden lo hi k = Ok lv0.
Variables (grad : list (@leaf RNum) -> list (list R) -> list R) (lr momentum : R) (ds : list (list (list R))) (lv : list (@leaf RNum)) (s : @adamw_state RNum).
Hypothesis Hlr : 0 < lr < 10000.
Hypothesis Hrun : @training_run RNum G (tree_ops (rqs_tree_logp chol L bins hidden) (rqs_tree_sample chol L bins hidden) grad) (@optimizer_new RNum lr momentum) lv0 (tree_optimizer_init lv0) ds lv s.
Lemma spline_masks : lv_at lv 6 = lv_at lv0 6 /\ lv_at lv 9 = lv_at lv0 9.
Proof.
  pose proof (run_ofd _ _ _ n _ _ _ _ _ _ (rqs_stats li n L bins hidden lo hi k lv0 Hnew) Hrun) as Ho.
  pose proof (rqs_new_facts li Hli Hbl Hno _ _ _ _ _ _ _ _ Hnew) as [_ f2 f3 _ _ _ _ _ _]. rewrite f2, f3. split; eapply ofd_bool; eauto.
Qed.
Lemma spline_good : @stopped RNum lv0 grad 2 -> (forall data, In data ds -> spread n data) -> good_stats (rqs_flow L bins hidden lv).
Proof.
  intros H2 Hsp. unfold rqs_flow. apply (run_good (rqs_tree_logp chol L bins hidden) (rqs_tree_sample chol L bins hidden) grad lv0 n lr momentum ds lv s); auto.
  - exact (rqs_stats li n L bins hidden lo hi k lv0 Hnew).
  - intros j Hj. destruct (rqs_head _ _ _ _ _ _ _ _ Hnew) as (-> & _). now apply eye_diag_pos.
Qed.
Lemma spline_exact (x : list R) : (0 < n)%nat -> (1 <= bins)%nat -> INR bins / 10000 < hi - lo ->
  @stopped RNum lv0 grad 2 -> (forall data, In data ds -> spread n data) -> length x = n ->
  let m := rqs_flow L bins hidden lv in
  reports_logdet n (flow_fwd (fl_layers m)) x /\
  exists d, 0 < d /\ density_through n (latent m) (fun y => exp (ds_logp (@tree_base RNum G chol lv) y)) x d /\
    rqs_tree_logp chol L bins hidden lv x = ln d + Rsum n (fun i => ln (sqrt (nth i (fl_var m) 0))).
Proof.
  intros Hn H1 H2 Hs Hsp Hx. cbv zeta.
  pose proof (run_ofd _ _ _ n _ _ _ _ _ _ (rqs_stats li n L bins hidden lo hi k lv0 Hnew) Hrun) as Ho.
  pose proof (rqs_trained_facts li Hli Hbl Hno _ _ _ _ _ _ _ _ _ Hnew Ho) as Hf. split.
  - exact (trained_logdet n L bins hidden lo hi lv Hn H1 H2 Hf x Hx).
  - exact (trained_density n L bins hidden lo hi lv Hn H1 H2 Hf chol x (spline_good Hs Hsp) Hx).
Qed.
Lemma spline_base : chol_law chol -> @stopped RNum lv0 grad 3 -> @stopped RNum lv0 grad 4 ->
  exists T, (lv = lv0 \/ (1 <= T)%nat) /\ forall y : list R, length y = n ->
    ds_logp (@tree_base RNum G chol lv) y = ln (gauss_density n (fun _ => 0) (fun _ => sqrt ((1 - lr * (1 / 10000)) ^ T)) y).
Proof.
  intros Hc H3 H4. destruct (rqs_head _ _ _ _ _ _ _ _ Hnew) as (_ & E3 & E4). pose proof (rqs_stats li n L bins hidden lo hi k lv0 Hnew) as Hh.
  destruct (run_other _ _ _ lv0 n lr momentum ds lv s Hh Hrun 3 [n] (repeat 0 n) H3 ltac:(discriminate) ltac:(discriminate) E3) as (T3 & F3 & _).
  destruct (run_other _ _ _ lv0 n lr momentum ds lv s Hh Hrun 4 [n; n] (concat (@eye RNum n)) H4 ltac:(discriminate) ltac:(discriminate) E4) as (T & F4 & HT).
  exists T. split; [exact HT|]. intros y Hy. unfold tree_base. rewrite F3, F4. destruct (run_header _ _ _ lv0 n lr momentum ds lv s Hh Hrun) as (-> & _).
  destruct (eye_square n) as [Q1 Q2]. rewrite matrix_scaled by auto. cbn [leaf_vals gaussian ds_logp].
  assert (Z : map (fun v => v * (1 - lr * (1 / 10000)) ^ T3) (repeat 0 n) = repeat 0 n).
  { apply (list_eq_nth (0 : R)); [now rewrite map_length|]. intros i Hi. rewrite map_length, repeat_length in Hi. rewrite (nth_map' (fun v => v * (1 - lr * (1 / 10000)) ^ T3) _ i 0 0) by (now rewrite repeat_length).
    rewrite nth_rep by auto. ring. }
  etransitivity; [exact (f_equal (fun z => @gaussian_logp RNum z _ y) Z)|].
  assert (P : 0 < (1 - lr * (1 / 10000)) ^ T) by (apply pow_lt; lra).
  destruct (Hc n (map (map (fun v => v * (1 - lr * (1 / 10000)) ^ T)) (@eye RNum n))) as [C1 C2]; [apply scaled_square|exists (map (map (fun v => v * sqrt ((1 - lr * (1 / 10000)) ^ T))) (@eye RNum n)); now apply scaled_root|].
  exact (scaled_base n _ _ y P C1 C2 Hy).
Qed.
End Spline.

(** RealNVP: masks. *)
Section Nvp.
Variables (n L h : nat) (k : key) (lv0 : list (@leaf RNum)).
Hypothesis Hnew : nvp_tree li n L h k = Ok lv0.
Variables (logp : list (@leaf RNum) -> list R -> R) (sample : list (@leaf RNum) -> key -> nat -> list (list R)) (grad : list (@leaf RNum) -> list (list R) -> list R) (lr momentum : R) (ds : list (list (list R))) (lv : list (@leaf RNum)) (s : @adamw_state RNum).
Hypothesis Hlr : 0 < lr < 10000.
Hypothesis Hrun : @training_run RNum G (tree_ops logp sample grad) (@optimizer_new RNum lr momentum) lv0 (tree_optimizer_init lv0) ds lv s.
Lemma nvp_masks : @stopped RNum lv0 grad 6 -> exists T, (lv = lv0 \/ (1 <= T)%nat) /\
  forall i j, (i < L)%nat -> (j < n)%nat -> @nth R j (row_at n (lv_at lv 6) i) 0 = @nth R j (@realnvp_mask RNum n i) 0 * (1 - lr * (1 / 10000)) ^ T.
Proof.
  intros H6. pose proof (nvp_stats li n L h k lv0 Hnew) as Hh.
  assert (E6 : lv_at lv0 6 = LArr DFloat32 [L; n] (concat (map (@realnvp_mask RNum n) (seq 0 L)))).
  { revert Hnew. unfold nvp_tree. destruct (per_layer (fun _ => nvp_networks li n h) L k) as [st|]; [|discriminate]. cbn [rbind]. intros H. apply ok_inj in H. subst lv0. reflexivity. }
  destruct (run_other _ _ _ lv0 n lr momentum ds lv s Hh Hrun 6 [L; n] _ H6 ltac:(discriminate) ltac:(discriminate) E6) as (T & F6 & HT).
  exists T. split; [exact HT|]. intros i j Hi Hj. rewrite F6. rewrite concat_map, map_map.
  rewrite (row_mask (fun i => map (fun v => v * (1 - lr * (1 / 10000)) ^ T) (@realnvp_mask RNum n i))); auto.
  - apply (nth_map' (fun v => v * (1 - lr * (1 / 10000)) ^ T) (@realnvp_mask RNum n i) j 0 0). rewrite realnvp_mask_len. exact Hj.
  - intros q. rewrite map_length. apply realnvp_mask_len.
Qed.
End Nvp.
End Assembled.
