(** Samples of trained models: the base distribution draws scaled standard normals. *)
From Coq Require Import Reals Psatz ClassicalEpsilon.
From Verif Require Import Prelude Num M_Core M_Kernels M_Strategies M_Flow M_Net M_Model M_Tree P_Lists RNum MxR Spec_Kernels Spec_Train Spec_Real P_Real1 P_Real3 P_Net P_Gauss P_Decay P_Model Spec_Net Spec_Tree Spec_TreeR P_Tree1 P_Tree2 P_Tree3 P_Tree4 P_Tree7 P_Tree8 P_Tree9 P_Tree10.
Open Scope R_scope.

Lemma chol_scaled n c (l : list (list R)) : 0 < c -> cholesky_shape n l -> factor_of n l (map (map (fun v => v * c)) (@eye RNum n)) ->
  forall j i, (i < n)%nat -> (j < n)%nat -> ent l i j = mid i j * sqrt c.
Proof.
  intros Hc (_ & Hu & Hp) Hf. 
  assert (K : forall j, (j < n)%nat -> ent l j j = sqrt c /\ forall i, (j < i < n)%nat -> ent l i j = 0).
  { induction j as [j IH] using (well_founded_induction lt_wf). intros Hj.
    assert (E : forall i, (j <= i < n)%nat -> mid i j * c = ent l i j * ent l j j).
    { intros i Hi. pose proof (Hf i j ltac:(lia) Hj) as F. rewrite ent_eye_scaled in F by lia. rewrite F.
      apply (Rsum_single n (fun k => ent l i k * ent l j k) j Hj). intros k Hk Hne. destruct (Nat.lt_ge_cases j k) as [Hlt|Hge].
      - rewrite (Hu j k) by lia. ring.
      - destruct (IH k ltac:(lia) Hk) as [_ Z]. rewrite (Z j) by lia. ring. }
    pose proof (Hp j Hj) as Pj. split.
    - pose proof (E j ltac:(lia)) as Ej. unfold mid in Ej. rewrite Nat.eqb_refl in Ej. rewrite Rmult_1_l in Ej. rewrite Ej. rewrite sqrt_square; lra.
    - intros i Hi. pose proof (E i ltac:(lia)) as Ei. unfold mid in Ei. destruct (Nat.eqb_spec i j); [lia|]. rewrite Rmult_0_l in Ei.
      symmetry in Ei. apply Rmult_integral in Ei. destruct Ei; lra. }
  intros j i Hi Hj. unfold mid. destruct (Nat.eqb_spec i j) as [->|Hne]; [rewrite (proj1 (K j Hj)); ring|].
  rewrite Rmult_0_l. destruct (Nat.lt_ge_cases i j); [apply Hu; lia|]. apply (proj2 (K j Hj)). lia.
Qed.
Lemma scaled_noise n c (l : list (list R)) (z : list R) : 0 < c -> cholesky_shape n l -> factor_of n l (map (map (fun v => v * c)) (@eye RNum n)) -> length z = n ->
  @gaussian_of_noise RNum (repeat 0 n) l z = map (Rmult (sqrt c)) z.
Proof.
  intros Hc Hl Hf Hz. pose proof (S_len n l Hl (repeat 0 n) (repeat_length _ _) z Hz) as L.
  apply (list_eq_nth (0 : R)); [refine (eq_trans L _); now rewrite map_length|]. intros i Hi.
  assert (Hi' : (i < n)%nat) by (rewrite <- L; exact Hi).
  etransitivity; [exact (S_nth n l Hl (repeat 0 n) (repeat_length _ _) z i Hz Hi')|].
  rewrite nth_rep by auto. rewrite (Rsum_ext n _ (fun j => mid i j * (sqrt c * nth j z 0))) by (intros j Hj; rewrite (chol_scaled n c l Hc Hl Hf) by auto; ring).
  rewrite (Rsum_mid n i (fun j => sqrt c * nth j z 0)) by auto. rewrite (nth_map' (Rmult (sqrt c)) z i 0 0) by (rewrite Hz; exact Hi'). apply Rplus_0_l.
Qed.
Section Samples.
Context {G : @Rng RNum}.
Hypothesis Hno : @normal_shape RNum G.
Variable chol : list (list R) -> list (list R).
Hypothesis Hch : chol_law chol.
Lemma base_draws (logp : list (@leaf RNum) -> list R -> R) (sample : list (@leaf RNum) -> key -> nat -> list (list R)) grad lv0 n (lr momentum : R) ds lv s :
  @stats_header RNum n lv0 -> lv_at lv0 3 = LArr DFloat32 [n] (repeat 0 n) -> lv_at lv0 4 = LArr DFloat32 [n; n] (concat (@eye RNum n)) -> 0 < lr < 10000 ->
  @training_run RNum G (tree_ops logp sample grad) (@optimizer_new RNum lr momentum) lv0 (tree_optimizer_init lv0) ds lv s ->
  @stopped RNum lv0 grad 3 -> @stopped RNum lv0 grad 4 ->
  exists T, (lv = lv0 \/ (1 <= T)%nat) /\ (forall y : list R, length y = n -> ds_logp (@tree_base RNum G chol lv) y = ln (gauss_density n (fun _ => 0) (fun _ => sqrt ((1 - lr * (1 / 10000)) ^ T)) y)) /\
  forall k ns, ds_sample (@tree_base RNum G chol lv) k ns = map (map (Rmult (sqrt ((1 - lr * (1 / 10000)) ^ T)))) (reshape_rows ns n (normal k (ns * n))).
Proof.
  intros Hh E3 E4 Hlr Hrun H3 H4.
  destruct (run_other _ _ _ lv0 n lr momentum ds lv s Hh Hrun 3 [n] (repeat 0 n) H3 ltac:(discriminate) ltac:(discriminate) E3) as (T3 & F3 & _).
  destruct (run_other _ _ _ lv0 n lr momentum ds lv s Hh Hrun 4 [n; n] (concat (@eye RNum n)) H4 ltac:(discriminate) ltac:(discriminate) E4) as (T & F4 & HT).
  exists T. split; [exact HT|]. unfold tree_base. rewrite F3, F4. destruct (run_header _ _ _ lv0 n lr momentum ds lv s Hh Hrun) as (-> & _).
  destruct (eye_square n) as [Q1 Q2]. rewrite matrix_scaled by auto. cbn [leaf_vals gaussian ds_sample ds_logp].
  assert (Z : map (fun v => v * (1 - lr * (1 / 10000)) ^ T3) (repeat 0 n) = repeat 0 n).
  { apply (list_eq_nth (0 : R)); [now rewrite map_length|]. intros i Hi. rewrite map_length, repeat_length in Hi. rewrite (nth_map' (fun v => v * (1 - lr * (1 / 10000)) ^ T3) _ i 0 0) by (now rewrite repeat_length).
    rewrite nth_rep by auto. ring. }
  assert (P : 0 < (1 - lr * (1 / 10000)) ^ T) by (apply pow_lt; lra).
  destruct (Hch n (map (map (fun v => v * (1 - lr * (1 / 10000)) ^ T)) (@eye RNum n))) as [C1 C2]; [apply scaled_square|exists (map (map (fun v => v * sqrt ((1 - lr * (1 / 10000)) ^ T))) (@eye RNum n)); now apply scaled_root|].
  split; [intros y Hy; etransitivity; [exact (f_equal (fun z => @gaussian_logp RNum z _ y) Z)|]; exact (scaled_base n _ _ y P C1 C2 Hy)|].
  intros k ns. etransitivity; [exact (f_equal (fun z => @gaussian_sample RNum G z _ k ns) Z)|].
  unfold gaussian_sample. rewrite repeat_length. apply map_ext_in. intros z Hz.
  apply (scaled_noise n _ _ z P C1 C2). destruct (In_nth _ _ [] Hz) as (i & Hi & <-). rewrite reshape_rows_length in Hi. rewrite nth_reshape_rows by auto.
  rewrite slice_length. pose proof (Hno k (ns * n)%nat) as L. rnorm. rewrite L. nia.
Qed.
Variable li : nat -> nat -> key -> bool -> @linear RNum.
Lemma nvp_head n L h k lv0 : nvp_tree li n L h k = Ok lv0 ->
  lv_at lv0 3 = LArr DFloat32 [n] (repeat 0 n) /\ lv_at lv0 4 = LArr DFloat32 [n; n] (concat (@eye RNum n)).
Proof. unfold nvp_tree. destruct (per_layer (fun _ => nvp_networks li n h) L k) as [st|]; [|discriminate]. cbn [rbind]. intros H. apply ok_inj in H. subst lv0. split; reflexivity. Qed.
Lemma rqs_draws n L bins hidden (lo hi : R) k lv0 grad (lr momentum : R) ds lv s : rqs_tree li n L bins hidden lo hi k = Ok lv0 -> 0 < lr < 10000 ->
  @training_run RNum G (tree_ops (rqs_tree_logp chol L bins hidden) (rqs_tree_sample chol L bins hidden) grad) (@optimizer_new RNum lr momentum) lv0 (tree_optimizer_init lv0) ds lv s ->
  @stopped RNum lv0 grad 3 -> @stopped RNum lv0 grad 4 ->
  exists T, (lv = lv0 \/ (1 <= T)%nat) /\ (forall y : list R, length y = n -> ds_logp (@tree_base RNum G chol lv) y = ln (gauss_density n (fun _ => 0) (fun _ => sqrt ((1 - lr * (1 / 10000)) ^ T)) y)) /\
  forall k ns, rqs_tree_sample chol L bins hidden lv k ns =
    flow_sample (rqs_flow L bins hidden lv) (map (map (Rmult (sqrt ((1 - lr * (1 / 10000)) ^ T)))) (reshape_rows ns n (normal k (ns * n)))).
Proof.
  intros H0 Hlr Hrun H3 H4. destruct (rqs_head li _ _ _ _ _ _ _ _ H0) as (_ & E3 & E4).
  destruct (base_draws _ _ _ lv0 n lr momentum ds lv s (rqs_stats li _ _ _ _ _ _ _ _ H0) E3 E4 Hlr Hrun H3 H4) as (T & A & B0 & B).
  exists T. split; [exact A|]. split; [exact B0|]. intros k0 ns. unfold rqs_tree_sample. now rewrite B.
Qed.
Lemma nvp_draws n L h k lv0 grad (lr momentum : R) ds lv s : nvp_tree li n L h k = Ok lv0 -> 0 < lr < 10000 ->
  @training_run RNum G (tree_ops (nvp_logp L h) (nvp_sample chol L h) grad) (@optimizer_new RNum lr momentum) lv0 (tree_optimizer_init lv0) ds lv s ->
  @stopped RNum lv0 grad 3 -> @stopped RNum lv0 grad 4 ->
  exists T, (lv = lv0 \/ (1 <= T)%nat) /\ (forall y : list R, length y = n -> ds_logp (@tree_base RNum G chol lv) y = ln (gauss_density n (fun _ => 0) (fun _ => sqrt ((1 - lr * (1 / 10000)) ^ T)) y)) /\
  forall k ns, nvp_sample chol L h lv k ns =
    flow_sample (nvp_flow L h lv) (map (map (Rmult (sqrt ((1 - lr * (1 / 10000)) ^ T)))) (reshape_rows ns n (normal k (ns * n)))).
Proof.
  intros H0 Hlr Hrun H3 H4. destruct (nvp_head _ _ _ _ _ H0) as (E3 & E4).
  destruct (base_draws _ _ _ lv0 n lr momentum ds lv s (nvp_stats li _ _ _ _ _ H0) E3 E4 Hlr Hrun H3 H4) as (T & A & B0 & B).
  exists T. split; [exact A|]. split; [exact B0|]. intros k0 ns. unfold nvp_sample. now rewrite B.
Qed.
End Samples.

(** A routine with [chol_law] exists. *)
Lemma chol_exists : exists chol, chol_law chol.
Proof.
  set (good := fun M l => cholesky_shape (length M) l /\ factor_of (length M) l M).
  exists (fun M => match excluded_middle_informative (exists l, good M l) with left e => proj1_sig (constructive_indefinite_description _ e) | right _ => [] end).
  intros n M [Hn _] [l Hl]. destruct (excluded_middle_informative _) as [e|e].
  - destruct (constructive_indefinite_description _ e) as (l' & H1 & H2). cbn [proj1_sig]. rewrite Hn in H1, H2. auto.
  - exfalso. apply e. exists l. unfold good. now rewrite Hn.
Qed.
