(** Shapes of what trees of leaves compute, for any numbers. *)
From Verif Require Import Prelude Num M_Core M_Kernels M_Strategies M_PT M_Bundle M_Flow M_Net M_Model M_Tree M_Spline P_Lists
  Spec Spec_Core Spec_Steps Spec_Kernels Spec_Train Spec_Net Spec_Tree Spec_Run P_Tree1 P_Tree2 P_Tree3.

Section Shapes.
Context {N : Num} {G : Rng}.

Lemma vadd_len (x y : list F) n : length x = n -> length y = n -> length (vadd x y) = n.
Proof. intros. unfold vadd. rewrite map2_length. lia. Qed.
Lemma vmul_len (x y : list F) n : length x = n -> length y = n -> length (vmul x y) = n.
Proof. intros. unfold vmul. rewrite map2_length. lia. Qed.
Lemma vsub_len (x y : list F) n : length x = n -> length y = n -> length (vsub x y) = n.
Proof. intros. unfold vsub. rewrite map2_length. lia. Qed.
Lemma mask_mix_len (m y x : list F) n : length m = n -> length y = n -> length x = n -> length (mask_mix m y x) = n.
Proof. intros. unfold mask_mix. apply vadd_len; apply vmul_len; auto. now rewrite map_length. Qed.

Definition inv_keeps (n : nat) (l : layer) : Prop := forall x, length x = n -> length (fst (ly_inv l x)) = n.
Lemma flow_inv_len n ls : (forall l, In l ls -> inv_keeps n l) -> forall x, length x = n -> length (fst (flow_inv ls x)) = n.
Proof.
  intros H x Hx. unfold flow_inv. assert (H' : forall l, In l (rev ls) -> inv_keeps n l) by (intros; apply H; now apply in_rev).
  generalize (f0 : F). revert x Hx H'. generalize (rev ls). intros r. induction r as [|l r IH]; intros x Hx H' v; [exact Hx|].
  cbn [fold_left fst snd]. destruct (ly_inv l x) as [y d] eqn:E. apply IH; [|intros; apply H'; now right].
  specialize (H' l (or_introl eq_refl) x Hx). now rewrite E in H'.
Qed.
Lemma coupling_inv_len n (c : coupling) : length (cp_mask c) = n ->
  (forall x u, length x = n -> length u = n -> length (fst (bj_inv (cp_bij c) x u)) = n) ->
  forall x, length x = n -> length (fst (coupling_inv c x)) = n.
Proof.
  intros Hm H x Hx. unfold coupling_inv. specialize (H x (vmul x (cp_mask c)) Hx (vmul_len _ _ _ Hx Hm)).
  destruct (bj_inv (cp_bij c) x (vmul x (cp_mask c))) as [y ld]. cbn [fst] in * . apply mask_mix_len; auto.
Qed.
Lemma scalar_inv_len n (a b : F) x u : length x = n -> length (fst (bj_inv (scalar_affine a b) x u)) = n.
Proof. intros. cbn. now rewrite map_length. Qed.
Lemma rqspline_inv_len n q x u : length x = n -> length (fst (bj_inv (rqspline_bij q) x u)) = n.
Proof. intros H. cbn. rewrite map_length, map2_length. unfold get_params. rewrite map_length, reshape_rows_length. lia. Qed.
Lemma affine_inv_len n s t (dt : F) x u : (length (s u) = n) -> length (t u) = n -> length x = n ->
  length (fst (bj_inv (mlp_affine s t dt) x u)) = n.
Proof. intros. cbn. apply vsub_len; [apply vmul_len|]; rewrite ?map_length; auto. Qed.
Lemma rqs_layer_inv_len n (l : rqs_layer) :
  (forall x, length x = n -> length (fst (coupling_inv (rl_affine l) x)) = n) ->
  (forall x, length x = n -> length (fst (coupling_inv (rl_spline l) x)) = n) -> inv_keeps n (rqs_model_layer l).
Proof.
  intros H1 H2 x Hx. cbn. specialize (H1 x Hx). destruct (coupling_inv (rl_affine l) x) as [x1 d1]. cbn [fst] in H1.
  specialize (H2 x1 H1). destruct (coupling_inv (rl_spline l) x1) as [x2 d2]. exact H2.
Qed.
Lemma row_at_len n L l i : length (leaf_vals l) = L * n -> i < L -> length (row_at n l i) = n.
Proof. intros H Hi. unfold row_at. rewrite slice_length, H. nia. Qed.
Lemma linear_call_len (l : linear) x n b : length (ln_w l) = n -> ln_b l = Some b -> length b = n -> length (linear_call l x) = n.
Proof. intros H1 H2 H3. unfold linear_call. rewrite H2. apply vadd_len; [now rewrite map_length|exact H3]. Qed.
Lemma mlp_at_len shape act lv i x m :
  length (slice (i * nth (S (length shape - 2)) shape 0) (i * nth (S (length shape - 2)) shape 0 + nth (S (length shape - 2)) shape 0)
            (leaf_vals (nth (3 * (length shape - 2) + 1) lv LFun))) = m ->
  nth (S (length shape - 2)) shape 0 = m ->
  length (mlp_call (mlp_at shape act lv i) x) = m.
Proof.
  intros H1 H2. unfold mlp_call. cbn [mlp_at ml_last]. eapply linear_call_len; [|reflexivity|exact H1].
  unfold linear_at. cbn [ln_w]. now rewrite reshape_rows_length.
Qed.

Lemma unwhiten_len n m x : length (fl_mean m) = n -> length (fl_var m) = n -> length x = n -> length (unwhiten m x) = n.
Proof. intros. unfold unwhiten, fl_std. apply vadd_len; [apply vmul_len|]; rewrite ?map_length; auto. Qed.
Lemma flow_sample_shape n m zs : length (fl_mean m) = n -> length (fl_var m) = n -> (forall l, In l (fl_layers m) -> inv_keeps n l) ->
  (forall z, In z zs -> length z = n) -> length (flow_sample m zs) = length zs /\ forall x, In x (flow_sample m zs) -> length x = n.
Proof.
  intros H1 H2 H3 H4. unfold flow_sample. split; [now rewrite map_length|]. intros x Hx. apply in_map_iff in Hx as (z & <- & Hz).
  apply unwhiten_len; auto. apply flow_inv_len; auto.
Qed.
Lemma gaussian_shape (mean : list F) l n k ns : normal_shape -> length mean = n -> length l = n ->
  length (gaussian_sample mean l k ns) = ns /\ forall x, In x (gaussian_sample mean l k ns) -> length x = n.
Proof.
  intros HN Hm Hl. unfold gaussian_sample. split; [now rewrite map_length, reshape_rows_length|].
  intros x Hx. apply in_map_iff in Hx as (z & <- & _). unfold gaussian_of_noise. apply vadd_len; auto. now rewrite map_length.
Qed.

(** Lengths of leaves are kept when only values change. *)
Lemma ofd_len a b i : only_floats_differ a b -> length (leaf_vals (lv_at b i)) = length (leaf_vals (lv_at a i)).
Proof.
  intros [_ H]. specialize (H i). destruct (lv_at a i) as [d sh v| | | |] eqn:E; try (now rewrite H).
  destruct d; try (now rewrite H); destruct H as (v' & -> & Hl); exact Hl.
Qed.
Lemma ofd_n a b : only_floats_differ a b -> tree_n b = tree_n a.
Proof.
  intros [_ H]. unfold tree_n. specialize (H 0). destruct (lv_at a 0) as [d sh v| | | |] eqn:E; try (now rewrite H).
  destruct d; try (now rewrite H); destruct H as (v' & -> & Hl); reflexivity.
Qed.

(** What a tree needs for its samples to have the right shape. *)
Record header_ok (n : nat) (lv : list leaf) : Prop := mkHeader {
  hk_n : tree_n lv = n; hk_mean : length (leaf_vals (lv_at lv 1)) = n; hk_base : length (leaf_vals (lv_at lv 3)) = n }.
Lemma header_ok_new n r : header_ok n (header_leaves n ++ r).
Proof. constructor; [unfold tree_n; cbn; apply Nat2Z.id|cbn; apply repeat_length..]. Qed.
Lemma header_ok_ofd n a b : only_floats_differ a b -> header_ok n a -> header_ok n b.
Proof. intros H [H1 H2 H3]. constructor; [now rewrite (ofd_n a b H)|now rewrite (ofd_len a b _ H)..]. Qed.
Lemma diag_len (m : list (list F)) : length (diag m) = length m.
Proof. unfold diag. now rewrite map_length, seq_length. Qed.

Variable chol : list (list F) -> list (list F).
Hypothesis HC : chol_shape chol.
Hypothesis HN : normal_shape.
Lemma tree_sample_shape n lv layers k ns : header_ok n lv -> (forall l, In l layers -> inv_keeps n l) ->
  let out := flow_sample (tree_flow lv layers) (ds_sample (tree_base chol lv) k ns) in
  length out = ns /\ forall x, In x out -> length x = n.
Proof.
  intros [H1 H2 H3] HL out. unfold tree_base, gaussian in out. cbn [ds_sample] in out.
  destruct (gaussian_shape (leaf_vals (lv_at lv 3)) (chol (matrix_of (tree_n lv) (lv_at lv 4))) n k ns HN H3) as [E1 E2].
  { rewrite HC. unfold matrix_of. rewrite reshape_rows_length. exact H1. }
  destruct (flow_sample_shape n (tree_flow lv layers) (gaussian_sample (leaf_vals (lv_at lv 3)) (chol (matrix_of (tree_n lv) (lv_at lv 4))) k ns)) as [F1 F2].
  - exact H2.
  - cbn [tree_flow fl_var]. rewrite diag_len. unfold matrix_of. now rewrite reshape_rows_length.
  - exact HL.
  - exact E2.
  - split; [unfold out; now rewrite F1|exact F2].
Qed.

Lemma rqs_sample_shape n L bins hidden lv : header_ok n lv -> length (leaf_vals (lv_at lv 6)) = L * n -> length (leaf_vals (lv_at lv 9)) = L * n ->
  forall k ns, length (rqs_tree_sample chol L bins hidden lv k ns) = ns /\ forall x, In x (rqs_tree_sample chol L bins hidden lv k ns) -> length x = n.
Proof.
  intros Hh H6 H9 k ns. unfold rqs_tree_sample, rqs_flow. apply tree_sample_shape; [exact Hh|].
  intros l Hl. apply in_map_iff in Hl as (i & <- & Hi). apply in_seq in Hi. rewrite (hk_n _ _ Hh).
  apply rqs_layer_inv_len; cbn [rl_affine rl_spline]; apply coupling_inv_len; cbn [cp_mask cp_bij].
  - apply (row_at_len n L); auto; lia.
  - intros. now apply scalar_inv_len.
  - apply (row_at_len n L); auto; lia.
  - intros. now apply rqspline_inv_len.
Qed.
Lemma nvp_sample_shape n L h lv : header_ok n lv -> length (leaf_vals (lv_at lv 6)) = L * n ->
  length (leaf_vals (lv_at lv 11)) = L * n -> length (leaf_vals (lv_at lv 16)) = L * n ->
  forall k ns, length (nvp_sample chol L h lv k ns) = ns /\ forall x, In x (nvp_sample chol L h lv k ns) -> length x = n.
Proof.
  intros Hh H6 H11 H16 k ns. unfold nvp_sample, nvp_flow. apply tree_sample_shape; [exact Hh|].
  intros l Hl. apply in_map_iff in Hl as (i & <- & Hi). apply in_seq in Hi. rewrite (hk_n _ _ Hh).
  intros x Hx. apply coupling_inv_len; auto; cbn [cp_mask cp_bij].
  - apply (row_at_len n L); auto; lia.
  - intros y u Hy Hu. apply affine_inv_len; auto; (apply mlp_at_len; [|reflexivity]).
    + cbn [length Nat.sub Nat.mul Nat.add nth]. rewrite nth_skipn. change (nth (7 + 4) lv LFun) with (lv_at lv 11). rewrite slice_length, H11. nia.
    + cbn [length Nat.sub Nat.mul Nat.add nth]. rewrite nth_skipn. change (nth (12 + 4) lv LFun) with (lv_at lv 16). rewrite slice_length, H16. nia.
Qed.
End Shapes.
