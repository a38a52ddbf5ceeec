(** What a trained model's leaves compute: networks of the constructor's shape, and for splines its masks and scalars. *)
From Verif Require Import Prelude Num M_Core M_Kernels M_Strategies M_Flow M_Net M_Model M_Tree P_Lists Spec_Kernels Spec_Train Spec_Net Spec_Tree P_Flow3 P_Net P_Net4 P_Net5 P_Tree1 P_Tree2 P_Tree3 P_Tree4.
Open Scope nat_scope.

Section Tree5.
Context {N : Num} {G : Rng}.

(** The arrays of a stack of L networks have the right numbers of entries. *)
Definition stack_sized (shape : list nat) (L : nat) (lv : list leaf) : Prop :=
  forall j, j <= length shape - 2 ->
    length (leaf_vals (nth (3 * j) lv LFun)) = L * (nth (S j) shape 0 * nth j shape 0) /\
    length (leaf_vals (nth (3 * j + 1) lv LFun)) = L * nth (S j) shape 0.
Lemma linear_at_shape a b w bias L i : length (leaf_vals w) = L * (b * a) -> length (leaf_vals bias) = L * b -> i < L ->
  linear_shape a b (linear_at a b w bias i) /\ biased (linear_at a b w bias i).
Proof.
  intros Hw Hb Hi. split; [|eexists; reflexivity]. unfold linear_at. repeat split; cbn [ln_w ln_b].
  - apply reshape_rows_length.
  - intros r Hr. unfold reshape_rows in Hr. apply in_map_iff in Hr as (q & <- & Hq). apply in_seq in Hq.
    rewrite slice_length, slice_length, Hw. assert (i * (b * a) + b * a <= L * (b * a)) by nia. assert (q * a + a <= b * a) by nia. lia.
  - intros v Hv. injection Hv as <-. rewrite slice_length, Hb. assert (i * b + b <= L * b) by nia. lia.
Qed.
Lemma chain_build : forall (shape : list nat) (f : nat -> linear), 1 <= length shape ->
  (forall j, j < length shape - 1 -> linear_shape (nth j shape 0) (nth (S j) shape 0) (f j)) ->
  chain_shape shape (map f (seq 0 (length shape - 1))).
Proof.
  induction shape as [|a shape IH]; intros f Hl H; [cbn in Hl; lia|]. destruct shape as [|b shape]; [exact I|].
  replace (length (a :: b :: shape) - 1) with (S (length (b :: shape) - 1)) by (cbn; lia).
  cbn [seq map]. rewrite <- seq_shift, map_map.
  match goal with |- chain_shape _ (?q :: ?w) => change (linear_shape a b q /\ chain_shape (b :: shape) w) end. split.
  - apply (H 0). cbn. lia.
  - apply (IH (fun j => f (S j))); [cbn; lia|]. intros j Hj. apply (H (S j)). cbn in *; lia.
Qed.
Lemma mlp_at_ok shape act L lv i : 2 <= length shape -> stack_sized shape L lv -> i < L -> mlp_ok shape act (mlp_at shape act lv i).
Proof.
  intros Hs H Hi. unfold mlp_at. set (lin := fun j => linear_at (nth j shape 0) (nth (S j) shape 0) (nth (3 * j) lv LFun) (nth (3 * j + 1) lv LFun) i).
  assert (K : forall j, j <= length shape - 2 -> linear_shape (nth j shape 0) (nth (S j) shape 0) (lin j) /\ biased (lin j)).
  { intros j Hj. destruct (H j Hj) as [H1 H2]. exact (linear_at_shape _ _ _ _ L i H1 H2 Hi). }
  assert (E : map lin (seq 0 (length shape - 2)) ++ [lin (length shape - 2)] = map lin (seq 0 (length shape - 1))).
  { replace (length shape - 1) with (S (length shape - 2)) by lia. rewrite seq_S, map_app. reflexivity. }
  split; [auto|split; [reflexivity|]]. cbn [ml_hidden ml_last]. change (chain_shape shape (map lin (seq 0 (length shape - 2)) ++ [lin (length shape - 2)]) /\ (forall l, In l (map lin (seq 0 (length shape - 2)) ++ [lin (length shape - 2)]) -> biased l)). rewrite E. split.
  - apply chain_build; [lia|]. intros j Hj. apply K. lia.
  - intros l Hl. apply in_map_iff in Hl as (j & <- & Hj). apply in_seq in Hj. apply K. lia.
Qed.
Lemma mlp_leaves_sized shape act ms rest : 2 <= length shape -> (forall m, In m ms -> mlp_ok shape act m) -> stack_sized shape (length ms) (mlp_leaves shape ms ++ rest).
Proof.
  intros Hs H j Hj. unfold mlp_leaves. set (f := fun j => linear_leaves (nth j shape 0) (nth (S j) shape 0) (map (fun m => mlp_linear m j) ms)).
  replace (3 * j) with (3 * j + 0) at 1 by lia. rewrite !(flat3 f) by (auto; intros; reflexivity). unfold f. cbn [linear_leaves nth leaf_vals].
  assert (K : forall l, In l (map (fun m => mlp_linear m j) ms) -> linear_shape (nth j shape 0) (nth (S j) shape 0) l /\ biased l).
  { intros l Hl. apply in_map_iff in Hl as (m & <- & Hm). apply (mlp_ok_linear shape act); auto. lia. }
  split.
  - rewrite (concat_length_uniform _ (nth (S j) shape 0 * nth j shape 0)); [now rewrite !map_length|].
    intros r Hr. apply in_map_iff in Hr as (l & <- & Hl). destruct (K l Hl) as [(K1 & K2 & _) _]. rewrite (concat_length_uniform _ (nth j shape 0)) by auto. now rewrite K1.
  - rewrite (concat_length_uniform _ (nth (S j) shape 0)); [now rewrite !map_length|].
    intros r Hr. apply in_map_iff in Hr as (l & <- & Hl). destruct (K l Hl) as [(_ & _ & K3) [v Hv]]. rewrite Hv. auto.
Qed.
(** Training keeps array sizes. *)
Lemma fl_len a b : fl_rel a b -> length (leaf_vals b) = length (leaf_vals a).
Proof. destruct a as [d sh v| | | |]; cbn [fl_rel]; try (intros ->; reflexivity). destruct d; try (intros ->; reflexivity); intros (v' & -> & E); exact E. Qed.
Lemma sized_ofd shape L c a b : only_floats_differ a b -> stack_sized shape L (skipn c a) -> stack_sized shape L (skipn c b).
Proof.
  intros [_ H] S0 j Hj. destruct (S0 j Hj) as [H1 H2]. rewrite !nth_skipn in * .
  pose proof (fl_len _ _ (H (c + 3 * j))) as A. pose proof (fl_len _ _ (H (c + (3 * j + 1)))) as B. unfold lv_at in A, B. split; congruence.
Qed.

Variable li : nat -> nat -> key -> bool -> linear.
Hypothesis Hli : linear_law li.
Hypothesis Hb : bias_law li.
Hypothesis Hno : normal_shape.

Lemma rqs_shape_len n bins hidden : 2 <= length (rqs_net_shape n bins hidden).
Proof. unfold rqs_net_shape. cbn. rewrite app_length. cbn. lia. Qed.

(** Facts about the leaves of a new spline model. *)
Record rqs_facts (n L bins : nat) (hidden : list nat) (lo hi : F) (lv : list leaf) : Prop := {
  rf_n : tree_n lv = n;
  rf_6 : lv_at lv 6 = LArr DBool [L; n] (concat (map (fun _ => repeat f0 n) (seq 0 L)));
  rf_9 : lv_at lv 9 = LArr DBool [L; n] (concat (map (rqs_mask n) (seq 0 L)));
  rf_10 : lv_at lv 10 = LFloat lo; rf_11 : lv_at lv 11 = LFloat hi;
  rf_12 : lv_at lv 12 = LInt (Z.of_nat (num_bins_of (n * (bins * 3 + 1)) n));
  rf_13 : lv_at lv 13 = LFloat (f1 /. fofZ 10000)%num; rf_14 : lv_at lv 14 = LFloat (f1 /. fofZ 10000)%num;
  rf_net : stack_sized (rqs_net_shape n bins hidden) L (skipn 15 lv) }.
Lemma rqs_new_facts n L bins hidden lo hi k lv : rqs_tree li n L bins hidden lo hi k = Ok lv -> rqs_facts n L bins hidden lo hi lv.
Proof.
  unfold rqs_tree. destruct (per_layer (fun _ => rqs_network li n bins hidden) L k) as [st|] eqn:E; [|discriminate]. cbn [rbind]. intros H. apply ok_inj in H.
  unfold per_layer in E. destruct (rmapM_seq _ _ _ d_mlp E) as [Ls Hs].
  assert (M1 : forall m, In m st -> mlp_ok (rqs_net_shape n bins hidden) ftanh m).
  { intros m Hm. destruct (In_nth st m d_mlp Hm) as (i & Hi & <-). eapply (mlp_new_mok li Hli Hb Hno). apply (Hs i). lia. }
  subst lv. constructor; try reflexivity.
  - unfold tree_n. cbn. apply Nat2Z.id.
  - pose proof (mlp_leaves_sized (rqs_net_shape n bins hidden) ftanh st [] (rqs_shape_len n bins hidden) M1) as K. rewrite Ls in K. rewrite app_nil_r in K. exact K.
Qed.
Lemma ofd_int a b i z : only_floats_differ a b -> lv_at a i = LInt z -> lv_at b i = LInt z.
Proof. intros [_ H] E. specialize (H i). rewrite E in H. exact H. Qed.
Lemma ofd_float a b i z : only_floats_differ a b -> lv_at a i = LFloat z -> lv_at b i = LFloat z.
Proof. intros [_ H] E. specialize (H i). rewrite E in H. exact H. Qed.
Lemma ofd_bool a b i sh v : only_floats_differ a b -> lv_at a i = LArr DBool sh v -> lv_at b i = LArr DBool sh v.
Proof. intros [_ H] E. specialize (H i). rewrite E in H. exact H. Qed.
Lemma ofd_arr a b i d sh v : only_floats_differ a b -> lv_at a i = LArr d sh v -> exists v', lv_at b i = LArr d sh v' /\ length v' = length v.
Proof. intros [_ H] E. specialize (H i). rewrite E in H. destruct d; auto. exists v. auto. Qed.
Lemma rqs_trained_facts n L bins hidden lo hi k lv0 lv : rqs_tree li n L bins hidden lo hi k = Ok lv0 -> only_floats_differ lv0 lv ->
  rqs_facts n L bins hidden lo hi lv.
Proof.
  intros H0 Ho. pose proof (rqs_new_facts _ _ _ _ _ _ _ _ H0) as [f1 f2 f3 f4 f5 f6 f7 f8 f9]. constructor.
  - exact (proj1 (ofd_stats n _ _ Ho (rqs_stats li n L bins hidden lo hi k lv0 H0))).
  - eapply ofd_bool; eauto.
  - eapply ofd_bool; eauto.
  - eapply ofd_float; eauto.
  - eapply ofd_float; eauto.
  - eapply ofd_int; eauto.
  - eapply ofd_float; eauto.
  - eapply ofd_float; eauto.
  - eapply sized_ofd; eauto.
Qed.
(** The layers of a trained spline model: the constructor's masks, interval, number of bins and minima, with other networks and other scalars. *)
Definition trained_net (n bins : nat) (hidden : list nat) (lv : list leaf) (i : nat) : mlp := mlp_at (rqs_net_shape n bins hidden) ftanh (skipn 15 lv) i.
Definition trained_par (n L bins : nat) (hidden : list nat) (lo hi : F) (lv : list leaf) (i : nat) : F * F * rqspline :=
  (nth i (leaf_vals (lv_at lv 7)) f0, nth i (leaf_vals (lv_at lv 8)) f0, mkRQ lo hi bins (f1 /. fofZ 10000)%num (f1 /. fofZ 10000)%num (mlp_call (trained_net n bins hidden lv i))).
Lemma combine_map_seq {A B} (g : nat -> A) (F0 : nat * A -> B) L : map F0 (combine (seq 0 (length (map g (seq 0 L)))) (map g (seq 0 L))) = map (fun i => F0 (i, g i)) (seq 0 L).
Proof.
  rewrite map_length, seq_length. generalize (seq 0 L). induction l as [|i l IH]; [reflexivity|]. cbn. now rewrite IH.
Qed.
Lemma rqs_trained_layers n L bins hidden lo hi lv : 0 < n -> rqs_facts n L bins hidden lo hi lv ->
  fl_n (rqs_flow L bins hidden lv) = n /\
  fl_layers (rqs_flow L bins hidden lv) = map rqs_model_layer (rqs_layers n (map (trained_par n L bins hidden lo hi lv) (seq 0 L))).
Proof.
  intros Hn [f1 f2 f3 f4 f5 f6 f7 f8 f9]. unfold rqs_flow, tree_flow. cbn [fl_n fl_layers]. rewrite f1. split; [reflexivity|].
  unfold rqs_layers. rewrite combine_map_seq, map_map. apply map_ext_in. intros i Hi. apply in_seq in Hi.
  rewrite f2, f3, f4, f5, f6, f7, f8. rewrite (row_mask (fun _ => repeat f0 n)) by (intros; rewrite ?repeat_length; lia).
  rewrite (row_mask (rqs_mask n)) by (auto using rqs_mask_len; lia). cbn [leaf_float leaf_int]. rewrite Nat2Z.id.
  unfold trained_par, make_rqs_layer, trained_net. rewrite num_bins_ok by auto. reflexivity.
Qed.
End Tree5.
