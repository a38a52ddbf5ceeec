(** The flow computed by the leaves of a new model is the flow the constructor describes. *)
From Verif Require Import Prelude Num M_Core M_Kernels M_Strategies M_Flow M_Net M_Model M_Tree P_Lists Spec_Kernels Spec_Train Spec_Net Spec_Tree P_Net P_Net4 P_Net5 P_Tree1 P_Tree2 P_Tree3.

Section Tree4.
Context {N : Num} {G : Rng}.

Lemma slice_concat_uniform {A} m : forall (ls : list (list A)) i, (forall r, In r ls -> length r = m) -> i < length ls ->
  slice (i * m) (i * m + m) (concat ls) = nth i ls [].
Proof.
  unfold slice. induction ls as [|r ls IH]; intros i H Hi; [cbn in Hi; lia|].
  replace (i * m + m - i * m) with m by lia. pose proof (H r (or_introl eq_refl)) as Hr.
  destruct i as [|i]; cbn [concat nth].
  - cbn. rewrite firstn_app, Hr, Nat.sub_diag, firstn_O, app_nil_r. apply firstn_all2. lia.
  - rewrite skipn_app, Hr. rewrite skipn_all2 by (cbn; nia). replace (S i * m - m) with (i * m) by (cbn; lia). cbn [app].
    rewrite <- (IH i) by first [intros; apply H; now right|cbn in Hi; lia]. f_equal. lia.
Qed.
Lemma reshape_concat {A} a b (rows : list (list A)) : length rows = b -> (forall r, In r rows -> length r = a) -> reshape_rows b a (concat rows) = rows.
Proof.
  intros Hb Hr. apply (list_eq_nth []); [now rewrite reshape_rows_length|]. intros i Hi. rewrite reshape_rows_length in Hi.
  rewrite nth_reshape_rows by auto. apply slice_concat_uniform; auto. lia.
Qed.
Definition biased (l : linear) : Prop := exists v, ln_b l = Some v.
Lemma linear_at_leaves a b ls i d : (forall l, In l ls -> linear_shape a b l /\ biased l) -> i < length ls ->
  linear_at a b (nth 0 (linear_leaves a b ls) LFun) (nth 1 (linear_leaves a b ls) LFun) i = nth i ls d.
Proof.
  intros H Hi. unfold linear_at. cbn [linear_leaves nth leaf_vals].
  destruct (H (nth i ls d) (nth_In ls d Hi)) as [(H1 & H2 & H3) [v Hv]].
  rewrite (slice_concat_uniform (b * a)).
  - rewrite (nth_map' (fun l => concat (ln_w l)) ls i d) by auto. rewrite reshape_concat by auto.
    rewrite (slice_concat_uniform b).
    + rewrite (nth_map' (fun l => match ln_b l with Some v => v | None => [] end) ls i d) by auto. rewrite Hv.
      destruct (nth i ls d) as [w bb]. cbn in * . now rewrite Hv.
    + intros r Hr. apply in_map_iff in Hr as (l & <- & Hl). destruct (H l Hl) as [(_ & _ & K) [u Hu]]. rewrite Hu. auto.
    + now rewrite map_length.
  - intros r Hr. apply in_map_iff in Hr as (l & <- & Hl). destruct (H l Hl) as [(K1 & K2 & _) _].
    rewrite (concat_length_uniform _ a) by auto. now rewrite K1.
  - now rewrite map_length.
Qed.
Lemma chain_nth : forall (shape : list nat) ls, chain_shape shape ls -> length ls = length shape - 1 /\
  forall j d, j < length ls -> linear_shape (nth j shape 0) (nth (S j) shape 0) (nth j ls d).
Proof.
  induction shape as [|a shape IH]; intros ls H; [destruct ls; contradiction|].
  destruct shape as [|b shape]; [destruct ls; [split; [reflexivity|cbn; lia]|contradiction]|].
  destruct ls as [|l ls]; [contradiction|]. cbn in H. destruct H as [H1 H2]. destruct (IH ls H2) as [K1 K2]. split; [cbn in *; lia|].
  intros [|j] d Hj; [exact H1|]. exact (K2 j d ltac:(cbn in Hj; lia)).
Qed.
(** A network of a given shape with biases everywhere. *)
Definition mlp_ok (shape : list nat) (act : F -> F) (m : mlp) : Prop :=
  2 <= length shape /\ ml_act m = act /\ chain_shape shape (ml_hidden m ++ [ml_last m]) /\
  forall l, In l (ml_hidden m ++ [ml_last m]) -> biased l.
Lemma mlp_ok_linear shape act m j : mlp_ok shape act m -> j < length shape - 1 ->
  linear_shape (nth j shape 0) (nth (S j) shape 0) (mlp_linear m j) /\ biased (mlp_linear m j).
Proof.
  intros (H1 & H2 & H3 & H4) Hj. destruct (chain_nth _ _ H3) as [K1 K2]. unfold mlp_linear. split; [apply K2; lia|]. apply H4, nth_In. lia.
Qed.
Lemma flat3 (f : nat -> list leaf) (H : nat) rest j c : (forall i, length (f i) = 2) -> c < 2 -> j <= H ->
  nth (3 * j + c) ((flat_map (fun i => f i ++ [LFun]) (seq 0 H) ++ f H) ++ rest) LFun = nth c (f j) LFun.
Proof.
  intros Hf Hc Hj. rewrite flat_map_concat_map. set (ls := map (fun i => f i ++ [LFun]) (seq 0 H)).
  assert (U : Forall (fun r => length r = 3) ls) by (apply Forall_forall; intros r Hr; apply in_map_iff in Hr as (i & <- & _); rewrite app_length, Hf; reflexivity).
  assert (Ll : length ls = H) by (unfold ls; now rewrite map_length, seq_length).
  assert (Lc : length (concat ls) = 3 * H). { rewrite (concat_length_uniform _ 3); [lia|]. now apply Forall_forall. }
  rewrite <- app_assoc. destruct (Nat.eq_dec j H) as [->|Hne].
  - rewrite app_nth2 by lia. replace (3 * H + c - length (concat ls)) with c by lia. rewrite app_nth1; [reflexivity|]. now rewrite Hf.
  - rewrite app_nth1 by lia. replace (3 * j + c) with (j * 3 + c) by lia. rewrite (nth_concat_uniform ls 3) by (auto; lia).
    unfold ls. rewrite (nth_map_seq (fun i => f i ++ [LFun])) by lia. rewrite app_nth1; [reflexivity|]. now rewrite Hf.
Qed.
Lemma mlp_at_leaves shape act ms rest i d : (forall m, In m ms -> mlp_ok shape act m) -> i < length ms ->
  mlp_at shape act (mlp_leaves shape ms ++ rest) i = nth i ms d.
Proof.
  intros H Hi. pose proof (H (nth i ms d) (nth_In ms d Hi)) as Hm. destruct Hm as (H1 & H2 & H3 & H4).
  unfold mlp_at, mlp_leaves. set (f := fun j => linear_leaves (nth j shape 0) (nth (S j) shape 0) (map (fun m => mlp_linear m j) ms)).
  assert (K : forall j, j <= length shape - 2 -> linear_at (nth j shape 0) (nth (S j) shape 0)
    (nth (3 * j) ((flat_map (fun i => f i ++ [LFun]) (seq 0 (length shape - 2)) ++ f (length shape - 2)) ++ rest) LFun)
    (nth (3 * j + 1) ((flat_map (fun i => f i ++ [LFun]) (seq 0 (length shape - 2)) ++ f (length shape - 2)) ++ rest) LFun) i = mlp_linear (nth i ms d) j).
  { intros j Hj. replace (3 * j) with (3 * j + 0) at 1 by lia. rewrite !(flat3 f) by (auto; intros; reflexivity). unfold f.
    rewrite (linear_at_leaves _ _ _ i (mlp_linear d j)).
    - rewrite (nth_map' (fun m => mlp_linear m j) ms i d) by auto. reflexivity.
    - intros l Hl. apply in_map_iff in Hl as (m & <- & Hm). apply (mlp_ok_linear shape act); auto. lia.
    - now rewrite map_length. }
  destruct (chain_nth _ _ H3) as [Lh _]. rewrite app_length in Lh. cbn in Lh.
  assert (E1 : map (fun j => mlp_linear (nth i ms d) j) (seq 0 (length shape - 2)) = ml_hidden (nth i ms d)).
  { apply (list_eq_nth (ml_last (nth i ms d))); [rewrite map_length, seq_length; lia|]. intros j Hj. rewrite map_length, seq_length in Hj.
    rewrite (nth_map_seq (fun j => mlp_linear (nth i ms d) j)) by auto. unfold mlp_linear. apply app_nth1. lia. }
  assert (E2 : mlp_linear (nth i ms d) (length shape - 2) = ml_last (nth i ms d)).
  { unfold mlp_linear. rewrite app_nth2 by lia. replace (length shape - 2 - length (ml_hidden (nth i ms d))) with 0 by lia. reflexivity. }
  rewrite (map_ext_in _ (fun j => mlp_linear (nth i ms d) j)); [|intros j Hj; apply in_seq in Hj; apply K; lia].
  rewrite K by lia. rewrite E1, E2. destruct (nth i ms d) as [hs l ac]. cbn in * . now rewrite H2.
Qed.

Variable li : nat -> nat -> key -> bool -> linear.
Hypothesis Hli : linear_law li.
Hypothesis Hb : bias_law li.
Hypothesis Hno : normal_shape.
Lemma hidden_biased scale : forall shape k l, In l (fst (mlp_hidden li scale true shape k)) -> biased l.
Proof.
  induction shape as [|a shape IH]; intros k l H; [destruct H|]. destruct shape as [|b [|c r]]; [destruct H|destruct H|].
  rewrite hidden_cons in H. destruct H as [<-|H]; [|eapply IH; exact H]. unfold biased. cbn [ln_b]. apply Hb.
Qed.
Lemma mlp_new_mok shape k scale act m : mlp_new li shape k scale act true = Ok m -> mlp_ok shape act m.
Proof.
  intros H. destruct (mlp_new_spec li Hli Hno _ _ _ _ _ _ H) as (H1 & H2 & H3 & a & b & k' & El & _). repeat split; auto.
  intros l Hl. apply in_app_or in Hl as [Hl|[<-|[]]]; [|rewrite El; apply Hb].
  unfold mlp_new in H. destruct (rev shape) as [|b' [|a' r]]; try discriminate.
  destruct (mlp_hidden li scale true shape k) as [hs kf] eqn:E. injection H as <-. apply (hidden_biased scale shape k). rewrite E. exact Hl.
Qed.
Lemma diag_eye n : diag (matrix_of n (LArr DFloat32 [n; n] (concat (eye n)))) = repeat f1 n.
Proof.
  unfold matrix_of. cbn [leaf_vals]. rewrite reshape_concat.
  - unfold diag. apply (list_eq_nth f0); [rewrite map_length, seq_length, repeat_length; unfold eye; now rewrite map_length, seq_length|].
    intros i Hi. rewrite map_length, seq_length in Hi. rewrite (nth_map_seq (fun i => nth i (nth i (eye n) []) f0)) by auto.
    assert (Hi' : i < n) by (unfold eye in Hi; now rewrite map_length, seq_length in Hi).
    unfold eye. rewrite (nth_map_seq (fun i => map (fun j => b2f (i =? j)) (seq 0 n))) by auto. rewrite (nth_map_seq (fun j => b2f (i =? j))) by auto.
    rewrite Nat.eqb_refl. cbn. symmetry. apply (repeat_spec n). apply nth_In. now rewrite repeat_length.
  - unfold eye. now rewrite map_length, seq_length.
  - intros r Hr. unfold eye in Hr. apply in_map_iff in Hr as (q & <- & _). now rewrite map_length, seq_length.
Qed.
Lemma realnvp_mask_len n i : length (realnvp_mask n i) = n.
Proof. unfold realnvp_mask. destruct (i mod 2 =? 0); now rewrite ?map_length, seq_length. Qed.
Lemma row_mask (f : nat -> vec) d n L i : (forall j, length (f j) = n) -> i < L -> row_at n (LArr d [L; n] (concat (map f (seq 0 L)))) i = f i.
Proof.
  intros H Hi. unfold row_at. cbn [leaf_vals]. rewrite slice_concat_uniform.
  - apply (nth_map_seq f); auto.
  - intros r Hr. apply in_map_iff in Hr as (j & <- & _). apply H.
  - now rewrite map_length, seq_length.
Qed.
Lemma rmapM_seq {B} (f : nat -> res B) L ys d : rmapM f (seq 0 L) = Ok ys -> length ys = L /\ forall i, i < L -> f i = Ok (nth i ys d).
Proof.
  intros H. pose proof (rmapM_length _ _ _ H) as HL. rewrite seq_length in HL. split; auto. apply rmapM_Ok in H. intros i Hi.
  pose proof (Forall2_nth' _ _ _ 0 d i H) as K. rewrite seq_length in K. specialize (K Hi). now rewrite seq_nth in K.
Qed.
Lemma rmapM_intro {B} (f : nat -> res B) (g : nat -> B) L : (forall i, i < L -> f i = Ok (g i)) -> rmapM f (seq 0 L) = Ok (map g (seq 0 L)).
Proof.
  intros H. assert (K : forall l, (forall i, In i l -> i < L) -> rmapM f l = Ok (map g l)).
  { induction l as [|i l IH]; intros Hl; [reflexivity|]. cbn. rewrite H by (apply Hl; now left). cbn. rewrite IH by (intros; apply Hl; now right). reflexivity. }
  apply K. intros i Hi. apply in_seq in Hi. lia.
Qed.
Definition d_mlp : mlp := mkMlp [] (mkLinear [] None) (fun x => x).
Lemma skipn_pre {A} (a b : list A) n : length a = n -> skipn n (a ++ b) = b.
Proof. intros <-. rewrite skipn_app, skipn_all, Nat.sub_diag. reflexivity. Qed.
Lemma nvp_flow_new n L h k lv : nvp_tree li n L h k = Ok lv -> realnvp_new li n L h k = Ok (nvp_flow L h lv).
Proof.
  unfold nvp_tree. destruct (per_layer (fun _ => nvp_networks li n h) L k) as [st|] eqn:E; [|discriminate]. cbn [rbind]. intros H. apply ok_inj in H.
  unfold per_layer in E. destruct (rmapM_seq _ _ _ (d_mlp, d_mlp) E) as [Ls Hs].
  assert (Hms : forall i, i < L -> mlp_new li [n; h; n] (split (split k L i) 3 1) (f1 /. fofZ 10000)%num relu true = Ok (fst (nth i st (d_mlp, d_mlp))) /\
     mlp_new li [n; h; n] (split (split k L i) 3 2) (f1 /. fofZ 10000)%num relu true = Ok (snd (nth i st (d_mlp, d_mlp)))).
  { intros i Hi. specialize (Hs i Hi). unfold nvp_networks in Hs.
    destruct (mlp_new li [n; h; n] (split (split k L i) 3 1) (f1 /. fofZ 10000)%num relu true) as [s|]; [|discriminate].
    destruct (mlp_new li [n; h; n] (split (split k L i) 3 2) (f1 /. fofZ 10000)%num relu true) as [t|]; [|discriminate].
    cbn in Hs. injection Hs as <-. auto. }
  assert (Hin : forall p, In p st -> exists i, i < L /\ p = nth i st (d_mlp, d_mlp)).
  { intros p Hp. destruct (In_nth st p (d_mlp, d_mlp) Hp) as (i & Hi & <-). exists i. split; auto. lia. }
  assert (M1 : forall m, In m (map fst st) -> mlp_ok [n; h; n] relu m).
  { intros m Hm. apply in_map_iff in Hm as (p & <- & Hp). destruct (Hin p Hp) as (i & Hi & ->). eapply mlp_new_mok. apply (Hms i Hi). }
  assert (M2 : forall m, In m (map snd st) -> mlp_ok [n; h; n] relu m).
  { intros m Hm. apply in_map_iff in Hm as (p & <- & Hp). destruct (Hin p Hp) as (i & Hi & ->). eapply mlp_new_mok. apply (Hms i Hi). }
  assert (Tn : tree_n lv = n) by (subst lv; unfold tree_n; cbn; apply Nat2Z.id).
  assert (S7 : skipn 7 lv = mlp_leaves [n; h; n] (map fst st) ++ mlp_leaves [n; h; n] (map snd st) ++ [LInt 1]) by (subst lv; reflexivity).
  assert (S12 : skipn 12 lv = mlp_leaves [n; h; n] (map snd st) ++ [LInt 1]) by (subst lv; reflexivity).
  assert (A6 : lv_at lv 6 = LArr DFloat32 [L; n] (concat (map (realnvp_mask n) (seq 0 L)))) by (subst lv; reflexivity).
  assert (A17 : lv_at lv 17 = LInt 1) by (subst lv; reflexivity).
  assert (A1 : lv_at lv 1 = LArr DFloat32 [n] (repeat f0 n)) by (subst lv; reflexivity).
  assert (A2 : lv_at lv 2 = LArr DFloat32 [n; n] (concat (eye n))) by (subst lv; reflexivity).
  unfold nvp_flow, tree_flow. rewrite Tn, S7, S12, A6, A17, A1, A2, diag_eye. cbn [leaf_vals leaf_int].
  unfold realnvp_new, per_layer.
  rewrite (rmapM_intro _ (fun i => coupling_layer (mkCoupling (realnvp_mask n i) (mlp_affine (mlp_call (fst (nth i st (d_mlp, d_mlp)))) (mlp_call (snd (nth i st (d_mlp, d_mlp)))) f1)))).
  - cbn [rbind]. f_equal. f_equal. apply map_ext_in. intros i Hi. apply in_seq in Hi.
    rewrite row_mask by (auto using realnvp_mask_len; lia).
    rewrite (mlp_at_leaves _ _ _ _ i d_mlp M1) by (rewrite map_length; lia). rewrite (mlp_at_leaves _ _ _ _ i d_mlp M2) by (rewrite map_length; lia).
    rewrite (nth_map' fst st i (d_mlp, d_mlp)) by lia. rewrite (nth_map' snd st i (d_mlp, d_mlp)) by lia. reflexivity.
  - intros i Hi. unfold realnvp_make_layer. destruct (Hms i Hi) as [-> ->]. reflexivity.
Qed.
Lemma rqs_mask_len n i : length (rqs_mask n i) = n.
Proof. unfold rqs_mask. now rewrite map_length, seq_length. Qed.
Lemma nth_rep {A} (x d : A) n i : i < n -> nth i (repeat x n) d = x.
Proof. intros H. apply (repeat_spec n). apply nth_In. now rewrite repeat_length. Qed.
Lemma rqs_flow_new n L bins hidden lo hi k lv : rqs_tree li n L bins hidden lo hi k = Ok lv -> rqs_new li n L bins hidden lo hi k = Ok (rqs_flow L bins hidden lv).
Proof.
  unfold rqs_tree. destruct (per_layer (fun _ => rqs_network li n bins hidden) L k) as [st|] eqn:E; [|discriminate]. cbn [rbind]. intros H. apply ok_inj in H.
  unfold per_layer in E. destruct (rmapM_seq _ _ _ d_mlp E) as [Ls Hs].
  assert (M1 : forall m, In m st -> mlp_ok (rqs_net_shape n bins hidden) ftanh m).
  { intros m Hm. destruct (In_nth st m d_mlp Hm) as (i & Hi & <-). eapply mlp_new_mok. apply (Hs i). lia. }
  assert (Tn : tree_n lv = n) by (subst lv; unfold tree_n; cbn; apply Nat2Z.id).
  assert (S15 : skipn 15 lv = mlp_leaves (rqs_net_shape n bins hidden) st ++ []) by (subst lv; rewrite app_nil_r; reflexivity).
  assert (A6 : lv_at lv 6 = LArr DBool [L; n] (concat (map (fun _ => repeat f0 n) (seq 0 L)))) by (subst lv; reflexivity).
  assert (A9 : lv_at lv 9 = LArr DBool [L; n] (concat (map (rqs_mask n) (seq 0 L)))) by (subst lv; reflexivity).
  assert (A7 : lv_at lv 7 = LArr DFloat32 [L] (repeat f0 L)) by (subst lv; reflexivity).
  assert (A8 : lv_at lv 8 = LArr DFloat32 [L] (repeat f0 L)) by (subst lv; reflexivity).
  assert (A10 : lv_at lv 10 = LFloat lo) by (subst lv; reflexivity).
  assert (A11 : lv_at lv 11 = LFloat hi) by (subst lv; reflexivity).
  assert (A12 : lv_at lv 12 = LInt (Z.of_nat (num_bins_of (n * (bins * 3 + 1)) n))) by (subst lv; reflexivity).
  assert (A13 : lv_at lv 13 = LFloat (f1 /. fofZ 10000)%num) by (subst lv; reflexivity).
  assert (A14 : lv_at lv 14 = LFloat (f1 /. fofZ 10000)%num) by (subst lv; reflexivity).
  assert (A1 : lv_at lv 1 = LArr DFloat32 [n] (repeat f0 n)) by (subst lv; reflexivity).
  assert (A2 : lv_at lv 2 = LArr DFloat32 [n; n] (concat (eye n))) by (subst lv; reflexivity).
  unfold rqs_flow, tree_flow. rewrite Tn, S15, A6, A7, A8, A9, A10, A11, A12, A13, A14, A1, A2, diag_eye. cbn [leaf_vals leaf_int leaf_float].
  unfold rqs_new, per_layer.
  rewrite (rmapM_intro _ (fun i => make_rqs_layer n i f0 f0 (rqspline_new (n * (bins * 3 + 1)) n lo hi (mlp_call (nth i st d_mlp))))).
  - cbn [rbind]. f_equal. f_equal. rewrite map_map. apply map_ext_in. intros i Hi. apply in_seq in Hi.
    rewrite (row_mask (fun _ => repeat f0 n)) by (intros; rewrite ?repeat_length; lia).
    rewrite (row_mask (rqs_mask n)) by (auto using rqs_mask_len; lia).
    rewrite (mlp_at_leaves _ _ _ _ i d_mlp M1) by lia. rewrite !nth_rep by lia. rewrite Nat2Z.id. reflexivity.
  - intros i Hi. unfold rqs_make_layer. pose proof (Hs i Hi) as K. unfold rqs_network, rqs_net_shape in K. rewrite K. reflexivity.
Qed.
End Tree4.
