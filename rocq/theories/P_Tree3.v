(** Training on leaves: what it can change. *)
From Verif Require Import Prelude Num M_Core M_Kernels M_Strategies M_Flow M_Net M_Model M_Tree P_Lists Spec_Kernels Spec_Train Spec_Net Spec_Tree P_Tree1 P_Tree2.

Section Tree3.
Context {N : Num}.

Definition fl_rel (l x : leaf) : Prop :=
  match l with
  | LArr DBool _ _ | LBool _ | LInt _ | LFloat _ | LFun => x = l
  | LArr d sh v => exists v', x = LArr d sh v' /\ length v' = length v
  end.
Lemma fl_refl l : fl_rel l l.
Proof. destruct l as [d sh v| | | |]; cbn; auto. destruct d; cbn; auto; exists v; auto. Qed.
Lemma fl_trans a b c : fl_rel a b -> fl_rel b c -> fl_rel a c.
Proof.
  destruct a as [d sh v| | | |]; cbn; try (intros ->; now cbn).
  destruct d; cbn; try (intros ->; now cbn); intros (v' & -> & L) (v'' & -> & L'); exists v''; split; auto; congruence.
Qed.
Lemma fl_skel a b : fl_rel a b -> skeleton b = skeleton a.
Proof. destruct a as [d sh v| | | |]; cbn; try (intros ->; reflexivity). destruct d; cbn; try (intros ->; reflexivity); intros (v' & -> & _); reflexivity. Qed.
Lemma ofd_iff a b : only_floats_differ a b <-> Forall2 fl_rel a b.
Proof.
  split.
  - intros [HL H]. revert b HL H. induction a as [|l a IH]; intros [|x b] HL H; try discriminate; constructor.
    + specialize (H 0). cbn in H. exact H.
    + apply IH; [now injection HL|]. intros i. exact (H (S i)).
  - intros H. split; [symmetry; now apply Forall2_length' in H|]. induction H as [|l x a b Hl H IH]; intros i.
    + destruct i; cbn; reflexivity.
    + destruct i as [|i]; [exact Hl|exact (IH i)].
Qed.
Lemma ofd_refl a : only_floats_differ a a.
Proof. apply ofd_iff. induction a; constructor; auto using fl_refl. Qed.
Lemma ofd_trans a b c : only_floats_differ a b -> only_floats_differ b c -> only_floats_differ a c.
Proof.
  rewrite !ofd_iff. intros H. revert c. induction H as [|l x a b Hl H IH]; intros c Hc; inversion Hc; subst; constructor; eauto using fl_trans.
Qed.
Lemma ofd_skel a b : only_floats_differ a b -> same_structure a b.
Proof. rewrite ofd_iff. intros H. unfold same_structure. induction H as [|l x a b Hl H IH]; [reflexivity|]. cbn. now rewrite (fl_skel _ _ Hl), IH. Qed.

Lemma ravel_cons l lv : ravel (l :: lv) = (if trainable l then leaf_vals l else []) ++ ravel lv.
Proof. reflexivity. Qed.
Lemma unravel_rel : forall lv p, length p = length (ravel lv) -> Forall2 fl_rel lv (unravel lv p).
Proof.
  induction lv as [|l lv IH]; intros p H; [constructor|]. rewrite ravel_cons, app_length in H.
  destruct l as [d sh v| | | |]; try (constructor; [reflexivity|apply IH; exact H]).
  destruct d; try (constructor; [reflexivity|apply IH; exact H]); cbn [trainable leaf_vals] in H; cbn [unravel trainable]; (constructor;
   [eexists; split; [reflexivity|rewrite firstn_length; lia]|apply IH; rewrite skipn_length; lia]).
Qed.
Lemma ravel_unravel : forall lv p, length p = length (ravel lv) -> ravel (unravel lv p) = p.
Proof.
  induction lv as [|l lv IH]; intros p H; [destruct p; [reflexivity|discriminate]|]. rewrite ravel_cons, app_length in H.
  destruct l as [d sh v| | | |]; try (apply IH; exact H).
  destruct d; try (apply IH; exact H); cbn [trainable leaf_vals] in H; cbn [unravel trainable]; rewrite ravel_cons; cbn [trainable leaf_vals];
  (rewrite IH by (rewrite skipn_length; lia)); apply firstn_skipn.
Qed.
Lemma unravel_unravel : forall lv p q, length p = length (ravel lv) -> unravel (unravel lv p) q = unravel lv q.
Proof.
  induction lv as [|l lv IH]; intros p q H; [reflexivity|]. rewrite ravel_cons, app_length in H.
  destruct l as [d sh v| | | |]; try (cbn; f_equal; apply IH; exact H).
  destruct d; try (cbn; f_equal; apply IH; exact H); cbn [trainable leaf_vals] in H; cbn [unravel trainable];
  (rewrite firstn_length, Nat.min_l by lia); f_equal; apply IH; rewrite skipn_length; lia.
Qed.
Lemma unravel_ravel : forall lv, unravel lv (ravel lv) = lv.
Proof.
  induction lv as [|l lv IH]; [reflexivity|]. rewrite ravel_cons.
  destruct l as [d sh v| | | |]; try (cbn; f_equal; exact IH).
  destruct d; try (cbn; f_equal; exact IH); cbn [trainable leaf_vals unravel]; rewrite firstn_app, Nat.sub_diag, firstn_all, firstn_O, app_nil_r, skipn_app, Nat.sub_diag, skipn_all, skipn_O; cbn [app]; now rewrite IH.
Qed.
(** A trainable leaf of [unravel lv p] is the stretch of p at its position. *)
Lemma unravel_leaf : forall lv p i d sh v, length p = length (ravel lv) -> i < length lv -> lv_at lv i = LArr d sh v -> d <> DBool ->
  lv_at (unravel lv p) i = LArr d sh (firstn (length v) (skipn (length (ravel (firstn i lv))) p)).
Proof.
  induction lv as [|l lv IH]; intros p i d sh v H Hi Hl Hd; [cbn in Hi; lia|]. rewrite ravel_cons, app_length in H.
  destruct i as [|i].
  - cbn in Hl. subst l. destruct d; [congruence|reflexivity..].
  - cbn [firstn]. rewrite ravel_cons, app_length. cbn in Hi. specialize (IH) as IH'.
    assert (Hl' : lv_at lv i = LArr d sh v) by exact Hl.
    destruct l as [d' sh' v'| | | |];
      try (cbn [unravel trainable leaf_vals length]; change (lv_at (?a :: ?b) (S i)) with (lv_at b i); apply IH; auto; lia).
    destruct d'; cbn [unravel trainable leaf_vals] in *; try (change (lv_at (?a :: ?b) (S i)) with (lv_at b i); apply IH; auto; cbn in H |- *; lia);
    (change (lv_at (?a :: ?b) (S i)) with (lv_at b i); rewrite (IH _ i d sh v); auto; [f_equal; rewrite skipn_skipn'; f_equal; f_equal; lia|rewrite skipn_length; lia|lia]).
Qed.

Context {G : Rng}.
Lemma step_length (a : adamw) g p s : length (fst (adamw_step a g p s)) = length p.
Proof. unfold adamw_step. cbn [fst]. now rewrite !map_length, seq_length. Qed.

(** A property kept by steps and by setting the statistics is kept by training. *)
Section Inv.
Context {NF : NFOps}.
Variable I : mdl -> Prop.
Hypothesis Hstep : forall m xs tx st v m' st', I m -> m_step m xs tx st = (v, m', st') -> I m'.
Lemma loop_inv tx : forall batches m st v0 v m' st', I m -> epoch_loop m tx st v0 batches = (v, m', st') -> I m'.
Proof.
  induction batches as [|b r IH]; intros m st v0 v m' st' Hm H; cbn in H.
  - injection H as _ <- _. exact Hm.
  - destruct (m_step m b tx st) as [[v1 m1] st1] eqn:E. eapply IH; [|exact H]. eapply Hstep; eauto.
Qed.
Lemma epoch_inv m k tx st data bs v m' st' : I m -> train_epoch m k tx st data bs = Ok (v, m', st') -> I m'.
Proof.
  intros Hm. unfold train_epoch. destruct (bs =? 0); [discriminate|]. destruct (0 <? length data / bs).
  - intros H. destruct (epoch_loop m tx st big_loss (epoch_batches k data bs)) as [[v1 m1] st1] eqn:E. injection H as _ <- _. eapply loop_inv; eauto.
  - intros H. destruct (m_step m data tx st) as [[v1 m1] st1] eqn:E. injection H as _ <- _. eapply Hstep; eauto.
Qed.
Lemma train_inv m k data tx st n bs kf m' st' losses : I m -> I (m_stats m data) ->
  train m k data tx st n bs = Ok (kf, (m', st'), losses) -> I m'.
Proof.
  intros Hm Hs. unfold train.
  assert (K : forall n k cur best bl kf b losses, I (fst cur) -> I (fst best) ->
    best_epoch_loop (fun k' ms => rmap (fun o => (fst (fst o), (snd (fst o), snd o))) (train_epoch (fst ms) k' tx (snd ms) data bs)) n k cur best bl = Ok (kf, b, losses) -> I (fst b)).
  { clear n k kf losses. induction n as [|n IH]; intros k cur best bl kf b losses Hc Hb H; cbn in H.
    - injection H as _ <- _. exact Hb.
    - destruct (train_epoch (fst cur) (split k 2 1) tx (snd cur) data bs) as [[[v m1] st1]|] eqn:E; [|discriminate]. cbn in H.
      pose proof (epoch_inv _ _ _ _ _ _ _ _ _ Hc E) as H1.
      match type of H with context [best_epoch_loop ?f n ?kk ?c ?bb ?l] => destruct (best_epoch_loop f n kk c bb l) as [[[kf' b'] ls']|] eqn:E2; [|discriminate] end.
      injection H as _ <- _. refine (IH _ (m1, st1) _ _ _ _ _ H1 _ E2). destruct (v <.? bl); auto. }
  intros H. exact (K n k (m_stats m data, st) (m, st) big_loss kf (m', st') losses Hs Hm H).
Qed.
End Inv.

Variables (logp : list leaf -> vec -> F) (sample : list leaf -> key -> nat -> list vec) (grad : list leaf -> list vec -> vec).
Lemma step_parts lv xs a s v lv' s' : tree_train_step logp grad lv xs a s = (v, lv', s') ->
  v = fneg (fmean (map (logp lv) xs)) /\ lv' = unravel lv (fst (adamw_step a (grad lv xs) (ravel lv) s)) /\ s' = snd (adamw_step a (grad lv xs) (ravel lv) s).
Proof. unfold tree_train_step. destruct (adamw_step a (grad lv xs) (ravel lv) s) as [q t]. intros E. injection E as <- <- <-. auto. Qed.
Lemma step_ofd lv xs a s v lv' s' : tree_train_step logp grad lv xs a s = (v, lv', s') -> only_floats_differ lv lv'.
Proof. intros H. apply step_parts in H as (_ & -> & _). apply ofd_iff, unravel_rel, step_length. Qed.

Definition stats_header (n : nat) (lv : list leaf) : Prop :=
  tree_n lv = n /\ exists v1 v2, lv_at lv 1 = LArr DFloat32 [n] v1 /\ length v1 = n /\ lv_at lv 2 = LArr DFloat32 [n; n] v2 /\ length v2 = n * n.
Lemma concat_length_uniform {A} (l : list (list A)) m : (forall r, In r l -> length r = m) -> length (concat l) = length l * m.
Proof. induction l as [|r l IH]; intros H; [reflexivity|]. cbn. rewrite app_length, IH by (intros; apply H; now right). rewrite (H r) by now left. lia. Qed.
Lemma stats_ofd n lv data : stats_header n lv -> only_floats_differ lv (tree_set_stats lv data).
Proof.
  intros (Hn & v1 & v2 & E1 & L1 & E2 & L2). unfold tree_set_stats. rewrite Hn. split; [now rewrite !set_nth_length|].
  assert (Hl : 2 < length lv). { destruct (le_lt_dec (length lv) 2) as [H|H]; auto. unfold lv_at in E2. rewrite nth_overflow in E2 by auto. discriminate. }
  intros i. destruct (Nat.eq_dec i 1) as [->|N1]; [|destruct (Nat.eq_dec i 2) as [->|N2]].
  - rewrite E1. eexists. split; [unfold lv_at; rewrite nth_set_nth_eq by (rewrite set_nth_length; lia); reflexivity|].
    rewrite L1. unfold data_mean. now rewrite map_length, seq_length.
  - rewrite E2. eexists. split; [unfold lv_at; rewrite nth_set_nth_neq, nth_set_nth_eq by lia; reflexivity|].
    rewrite L2. rewrite (concat_length_uniform _ n).
    + unfold data_cov. now rewrite map_length, seq_length.
    + intros r Hr. unfold data_cov in Hr. apply in_map_iff in Hr as (q & <- & _). now rewrite map_length, seq_length.
  - assert (E : lv_at (set_nth 1 (LArr DFloat32 [n] (data_mean n data)) (set_nth 2 (LArr DFloat32 [n; n] (concat (data_cov n data))) lv)) i = lv_at lv i).
    { unfold lv_at. rewrite !nth_set_nth_neq by auto. reflexivity. }
    rewrite E. pose proof (fl_refl (lv_at lv i)) as R. exact R.
Qed.
Lemma train_ofd n lv k data tx st ne bs kf lv' st' losses : stats_header n lv ->
  @train N G (tree_ops logp sample grad) lv k data tx st ne bs = Ok (kf, (lv', st'), losses) -> only_floats_differ lv lv'.
Proof.
  intros Hh. apply (@train_inv (tree_ops logp sample grad) (only_floats_differ lv)).
  - intros m xs a s v m' s' Hm E. eapply ofd_trans; [exact Hm|]. eapply step_ofd. exact E.
  - apply ofd_refl.
  - apply (stats_ofd n); auto.
Qed.
Lemma eye_concat_length n : length (concat (eye n)) = n * n.
Proof.
  rewrite (concat_length_uniform _ n).
  - unfold eye. now rewrite map_length, seq_length.
  - intros r Hr. unfold eye in Hr. apply in_map_iff in Hr as (q & <- & _). now rewrite map_length, seq_length.
Qed.
Lemma header_stats n lv : stats_header n (header_leaves n ++ lv).
Proof.
  split; [unfold tree_n; cbn; apply Nat2Z.id|]. exists (repeat f0 n), (concat (eye n)). repeat split; [apply repeat_length|apply eye_concat_length].
Qed.
Variable li : nat -> nat -> key -> bool -> linear.
Lemma nvp_stats n L h k lv : nvp_tree li n L h k = Ok lv -> stats_header n lv.
Proof. unfold nvp_tree. destruct (per_layer (fun _ => nvp_networks li n h) L k) as [st|]; [|discriminate]. cbn [rbind]. intros H. apply ok_inj in H. subst lv. apply header_stats. Qed.
Lemma rqs_stats n L bins hidden lo hi k lv : rqs_tree li n L bins hidden lo hi k = Ok lv -> stats_header n lv.
Proof. unfold rqs_tree. destruct (per_layer (fun _ => rqs_network li n bins hidden) L k) as [st|]; [|discriminate]. cbn [rbind]. intros H. apply ok_inj in H. subst lv. apply header_stats. Qed.
Lemma ofd_stats n a b : only_floats_differ a b -> stats_header n a -> stats_header n b.
Proof.
  intros [HL H] (Hn & v1 & v2 & E1 & L1 & E2 & L2). pose proof (H 0) as H0. pose proof (H 1) as H1. pose proof (H 2) as H2.
  rewrite E1 in H1. rewrite E2 in H2. destruct H1 as (w1 & F1 & M1). destruct H2 as (w2 & F2 & M2). split.
  - revert Hn. unfold tree_n, lv_at in * . destruct (nth 0 a LFun) as [d sh v|z|z|z|] eqn:E0; cbn [leaf_int]; intros Hn; rewrite <- Hn.
    + destruct d; try (rewrite H0; reflexivity); destruct H0 as (v' & -> & _); reflexivity.
    + now rewrite H0.
    + now rewrite H0.
    + now rewrite H0.
    + now rewrite H0.
  - exists w1, w2. repeat split; congruence.
Qed.
End Tree3.
