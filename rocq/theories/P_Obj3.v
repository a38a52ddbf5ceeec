(** Proofs of C61: the model returned by training can be worse than the one it was given. *)
From Coq Require Import Reals Psatz.
From Coquelicot Require Import Coquelicot.
From Verif Require Import Prelude Num M_Core M_Kernels M_Strategies M_Flow M_Net M_Model P_Lists RNum MxR Spec_Kernels Spec_Jac P_Jac Spec_Real Spec_Spline Spec_Flow Spec_FM P_Real1 P_Real2 P_Real3 P_Flow P_Flow2 P_Flow3 P_Flow4 P_Flow5 P_Flow6 Spec_Net P_Gauss P_Decay P_Adamw P_FM3 P_Train P_Model P_Model4 P_Obj P_Obj2 Spec_Obj.
Open Scope R_scope.
Ltac req := match goal with |- @eq _ ?a ?b => change (@eq R a b) end.

Lemma shift_good p : 0 < nth 2 p 0 -> good_stats (shift_flow p).
Proof. intros H. repeat split; auto. intros [|i] Hi; cbn in *; [exact H|lia]. Qed.
Lemma tanh_0' : tanh 0 = 0.
Proof. unfold tanh, sinh, cosh. rewrite Ropp_0, exp_0. field. Qed.
Lemma shift_logp p x : 0 < nth 2 p 0 ->
  realnvp_log_prob (shift_flow p) [x] = - ((x - nth 1 p 0) / sqrt (nth 2 p 0) + nth 0 p 0) ^ 2 / 2 - ln (2 * PI) / 2.
Proof.
  intros H. assert (HM : @nth R 0 (@realnvp_mask RNum 1 0) 0 = 0) by (cbn; lra).
  etransitivity; [apply (nv_logp (shift_flow p) (@realnvp_mask RNum 1 0) [0] [nth 0 p 0] (shift_good p H)); try reflexivity|].
  change (fl_n (shift_flow p)) with 1%nat. cbn [Rsum INR]. rewrite HM. cbn [nth]. rewrite tanh_0', exp_0. cbn [shift_flow fl_mean fl_var nth].
  match goal with |- @eq _ ?a ?b => change (@eq R a b) end. field.
  apply Rgt_not_eq, sqrt_lt_R0. exact H.
Qed.
Lemma shift_loss p (xs : list (list R)) : 0 < nth 2 p 0 -> (0 < length xs)%nat -> (forall x, In x xs -> length x = 1%nat) ->
  @nf_loss RNum (realnvp_log_prob (shift_flow p)) xs =
  Rsum (length xs) (fun i => ((nth 0 (nth i xs []) 0 - nth 1 p 0) / sqrt (nth 2 p 0) + nth 0 p 0) ^ 2) / INR (length xs) / 2 + ln (2 * PI) / 2.
Proof.
  intros H Hn Hx. rewrite loss_R. unfold mean_of. apply lt_0_INR in Hn.
  rewrite (Rsum_ext _ _ (fun i => - / 2 * ((nth 0 (nth i xs []) 0 - nth 1 p 0) / sqrt (nth 2 p 0) + nth 0 p 0) ^ 2 + - (ln (2 * PI) / 2))).
  - rewrite Rsum_plus, Rsum_scal, Rsum_const. match goal with |- @eq _ ?a ?b => change (@eq R a b) end. field. lra.
  - intros i Hi. assert (L : length (nth i xs []) = 1%nat) by (apply Hx, nth_In; exact Hi). destruct (nth i xs []) as [|x [|? ?]]; try discriminate.
    rewrite shift_logp by auto. cbn [nth]. lra.
Qed.
Lemma Rsum_derive n (f : nat -> R -> R) (g : nat -> R) t : (forall i, (i < n)%nat -> is_derive (f i) t (g i)) -> is_derive (fun t => Rsum n (fun i => f i t)) t (Rsum n g).
Proof.
  induction n as [|n IH]; intros H; [cbn; auto_derive; auto|]. cbn [Rsum]. apply (is_derive_plus (fun t => Rsum n (fun i => f i t)) (f n)); [apply IH; auto|apply H; lia].
Qed.
Lemma shift_grad_true p (xs : list (list R)) : length p = 3%nat -> 0 < nth 2 p 0 -> (0 < length xs)%nat -> (forall x, In x xs -> length x = 1%nat) ->
  is_derive (fun t => @nf_loss RNum (realnvp_log_prob (shift_flow (set_nth 0 t p))) xs) (nth 0 p 0) (nth 0 (shift_grad p xs) 0).
Proof.
  intros L H Hn Hx. pose proof Hn as Hn'. apply lt_0_INR in Hn'.
  destruct p as [|th [|mu [|v [|? ?]]]]; try discriminate. cbn [nth set_nth shift_grad] in * .
  apply (is_derive_ext (fun t => Rsum (length xs) (fun i => ((nth 0 (nth i xs []) 0 - mu) / sqrt v + t) ^ 2) * / INR (length xs) * / 2 + ln (2 * PI) / 2)).
  { intros t. symmetry. exact (shift_loss [t; mu; v] xs H Hn Hx). }
  assert (D : is_derive (fun t => Rsum (length xs) (fun i => ((nth 0 (nth i xs []) 0 - mu) / sqrt v + t) ^ 2)) th (Rsum (length xs) (fun i => 2 * ((nth 0 (nth i xs []) 0 - mu) / sqrt v + th)))).
  { apply Rsum_derive. intros i Hi. auto_derive; auto. ring. }
  rewrite Rsum_scal in D. set (S := fun t => Rsum _ _) in D. set (W := Rsum _ _) in D.
  pose proof (is_derive_scal S th (/ INR (length xs) * / 2) _ D) as D2. cbv beta in D2.
  pose proof (is_derive_plus (fun t : R => / INR (length xs) * / 2 * S t) (fun _ : R => ln (2 * PI) / 2) th _ _ D2 (is_derive_const (ln (2 * PI) / 2) th)) as D3.
  apply (is_derive_ext (fun t => / INR (length xs) * / 2 * S t + ln (2 * PI) / 2)).
  { intros t. unfold S. req. ring. }
  refine (eq_ind _ (fun l : R => is_derive _ th l) D3 _ _). change (/ INR (length xs) * / 2 * (2 * W) + 0 = W / INR (length xs)). field. lra.
Qed.
Section Worse.
Context {G : @Rng RNum}.
Let p0 : list R := [/ 100; 0; 2].
Let data : list (list R) := [[-1]; [1]].
Let tx := @optimizer_new RNum 1 (9 / 10).
Lemma worse_stats : @nf_set_stats RNum shift_flow shift_put p0 data = p0.
Proof.
  unfold nf_set_stats, shift_put, p0, data. change (fl_n (shift_flow [/ 100; 0; 2])) with 1%nat. cbn. f_equal. f_equal; [field|f_equal; field].
Qed.
Lemma sqrt2_sq : sqrt 2 * sqrt 2 = 2. Proof. apply sqrt_sqrt. lra. Qed.
Lemma worse_grad : shift_grad p0 data = [/ 100; 0; 0].
Proof.
  unfold shift_grad, p0, data. cbn [length nth Rsum INR]. f_equal. pose proof (sqrt_lt_R0 2 ltac:(lra)). field. lra.
Qed.
Lemma worse_loss0 : @nf_loss RNum (realnvp_log_prob (shift_flow p0)) data = (/ 2 + / 10000) / 2 + ln (2 * PI) / 2.
Proof.
  rewrite shift_loss; cbn [p0 data nth length]; try lra; try lia.
  - cbn [Rsum nth INR length]. pose proof (sqrt_lt_R0 2 ltac:(lra)) as Hs. pose proof sqrt2_sq as Hq.
    apply (f_equal2 Rplus); [|reflexivity]. set (s := sqrt 2) in * . clearbody s.
    replace ((0 + ((-1 - 0) / s + / 100) ^ 2 + ((1 - 0) / s + / 100) ^ 2) / (1 + 1) / 2) with ((/ (s * s) + / 10000) / 2) by (field; lra). rewrite Hq. reflexivity.
  - intros x [<-|[<-|[]]]; reflexivity.
Qed.
Lemma worse_run k : exists kf st' p',
  @train RNum G (realnvp_ops shift_flow shift_put shift_grad) p0 k data tx (adamw_init p0) 1 5 =
    Ok (kf, (p', st'), [@nf_loss RNum (realnvp_log_prob (shift_flow p0)) data]) /\
  p' = fst (adamw_step tx (shift_grad p0 data) p0 (adamw_init p0)).
Proof.
  unfold train. cbn [best_epoch_loop]. rewrite (@C35_small_proof RNum G _ _ _ _ _ data 5) by (cbn; lia).
  assert (ES : @m_stats RNum G (realnvp_ops shift_flow shift_put shift_grad) p0 data = p0) by exact worse_stats.
  cbn [fst snd]. rewrite ES.
  assert (EM : @m_step RNum G (realnvp_ops shift_flow shift_put shift_grad) p0 data tx (adamw_init p0) =
     (@nf_loss RNum (realnvp_log_prob (shift_flow p0)) data, fst (adamw_step tx (shift_grad p0 data) p0 (adamw_init p0)), snd (adamw_step tx (shift_grad p0 data) p0 (adamw_init p0)))).
  { cbn [m_step realnvp_ops model_ops]. unfold nf_train_step. destruct (adamw_step tx (shift_grad p0 data) p0 (adamw_init p0)). reflexivity. }
  rewrite EM. cbn [rmap fst snd rbind].
  assert (EL : @flt RNum (@nf_loss RNum (realnvp_log_prob (shift_flow p0)) data) big_loss = true).
  { apply flt_R. rewrite worse_loss0. change (@big_loss RNum) with (IZR 1000000000).
    assert (H2 : ln (2 * PI) < 7). { pose proof PI_RGT_0. pose proof PI_4. rewrite <- (ln_exp 7). apply ln_increasing; [lra|]. pose proof (exp_ineq1 7 ltac:(lra)). lra. }
    lra. }
  rewrite EL. do 3 eexists. split; reflexivity.
Qed.
Lemma worse_params : let p' := fst (adamw_step tx (shift_grad p0 data) p0 (adamw_init p0)) in
  length p' = 3%nat /\ @nth R 0 p' 0 < - (9 / 10) /\ @nth R 1 p' 0 = 0 /\ @nth R 2 p' 0 = 2 * (1 - 1 / 10000).
Proof.
  set (p' := fst _). assert (EP : p' = fst (adamw_steps tx [shift_grad p0 data] p0 (adamw_init p0))) by reflexivity. cbv zeta.
  assert (Hc : @clip_norm RNum [/ 100; 0; 0] = [/ 100; 0; 0]).
  { unfold clip_norm. replace (@flt RNum _ _) with true; [reflexivity|]. symmetry. apply flt_R. cbn.
    apply (Rlt_le_trans _ (sqrt 1)); [apply sqrt_lt_1; lra|rewrite sqrt_1; lra]. }
  split; [|split; [|split]].
  - reflexivity.
  - rewrite EP. rewrite (const_proof tx (/ 100) 0); cbn [tx optimizer_new aw_b1 aw_b2 aw_eps aw_lr aw_decay]; cbn [length p0]; try lia.
    + cbn [iter length nth p0]. rewrite Rabs_pos_eq by lra. cbn. lra.
    + cbn. lra.
    + cbn. lra.
    + cbn. lra.
    + intros g [<-|[]]. rewrite worse_grad, Hc. reflexivity.
  - rewrite EP. rewrite (decay_proof tx _ p0 1); [cbn [nth p0]; ring|cbn; lia|]. intros g [<-|[]]. reflexivity.
  - rewrite EP. rewrite (decay_proof tx _ p0 2); [|cbn; lia|intros g [<-|[]]; reflexivity].
    cbn [nth p0 length pow tx optimizer_new aw_lr aw_decay]. cbn. field.
Qed.
Lemma worse_loss1 : @nf_loss RNum (realnvp_log_prob (shift_flow p0)) data <
  @nf_loss RNum (realnvp_log_prob (shift_flow (fst (adamw_step tx (shift_grad p0 data) p0 (adamw_init p0))))) data.
Proof.
  destruct worse_params as (_ & H0 & H1 & H2). set (p' := fst _) in * . rewrite worse_loss0.
  assert (Hv : 0 < @nth R 2 p' 0) by (rewrite H2; lra). rewrite shift_loss; auto; cbn [data length]; try lia.
  2:{ intros x [<-|[<-|[]]]; reflexivity. }
  cbn [Rsum nth INR]. rewrite H1, H2. pose proof (sqrt_lt_R0 (2 * (1 - 1 / 10000)) ltac:(lra)) as Hs. pose proof (sqrt_sqrt (2 * (1 - 1 / 10000)) ltac:(lra)) as Hq.
  set (t := @nth R 0 p' 0) in * . set (s := sqrt _) in * . clearbody t s. clear p' Hv H1 H2.
  cbn [data nth]. match goal with |- _ < ?r => assert (EQ : r = (/ (s * s) + t * t) / 2 + ln (2 * PI) / 2) by (field; lra); rewrite EQ; clear EQ end. rewrite Hq.
  assert (81 / 100 < t * t) by nra. assert (/ 2 < / (2 * (1 - 1 / 10000))) by (apply Rinv_lt_contravar; lra). lra.
Qed.
Lemma worse_proof k : exists kf st' p' v,
  @train RNum G (realnvp_ops shift_flow shift_put shift_grad) p0 k data tx (adamw_init p0) 1 5 = Ok (kf, (p', st'), [v]) /\
  v = @nf_loss RNum (realnvp_log_prob (shift_flow p0)) data /\
  v < @nf_loss RNum (realnvp_log_prob (shift_flow p')) data.
Proof.
  destruct (worse_run k) as (kf & st' & p' & E & ->). do 4 eexists. split; [exact E|]. split; [reflexivity|exact worse_loss1].
Qed.
End Worse.
