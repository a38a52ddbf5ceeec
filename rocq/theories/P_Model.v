(** Proofs of C60: global steps with the repository's flows. *)
From Coq Require Import Reals Psatz.
From Coquelicot Require Import Coquelicot.
From Verif Require Import Prelude Num M_Core M_Kernels M_Flow M_Net M_Model P_Lists RNum MxR Spec_Kernels Spec_Jac P_Jac Spec_Real Spec_Spline Spec_Flow P_Real1 P_Real2 P_Real3 P_Spline P_Spline2 P_Spline3 P_Flow P_Flow2 P_Flow3 P_Flow4 P_Flow5 P_Flow6 Spec_Net P_Gauss.
Open Scope R_scope.

Lemma nth_eye n i : (i < n)%nat -> nth i (@eye RNum n) [] = map (fun j => @b2f RNum (i =? j)) (seq 0 n).
Proof. intros Hi. unfold eye. exact (nth_map_seq (fun i => map (fun j => @b2f RNum (i =? j)) (seq 0 n)) n i [] Hi). Qed.
Lemma ent_eye n i j : (i < n)%nat -> (j < n)%nat -> ent (@eye RNum n) i j = mid i j.
Proof.
  intros Hi Hj. unfold ent. rewrite nth_eye by auto. etransitivity; [exact (nth_map_seq (fun j => @b2f RNum (i =? j)) n j 0 Hj)|].
  unfold mid, b2f. destruct (i =? j)%nat; reflexivity.
Qed.
Lemma eye_chol n : cholesky_shape n (@eye RNum n).
Proof.
  split; [split|split].
  - unfold eye. now rewrite map_length, seq_length.
  - intros row Hr. unfold eye in Hr. apply in_map_iff in Hr as (i & <- & _). now rewrite map_length, seq_length.
  - intros i j Hij. rewrite ent_eye by lia. unfold mid. destruct (Nat.eqb_spec i j); [lia|reflexivity].
  - intros i Hi. rewrite ent_eye by lia. unfold mid. rewrite Nat.eqb_refl. lra.
Qed.
Lemma zeros_len n : length (repeat (@f0 RNum) n) = n.
Proof. apply repeat_length. Qed.
Lemma eye_noise n (z : list R) : length z = n -> @gaussian_of_noise RNum (repeat f0 n) (eye n) z = z.
Proof.
  intros Hz. pose proof (S_len n _ (eye_chol n) _ (zeros_len n) z Hz) as L.
  apply (list_eq_nth (0 : R)); rnorm; [exact (eq_trans L (eq_sym Hz))|]. intros i Hi.
  assert (Hi' : (i < n)%nat) by (rewrite <- L; exact Hi).
  etransitivity; [exact (S_nth n _ (eye_chol n) _ (zeros_len n) z i Hz Hi')|].
  rewrite (nth_repeat_lt (0 : R)) by auto. rewrite (Rsum_ext n _ (fun j => mid i j * nth j z 0)) by (intros j Hj; rewrite ent_eye by auto; reflexivity).
  rewrite (Rsum_single n _ i); [|exact Hi'|intros j Hj Hne; unfold mid; destruct (Nat.eqb_spec i j); [congruence|apply Rmult_0_l]].
  unfold mid. rewrite Nat.eqb_refl. ring.
Qed.
Lemma eye_T n (x : list R) : length x = n -> @forward_subst RNum (eye n) (@vsub RNum x (repeat f0 n)) [] = x.
Proof.
  intros Hx. pose proof (TS n _ (eye_chol n) _ (zeros_len n) x Hx) as H. pose proof (eye_noise n x Hx) as E.
  etransitivity; [|exact H]. exact (f_equal (fun v => @forward_subst RNum (eye n) (map2 fsub v (repeat f0 n)) []) (eq_sym E)).
Qed.
Lemma ln_std n (x : list R) : ln (std_density n x) = - / 2 * Rsum n (fun i => nth i x 0 ^ 2) - INR n / 2 * ln (2 * PI).
Proof.
  pose proof PI_RGT_0 as HP. unfold std_density. induction n as [|n IH].
  - cbn. rewrite ln_1. field.
  - change (Rprod (S n) (fun i => normal_pdf 0 1 (nth i x 0))) with (Rprod n (fun i => normal_pdf 0 1 (nth i x 0)) * normal_pdf 0 1 (nth n x 0)).
    rewrite ln_mult; [|exact (std_density_pos n x)|apply normal_pdf_pos; lra]. rewrite IH.
    change (Rsum (S n) (fun i => nth i x 0 ^ 2)) with (Rsum n (fun i => nth i x 0 ^ 2) + nth n x 0 ^ 2). rewrite S_INR.
    assert (E : ln (normal_pdf 0 1 (nth n x 0)) = - (nth n x 0) ^ 2 / 2 - ln (2 * PI) / 2).
    { unfold normal_pdf. rewrite Rabs_R1, Rmult_1_l. assert (0 < sqrt (2 * PI)) by (apply sqrt_lt_R0; lra).
      rewrite ln_div; [|apply exp_pos|auto]. rewrite ln_exp.
      replace (ln (2 * PI)) with (2 * ln (sqrt (2 * PI))) by (rewrite <- (sqrt_sqrt (2 * PI)) at 2 by lra; rewrite ln_mult by auto; ring).
      field. }
    rewrite E. field.
Qed.
Lemma base_logp {G : @Rng RNum} n (x : list R) : length x = n -> ds_logp (@default_base RNum G n) x = ln (std_density n x).
Proof.
  intros Hx. cbn [default_base gaussian ds_logp]. etransitivity; [exact (logp_R n _ (eye_chol n) _ (zeros_len n) x Hx)|].
  rewrite ln_std. rewrite (Rsum_ext n (fun i => ln _) (fun _ => 0)).
  2:{ intros i Hi. rewrite ent_eye by auto. unfold mid. rewrite Nat.eqb_refl. apply ln_1. }
  rewrite Rsum_const, Rmult_0_r, Rminus_0_r. rewrite eye_T by auto. reflexivity.
Qed.
Section Sampling.
Context {G : @Rng RNum}.
Hypothesis Hno : @normal_shape RNum G.
Lemma base_sample n k s : ds_sample (@default_base RNum G n) k s = reshape_rows s n (normal k (s * n)).
Proof.
  cbn [default_base gaussian ds_sample]. unfold gaussian_sample. rewrite zeros_len.
  etransitivity; [|apply map_id]. apply map_ext_in. intros z Hz. apply eye_noise.
  destruct (In_nth _ _ [] Hz) as (i & Hi & <-). rewrite reshape_rows_length in Hi. rewrite nth_reshape_rows by auto.
  rewrite slice_length. pose proof (Hno k (s * n)%nat) as L. rnorm. rewrite L. nia.
Qed.
Lemma sample_one (m : @flow RNum) k : @model_sample RNum G m k 1 = flow_sample m [normal k (fl_n m)].
Proof.
  unfold model_sample. rewrite base_sample. f_equal. rewrite Nat.mul_1_l. unfold reshape_rows. cbn [seq map]. f_equal.
  unfold slice. pose proof (Hno k (fl_n m)) as L. cbn [Nat.mul Nat.add skipn]. rewrite Nat.sub_0_r. rnorm.
  etransitivity; [|exact (firstn_all _)]. now rewrite L.
Qed.
End Sampling.

(* ------------------------------------------------------------------ detailed balance *)
Lemma balance_from (ex ey qx qy dx dy c a b : R) : 0 < c -> qx = dx * c -> qy = dy * c ->
  ex * qy * a = ey * qx * b -> ex * dy * a = ey * dx * b.
Proof. intros Hc -> -> H. apply (Rmult_eq_reg_r c); [|lra]. lra. Qed.
Section Balance.
Context {G : @Rng RNum}.
Hypothesis Hno : @normal_shape RNum G.
Variables (decode : list R -> @flow RNum) (put : list R -> list R -> list (list R) -> list R) (grad : list R -> list (list R) -> list R).
Lemma one_sample_latent (m : @flow RNum) k (y : list R) : good_stats m ->
  exact_inverse (fl_n m) (flow_fwd (fl_layers m)) (flow_inv (fl_layers m)) -> @model_sample RNum G m k 1 = [y] ->
  length y = fl_n m /\ latent m y = normal k (fl_n m).
Proof.
  intros Hg E Hy. rewrite (sample_one Hno) in Hy.
  destruct (flow_sample_nth m Hg [normal k (fl_n m)] 0 E ltac:(cbn; lia) (Hno k (fl_n m))) as (_ & H1 & H2).
  rewrite Hy in H1, H2. cbn [nth] in H1, H2. auto.
Qed.
Lemma latent_density_pos (m : @flow RNum) (Hg : good_stats m) (p : list R -> R) (x : list R) : length x = fl_n m ->
  (forall y, length y = fl_n m -> length (fst (flow_fwd (fl_layers m) y)) = fl_n m) ->
  reports_logdet (fl_n m) (flow_fwd (fl_layers m)) (whiten m x) -> (forall y, 0 < p y) ->
  exists d, 0 < d /\ density_through (fl_n m) (latent m) p x d /\
  exp (snd (flow_fwd (fl_layers m) (whiten m x)) + ln (p (latent m x))) = d * exp (Rsum (fl_n m) (fun i => ln (sqrt (nth i (fl_var m) 0)))).
Proof.
  intros Hx Hl Hr Hp.
  pose proof (logdet_compose (fl_n m) (fun x => (whiten m x, - Rsum (fl_n m) (fun i => ln (sqrt (nth i (fl_var m) 0))))) (flow_fwd (fl_layers m)) x Hx (fun y Hy => whiten_len m Hg y Hy) (whiten_logdet m Hg x Hx) Hr) as (J & HJ & D).
  cbn [fst snd] in HJ, D. exists (p (latent m x) * Rabs (mdet (fl_n m) J)). 
  assert (Pl : 0 < p (latent m x)) by apply Hp.
  split; [|split; [exists J; split; [exact HJ|reflexivity]|]].
  - rewrite D. apply Rmult_lt_0_compat; auto using exp_pos.
  - rewrite D. pose (b := snd (flow_fwd (fl_layers m) (whiten m x)) : R). set (c := Rsum _ _).
    change (exp (b + ln (p (latent m x))) = p (latent m x) * exp (- c + b) * exp c).
    rewrite Rmult_assoc, <- exp_plus. replace (- c + b + c) with b by ring. rewrite exp_plus, exp_ln by auto. ring.
Qed.

Variable logp : @flow RNum -> list R -> R.
Lemma flow_balance p bs k k' f d (x y : list R) a b :
  let m := decode p in
  good_stats m -> exact_inverse (fl_n m) (flow_fwd (fl_layers m)) (flow_inv (fl_layers m)) ->
  (forall v, v = x \/ v = y -> length v = fl_n m -> reports_logdet (fl_n m) (flow_fwd (fl_layers m)) (whiten m v)) ->
  (forall v, length v = fl_n m -> logp m v = snd (flow_fwd (fl_layers m) (whiten m v)) + ln (std_density (fl_n m) (latent m v))) ->
  (0 < bs)%nat -> ignores_n_steps f ->
  model_sample m (split k 2 1) 1 = [y] -> model_sample m (split k' 2 1) 1 = [x] ->
  let NF := model_ops decode put logp grad in
  accept_prob (flow_run (@mkNfp RNum G NF p bs) k f d x) a -> accept_prob (flow_run (@mkNfp RNum G NF p bs) k' f d y) b ->
  latent m y = normal (split k 2 1) (fl_n m) /\ latent m x = normal (split k' 2 1) (fl_n m) /\
  exists dx dy, 0 < dx /\ 0 < dy /\
    density_through (fl_n m) (latent m) (std_density (fl_n m)) x dx /\
    density_through (fl_n m) (latent m) (std_density (fl_n m)) y dy /\
    exp (lp_val f x d) * dy * a = exp (lp_val f y d) * dx * b.
Proof.
  intros m Hg EX RL HP Hb Hi Hy Hx NF A1 A2.
  destruct (one_sample_latent m _ y Hg EX Hy) as [Ly Ey]. destruct (one_sample_latent m _ x Hg EX Hx) as [Lx Ex].
  split; [exact Ey|split; [exact Ex|]].
  assert (Den : forall v, v = x \/ v = y -> length v = fl_n m -> exists dv, 0 < dv /\ density_through (fl_n m) (latent m) (std_density (fl_n m)) v dv /\
     exp (logp m v) = dv * exp (Rsum (fl_n m) (fun i => ln (sqrt (nth i (fl_var m) 0))))).
  { intros v Iv Lv. rewrite (HP v Lv). apply (latent_density_pos m Hg _ v Lv (ei_fwd_len _ _ _ EX)).
    - now apply RL.
    - intros. apply std_density_pos. }
  destruct (Den x (or_introl eq_refl) Lx) as (dx & Px & Dx & Qx). destruct (Den y (or_intror eq_refl) Ly) as (dy & Py & Dy & Qy).
  exists dx, dy. split; [auto|split; [auto|split; [auto|split; [auto|]]]].
  pose proof (@C18_proof G NF (@mkNfp RNum G NF p bs) k k' f d x y a b 1 Hb Hi Rlt_0_1 Hy Hx A1 A2) as H. cbv zeta in H. cbn [nfp_model] in H.
  refine (balance_from _ _ _ _ dx dy (exp _) _ _ (exp_pos _) _ _ H).
  - etransitivity; [apply Rmult_1_l|]. exact Qx.
  - etransitivity; [apply Rmult_1_l|]. exact Qy.
Qed.
End Balance.

Section Balance2.
Context {G : @Rng RNum}.
Hypothesis Hno : @normal_shape RNum G.
Variables (decode : list R -> @flow RNum) (put : list R -> list R -> list (list R) -> list R) (grad : list R -> list (list R) -> list R).
Lemma realnvp_balance p bs k k' f d (x y : list R) a b nets :
  let m := decode p in
  good_stats m -> fl_layers m = map coupling_layer (realnvp_layers (fl_n m) nets) -> nets_shape (fl_n m) nets ->
  (forall s t c, In (s, t) nets -> length c = fl_n m -> differentiable (fl_n m) s c /\ differentiable (fl_n m) t c) ->
  (0 < bs)%nat -> ignores_n_steps f ->
  model_sample m (split k 2 1) 1 = [y] -> model_sample m (split k' 2 1) 1 = [x] ->
  let NF := realnvp_ops decode put grad in
  accept_prob (flow_run (@mkNfp RNum G NF p bs) k f d x) a -> accept_prob (flow_run (@mkNfp RNum G NF p bs) k' f d y) b ->
  latent m y = normal (split k 2 1) (fl_n m) /\ latent m x = normal (split k' 2 1) (fl_n m) /\
  exists dx dy, 0 < dx /\ 0 < dy /\
    density_through (fl_n m) (latent m) (std_density (fl_n m)) x dx /\
    density_through (fl_n m) (latent m) (std_density (fl_n m)) y dy /\
    exp (lp_val f x d) * dy * a = exp (lp_val f y d) * dx * b.
Proof.
  intros m Hg El Hs Hd Hb Hi Hy Hx NF A1 A2.
  assert (EX : exact_inverse (fl_n m) (flow_fwd (fl_layers m)) (flow_inv (fl_layers m))) by (rewrite El; now apply realnvp_exact).
  apply (flow_balance Hno decode put grad (@realnvp_log_prob RNum) p bs k k' f d x y a b); auto.
  - fold m. intros w _ Hw. rewrite El. apply realnvp_logdet_smooth; auto. now apply whiten_len.
  - fold m. intros v Lv. apply realnvp_ratio. apply (ei_fwd_len _ _ _ EX). now apply whiten_len.
Qed.
Lemma rqs_balance p bs k k' f d (x y : list R) a b ps :
  let m := decode p in
  good_stats m -> fl_layers m = map rqs_model_layer (rqs_layers (fl_n m) ps) -> rqs_ok (fl_n m) ps ->
  (forall a b q, In (a, b, q) ps -> a = 0 /\ b = 0 /\
    forall c, length c = fl_n m -> differentiable_to (fl_n m) (fl_n m * (rq_bins q * 3 + 1)) (rq_cond q) c) ->
  (0 < bs)%nat -> ignores_n_steps f ->
  model_sample m (split k 2 1) 1 = [y] -> model_sample m (split k' 2 1) 1 = [x] ->
  let NF := rqs_ops decode put grad in
  accept_prob (flow_run (@mkNfp RNum G NF p bs) k f d x) a -> accept_prob (flow_run (@mkNfp RNum G NF p bs) k' f d y) b ->
  latent m y = normal (split k 2 1) (fl_n m) /\ latent m x = normal (split k' 2 1) (fl_n m) /\
  exists dx dy, 0 < dx /\ 0 < dy /\
    density_through (fl_n m) (latent m) (std_density (fl_n m)) x dx /\
    density_through (fl_n m) (latent m) (std_density (fl_n m)) y dy /\
    exp (lp_val f x d) * dy * a = exp (lp_val f y d) * dx * b.
Proof.
  intros m Hg El Hok Hd Hb Hi Hy Hx NF A1 A2.
  assert (EX : exact_inverse (fl_n m) (flow_fwd (fl_layers m)) (flow_inv (fl_layers m))).
  { rewrite El. apply rqs_flow_zero_exact; auto. intros a' b' q Hin. destruct (Hd a' b' q Hin) as (E1 & E2 & _). auto. }
  apply (flow_balance Hno decode put grad (@rqs_model_logp RNum G) p bs k k' f d x y a b); auto.
  - fold m. intros w _ Hw. rewrite El. apply rqs_logdet_smooth; auto; [|now apply whiten_len].
    intros a' b' q Hin. destruct (Hd a' b' q Hin) as (_ & _ & E). destruct (Hok a' b' q Hin) as (E1 & E2 & _). auto.
  - fold m. intros v Lv. pose proof (ei_fwd_len _ _ _ EX (whiten m v) (whiten_len m Hg v Lv)) as LL.
    unfold rqs_model_logp, rqs_log_prob, latent. destruct (flow_fwd (fl_layers m) (whiten m v)) as [u ld]. cbn [fst snd] in * .
    apply (f_equal2 Rplus); [reflexivity|]. now apply base_logp.
Qed.
End Balance2.
