(** Final forms of C30-C32. *)
From Coq Require Import Reals Psatz.
From Coquelicot Require Import Coquelicot.
From Verif Require Import Prelude Num M_Core M_Kernels M_Flow P_Lists RNum MxR Spec_Jac P_Jac Spec_Kernels Spec_Real Spec_Spline Spec_Flow P_Real1 P_Real2 P_Spline P_Spline2 P_Spline3 P_Flow P_Flow2 P_Flow3 P_Flow4 P_Flow5.
Open Scope R_scope.

Lemma realnvp_logdet_smooth n nets (x : list R) : nets_shape n nets ->
  (forall s t c, In (s, t) nets -> length c = n -> differentiable n s c /\ differentiable n t c) -> length x = n ->
  reports_logdet n (flow_fwd (map coupling_layer (realnvp_layers n nets))) x.
Proof. intros Hs Hd Hx. apply realnvp_logdet; auto. now apply realnvp_smooth. Qed.
Lemma rqs_logdet_smooth n ps (x : list R) : (forall a b q, In (a, b, q) ps -> rq_admissible q /\ rq_shape q n /\
    forall c, length c = n -> differentiable_to n (n * (rq_bins q * 3 + 1)) (rq_cond q) c) -> length x = n ->
  reports_logdet n (flow_fwd (map rqs_model_layer (rqs_layers n ps))) x.
Proof.
  intros H Hx. apply rqs_logdet; auto.
  - intros a b q Hin. destruct (H a b q Hin) as (A & B & _). auto.
  - now apply rqs_smooth.
Qed.
Lemma rqs_fwd_len n ps (x : list R) : (forall a b q, In (a, b, q) ps -> rq_admissible q /\ rq_shape q n) -> length x = n ->
  length (fst (flow_fwd (map rqs_model_layer (rqs_layers n ps)) x)) = n.
Proof.
  intros Hok Hx. rewrite flat_fwd.
  assert (HL : forall l, In l (flat_layers (rqs_layers n ps)) -> forall y : list R, length y = n -> length (fst (ly_fwd l y)) = n).
  { intros l Hl. unfold flat_layers in Hl. apply in_concat in Hl as (ll & Hll & Hl). apply in_map_iff in Hll as (c & <- & Hc).
    destruct (rqs_layers_In n ps c Hc) as (i & a & b & q & Hin & ->). destruct (Hok a b q Hin) as (H1 & H2).
    destruct Hl as [<-|[<-|[]]].
    - assert (Hb : forall c, length c = n -> exists g l, cfwd n (scalar_affine a b) c g l) by (intros; now apply scalar_cfwd).
      exact (cl_len n _ _ (zero_mask_binary n) Hb).
    - assert (Hb : forall c, length c = n -> exists g l, cfwd n (rqspline_bij q) c g l) by (intros; now apply rq_cfwd).
      exact (cl_len n _ _ (rqs_mask_binary n i) Hb). }
  revert x Hx HL. generalize (flat_layers (rqs_layers n ps)). induction l as [|l ls IH]; intros x Hx HL; [exact Hx|].
  rewrite flow_fwd_cons. cbn [fst]. apply IH; [apply HL; [now left|auto]|]. intros l' Hl'. apply HL. now right.
Qed.
Section D.
Variable m : @flow RNum.
Hypothesis Hg : good_stats m.
Lemma realnvp_density nets (x : list R) : fl_layers m = map coupling_layer (realnvp_layers (fl_n m) nets) -> nets_shape (fl_n m) nets ->
  (forall s t c, In (s, t) nets -> length c = fl_n m -> differentiable (fl_n m) s c /\ differentiable (fl_n m) t c) -> length x = fl_n m ->
  exists d, 0 < d /\ density_through (fl_n m) (latent m) (std_density (fl_n m)) x d /\
    realnvp_log_prob m x = ln d + Rsum (fl_n m) (fun i => ln (sqrt (nth i (fl_var m) 0))).
Proof.
  intros El Hs Hd Hx. pose proof (whiten_len m Hg x Hx) as Lw.
  assert (HL : forall y : list R, length y = fl_n m -> length (fst (flow_fwd (fl_layers m) y)) = fl_n m).
  { rewrite El. apply (ei_fwd_len _ _ _ (realnvp_exact _ _ Hs)). }
  destruct (latent_density m Hg (std_density (fl_n m)) x Hx HL) as (d & H0 & H1 & H2).
  - rewrite El. now apply realnvp_logdet_smooth.
  - intros. apply std_density_pos.
  - exists d. split; [auto|]. split; auto. rewrite <- H2. unfold realnvp_log_prob, latent. specialize (HL _ Lw). destruct (flow_fwd (fl_layers m) (whiten m x)) as [y ld].
    cbn [fst snd] in * . rewrite std_normal_R by auto. reflexivity.
Qed.
Lemma rqs_density ps (p : list R -> R) (x : list R) : fl_layers m = map rqs_model_layer (rqs_layers (fl_n m) ps) ->
  (forall a b q, In (a, b, q) ps -> rq_admissible q /\ rq_shape q (fl_n m) /\
    forall c, length c = fl_n m -> differentiable_to (fl_n m) (fl_n m * (rq_bins q * 3 + 1)) (rq_cond q) c) ->
  (forall y, 0 < p y) -> length x = fl_n m ->
  exists d, 0 < d /\ density_through (fl_n m) (latent m) p x d /\
    rqs_log_prob (fun y => ln (p y)) m x = ln d + Rsum (fl_n m) (fun i => ln (sqrt (nth i (fl_var m) 0))).
Proof.
  intros El Hok Hp Hx. pose proof (whiten_len m Hg x Hx) as Lw.
  assert (HL : forall y : list R, length y = fl_n m -> length (fst (flow_fwd (fl_layers m) y)) = fl_n m).
  { rewrite El. intros. apply rqs_fwd_len; auto. intros a b q Hin. destruct (Hok a b q Hin) as (A & B & _). auto. }
  destruct (latent_density m Hg p x Hx HL) as (d & H0 & H1 & H2); auto.
  - rewrite El. now apply rqs_logdet_smooth.
  - exists d. split; [auto|]. split; auto. rewrite <- H2. unfold rqs_log_prob, latent. destruct (flow_fwd (fl_layers m) (whiten m x)) as [y ld]. reflexivity.
Qed.
Lemma flow_sample_nth (zs : list (list R)) k : exact_inverse (fl_n m) (flow_fwd (fl_layers m)) (flow_inv (fl_layers m)) ->
  (k < length zs)%nat -> length (nth k zs []) = fl_n m ->
  length (flow_sample m zs) = length zs /\ length (nth k (flow_sample m zs) []) = fl_n m /\ latent m (nth k (flow_sample m zs) []) = nth k zs [].
Proof.
  intros E Hk Hz. unfold flow_sample. rewrite map_length. split; auto.
  rewrite (nth_map' (fun z => unwhiten m (fst (flow_inv (fl_layers m) z))) zs k [] []) by auto.
  split; [|now apply sample_latent]. apply unwhiten_len; auto. now apply (ei_inv_len _ _ _ E).
Qed.
End D.
(** A custom base distribution: RealNVP.log_prob at two samples differs from the base's log-ratio. *)
Lemma realnvp_ratio (m : @flow RNum) (x : list R) : length (latent m x) = fl_n m ->
  realnvp_log_prob m x = snd (flow_fwd (fl_layers m) (whiten m x)) + ln (std_density (fl_n m) (latent m x)).
Proof.
  unfold realnvp_log_prob, latent. destruct (flow_fwd (fl_layers m) (whiten m x)) as [y ld]. cbn [fst snd]. intros H. rewrite std_normal_R by auto. reflexivity.
Qed.
Lemma custom_base (m : @flow RNum) nets (p : list R -> R) (z1 z2 : list R) : good_stats m ->
  fl_layers m = map coupling_layer (realnvp_layers (fl_n m) nets) -> nets_shape (fl_n m) nets ->
  (forall s t c, In (s, t) nets -> length c = fl_n m -> differentiable (fl_n m) s c /\ differentiable (fl_n m) t c) ->
  (forall y, 0 < p y) -> length z1 = fl_n m -> length z2 = fl_n m ->
  ln (p z1) - ln (std_density (fl_n m) z1) <> ln (p z2) - ln (std_density (fl_n m) z2) ->
  let x1 := nth 0 (flow_sample m [z1; z2]) [] in let x2 := nth 1 (flow_sample m [z1; z2]) [] in
  exists d1 d2, 0 < d1 /\ 0 < d2 /\ density_through (fl_n m) (latent m) p x1 d1 /\ density_through (fl_n m) (latent m) p x2 d2 /\
    realnvp_log_prob m x1 - realnvp_log_prob m x2 <> ln d1 - ln d2.
Proof.
  intros Hg El Hs Hd Hp H1 H2 Hne x1 x2.
  assert (EX : exact_inverse (fl_n m) (flow_fwd (fl_layers m)) (flow_inv (fl_layers m))) by (rewrite El; now apply realnvp_exact).
  destruct (flow_sample_nth m Hg [z1; z2] 0 EX ltac:(cbn; lia) H1) as (_ & L1 & E1).
  destruct (flow_sample_nth m Hg [z1; z2] 1 EX ltac:(cbn; lia) H2) as (_ & L2 & E2). change (length x1 = fl_n m) in L1. change (latent m x1 = z1) in E1. change (length x2 = fl_n m) in L2. change (latent m x2 = z2) in E2.
  clearbody x1 x2.
  assert (G : forall x : list R, length x = fl_n m -> exists d, 0 < d /\ density_through (fl_n m) (latent m) p x d /\
     snd (flow_fwd (fl_layers m) (whiten m x)) + ln (p (latent m x)) = ln d + Rsum (fl_n m) (fun i => ln (sqrt (nth i (fl_var m) 0)))).
  { intros x Lx. pose proof (whiten_len m Hg x Lx). apply (latent_density m Hg p x Lx); auto.
    - apply (ei_fwd_len _ _ _ EX).
    - rewrite El. now apply realnvp_logdet_smooth. }
  destruct (G x1 L1) as (d1 & P1 & D1 & Q1), (G x2 L2) as (d2 & P2 & D2 & Q2). exists d1, d2. split; [auto|split; [auto|]]. split; [auto|split; [auto|]].
  rewrite !realnvp_ratio by (rewrite ?E1, ?E2; auto). rewrite E1 in * . rewrite E2 in * .
  pose (a := snd (flow_fwd (fl_layers m) (whiten m x1)) : R). pose (b := snd (flow_fwd (fl_layers m) (whiten m x2)) : R).
  change (a + ln (std_density (fl_n m) z1) - (b + ln (std_density (fl_n m) z2)) <> ln d1 - ln d2).
  change (a + ln (p z1) = ln d1 + Rsum (fl_n m) (fun i => ln (sqrt (nth i (fl_var m) 0)))) in Q1.
  change (b + ln (p z2) = ln d2 + Rsum (fl_n m) (fun i => ln (sqrt (nth i (fl_var m) 0)))) in Q2. lra.
Qed.

(** A default RQSpline layer with a constant conditioner: slopes strictly between 1 and 2. *)
Definition const_q : @rqspline RNum := @mkRQ RNum (-10) 10 2 (1 / 10000) (1 / 10000) (fun _ => repeat 1 7).
Lemma const_q_ok : rq_admissible const_q /\ rq_shape const_q 1.
Proof.
  split; [|intros c _; reflexivity]. constructor; cbn [const_q rq_bins rq_min_bin rq_min_slope rq_max rq_min]; try lra; [lia|]. cbn [INR]. lra.
Qed.
Lemma const_slope c k : length c = 1%nat -> (k <= 2)%nat -> 1 < nth k (par_s const_q 1 c 0) 0 < 2.
Proof.
  intros Hc Hk. destruct const_q_ok as [A S]. destruct (par_closed const_q 1 c 0 A S Hc ltac:(lia)) as [_ H]. destruct (H k Hk) as (_ & _ & ->). clear H.
  cbn [const_q rq_bins rq_cond rq_min_slope]. rewrite (nth_repeat_lt (1 : R)) by lia. set (ms := 1 / 10000).
  assert (H0 : 1 < exp (1 - ms)). { pose proof (exp_ineq1 (1 - ms) ltac:(unfold ms; lra)). unfold ms in *; lra. }
  rewrite exp_plus, exp_ln by lra. assert (He : 1 < exp 1) by (pose proof (exp_ineq1 1 ltac:(lra)); lra).
  set (E := exp (1 - ms)) in * . assert (LE : ln E = 1 - ms) by apply ln_exp.
  assert (P : 0 < E - 1) by lra. assert (P2 : E - 1 < exp 1 * (E - 1)) by nra.
  split.
  - assert (ln E < ln (1 + exp 1 * (E - 1))) by (apply ln_increasing; lra). change (IZR 1) with 1 in * . lra.
  - assert (L2 : ln (exp 1 * E) = 1 + (1 - ms)) by (rewrite ln_mult by lra; rewrite ln_exp, LE; reflexivity).
    assert (ln (1 + exp 1 * (E - 1)) < ln (exp 1 * E)) by (apply ln_increasing; lra). lra.
Qed.
Lemma const_cond : rq_conditioned const_q 1.
Proof.
  intros c j xp yp sl Hc Hj E. assert (j = 0)%nat as -> by lia.
  apply (C28_default_proof const_q 1 c 0 xp yp sl); auto; try reflexivity.
  - cbn. lia.
  - cbn. lra.
  - apply const_q_ok.
  - intros i Hi. change (rq_bins const_q) with 2%nat in Hi. pose proof (const_slope c i Hc Hi) as H. unfold par_s in H. rewrite E in H. rnorm. destruct H. apply Rlt_le. eapply Rlt_trans; [eassumption|]. lra.
Qed.

Lemma one_refuted' (q : @rqspline RNum) (shift : R) :
  rq_admissible q -> rq_shape q 1 -> rq_conditioned q 1 -> shift <> 0 ->
  (forall xp yp sl, nth 0 (get_params q 1 [0]) ([], [], []) = (xp, yp, sl) -> nth (rq_bins q) sl 0 <> 1) ->
  let model := map rqs_model_layer (rqs_layers 1 [(0, shift, q)]) in
  exists x : R, fst (flow_inv model (fst (flow_fwd model [x]))) <> [x].
Proof.
  intros A Hs W Hsh Hd. apply (one_refuted q shift A Hs W Hsh). unfold par_s.
  destruct (nth 0 (get_params q 1 [0]) ([], [], [])) as [[xp yp] sl]. exact (Hd xp yp sl eq_refl).
Qed.
Lemma first_masks n j : (j < n)%nat ->
  @nth R j (@realnvp_mask RNum n 0) 0 = (if (j <? n / 2)%nat then 1 else 0) /\
  @nth R j (@rqs_mask RNum n 0) 0 = (if Nat.odd j then 1 else 0).
Proof.
  intros Hj. rewrite realnvp_mask_nth, rqs_mask_nth by auto. rewrite Nat.add_0_r. split; auto. destruct (j <? n / 2)%nat; reflexivity.
Qed.
