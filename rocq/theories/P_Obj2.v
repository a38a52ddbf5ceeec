(** Proofs of C61 over the reals: the loss is minus the mean log-likelihood, up to a constant. *)
From Coq Require Import Reals Psatz.
From Coquelicot Require Import Coquelicot.
From Verif Require Import Prelude Num M_Core M_Kernels M_Strategies M_Flow M_Net M_Model P_Lists RNum MxR Spec_Kernels Spec_Jac P_Jac Spec_Real Spec_Spline Spec_Flow Spec_FM P_Real1 P_Real2 P_Real3 P_Flow P_Flow2 P_Flow3 P_Flow4 P_Flow5 P_Flow6 Spec_Net P_Gauss P_Decay P_Adamw P_FM3 P_Model P_Model4.
Open Scope R_scope.

Lemma loss_R (logp : list R -> R) (xs : list (list R)) : @nf_loss RNum logp xs = - mean_of (length xs) (fun i => logp (nth i xs [])).
Proof.
  unfold nf_loss, fmean, mean_of. rewrite fsumR. apply (f_equal Ropp). pose proof (map_length logp xs) as L. apply (f_equal2 Rdiv).
  - transitivity (Rsum (length xs) (fun i => @nth R i (map logp xs) 0)); [exact (f_equal (fun n => Rsum n (fun i => @nth R i (map logp xs) 0)) L)|].
    apply Rsum_ext. intros i Hi. exact (nth_map' logp xs i [] (0 : R) Hi).
  - etransitivity; [exact (f_equal (fun n => IZR (Z.of_nat n)) L)|]. cbv beta. now rewrite <- INR_IZR_INZ.
Qed.
Lemma mean_plus_const n (f : nat -> R) c : (0 < n)%nat -> mean_of n (fun i => f i + c) = mean_of n f + c.
Proof. intros Hn. unfold mean_of. rewrite Rsum_plus, Rsum_const. apply lt_0_INR in Hn. field. lra. Qed.
Lemma mean_ext n (f g : nat -> R) : (forall i, (i < n)%nat -> f i = g i) -> mean_of n f = mean_of n g.
Proof. intros H. unfold mean_of. now rewrite (Rsum_ext n f g H). Qed.
(** From pointwise densities to the loss. *)
Lemma loss_density (m : @flow RNum) (T : list R -> list R) (p : list R -> R) (lp : list R -> R) K (xs : list (list R)) : (0 < length xs)%nat ->
  (forall x, In x xs -> exists d, 0 < d /\ density_through (fl_n m) T p x d /\ lp x = ln d + K) ->
  exists ds : list R, length ds = length xs /\
    (forall i, (i < length xs)%nat -> 0 < nth i ds 0 /\ density_through (fl_n m) T p (nth i xs []) (nth i ds 0)) /\
    @nf_loss RNum lp xs = - mean_of (length xs) (fun i => ln (nth i ds 0)) - K.
Proof.
  intros Hn H.
  assert (Hd : exists ds : list R, length ds = length xs /\ (forall i, (i < length xs)%nat -> 0 < nth i ds 0 /\ density_through (fl_n m) T p (nth i xs []) (nth i ds 0) /\ lp (nth i xs []) = ln (nth i ds 0) + K)).
  { clear Hn. induction xs as [|x xs IH]; [exists []; split; [reflexivity|cbn; lia]|].
    destruct IH as (ds & L & Hds); [intros; apply H; now right|]. destruct (H x (or_introl eq_refl)) as (d & H1 & H2 & H3).
    exists (d :: ds). split; [cbn; lia|]. intros [|i] Hi; [auto|]. cbn [nth]. apply Hds. cbn in Hi. lia. }
  destruct Hd as (ds & L & Hds). exists ds. split; [exact L|]. split; [intros i Hi; split; now apply Hds|].
  rewrite loss_R. rewrite (mean_ext _ _ (fun i => ln (nth i ds 0) + K)) by (intros i Hi; now apply Hds). rewrite mean_plus_const by auto. lra.
Qed.
Lemma realnvp_objective (m : @flow RNum) nets (xs : list (list R)) : good_stats m ->
  fl_layers m = map coupling_layer (realnvp_layers (fl_n m) nets) -> nets_shape (fl_n m) nets ->
  (forall s t c, In (s, t) nets -> length c = fl_n m -> differentiable (fl_n m) s c /\ differentiable (fl_n m) t c) ->
  (0 < length xs)%nat -> (forall x, In x xs -> length x = fl_n m) ->
  exists ds : list R, length ds = length xs /\
    (forall i, (i < length xs)%nat -> 0 < nth i ds 0 /\ density_through (fl_n m) (latent m) (std_density (fl_n m)) (nth i xs []) (nth i ds 0)) /\
    @nf_loss RNum (realnvp_log_prob m) xs = - mean_of (length xs) (fun i => ln (nth i ds 0)) - Rsum (fl_n m) (fun i => ln (sqrt (nth i (fl_var m) 0))).
Proof.
  intros Hg El Hs Hd Hn Hx. apply loss_density; auto. intros x Hin. apply (realnvp_density m Hg nets x El Hs Hd). now apply Hx.
Qed.
Lemma rqs_objective {G : @Rng RNum} (m : @flow RNum) ps (xs : list (list R)) : good_stats m ->
  fl_layers m = map rqs_model_layer (rqs_layers (fl_n m) ps) ->
  (forall a b q, In (a, b, q) ps -> rq_admissible q /\ rq_shape q (fl_n m) /\
    forall c, length c = fl_n m -> differentiable_to (fl_n m) (fl_n m * (rq_bins q * 3 + 1)) (rq_cond q) c) ->
  (0 < length xs)%nat -> (forall x, In x xs -> length x = fl_n m) ->
  exists ds : list R, length ds = length xs /\
    (forall i, (i < length xs)%nat -> 0 < nth i ds 0 /\ density_through (fl_n m) (latent m) (std_density (fl_n m)) (nth i xs []) (nth i ds 0)) /\
    @nf_loss RNum (@rqs_model_logp RNum G m) xs = - mean_of (length xs) (fun i => ln (nth i ds 0)) - Rsum (fl_n m) (fun i => ln (sqrt (nth i (fl_var m) 0))).
Proof.
  intros Hg El Hok Hn Hx. apply loss_density; auto. intros x Hin. specialize (Hx x Hin).
  destruct (rqs_density m Hg ps (std_density (fl_n m)) x El Hok (fun y => std_density_pos _ y) Hx) as (d & H1 & H2 & H3).
  exists d. split; [exact H1|]. split; [exact H2|]. rewrite <- H3. unfold rqs_model_logp, rqs_log_prob.
  assert (LL : length (fst (flow_fwd (fl_layers m) (whiten m x))) = fl_n m).
  { rewrite El. apply rqs_fwd_len; [|now apply whiten_len]. intros a b q Hin'. destruct (Hok a b q Hin') as (A & B & _). auto. }
  destruct (flow_fwd (fl_layers m) (whiten m x)) as [u ld]. cbn [fst] in LL. apply (f_equal2 Rplus); [reflexivity|]. now apply base_logp.
Qed.
(** Equal data statistics: smaller loss = larger likelihood. *)
Lemma likelihood_order (n : nat) (d1 d2 : list R) K l1 l2 : (0 < n)%nat ->
  (forall i, (i < n)%nat -> 0 < nth i d1 0) -> (forall i, (i < n)%nat -> 0 < nth i d2 0) ->
  l1 = - mean_of n (fun i => ln (nth i d1 0)) - K -> l2 = - mean_of n (fun i => ln (nth i d2 0)) - K ->
  (l1 <= l2 <-> Rprod n (fun i => nth i d2 0) <= Rprod n (fun i => nth i d1 0)).
Proof.
  intros Hn P1 P2 -> ->. apply lt_0_INR in Hn.
  destruct (P_Decay.ln_Rprod n (fun i => nth i d1 0) P1) as [Q1 E1]. destruct (P_Decay.ln_Rprod n (fun i => nth i d2 0) P2) as [Q2 E2].
  unfold mean_of. rewrite <- E1, <- E2. set (a := Rprod n (fun i => nth i d1 0)) in * . set (b := Rprod n (fun i => nth i d2 0)) in * . clearbody a b.
  split; intros H.
  - assert (H2 : ln b / INR n <= ln a / INR n) by lra.
    assert (H3 : ln b <= ln a). { apply (Rmult_le_reg_r (/ INR n)); [now apply Rinv_0_lt_compat|exact H2]. }
    destruct (Rle_lt_dec b a) as [L|L]; [exact L|]. exfalso. pose proof (ln_increasing a b Q1 L). lra.
  - assert (H3 : ln b <= ln a) by (destruct H as [H| ->]; [left; now apply ln_increasing|right; reflexivity]).
    assert (H2 : ln b / INR n <= ln a / INR n). { apply Rmult_le_compat_r; [left; now apply Rinv_0_lt_compat|exact H3]. } lra.
Qed.
Lemma realnvp_likelihood (m1 m2 : @flow RNum) nets1 nets2 (xs : list (list R)) : good_stats m1 -> good_stats m2 ->
  fl_n m1 = fl_n m2 -> fl_var m1 = fl_var m2 ->
  fl_layers m1 = map coupling_layer (realnvp_layers (fl_n m1) nets1) -> nets_shape (fl_n m1) nets1 ->
  (forall s t c, In (s, t) nets1 -> length c = fl_n m1 -> differentiable (fl_n m1) s c /\ differentiable (fl_n m1) t c) ->
  fl_layers m2 = map coupling_layer (realnvp_layers (fl_n m2) nets2) -> nets_shape (fl_n m2) nets2 ->
  (forall s t c, In (s, t) nets2 -> length c = fl_n m2 -> differentiable (fl_n m2) s c /\ differentiable (fl_n m2) t c) ->
  (0 < length xs)%nat -> (forall x, In x xs -> length x = fl_n m1) ->
  exists d1 d2 : list R,
    (forall i, (i < length xs)%nat -> 0 < nth i d1 0 /\ density_through (fl_n m1) (latent m1) (std_density (fl_n m1)) (nth i xs []) (nth i d1 0)) /\
    (forall i, (i < length xs)%nat -> 0 < nth i d2 0 /\ density_through (fl_n m2) (latent m2) (std_density (fl_n m2)) (nth i xs []) (nth i d2 0)) /\
    (@nf_loss RNum (realnvp_log_prob m1) xs <= @nf_loss RNum (realnvp_log_prob m2) xs <->
     Rprod (length xs) (fun i => nth i d2 0) <= Rprod (length xs) (fun i => nth i d1 0)).
Proof.
  intros G1 G2 En Ev L1 S1 D1 L2 S2 D2 Hn Hx.
  destruct (realnvp_objective m1 nets1 xs G1 L1 S1 D1 Hn Hx) as (d1 & _ & P1 & E1).
  destruct (realnvp_objective m2 nets2 xs G2 L2 S2 D2 Hn) as (d2 & _ & P2 & E2); [intros; rewrite <- En; now apply Hx|].
  exists d1, d2. split; [exact P1|]. split; [exact P2|].
  apply (likelihood_order (length xs) d1 d2 (Rsum (fl_n m1) (fun i => ln (sqrt (nth i (fl_var m1) 0))))); auto.
  - intros i Hi. now apply P1.
  - intros i Hi. now apply P2.
  - rewrite E2, <- En, <- Ev. reflexivity.
Qed.
