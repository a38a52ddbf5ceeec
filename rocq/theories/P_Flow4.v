(** Proofs about MaskedCouplingRQSpline and flow densities (C30-C32). *)
From Coq Require Import Reals Psatz.
From Coquelicot Require Import Coquelicot.
From Verif Require Import Prelude Num M_Core M_Kernels M_Flow P_Lists RNum MxR Spec_Jac P_Jac Spec_Kernels Spec_Real Spec_Spline Spec_Flow P_Real1 P_Real2 P_Spline2 P_Spline3 P_Flow P_Flow2 P_Flow3.
Open Scope R_scope.

(* ------------------------------------------------------------------ RQSpline flows *)
Lemma exact_compose n (f g fi gi : list R -> list R * R) : exact_inverse n f fi -> exact_inverse n g gi ->
  exact_inverse n (fun x => (fst (g (fst (f x))), snd (f x) + snd (g (fst (f x)))))
                  (fun x => (fst (fi (fst (gi x))), snd (gi x) + snd (fi (fst (gi x))))).
Proof.
  intros [A1 A2 A3 A4] [B1 B2 B3 B4]. constructor; intros x Hx; cbn [fst snd].
  - auto.
  - auto.
  - rewrite B3 by auto. cbn [fst snd]. rewrite A3 by auto. cbn [fst snd]. f_equal. ring.
  - rewrite A4 by auto. cbn [fst snd]. rewrite B4 by auto. cbn [fst snd]. f_equal. ring.
Qed.
Lemma exact_ext n (f g fi gi : list R -> list R * R) : (forall x, length x = n -> f x = g x) -> (forall x, length x = n -> fi x = gi x) ->
  exact_inverse n f fi -> exact_inverse n g gi.
Proof.
  intros Hf Hi [A1 A2 A3 A4]. constructor; intros x Hx.
  - rewrite <- Hf; auto.
  - rewrite <- Hi; auto.
  - rewrite <- Hf, <- Hi; auto.
  - rewrite <- Hi by auto. rewrite <- Hf by auto. auto.
Qed.
Section Layer.
Variables (n i : nat) (scale shift : R) (q : @rqspline RNum).
Hypothesis A : rq_admissible q.
Hypothesis Hs : rq_shape q n.
Hypothesis W : rq_conditioned q n.
Let L := @make_rqs_layer RNum n i scale shift q.
Lemma rqs_fwd_eq (x : list R) : ly_fwd (rqs_model_layer L) x =
  (fst (coupling_fwd (rl_spline L) (fst (coupling_fwd (rl_affine L) x))), snd (coupling_fwd (rl_affine L) x) + snd (coupling_fwd (rl_spline L) (fst (coupling_fwd (rl_affine L) x)))).
Proof. cbn [rqs_model_layer ly_fwd]. destruct (coupling_fwd (rl_affine L) x) as [x1 d1]. cbn [fst snd]. destruct (coupling_fwd (rl_spline L) x1). reflexivity. Qed.
Lemma rqs_inv_eq (x : list R) : ly_inv (rqs_model_layer L) x =
  (fst (coupling_inv (rl_spline L) (fst (coupling_inv (rl_affine L) x))), snd (coupling_inv (rl_affine L) x) + snd (coupling_inv (rl_spline L) (fst (coupling_inv (rl_affine L) x)))).
Proof. cbn [rqs_model_layer ly_inv]. destruct (coupling_inv (rl_affine L) x) as [x1 d1]. cbn [fst snd]. destruct (coupling_inv (rl_spline L) x1). reflexivity. Qed.
Lemma rqs_true_inv_eq (x : list R) : rqs_layer_true_inv L x =
  (fst (coupling_inv (rl_affine L) (fst (coupling_inv (rl_spline L) x))), snd (coupling_inv (rl_spline L) x) + snd (coupling_inv (rl_affine L) (fst (coupling_inv (rl_spline L) x)))).
Proof. unfold rqs_layer_true_inv. destruct (coupling_inv (rl_spline L) x) as [x1 d1]. cbn [fst snd]. destruct (coupling_inv (rl_affine L) x1). reflexivity. Qed.
Lemma rqs_true_exact : exact_inverse n (ly_fwd (rqs_model_layer L)) (rqs_layer_true_inv L).
Proof.
  pose proof (scalar_layer_exact n (repeat f0 n) scale shift (zero_mask_binary n)) as E1.
  pose proof (rq_layer_exact n (rqs_mask n i) q (rqs_mask_binary n i) A Hs W) as E2.
  eapply exact_ext; [| |exact (exact_compose n _ _ _ _ E1 E2)].
  - intros x _. symmetry. apply rqs_fwd_eq.
  - intros x _. symmetry. apply rqs_true_inv_eq.
Qed.
Lemma affine_id (x : list R) : scale = 0 -> shift = 0 -> length x = n -> coupling_inv (rl_affine L) x = (x, 0).
Proof.
  intros E1 E2 Hx. unfold L, make_rqs_layer. cbn [rl_affine]. rewrite coupling_inv_swap.
  assert (Hb : forall c : list R, length c = n -> exists g l gi li, cbij n (bswap (scalar_affine scale shift)) c g l gi li).
  { intros c Hc. do 4 eexists. apply cbij_swap, scalar_cbij. }
  unfold coupling_fwd. cbn [cp_mask cp_bij bswap bj_fwd]. 
  pose proof (scalar_cbij n scale shift (@vmul RNum x (repeat f0 n))) as C.
  destruct (bj_inv (scalar_affine scale shift) x (vmul x (repeat f0 n))) as [y ld] eqn:E.
  pose proof (cb_il _ _ _ _ _ _ _ C x Hx) as [Ly Ll]. pose proof (fun i => cb_i _ _ _ _ _ _ _ C x i Hx) as Hn. rewrite E in Ly, Ll, Hn. cbn [fst snd] in * .
  apply pair_eq'; cbn [fst snd].
  - apply (list_eq_nth (0 : R)); rnorm; rewrite (mask_mix_len n _ (zero_mask_binary n)) by auto; auto.
    intros k Hk. rewrite (mask_mix_nth n _ (zero_mask_binary n)) by auto. rewrite (proj1 (Hn k Hk)), E1, E2, Ropp_0, exp_0.
    rewrite nth_repeat_lt by auto. cbn. ring.
  - rewrite (mask_logdet_sum n _ (zero_mask_binary n)) by auto. apply Rsum_0. intros k Hk. rewrite (proj2 (Hn k Hk)), E1. ring.
Qed.
Lemma rqs_zero_exact : scale = 0 -> shift = 0 -> exact_inverse n (ly_fwd (rqs_model_layer L)) (ly_inv (rqs_model_layer L)).
Proof.
  intros E1 E2. eapply exact_ext; [| |exact rqs_true_exact]; auto.
  intros x Hx. rewrite rqs_true_inv_eq, rqs_inv_eq. rewrite (affine_id x) by auto. cbn [fst snd].
  rewrite (affine_id (fst (coupling_inv (rl_spline L) x))); auto.
  - cbn [fst snd]. f_equal. match goal with |- ?a = ?b => change (@eq R a b) end. ring.
  - apply (ei_inv_len _ _ _ (rq_layer_exact n (rqs_mask n i) q (rqs_mask_binary n i) A Hs W)). auto.
Qed.
End Layer.
Lemma rqs_layers_In n (ps : list (R * R * @rqspline RNum)) l : In l (@rqs_layers RNum n ps) ->
  exists i a b q, In (a, b, q) ps /\ l = make_rqs_layer n i a b q.
Proof.
  intros H. unfold rqs_layers in H. apply in_map_iff in H as ([i [[a b] q]] & <- & Hin). apply in_combine_r in Hin. exists i, a, b, q. split; auto.
Qed.
Lemma rqs_flow_zero_exact n ps : rqs_ok n ps -> (forall a b q, In (a, b, q) ps -> a = 0 /\ b = 0) ->
  exact_inverse n (flow_fwd (map rqs_model_layer (rqs_layers n ps))) (flow_inv (map rqs_model_layer (rqs_layers n ps))).
Proof.
  intros Hok Hz. apply flow_exact. intros l Hl. apply in_map_iff in Hl as (c & <- & Hc).
  destruct (rqs_layers_In n ps c Hc) as (i & a & b & q & Hin & ->). destruct (Hok a b q Hin) as (H1 & H2 & H3). destruct (Hz a b q Hin). now apply rqs_zero_exact.
Qed.
Lemma rqs_fixed_fwd ls (x : list R) : flow_fwd (map rqs_fixed ls) x = flow_fwd (map rqs_model_layer ls) x.
Proof. revert x. induction ls as [|l ls IH]; intros x; [reflexivity|]. cbn [map]. rewrite !flow_fwd_cons, !IH. reflexivity. Qed.
Lemma rqs_fixed_exact n ps : rqs_ok n ps ->
  exact_inverse n (flow_fwd (map rqs_model_layer (rqs_layers n ps))) (flow_inv (map rqs_fixed (rqs_layers n ps))).
Proof.
  intros Hok. eapply exact_ext; [intros; apply rqs_fixed_fwd|reflexivity|]. apply flow_exact. intros l Hl. apply in_map_iff in Hl as (c & <- & Hc).
  destruct (rqs_layers_In n ps c Hc) as (i & a & b & q & Hin & ->). destruct (Hok a b q Hin) as (H1 & H2 & H3). now apply rqs_true_exact.
Qed.

(** One feature, one layer: what the code's inverse does. *)
Section Refute.
Variables (q : @rqspline RNum) (shift : R).
Hypothesis A : rq_admissible q.
Hypothesis Hs : rq_shape q 1.
Hypothesis W : rq_conditioned q 1.
Let f := spline (par_x q 1 [0] 0) (par_y q 1 [0] 0) (par_s q 1 [0] 0).
Let fi := spline_inv (par_x q 1 [0] 0) (par_y q 1 [0] 0) (par_s q 1 [0] 0).
Lemma mask0 : binary_mask 1 [0]. Proof. split; [reflexivity|]. intros [|i] Hi; [left; reflexivity|lia]. Qed.
Lemma one_spline_fwd (x : R) : fst (coupling_fwd (mkCoupling [0] (rqspline_bij q)) [x]) = [f x].
Proof.
  unfold coupling_fwd. cbn [cp_mask cp_bij]. destruct (bj_fwd (rqspline_bij q) [x] (vmul [x] [0])) as [y ld] eqn:E. cbn [fst].
  replace (@vmul RNum [x] [0]) with [0] in E by (cbn; f_equal; ring).
  destruct (rq_cbij_fwd q 1 [0] A Hs eq_refl [x] eq_refl) as [[Ly _] Hn]. specialize (Hn 0%nat ltac:(lia)). rewrite E in Ly, Hn. cbn [fst] in * .
  apply (list_eq_nth (0 : R)); rnorm; rewrite (mask_mix_len 1 [0] mask0) by auto; auto. intros [|k] Hk; [|lia].
  rewrite (mask_mix_nth 1 [0] mask0) by auto. rewrite (proj1 Hn). cbn [nth]. unfold f. ring.
Qed.
Lemma one_spline_inv (x : R) : fst (coupling_inv (mkCoupling [0] (rqspline_bij q)) [x]) = [fi x].
Proof.
  unfold coupling_inv. cbn [cp_mask cp_bij]. destruct (bj_inv (rqspline_bij q) [x] (vmul [x] [0])) as [y ld] eqn:E. cbn [fst].
  replace (@vmul RNum [x] [0]) with [0] in E by (cbn; f_equal; ring).
  destruct (rq_cbij_inv q 1 [0] A Hs eq_refl [x] eq_refl) as [[Ly _] Hn]. specialize (Hn 0%nat ltac:(lia)). rewrite E in Ly, Hn. cbn [fst] in * .
  apply (list_eq_nth (0 : R)); rnorm; rewrite (mask_mix_len 1 [0] mask0) by auto; auto. intros [|k] Hk; [|lia].
  rewrite (mask_mix_nth 1 [0] mask0) by auto. rewrite (proj1 Hn). cbn [nth]. unfold fi. ring.
Qed.
Lemma one_aff_fwd x : fst (@coupling_fwd RNum (mkCoupling [0] (scalar_affine 0 shift)) [x]) = [x + shift].
Proof. cbn. f_equal. rewrite exp_0. ring. Qed.
Lemma one_aff_inv x : fst (@coupling_inv RNum (mkCoupling [0] (scalar_affine 0 shift)) [x]) = [x - shift].
Proof. cbn. f_equal. rewrite Ropp_0, exp_0. ring. Qed.
Let M := [rqs_model_layer (@make_rqs_layer RNum 1 0 0 shift q)].
Lemma one_fwd x : fst (flow_fwd M [x]) = [f (x + shift)].
Proof.
  unfold M. rewrite flow_fwd_cons. cbn [fst]. change (fst (flow_fwd [] ?y)) with y. rewrite rqs_fwd_eq. cbn [fst].
  change (rl_affine (make_rqs_layer 1 0 0 shift q)) with (mkCoupling [0] (@scalar_affine RNum 0 shift)).
  change (rl_spline (make_rqs_layer 1 0 0 shift q)) with (mkCoupling [0] (rqspline_bij q)).
  rewrite one_aff_fwd. apply one_spline_fwd.
Qed.
Lemma one_inv x : fst (flow_inv M [x]) = [fi (x - shift)].
Proof.
  unfold M. rewrite flow_inv_snoc. cbn [fst]. change (fst (flow_inv [] ?y)) with y. rewrite rqs_inv_eq. cbn [fst].
  change (rl_affine (make_rqs_layer 1 0 0 shift q)) with (mkCoupling [0] (@scalar_affine RNum 0 shift)).
  change (rl_spline (make_rqs_layer 1 0 0 shift q)) with (mkCoupling [0] (rqspline_bij q)).
  rewrite one_aff_inv. apply one_spline_inv.
Qed.
Lemma one_refuted : shift <> 0 -> nth (rq_bins q) (par_s q 1 [0] 0) 0 <> 1 ->
  exists x : R, fst (flow_inv M (fst (flow_fwd M [x]))) <> [x].
Proof.
  intros Hsh Hd. pose proof (rq_valid_at q 1 [0] 0 A Hs eq_refl ltac:(lia)) as V.
  pose proof (rq_cond_at q 1 [0] 0 W eq_refl ltac:(lia)) as WC.
  assert (HK : length (par_x q 1 [0] 0) = S (rq_bins q)).
  { destruct (C28_proof q 1 [0] 0 A Hs eq_refl ltac:(lia)) as (xp & yp & sl & E & Wi). unfold par_x. rewrite E. apply (sw_bins _ _ _ _ _ _ _ _ Wi). }
  set (hi := nth (rq_bins q) (par_x q 1 [0] 0) 0). exists (hi + Rabs shift). rewrite one_fwd, one_inv. intros E. injection E as E.
  assert (E2 : f (hi + Rabs shift + shift) - shift = f (hi + Rabs shift)). { rewrite <- E at 2. unfold f, fi. now rewrite fwd_of_inv. }
  assert (Hr : - Rabs shift <= shift <= Rabs shift) by (apply Rabs_le_between; lra).
  assert (Hp : 0 <= Rabs shift) by apply Rabs_pos.
  unfold f in E2. rewrite !(spline_above _ _ _ V) in E2; rewrite HK in *; replace (S (rq_bins q) - 1)%nat with (rq_bins q) in * by lia; fold hi; try lra.
  fold hi in E2. set (d := nth (rq_bins q) (par_s q 1 [0] 0) 0) in * . apply Hd. apply (Rmult_eq_reg_l shift); [|auto]. lra.
Qed.
End Refute.

(* ------------------------------------------------------------------ log-determinants of RQSpline flows *)
Lemma flat_fwd ls (x : list R) : flow_fwd (map rqs_model_layer ls) x = flow_fwd (flat_layers ls) x.
Proof.
  revert x. induction ls as [|l ls IH]; intros x; [reflexivity|]. change (flat_layers (l :: ls)) with (coupling_layer (rl_affine l) :: coupling_layer (rl_spline l) :: flat_layers ls).
  cbn [map]. rewrite !flow_fwd_cons, IH. cbn [fst snd].
  assert (E : ly_fwd (rqs_model_layer l) x = (fst (coupling_fwd (rl_spline l) (fst (coupling_fwd (rl_affine l) x))), snd (coupling_fwd (rl_affine l) x) + snd (coupling_fwd (rl_spline l) (fst (coupling_fwd (rl_affine l) x))))).
  { cbn [rqs_model_layer ly_fwd]. destruct (coupling_fwd (rl_affine l) x) as [x1 d1]. cbn [fst snd]. destruct (coupling_fwd (rl_spline l) x1). reflexivity. }
  rewrite E. cbn [fst snd coupling_layer ly_fwd]. f_equal. cbn. ring.
Qed.
Lemma rqs_logdet n ps (x : list R) : (forall a b q, In (a, b, q) ps -> rq_admissible q /\ rq_shape q n) -> length x = n ->
  layers_differentiable n (flat_layers (rqs_layers n ps)) x ->
  reports_logdet n (flow_fwd (map rqs_model_layer (rqs_layers n ps))) x.
Proof.
  intros Hok Hx D. apply (reports_logdet_ext n (flow_fwd (flat_layers (rqs_layers n ps)))); auto. { intros. symmetry. apply flat_fwd. }
  apply flow_logdet; auto. intros l Hl. unfold flat_layers in Hl. apply in_concat in Hl as (ll & Hll & Hl). apply in_map_iff in Hll as (c & <- & Hc).
  destruct (rqs_layers_In n ps c Hc) as (i & a & b & q & Hin & ->). destruct (Hok a b q Hin) as (H1 & H2).
  destruct Hl as [<-|[<-|[]]].
  - assert (Hb : forall c, length c = n -> exists g l, cfwd n (scalar_affine a b) c g l) by (intros; now apply scalar_cfwd).
    split; [exact (cl_len n _ _ (zero_mask_binary n) Hb)|exact (cl_logdet n _ _ (zero_mask_binary n) Hb)].
  - assert (Hb : forall c, length c = n -> exists g l, cfwd n (rqspline_bij q) c g l) by (intros; now apply rq_cfwd).
    split; [exact (cl_len n _ _ (rqs_mask_binary n i) Hb)|exact (cl_logdet n _ _ (rqs_mask_binary n i) Hb)].
Qed.

(* ------------------------------------------------------------------ densities *)
Lemma std_normal_R n (y : list R) : length y = n -> @std_normal_logpdf RNum n y = ln (std_density n y).
Proof.
  intros Hy. unfold std_normal_logpdf.
  assert (E : @ss_sq RNum (SDiag (repeat 1 n)) = SDiag (repeat 1 n)).
  { cbn [ss_sq]. f_equal. apply (list_eq_nth (0 : R)); rlen; rewrite !repeat_length; [lia|]. intros i Hi. rnorm. rewrite vmulR by (rewrite repeat_length; lia).
    rewrite !nth_repeat_lt by lia. ring. }
  assert (H : @mvn_logpdf RNum y (repeat f0 n) (SDiag (repeat f1 n)) = Ok (ln (std_density n y))).
  { transitivity (@mvn_logpdf RNum y (repeat f0 n) (@ss_sq RNum (SDiag (repeat 1 n)))); [rewrite E; reflexivity|].
    rewrite (mvn_is_gauss (SDiag (repeat 1 n)) y (repeat f0 n) n); auto.
    - f_equal. f_equal. unfold gauss_density, std_density. apply Rprod_ext. intros i Hi. f_equal; cbn [step_of]; rnorm; rewrite nth_repeat_lt by auto; reflexivity.
    - cbn. now rewrite repeat_length.
    - rnorm. now rewrite repeat_length.
    - intros i Hi. cbn [step_of]. rnorm. rewrite nth_repeat_lt by auto. lra. }
  rewrite H. reflexivity.
Qed.
Lemma normal_pdf_pos mu s y : s <> 0 -> 0 < normal_pdf mu s y.
Proof.
  intros Hs. unfold normal_pdf. apply Rdiv_lt_0_compat; [apply exp_pos|]. apply Rmult_lt_0_compat; [now apply Rabs_pos_lt|].
  apply sqrt_lt_R0. pose proof PI_RGT_0. lra.
Qed.
Lemma std_density_pos n y : 0 < std_density n y.
Proof. unfold std_density. apply Rprod_pos. intros. apply normal_pdf_pos. lra. Qed.
Section Dens.
Variable m : @flow RNum.
Let n := fl_n m.
Hypothesis Hg : good_stats m.
Let sd i := sqrt (nth i (fl_var m) 0).
Lemma sd_pos i : (i < n)%nat -> 0 < sd i.
Proof. intros. apply sqrt_lt_R0. now apply Hg. Qed.
Lemma std_nth i : (i < n)%nat -> @nth R i (fl_std m) 0 = sd i.
Proof. intros. destruct Hg as (_ & L & _). unfold fl_std. exact (mapR sqrt (fl_var m) i ltac:(unfold n in *; rnorm; lia)). Qed.
Lemma std_len : length (fl_std m) = n.
Proof. unfold fl_std. rewrite map_length. apply Hg. Qed.
Lemma whiten_len (x : list R) : length x = n -> length (whiten m x) = n.
Proof. intros Hx. pose proof std_len. destruct Hg as (L & _ & _). unfold whiten. rlen. unfold n in * . rnorm. lia. Qed.
Lemma whiten_nth (x : list R) i : length x = n -> (i < n)%nat -> @nth R i (whiten m x) 0 = (nth i x 0 - nth i (fl_mean m) 0) / sd i.
Proof.
  intros Hx Hi. pose proof std_len. destruct Hg as (L & _ & _). unfold whiten. unfold n in * . rnorm. rewrite (map2R Rdiv) by (rlen; lia).
  rewrite vsubR by lia. rewrite std_nth by auto. reflexivity.
Qed.
Lemma unwhiten_len (x : list R) : length x = n -> length (unwhiten m x) = n.
Proof. intros Hx. pose proof std_len. destruct Hg as (L & _ & _). unfold unwhiten. rlen. unfold n in * . rnorm. lia. Qed.
Lemma whiten_unwhiten (x : list R) : length x = n -> whiten m (unwhiten m x) = x.
Proof.
  intros Hx. pose proof (unwhiten_len x Hx) as Lu. pose proof std_len. apply (list_eq_nth (0 : R)); rnorm; rewrite whiten_len by auto; auto.
  intros i Hi. rewrite whiten_nth by auto. destruct Hg as (L & _ & _). unfold unwhiten. unfold n in * . rnorm. rewrite vaddR by (rlen; lia). rewrite vmulR by lia.
  rewrite std_nth by auto. pose proof (sd_pos i Hi). field. lra.
Qed.
Lemma whiten_logdet (x : list R) : length x = n -> reports_logdet n (fun x => (whiten m x, - Rsum n (fun i => ln (sd i)))) x.
Proof.
  intros Hx. exists (fun i j => / sd i * mid i j).
  assert (HJ : is_jac n n (fun y : list R => whiten m y) x (fun i j => / sd i * mid i j)).
  { intros i Hi. apply (is_dif_ext n (fun y => / sd i * nth i y 0 + - (nth i (fl_mean m) 0 / sd i))); auto.
    - intros y Hy. rewrite whiten_nth by auto. pose proof (sd_pos i Hi). field. lra.
    - eapply is_dif_gext; [|apply is_dif_plus; [apply is_dif_scal; now apply is_dif_proj|apply is_dif_const]]. intros j Hj. cbn beta. ring. }
  split; [exact HJ|]. cbn [snd].
  rewrite (shear_det n (fun y => whiten m y) x _ (fun _ => false) (fun i => / sd i) Hx HJ).
  - rewrite <- Rsum_opp, exp_Rsum. rewrite Rabs_pos_eq.
    + apply Rprod_ext. intros i Hi. pose proof (sd_pos i Hi). rewrite exp_Ropp, exp_ln by auto. reflexivity.
    + left. apply Rprod_pos. intros. apply Rinv_0_lt_compat. now apply sd_pos.
  - discriminate.
  - intros i j t Hi Hj Hij _ _. rewrite !whiten_nth by (rewrite ?set_nth_length; auto). rewrite nth_set_nth_neq by auto. reflexivity.
  - intros i Hi _. apply is_derive_ext with (fun t => (t - nth i (fl_mean m) 0) / sd i).
    + intros t. change (AbsRing.sort R_AbsRing) with R in * . rewrite whiten_nth by (rewrite ?set_nth_length; auto). rewrite nth_set_nth_eq by lia. reflexivity.
    + auto_derive; auto. field. pose proof (sd_pos i Hi). lra.
Qed.
Lemma latent_density (p : list R -> R) (x : list R) : length x = n ->
  (forall y, length y = n -> length (fst (flow_fwd (fl_layers m) y)) = n) ->
  reports_logdet n (flow_fwd (fl_layers m)) (whiten m x) -> (forall y, 0 < p y) ->
  exists d, 0 < d /\ density_through n (latent m) p x d /\
  snd (flow_fwd (fl_layers m) (whiten m x)) + ln (p (latent m x)) = ln d + Rsum n (fun i => ln (sd i)).
Proof.
  intros Hx Hl Hr Hp.
  pose proof (logdet_compose n (fun x => (whiten m x, - Rsum n (fun i => ln (sd i)))) (flow_fwd (fl_layers m)) x Hx (fun y Hy => whiten_len y Hy) (whiten_logdet x Hx) Hr) as (J & HJ & D).
  cbn [fst snd] in HJ, D. exists (p (latent m x) * Rabs (mdet n J)). split; [rewrite D; apply Rmult_lt_0_compat; auto using exp_pos|]. split; [exists J; split; [exact HJ|reflexivity]|].
  rewrite D. rewrite ln_mult by (auto using exp_pos). rewrite ln_exp.
  pose (a := ln (p (latent m x))). pose (b := snd (flow_fwd (fl_layers m) (whiten m x)) : R).
  change (b + a = a + (- Rsum n (fun i => ln (sd i)) + b) + Rsum n (fun i => ln (sd i))). ring.
Qed.
Lemma sample_latent (z : list R) : length z = n -> exact_inverse n (flow_fwd (fl_layers m)) (flow_inv (fl_layers m)) ->
  latent m (unwhiten m (fst (flow_inv (fl_layers m) z))) = z /\
  snd (flow_fwd (fl_layers m) (whiten m (unwhiten m (fst (flow_inv (fl_layers m) z))))) = - snd (flow_inv (fl_layers m) z).
Proof.
  intros Hz E. unfold latent. rewrite whiten_unwhiten by now apply (ei_inv_len _ _ _ E). rnorm. pose proof (ei_fwd_inv _ _ _ E z Hz) as H. rnorm. rewrite H. auto.
Qed.
End Dens.
