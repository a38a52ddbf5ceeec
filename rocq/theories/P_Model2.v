(** Proofs of C60: global steps with a trained MaskedCouplingRQSpline do not balance. *)
From Coq Require Import Reals Psatz.
From Coquelicot Require Import Coquelicot.
From Verif Require Import Prelude Num M_Core M_Kernels M_Flow M_Net M_Model P_Lists RNum MxR Spec_Kernels Spec_Jac P_Jac Spec_Real Spec_Spline Spec_Flow P_Real1 P_Real2 P_Real3 P_Spline P_Spline2 P_Spline3 P_Flow P_Flow2 P_Flow3 P_Flow4 P_Flow5 P_Flow6 Spec_Net P_Gauss P_Model.
Open Scope R_scope.

Section One.
Variables (q : @rqspline RNum) (shift : R).
Hypothesis A : rq_admissible q.
Hypothesis Hs : rq_shape q 1.
Hypothesis W : rq_conditioned q 1.
Let f := spline (par_x q 1 [0] 0) (par_y q 1 [0] 0) (par_s q 1 [0] 0).
Let fi := spline_inv (par_x q 1 [0] 0) (par_y q 1 [0] 0) (par_s q 1 [0] 0).
Let hi := nth (rq_bins q) (par_x q 1 [0] 0) 0.
Let yhi := nth (rq_bins q) (par_y q 1 [0] 0) 0.
Let dl := nth (rq_bins q) (par_s q 1 [0] 0) 0.
Let M := [rqs_model_layer (@make_rqs_layer RNum 1 0 0 shift q)].
Lemma one_V : valid_spline (par_x q 1 [0] 0) (par_y q 1 [0] 0) (par_s q 1 [0] 0).
Proof. exact (rq_valid_at q 1 [0] 0 A Hs eq_refl ltac:(lia)). Qed.
Lemma one_WC : well_conditioned (par_x q 1 [0] 0) (par_y q 1 [0] 0) (par_s q 1 [0] 0).
Proof. exact (rq_cond_at q 1 [0] 0 W eq_refl ltac:(lia)). Qed.
Lemma one_K : length (par_x q 1 [0] 0) = S (rq_bins q).
Proof. destruct (C28_proof q 1 [0] 0 A Hs eq_refl ltac:(lia)) as (xp & yp & sl & E & Wi). unfold par_x. rewrite E. apply (sw_bins _ _ _ _ _ _ _ _ Wi). Qed.
Lemma one_dl : 0 < dl.
Proof. apply (D_pos _ _ _ one_V (rq_bins q)). rewrite one_K. lia. Qed.
Lemma one_tail x : hi <= x -> f x = (x - hi) * dl + yhi /\ spline_ld (par_x q 1 [0] 0) (par_y q 1 [0] 0) (par_s q 1 [0] 0) x = ln dl.
Proof.
  intros Hx. pose proof (fwd_above _ _ _ one_V x) as H. rewrite one_K in H. replace (S (rq_bins q) - 1)%nat with (rq_bins q) in H by lia.
  specialize (H Hx). unfold f, spline, spline_ld. rewrite H. auto.
Qed.
Lemma one_spline_ld (x : R) : snd (coupling_fwd (mkCoupling [0] (rqspline_bij q)) [x]) = spline_ld (par_x q 1 [0] 0) (par_y q 1 [0] 0) (par_s q 1 [0] 0) x.
Proof.
  unfold coupling_fwd. cbn [cp_mask cp_bij]. destruct (bj_fwd (rqspline_bij q) [x] (vmul [x] [0])) as [y ld] eqn:E. cbn [snd].
  replace (@vmul RNum [x] [0]) with [0] in E by (cbn; f_equal; ring).
  destruct (rq_cbij_fwd q 1 [0] A Hs eq_refl [x] eq_refl) as [[_ Ll] Hn]. specialize (Hn 0%nat ltac:(lia)). rewrite E in Ll, Hn. cbn [snd] in * .
  etransitivity; [exact (mask_logdet_sum 1 [0] mask0 ld Ll)|]. cbn [Rsum nth]. cbn [nth] in Hn. etransitivity; [apply Rplus_0_l|]. rewrite Rminus_0_r, Rmult_1_l. exact (proj2 Hn).
Qed.
Lemma one_aff_ld x : snd (@coupling_fwd RNum (mkCoupling [0] (scalar_affine 0 shift)) [x]) = 0.
Proof. cbn. ring. Qed.
Lemma one_ld x : snd (flow_fwd M [x]) = spline_ld (par_x q 1 [0] 0) (par_y q 1 [0] 0) (par_s q 1 [0] 0) (x + shift).
Proof.
  unfold M. rewrite flow_fwd_cons. cbn [snd]. change (snd (flow_fwd [] ?y)) with 0. rewrite rqs_fwd_eq. cbn [snd].
  change (rl_affine (make_rqs_layer 1 0 0 shift q)) with (mkCoupling [0] (@scalar_affine RNum 0 shift)).
  change (rl_spline (make_rqs_layer 1 0 0 shift q)) with (mkCoupling [0] (rqspline_bij q)).
  rewrite (one_aff_fwd shift). rewrite one_spline_ld. rewrite one_aff_ld. cbn. ring.
Qed.

Variable m : @flow RNum.
Hypothesis Hn : fl_n m = 1%nat.
Hypothesis Hg : good_stats m.
Hypothesis El : fl_layers m = M.
Let sd := sqrt (nth 0 (fl_var m) 0).
Let mu := nth 0 (fl_mean m) 0.
Lemma one_sd : 0 < sd.
Proof. apply sqrt_lt_R0. apply Hg. lia. Qed.
Lemma one_whiten x : whiten m [x] = [(x - mu) / sd].
Proof.
  pose proof (whiten_len m Hg [x] (eq_sym Hn)) as L. pose proof (whiten_nth m Hg [x] 0 (eq_sym Hn) ltac:(lia)) as E.
  destruct (whiten m [x]) as [|a [|? ?]]; rewrite Hn in L; try discriminate. cbn [nth] in E. now rewrite E.
Qed.
Lemma one_unwhiten x : unwhiten m [x] = [x * sd + mu].
Proof.
  pose proof (unwhiten_len m Hg [x] (eq_sym Hn)) as L. destruct (unwhiten m [x]) as [|a [|? ?]] eqn:E; rewrite Hn in L; try discriminate.
  pose proof (whiten_unwhiten m Hg [x] (eq_sym Hn)) as E2. rewrite E, one_whiten in E2. injection E2 as E2. pose proof one_sd as Hp. apply (f_equal (fun v : R => [v])). cbn [F RNum] in E2. rewrite <- E2. change (@F RNum) with R in * . field. lra.
Qed.
(** The sampling map and its inverse. *)
Definition smp (z : list R) : list R := unwhiten m (fst (flow_inv (fl_layers m) z)).
Definition tru (x : list R) : list R := [f ((nth 0 x 0 - mu) / sd) + shift].
Lemma smp_one z : smp [z] = [fi (z - shift) * sd + mu].
Proof. unfold smp. rewrite El. unfold M. rewrite (one_inv q shift A Hs). apply one_unwhiten. Qed.
Lemma tru_smp z : length z = 1%nat -> tru (smp z) = z.
Proof.
  destruct z as [|z [|? ?]]; try discriminate. intros _. rewrite smp_one. unfold tru. cbn [nth].
  pose proof one_sd. replace ((fi (z - shift) * sd + mu - mu) / sd) with (fi (z - shift)) by (field; lra).
  unfold f, fi. rewrite (fwd_of_inv _ _ _ one_V one_WC). f_equal. ring.
Qed.
Lemma smp_tru x : length x = 1%nat -> smp (tru x) = x.
Proof.
  destruct x as [|x [|? ?]]; try discriminate. intros _. unfold tru. cbn [nth]. rewrite smp_one.
  replace (f ((x - mu) / sd) + shift - shift) with (f ((x - mu) / sd)) by ring.
  unfold fi, spline_inv, f. rewrite (inv_of_fwd _ _ _ one_V one_WC). cbn [fst]. pose proof one_sd. f_equal. field. lra.
Qed.
(** In the right tail, both densities are explicit. *)
Definition pt (w : R) : list R := [mu + sd * w].
Lemma tail_true w : hi < w -> density_through 1 tru (std_density 1) (pt w) (normal_pdf 0 1 (f w + shift) * (dl / sd)).
Proof.
  intros Hw. pose proof one_sd as Hsd. exists (fun _ _ => dl / sd). split.
  - intros [|i] Hi; [|lia]. cbn [tru nth].
    apply (is_dif_1 (fun x => f ((x - mu) / sd) + shift)). 
    apply (is_derive_ext_loc (fun x => ((x - mu) / sd - hi) * dl + yhi + shift)).
    + assert (0 < sd * (w - hi)) as He by (apply Rmult_lt_0_compat; lra). exists (mkposreal _ He). intros t Ht. change (AbsRing.sort R_AbsRing) with R in * .
      destruct (one_tail ((t - mu) / sd)) as [E _]; [|now rewrite E].
      change (Rabs (t - (mu + sd * w)) < sd * (w - hi)) in Ht. apply Rabs_def2 in Ht as [_ Ht].
      apply Rle_div_r; [lra|]. lra.
    + auto_derive; auto. field. lra.
  - unfold std_density. cbn [Rprod tru nth pt]. replace ((mu + sd * w - mu) / sd) with w by (field; lra).
    rewrite Rmult_1_l. f_equal. rewrite mdet_1. rewrite Rabs_pos_eq; [reflexivity|]. left. apply Rdiv_lt_0_compat; [apply one_dl|auto].
Qed.
Lemma tail_model {G : @Rng RNum} w : hi <= w -> hi <= w + shift ->
  exp (@rqs_model_logp RNum G m (pt w)) = dl * normal_pdf 0 1 (f w + dl * shift).
Proof.
  intros H1 H2. pose proof one_sd as Hsd. unfold rqs_model_logp, rqs_log_prob. rewrite Hn. unfold pt. rewrite one_whiten.
  replace ((mu + sd * w - mu) / sd) with w by (field; lra).
  assert (E1 : fst (flow_fwd M [w]) = [f (w + shift)]) by exact (one_fwd q shift A Hs w). pose proof (one_ld w) as E2.
  rewrite El. destruct (flow_fwd M [w]) as [y ld] eqn:E.
  assert (E1' : y = [f (w + shift)]) by exact E1. assert (E2' := eq_trans (f_equal snd (eq_sym E)) E2). cbn [snd] in E2'. clear E1 E2.
  destruct (one_tail w H1) as [T1 _]. destruct (one_tail (w + shift) H2) as [T2 L2]. rewrite L2 in E2'.
  change (exp (ld + ds_logp (default_base 1) y) = dl * normal_pdf 0 1 (f w + dl * shift)).
  rewrite E1', E2'. rewrite base_logp by reflexivity. rewrite exp_plus, (exp_ln dl) by apply one_dl. rewrite exp_ln by apply std_density_pos.
  f_equal. unfold std_density. cbn [Rprod nth]. rewrite Rmult_1_l. f_equal. rewrite T1, T2. ring.
Qed.
Lemma phi_cross u v s t : normal_pdf 0 1 (u + s) * normal_pdf 0 1 (v + t) = normal_pdf 0 1 (v + s) * normal_pdf 0 1 (u + t) -> (s - t) * (u - v) = 0.
Proof.
  unfold normal_pdf. rewrite Rabs_R1, Rmult_1_l. pose proof PI_RGT_0. assert (Hq : 0 < sqrt (2 * PI)) by (apply sqrt_lt_R0; lra).
  intros E. assert (E2 : exp (- (u + s - 0) ^ 2 / (2 * 1 ^ 2)) * exp (- (v + t - 0) ^ 2 / (2 * 1 ^ 2)) = exp (- (v + s - 0) ^ 2 / (2 * 1 ^ 2)) * exp (- (u + t - 0) ^ 2 / (2 * 1 ^ 2))).
  { apply (Rmult_eq_reg_r (/ sqrt (2 * PI) * / sqrt (2 * PI))). 2:{ apply Rgt_not_eq. apply Rmult_lt_0_compat; now apply Rinv_0_lt_compat. }
    unfold Rdiv in * . lra. }
  rewrite <- !exp_plus in E2. apply exp_inv in E2. field_simplify in E2. nra.
Qed.
Section Run.
Context {G : @Rng RNum}.
Variables (decode : list R -> @flow RNum) (put : list R -> list R -> list (list R) -> list R) (grad : list R -> list (list R) -> list R).
Hypothesis Hno : @normal_shape RNum G.
Hypothesis Hall : forall z, exists k, @normal RNum G (split k 2 1) 1 = [z].
Hypothesis Hsh : shift <> 0.
Hypothesis Hdl : dl <> 1.
Variables (p : list R) (bs : nat) (tg : @lpdf RNum) (d : @datad RNum).
Hypothesis Ep : decode p = m.
Hypothesis Hbs : (0 < bs)%nat.
Hypothesis Htg : ignores_n_steps tg.
Let NF := rqs_ops decode put grad.
Let pr := @mkNfp RNum G NF p bs.
Lemma reach w : exists k, @model_sample RNum G m (split k 2 1) 1 = [pt w].
Proof.
  destruct (Hall (f w + shift)) as [k Hk]. exists k. rewrite (sample_one Hno), Hn, Hk. unfold flow_sample. cbn [map]. f_equal.
  transitivity (smp (tru (pt w))); [|apply smp_tru; reflexivity]. unfold smp, tru, pt. cbn [nth]. pose proof one_sd.
  replace ((mu + sd * w - mu) / sd) with w by (field; lra). reflexivity.
Qed.
Lemma one_unbalanced : exists k k' (x y : list R) a b dx dy,
  model_sample m (split k 2 1) 1 = [y] /\ model_sample m (split k' 2 1) 1 = [x] /\
  accept_prob (flow_run pr k tg d x) a /\ accept_prob (flow_run pr k' tg d y) b /\
  density_through 1 tru (std_density 1) x dx /\ density_through 1 tru (std_density 1) y dy /\
  exp (lp_val tg x d) * dy * a <> exp (lp_val tg y d) * dx * b.
Proof.
  assert (Hr : - Rabs shift <= shift <= Rabs shift) by (apply Rabs_le_between; lra).
  assert (Hp : 0 <= Rabs shift) by apply Rabs_pos. pose proof one_sd as Hsd. pose proof one_dl as Hd.
  set (wx := hi + Rabs shift + 1). set (wy := hi + Rabs shift + 2).
  destruct (reach wy) as [k Hk]. destruct (reach wx) as [k' Hk'].
  assert (Hk1 : m_sample (nfp_model pr) (split k 2 1) 1 = [pt wy]) by (rewrite <- Ep in Hk; exact Hk).
  assert (Hk2 : m_sample (nfp_model pr) (split k' 2 1) 1 = [pt wx]) by (rewrite <- Ep in Hk'; exact Hk').
  destruct (C15_flow_proof pr k tg d (pt wx) (pt wy) Hbs Htg Hk1) as (_ & Ha & _). destruct (C15_flow_proof pr k' tg d (pt wy) (pt wx) Hbs Htg Hk2) as (_ & Hb & _).
  do 8 eexists. split; [exact Hk|]. split; [exact Hk'|]. split; [exact Ha|]. split; [exact Hb|].
  split; [apply tail_true; unfold wx; lra|]. split; [apply tail_true; unfold wy; lra|].
  intros B. pose proof (@C18_proof G NF pr k k' tg d (pt wx) (pt wy) _ _ 1 Hbs Htg Rlt_0_1 Hk1 Hk2 Ha Hb) as Q. cbv zeta in Q.
  match type of Ha with accept_prob _ ?a0 => set (a := a0) in * end. match type of Hb with accept_prob _ ?a0 => set (b := a0) in * end.
  assert (Pa : 0 < a) by (apply Rmin_pos; [lra|apply exp_pos]). assert (Pb : 0 < b) by (apply Rmin_pos; [lra|apply exp_pos]).
  assert (Ex : exp (m_logp (nfp_model pr) (pt wx)) = dl * normal_pdf 0 1 (f wx + dl * shift)).
  { etransitivity; [|apply (tail_model (G := G) wx); unfold wx; lra]. cbn [nfp_model pr NF rqs_ops model_ops m_logp]. now rewrite Ep. }
  assert (Ey : exp (m_logp (nfp_model pr) (pt wy)) = dl * normal_pdf 0 1 (f wy + dl * shift)).
  { etransitivity; [|apply (tail_model (G := G) wy); unfold wy; lra]. cbn [nfp_model pr NF rqs_ops model_ops m_logp]. now rewrite Ep. }
  assert (Q2 : exp (lp_val tg (pt wx) d) * (1 * exp (m_logp (nfp_model pr) (pt wy))) * a = exp (lp_val tg (pt wy) d) * (1 * exp (m_logp (nfp_model pr) (pt wx))) * b) by exact Q.
  clear Q. rename Q2 into Q. rewrite Ex, Ey, !Rmult_1_l in Q. clearbody a b. clear Ha Hb Ex Ey Hk1 Hk2 Hk Hk'.
  set (ex := exp (lp_val tg (pt wx) d)) in * . set (ey := exp (lp_val tg (pt wy) d)) in * .
  assert (Px : 0 < ex) by apply exp_pos. assert (Py : 0 < ey) by apply exp_pos. clearbody ex ey.
  assert (U : (shift - dl * shift) * (f wy - f wx) = 0).
  { apply phi_cross. set (p1 := normal_pdf 0 1 (f wy + shift)) in * . set (p2 := normal_pdf 0 1 (f wx + dl * shift)) in * .
    set (p3 := normal_pdf 0 1 (f wx + shift)) in * . set (p4 := normal_pdf 0 1 (f wy + dl * shift)) in * .
    assert (0 < p1 /\ 0 < p2 /\ 0 < p3 /\ 0 < p4) as (P1 & P2 & P3 & P4) by (repeat split; apply normal_pdf_pos; lra). clearbody p1 p2 p3 p4.
    assert (B' : ex * a * p1 = ey * b * p3).
    { apply (Rmult_eq_reg_r (dl / sd)); [|apply Rgt_not_eq; now apply Rdiv_lt_0_compat]. lra. }
    assert (Q' : ex * a * p4 = ey * b * p2). { apply (Rmult_eq_reg_r dl); [|lra]. lra. }
    assert (Pe : 0 < ex * a) by now apply Rmult_lt_0_compat. assert (Pf : 0 < ey * b) by now apply Rmult_lt_0_compat.
    set (X := ex * a) in * . set (Y := ey * b) in * . clearbody X Y.
    apply (Rmult_eq_reg_l (X * Y)); [|apply Rgt_not_eq; now apply Rmult_lt_0_compat].
    transitivity ((X * p1) * (Y * p2)); [ring|]. rewrite B', <- Q'. ring. }
  destruct (one_tail wx) as [T1 _]; [unfold wx; lra|]. destruct (one_tail wy) as [T2 _]; [unfold wy; lra|].
  rewrite T1, T2 in U. unfold wx, wy in U.
  apply Rmult_integral in U as [U|U].
  - apply Hdl. apply (Rmult_eq_reg_l shift); [|auto]. lra.
  - replace ((hi + Rabs shift + 2 - hi) * dl + yhi - ((hi + Rabs shift + 1 - hi) * dl + yhi)) with dl in U by ring. lra.
Qed.
End Run.
End One.
