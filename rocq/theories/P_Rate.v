(** The acceptance rate of flow proposals and the quality of the flow. *)
From Coq Require Import Reals Lra Lia Permutation Classical.
From Coquelicot Require Import Coquelicot.
From Verif Require Import Prelude Num M_Core M_Kernels M_Strategies P_Lists Spec_Kernels RNum Spec_Real Spec_Inv P_Kernels P_Real1 P_Real2 P_Inv1 P_Inv2 P_Inv3 P_Inv4 P_InvPT2 P_Erg1 Spec_Rate.
Open Scope R_scope.

Lemma total_minus {A} (l : list A) f g : total l (fun t => f t - g t) = total l f - total l g.
Proof. rewrite (total_ext l _ (fun t => 1 * f t + -1 * g t)) by (intros; ring). rewrite total_lin. ring. Qed.
Lemma total_zero {A} (l : list A) h : (forall a, In a l -> 0 <= h a) -> total l h <= 0 -> forall a, In a l -> h a = 0.
Proof.
  induction l as [|b l IH]; intros N Z a Ha; [destruct Ha|]. cbn [total fold_right] in Z. fold (total l h) in Z.
  assert (B : 0 <= total l h) by (apply total_nonneg; intros; apply N; right; assumption). pose proof (N b (or_introl eq_refl)) as C.
  destruct Ha as [<-|Ha]; [lra|]. apply IH; [intros; apply N; right; assumption|lra|exact Ha].
Qed.
Lemma incl_total (X Y : list (list R)) h : NoDup X -> NoDup Y -> (forall x, In x X -> In x Y) -> (forall y, In y Y -> 0 <= h y) -> total X h <= total Y h.
Proof.
  intros NX NY XY H0. set (g := fun y => if in_dec (list_eq_dec Req_EM_T) y X then h y else 0).
  assert (E : total Y g = total X g). { apply total_sub; auto. intros y _ Hy. unfold g. destruct (in_dec _ y X); [contradiction|reflexivity]. }
  rewrite (total_ext X h g). - rewrite <- E. apply total_le. intros y Hy. unfold g. destruct (in_dec _ y X); [lra|apply H0, Hy].
  - intros x Hx. unfold g. destruct (in_dec _ x X); [reflexivity|contradiction].
Qed.

(* ------------------------------------------------------------------ two distributions *)
Section Dist.
Variables (X Y : list (list R)) (p q : list R -> R).
Hypothesis NX : NoDup X.
Hypothesis NY : NoDup Y.
Hypothesis XY : forall x, In x X -> In x Y.
Hypothesis P0 : forall x, In x X -> 0 <= p x.
Hypothesis P1 : total X p = 1.
Hypothesis Q0 : forall y, In y Y -> 0 <= q y.
Hypothesis Q1 : total Y q = 1.
Definition common : R := total X (fun x => Rmin (p x) (q x)).
Definition both : R := total X (fun x => total X (fun y => Rmin (p x * q y) (p y * q x))).
Lemma QX : total X q <= 1.
Proof. rewrite <- Q1. apply incl_total; auto. Qed.
Lemma both_lower : common ^ 2 <= both.
Proof.
  replace (common ^ 2) with (total X (fun x => total X (fun y => Rmin (p x) (q x) * Rmin (p y) (q y)))).
  - apply total_le. intros x Hx. apply total_le. intros y Hy. pose proof (P0 x Hx) as A. pose proof (P0 y Hy) as B. pose proof (Q0 x (XY x Hx)) as C. pose proof (Q0 y (XY y Hy)) as D.
    assert (m0 : 0 <= Rmin (p x) (q x)) by (apply Rmin_glb; assumption). assert (m1 : 0 <= Rmin (p y) (q y)) by (apply Rmin_glb; assumption).
    apply Rmin_glb.
    + apply Rmult_le_compat; auto using Rmin_l, Rmin_r.
    + rewrite Rmult_comm. apply Rmult_le_compat; auto using Rmin_l, Rmin_r.
  - unfold common. cbn [pow]. rewrite Rmult_1_r. rewrite <- total_scal. apply total_ext. intros x Hx.
    rewrite (total_scal X). ring.
Qed.
Lemma both_upper : both <= common.
Proof.
  apply total_le. intros x Hx. pose proof (P0 x Hx) as A. pose proof (Q0 x (XY x Hx)) as C. apply Rmin_glb.
  - apply Rle_trans with (total X (fun y => p x * q y)); [apply total_le; intros; apply Rmin_l|]. rewrite total_scal. pose proof QX. nra.
  - apply Rle_trans with (total X (fun y => q x * p y)); [apply total_le; intros; rewrite (Rmult_comm (q x)); apply Rmin_r|]. rewrite total_scal, P1. lra.
Qed.
Lemma common_bias g : (forall y, In y Y -> 0 <= g y <= 1) -> Rabs (total X (fun x => p x * g x) - total Y (fun y => q y * g y)) <= 1 - common.
Proof.
  intros Hg. set (m := fun x => Rmin (p x) (q x)).
  assert (Mp : forall x, m x <= p x) by (intros; apply Rmin_l). assert (Mq : forall x, m x <= q x) by (intros; apply Rmin_r).
  assert (M0 : forall x, In x X -> 0 <= m x) by (intros x Hx; apply Rmin_glb; [apply P0; exact Hx|apply Q0, XY; exact Hx]).
  assert (A1 : total X (fun x => p x * g x) - total X (fun x => m x * g x) <= 1 - common).
  { unfold common. fold m. change (fun x => Rmin (p x) (q x)) with m. rewrite <- P1, <- !total_minus. apply total_le. intros x Hx. pose proof (Hg x (XY x Hx)). pose proof (Mp x). nra. }
  assert (A2 : total X (fun x => m x * g x) <= total X (fun x => p x * g x)).
  { apply total_le. intros x Hx. apply Rmult_le_compat_r; [apply Hg, XY, Hx|apply Mp]. }
  assert (A3 : total X (fun x => m x * g x) <= total Y (fun y => q y * g y)).
  { apply Rle_trans with (total X (fun x => q x * g x)).
    - apply total_le. intros x Hx. apply Rmult_le_compat_r; [apply Hg, XY, Hx|apply Mq].
    - apply incl_total; auto. intros y Hy. apply Rmult_le_pos; [apply Q0, Hy|apply Hg, Hy]. }
  assert (A4 : total Y (fun y => q y * g y) - total X (fun x => m x * g x) <= 1 - common).
  { assert (B : total X (fun x => m x * (1 - g x)) <= total Y (fun y => q y * (1 - g y))).
    { apply Rle_trans with (total X (fun x => q x * (1 - g x))).
      - apply total_le. intros x Hx. apply Rmult_le_compat_r; [pose proof (Hg x (XY x Hx)); lra|apply Mq].
      - apply incl_total; auto. intros y Hy. apply Rmult_le_pos; [apply Q0, Hy|pose proof (Hg y Hy); lra]. }
    rewrite (total_ext X _ (fun x => m x - m x * g x)) in B by (intros; ring). rewrite (total_ext Y _ (fun y => q y - q y * g y)) in B by (intros; ring).
    rewrite !total_minus, Q1 in B. unfold common. change (fun x => Rmin (p x) (q x)) with m. lra. }
  unfold Rabs. destruct (Rcase_abs _); lra.
Qed.
Lemma common_one : 1 <= common -> forall x, In x X -> p x = q x.
Proof.
  intros C. assert (A : forall x, In x X -> p x - Rmin (p x) (q x) = 0).
  { apply total_zero; [intros x _; pose proof (Rmin_l (p x) (q x)); lra|]. rewrite total_minus, P1. unfold common in C. lra. }
  assert (B : forall x, In x X -> q x - p x = 0).
  { apply total_zero; [|rewrite total_minus, P1; pose proof QX; lra]. intros x Hx. pose proof (A x Hx). pose proof (Rmin_r (p x) (q x)). lra. }
  intros x Hx. pose proof (B x Hx). lra.
Qed.
End Dist.

Lemma scale_min (u v : R) : 0 < u -> u * Rmin 1 v = Rmin u (u * v).
Proof. intros U. unfold Rmin. destruct (Rle_dec 1 v) as [A|A], (Rle_dec u (u * v)) as [B|B]; try ring; exfalso; [apply B; nra|nra]. Qed.
(* ------------------------------------------------------------------ chains *)
Section Chain.
Context {G : @Rng RNum} {NF : @NFOps RNum G}.
Variables (m : mdl) (X Y : list (list R)) (f : @lpdf RNum) (d : @datad RNum) (c : R).
Hypothesis C0 : 0 < c.
Let qq := q m c.
Hypothesis Q1 : total Y qq = 1.
Hypothesis NX : NoDup X.
Hypothesis NY : NoDup Y.
Hypothesis XY : forall x, In x X -> In x Y.
Definition rate_sum : R := total X (fun x => total X (fun y => Rmin (wt f d x * qq y) (wt f d y * qq x))).
Lemma first_rate E : src m X Y f d c E -> expected_under X (wt f d) (fun x => total Y (fun y => qq y * test_prob E (fr m f d x y))) = rate_sum.
Proof.
  intros H. unfold expected_under, rate_sum. apply total_ext. intros x Hx.
  rewrite (total_sub X Y) ; auto.
  - rewrite <- total_scal. apply total_ext. intros y Hy. rewrite (proj1 (src_r m X Y f d c C0 E x y H Hx (XY y Hy)) Hy).
    assert (Wx : 0 < wt f d x) by apply exp_pos. assert (Qy : 0 < qq y) by (apply Rmult_lt_0_compat; [exact C0|apply exp_pos]).
    assert (Wy : 0 < wt f d y) by apply exp_pos. assert (Qx : 0 < qq x) by (apply Rmult_lt_0_compat; [exact C0|apply exp_pos]).
    assert (Ex : wt f d x * qq y * exp (fr m f d x y) = wt f d y * qq x).
    { unfold qq, q, wt, fr. replace (lpx f d y - lpx f d x - (lq m y - lq m x)) with ((lpx f d y + lq m x) + - (lpx f d x + lq m y)) by ring. rewrite exp_plus, exp_Ropp, !exp_plus.
      field. repeat split; apply Rgt_not_eq; apply exp_pos. }
    rewrite <- Ex. transitivity (wt f d x * qq y * Rmin 1 (exp (fr m f d x y))); [ring|].
    apply scale_min, Rmult_lt_0_compat; assumption.
  - intros y Hy Hn. rewrite (proj2 (src_r m X Y f d c C0 E x y H Hx Hy) Hn). ring.
Qed.
Lemma scan_rate n : forall j E, (j < n)%nat -> key_chain (src m X Y f d c) n E ->
  expected_under X (wt f d) (fun x => iid Y qq n (fun props => ex E (fun k => flag_at j (Ok (scan m f d k x props))))) = rate_sum.
Proof.
  induction n as [|n IH]; intros j E Hj; [lia|]. intros (E0 & E1 & SP & S1 & CH). cbn [iid]. destruct j as [|j].
  - rewrite <- (first_rate E1 S1). unfold expected_under. apply total_ext. intros x Hx. f_equal. apply total_ext. intros y Hy. f_equal.
    rewrite (iid_ext _ _ _ _ (fun _ => test_prob E1 (fr m f d x y))); [now apply iid_const|]. intros props _.
    set (H := fun (a b : key) => if Rltb (ln (uniform b)) (fr m f d x y) then 1 else 0).
    rewrite (ex_ext _ E _ (fun k => H (split k 2 0) (split k 2 1))).
    + rewrite (proj1 (SP H)). unfold H, test_prob. apply ex_const.
    + intros k. rewrite scan_cons. unfold H. cbn [flag_at nth_error]. destruct (Rltb _ _); reflexivity.
  - set (gj := fun z => iid Y qq n (fun props => ex E0 (fun a => flag_at j (Ok (scan m f d a z props))))).
    rewrite <- (IH j E0) by (auto; lia). change (fun x => iid Y qq n (fun props => ex E0 (fun k => flag_at j (Ok (scan m f d k x props))))) with gj.
    rewrite <- (one_step m X Y f d c C0 Q1 NX NY XY E1 gj S1). unfold expected_under. apply total_ext. intros x Hx. f_equal. apply total_ext. intros y Hy. f_equal.
    unfold gj. rewrite <- iid_ex. apply iid_ext. intros props _.
    set (H := fun a b => flag_at j (Ok (scan m f d a (mv m f d b x y) props))).
    rewrite (ex_ext _ E _ (fun k => H (split k 2 0) (split k 2 1))) by (intros k; rewrite scan_cons; reflexivity).
    rewrite (proj1 (SP H)), (proj2 (SP H)). reflexivity.
Qed.
End Chain.

Section Rate.
Context {G : @Rng RNum} {NF : @NFOps RNum G}.
Variables (p : nfp) (X Y : list (list R)) (f : lpdf) (d : datad) (q : list R -> R) (a : R) (dim n j : nat) (E Ea Ed : expect key).
Hypothesis HS : samples_shape (nfp_model p) dim.
Hypothesis HB : (0 < nfp_bs p)%nat.
Hypothesis IG : ignores_n_steps f.
Hypothesis NX : NoDup X.
Hypothesis NY : NoDup Y.
Hypothesis XY : forall x, In x X -> In x Y.
Hypothesis NE : X <> [].
Hypothesis A0 : 0 < a.
Hypothesis HQ : forall y, q y = a * exp (m_logp (nfp_model p) y).
Hypothesis SP : splits2 E Ea Ed.
Hypothesis CA : key_chain (flow_tests X Y (density f d) q) n Ea.
Hypothesis FD : flow_source (nfp_model p) Y q (nfp_bs p) n Ed.
Hypothesis Hj : (j < n)%nat.
Notation pr := (target_prob X f d).

Lemma q_total : total Y q = 1.
Proof.
  destruct FD as [D _]. pose proof (D 1%nat ltac:(lia) (fun _ => 1)) as Q. cbv beta in Q. refine (eq_trans _ (eq_trans (eq_sym Q) (ex_const _ Ed 1))). cbn [iid]. apply total_ext. intros; ring.
Qed.
Lemma w_pos : 0 < total X (density f d).
Proof. apply total_pos; [intros; apply exp_pos|exact NE]. Qed.
Lemma pr_total : total X pr = 1.
Proof.
  unfold target_prob. rewrite (total_ext X _ (fun x => / total X (density f d) * density f d x)) by (intros; unfold Rdiv; ring). rewrite total_scal.
  apply Rinv_l, Rgt_not_eq, w_pos.
Qed.
Lemma pr_pos x : 0 <= pr x.
Proof. unfold target_prob. apply Rmult_le_pos; [left; apply exp_pos|left; apply Rinv_0_lt_compat, w_pos]. Qed.
Lemma q_pos y : 0 <= q y.
Proof. rewrite HQ. apply Rmult_le_pos; [lra|left; apply exp_pos]. Qed.

Lemma rate_is : global_rate X p f d n j E = both X pr q.
Proof.
  pose proof w_pos as W0. set (W := total X (density f d)) in * .
  assert (EQ : forall y, q y = P_Inv4.q (nfp_model p) a y) by (intros; apply HQ).
  assert (CA' : key_chain (src (nfp_model p) X Y f d a) n Ea).
  { revert CA. apply chain_imp. intros E' H x y Hx Hy. specialize (H x y Hx Hy). cbv zeta in H |- * . rewrite <- !EQ. exact H. }
  assert (Q1 : total Y (P_Inv4.q (nfp_model p) a) = 1) by (rewrite <- q_total; apply total_ext; intros; symmetry; apply EQ).
  pose proof (scan_rate (nfp_model p) X Y f d a A0 Q1 NX NY XY n j Ea Hj CA') as SR.
  assert (GR : expected_under X (wt f d) (fun x => ex E (fun k => flag_at j (group_sample p f d n k x))) = rate_sum (nfp_model p) X f d a).
  { rewrite <- SR. unfold expected_under. apply total_ext. intros x Hx. f_equal.
    set (H := fun a0 b => flag_at j (Ok (scan (nfp_model p) f d a0 x (props_of p b n)))).
    rewrite (ex_ext _ E _ (fun k => H (split k 2 0) (split k 2 1))).
    - rewrite (proj1 (SP H)), (proj2 (SP H)).
      assert (FD' : flow_source (nfp_model p) Y (P_Inv4.q (nfp_model p) a) (nfp_bs p) n Ed).
      { assert (IE : forall s h, iid Y q s h = iid Y (P_Inv4.q (nfp_model p) a) s h).
        { induction s as [|s IHs]; intros h; cbn [iid]; [reflexivity|]. apply total_ext. intros y _. now rewrite EQ, IHs. }
        destruct FD as [D1 D2]. split.
        - intros s Hs h. rewrite <- IE. apply D1, Hs.
        - revert D2. apply chain_imp. intros E' D s Hs h. rewrite <- IE. apply D, Hs. }
      exact (flow_draws (nfp_model p) Y (P_Inv4.q (nfp_model p) a) Q1 p n Ed (fun props => ex Ea (fun a0 => flag_at j (Ok (scan (nfp_model p) f d a0 x props)))) eq_refl HB FD').
    - intros k. unfold H. destruct (group_is p f d dim HS HB IG n k x) as (props & -> & _ & ->). reflexivity. }
  unfold global_rate, expected_under. rewrite (total_ext X _ (fun x => / W * (wt f d x * ex E (fun k => flag_at j (group_sample p f d n k x))))).
  - rewrite total_scal. unfold expected_under in GR. rewrite GR. unfold rate_sum, both. rewrite <- total_scal. apply total_ext. intros x Hx. rewrite <- total_scal. apply total_ext. intros y Hy.
    rewrite <- !EQ. unfold target_prob. fold W. change (density f d x) with (wt f d x). change (density f d y) with (wt f d y). unfold Rdiv.
    assert (Al : forall u v s : R, 0 < s -> s * Rmin u v = Rmin (s * u) (s * v)).
    { intros u v s Hs. unfold Rmin. destruct (Rle_dec u v), (Rle_dec (s * u) (s * v)); nra. }
    rewrite Al by (apply Rinv_0_lt_compat, W0). f_equal; ring.
  - intros x Hx. unfold target_prob. fold W. change (density f d x) with (wt f d x). unfold Rdiv. ring.
Qed.

Lemma rate_bounds : overlap X f d q ^ 2 <= global_rate X p f d n j E <= overlap X f d q.
Proof.
  rewrite rate_is. split.
  - apply (both_lower X Y pr q XY); [intros; apply pr_pos|intros; apply q_pos].
  - apply (both_upper X Y pr q NX NY XY); auto using pr_total, q_total, pr_pos, q_pos.
Qed.
Lemma rate_bias g : (forall y, In y Y -> 0 <= g y <= 1) -> Rabs (expected_under X pr g - expected_under Y q g) <= 1 - global_rate X p f d n j E.
Proof.
  intros Hg. apply Rle_trans with (1 - overlap X f d q); [|pose proof rate_bounds; lra].
  apply (common_bias X Y pr q NX NY XY); auto using pr_total, q_total, pr_pos, q_pos.
Qed.
Lemma rate_one : global_rate X p f d n j E = 1 -> forall x, In x X -> pr x = q x.
Proof.
  intros R1. apply (common_one X Y pr q NX NY XY); auto using pr_total, q_total, pr_pos, q_pos. pose proof rate_bounds as B. unfold overlap in B. unfold common. lra.
Qed.
Lemma one_rate : (forall x, In x X -> pr x = q x) -> global_rate X p f d n j E = 1.
Proof.
  intros EQ. rewrite rate_is. unfold both. rewrite <- pr_total. apply total_ext. intros x Hx.
  rewrite (total_ext X _ (fun y => pr x * pr y)); [rewrite total_scal, pr_total; ring|]. intros y Hy.
  rewrite <- (EQ x Hx), <- (EQ y Hy). rewrite (Rmult_comm (pr y) (pr x)). apply Rmin_left, Rle_refl.
Qed.
End Rate.
