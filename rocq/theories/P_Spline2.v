(** Proofs about the rational-quadratic spline as a whole (C25-C27). *)
From Coq Require Import Reals Psatz.
From Coquelicot Require Import Coquelicot.
From Verif Require Import Prelude Num M_Core M_Kernels M_Flow P_Lists RNum Spec_Spline P_Real1 P_Spline.
Open Scope R_scope.

(* ------------------------------------------------------------------ lists *)
Lemma nth_removelast (l : list R) i : (S i < length l)%nat -> nth i (removelast l) 0 = nth i l 0.
Proof.
  revert i. induction l as [|a l IH]; intros i H; [reflexivity|]. destruct l as [|b l]; [cbn in H; lia|].
  cbn [removelast]. destruct i; [reflexivity|]. cbn [nth]. apply IH. cbn [length] in * . lia.
Qed.
Lemma removelast_len (l : list R) : length (removelast l) = (length l - 1)%nat.
Proof. induction l as [|a l IH]; [reflexivity|]. destruct l; [reflexivity|]. cbn [removelast length] in * . lia. Qed.
Lemma nth_tl (l : list R) i : nth i (tl l) 0 = nth (S i) l 0.
Proof. destruct l; [destruct i; reflexivity|reflexivity]. Qed.
Lemma tl_len (l : list R) : length (tl l) = (length l - 1)%nat.
Proof. destruct l; cbn; lia. Qed.
Lemma flast_nth (l : list R) : flast l = nth (length l - 1) l 0.
Proof.
  unfold flast. change (@eq R (@last R l 0) (nth (length l - 1) l 0)). induction l as [|a l IH]; [reflexivity|]. destruct l as [|b l]; [reflexivity|].
  change (last (a :: b :: l) 0) with (last (b :: l) 0). rewrite IH. cbn [length]. 
  replace (S (S (length l)) - 1)%nat with (S (S (length l) - 1)) by lia. reflexivity.
Qed.
Lemma fhd_nth (l : list R) : fhd l = nth 0 l 0.
Proof. destruct l; reflexivity. Qed.
Lemma pick_onehot (sel : list bool) (p : list R) i :
  length p = length sel -> (i < length sel)%nat -> (forall j, (j < length sel)%nat -> nth j sel false = (j =? i)%nat) ->
  @pick RNum sel p = nth i p 0.
Proof.
  intros Hl Hi H. unfold pick. rewrite fsumR. rewrite map2_length. rnorm. rewrite Hl, Nat.min_id.
  rewrite (Rsum_single _ _ i Hi).
  - change (@eq R (nth i (map2 (fun b v => @b2f RNum b * v) sel p) 0) (nth i p 0)).
    rewrite (nth_map2 (fun b v => @b2f RNum b * v) sel p i false 0 0) by rlia. rewrite H, Nat.eqb_refl by auto. cbn. ring.
  - intros j Hj Hn. change (@eq R (nth j (map2 (fun b v => @b2f RNum b * v) sel p) 0) 0). rewrite (nth_map2 (fun b v => @b2f RNum b * v) sel p j false 0 0) by rlia. rewrite H by auto.
    destruct (Nat.eqb_spec j i); [lia|]. cbn. ring.
Qed.

(* ------------------------------------------------------------------ increasing knots *)
Section Knots.
Variable p : list R.
Hypothesis Hinc : forall i, (S i < length p)%nat -> nth i p 0 < nth (S i) p 0.
Lemma knots_lt i j : (i < j)%nat -> (j < length p)%nat -> nth i p 0 < nth j p 0.
Proof.
  intros Hij Hj. induction Hij as [|j Hij IH]; [now apply Hinc|].
  eapply Rlt_trans; [apply IH; lia|]. now apply Hinc.
Qed.
Lemma knots_le i j : (i <= j)%nat -> (j < length p)%nat -> nth i p 0 <= nth j p 0.
Proof. intros. destruct (Nat.eq_dec i j) as [->|]; [lra|]. left. apply knots_lt; lia. Qed.
Lemma find_bin x : (2 <= length p)%nat -> nth 0 p 0 <= x -> x < nth (length p - 1) p 0 ->
  exists i, (S i < length p)%nat /\ nth i p 0 <= x < nth (S i) p 0.
Proof.
  intros H2 H0 H1.
  assert (Hk : forall k, (k < length p)%nat -> (exists i, (S i < length p)%nat /\ nth i p 0 <= x < nth (S i) p 0) \/ nth k p 0 <= x).
  { induction k as [|k IH]; intros Hk; [auto|]. destruct IH as [IH|IH]; [lia|auto|].
    destruct (Rlt_dec x (nth (S k) p 0)); [left; exists k; auto|right; lra]. }
  destruct (Hk (length p - 1)%nat) as [H|H]; [lia|auto|lra].
Qed.
Lemma find_bin_r x : (2 <= length p)%nat -> nth 0 p 0 < x -> x <= nth (length p - 1) p 0 ->
  exists i, (S i < length p)%nat /\ nth i p 0 < x <= nth (S i) p 0.
Proof.
  intros H2 H0 H1.
  assert (Hk : forall k, (k < length p)%nat -> (exists i, (S i < length p)%nat /\ nth i p 0 < x <= nth (S i) p 0) \/ nth k p 0 < x).
  { induction k as [|k IH]; intros Hk; [auto|]. destruct IH as [IH|IH]; [lia|auto|].
    destruct (Rlt_dec (nth (S k) p 0) x); [right; lra|left; exists k; split; auto; lra]. }
  destruct (Hk (length p - 1)%nat) as [H|H]; [lia|auto|lra].
Qed.
Lemma bin_mask_at i x : (S i < length p)%nat -> nth i p 0 <= x < nth (S i) p 0 ->
  length (@bin_mask RNum p x) = (length p - 1)%nat /\
  forall j, (j < length p - 1)%nat -> nth j (@bin_mask RNum p x) false = (j =? i)%nat.
Proof.
  intros Hi Hx. unfold bin_mask.
  set (bins := map2 _ _ _).
  assert (Hlen : length bins = (length p - 1)%nat).
  { unfold bins. rewrite map2_length. rnorm. rewrite removelast_len, tl_len. lia. }
  assert (Hn : forall j, (j < length p - 1)%nat -> nth j bins false = (j =? i)%nat).
  { intros j Hj. unfold bins.
    rewrite (nth_map2 _ (removelast p) (tl p) j 0 0 false) by (rnorm; rewrite ?removelast_len, ?tl_len; lia).
    rewrite nth_removelast, nth_tl by lia. destruct (Nat.eqb_spec j i) as [->|Hne].
    - apply andb_true_intro; split; [apply fle_R|apply flt_R]; lra.
    - destruct (lt_dec j i).
      + apply andb_false_intro2. apply flt_R_false. pose proof (knots_le (S j) i ltac:(lia) ltac:(lia)). lra.
      + apply andb_false_intro1. apply fle_R_false. pose proof (knots_le (S i) j ltac:(lia) ltac:(lia)). lra. }
  replace (existsb (@Datatypes.id bool) bins) with true; [auto|]. symmetry. apply existsb_exists. exists true. split; auto.
  rewrite <- (Nat.eqb_refl i) , <- (Hn i) by lia. apply nth_In. lia.
Qed.
End Knots.

(* ------------------------------------------------------------------ the spline *)
Section Spline.
Variables xp yp sl : list R.
Hypothesis V : valid_spline xp yp sl.
Let n := length xp.
Let X i := nth i xp 0.
Let Y i := nth i yp 0.
Let D i := nth i sl 0.
Let P i := Phi (X i) (X (S i)) (Y i) (Y (S i)) (D i) (D (S i)).
Let dP i := dPhi (X i) (X (S i)) (Y i) (Y (S i)) (D i) (D (S i)).

Lemma n_ge : (2 <= n)%nat. Proof. exact (vs_len _ _ _ V). Qed.
Lemma X_lt i : (S i < n)%nat -> X i < X (S i). Proof. apply (vs_x _ _ _ V). Qed.
Lemma Y_lt i : (S i < n)%nat -> Y i < Y (S i). Proof. intros. apply (vs_y _ _ _ V). rewrite (vs_leny _ _ _ V). auto. Qed.
Lemma D_pos i : (i < n)%nat -> 0 < D i. Proof. intros. apply (vs_s _ _ _ V). rewrite (vs_lens _ _ _ V). auto. Qed.
Lemma bin_hyps i : (S i < n)%nat -> X i < X (S i) /\ Y i < Y (S i) /\ 0 < D i /\ 0 < D (S i).
Proof. intros. repeat split; [now apply X_lt|now apply Y_lt|apply D_pos; lia|now apply D_pos]. Qed.

Lemma params_at (sel : list bool) i : length sel = (n - 1)%nat -> (S i < n)%nat ->
  (forall j, (j < n - 1)%nat -> nth j sel false = (j =? i)%nat) ->
  @bin_params RNum sel xp yp sl = mkBinp (X i) (X (S i)) (Y i) (Y (S i)) (D i) (D (S i)).
Proof.
  intros Hl Hi H. unfold bin_params, pick_left, pick_right. unfold n in * .
  pose proof (vs_leny _ _ _ V). pose proof (vs_lens _ _ _ V).
  rewrite !(pick_onehot sel _ i) by (rnorm; rewrite ?removelast_len, ?tl_len, ?Hl; auto; lia).
  rnorm. rewrite !nth_removelast, !nth_tl by lia. reflexivity.
Qed.

Lemma fwd_below x : x <= X 0 -> @rqs_fwd RNum xp yp sl x = ((x - X 0) * D 0 + Y 0, ln (D 0)).
Proof.
  intros Hx. unfold rqs_fwd. destruct (rq_bin_fwd _ x) as [y ld].
  rewrite !fhd_nth, flast_nth. rewrite (proj2 (fle_R x (nth 0 xp 0))) by auto.
  destruct (fle _ _) eqn:E; [|reflexivity]. apply fle_R in E. pose proof n_ge.
  pose proof (knots_lt xp (vs_x _ _ _ V) 0 (length xp - 1) ltac:(unfold n in *; lia) ltac:(unfold n in *; lia)). unfold X in Hx. lra.
Qed.
Lemma fwd_above x : X (n - 1) <= x -> @rqs_fwd RNum xp yp sl x = ((x - X (n-1)) * D (n-1) + Y (n-1), ln (D (n-1))).
Proof.
  intros Hx. unfold rqs_fwd. destruct (rq_bin_fwd _ x) as [y ld].
  rewrite !flast_nth. rewrite (proj2 (fle_R (nth (length xp - 1) xp 0) x)) by auto.
  rewrite (vs_leny _ _ _ V), (vs_lens _ _ _ V). reflexivity.
Qed.
Lemma fwd_bin i x : (S i < n)%nat -> X i <= x <= X (S i) -> @rqs_fwd RNum xp yp sl x = (P i x, ln (dP i x)).
Proof.
  intros Hi Hx. destruct (bin_hyps i Hi) as (H1 & H2 & H3 & H4).
  destruct (Req_dec x (X (S i))) as [->|Hne].
  - unfold P, dP. rewrite Phi_right, dPhi_right by auto. destruct (Nat.eq_dec (S i) (n - 1)) as [e|e].
    + rewrite e. rewrite fwd_above by lra. f_equal. ring.
    + assert (Hi' : (S (S i) < n)%nat) by lia. destruct (bin_hyps (S i) Hi') as (G1 & G2 & G3 & G4).
      unfold rqs_fwd.
      destruct (bin_mask_at xp (vs_x _ _ _ V) (S i) (X (S i)) Hi' ltac:(unfold X in *; lra)) as [Hl Hm].
      rewrite (params_at _ (S i) Hl Hi' Hm). rewrite rq_bin_fwd_R by lra. rewrite Phi_left, dPhi_left by auto.
      rewrite !fhd_nth, !flast_nth.
      replace (fle (X (S i)) (nth 0 xp 0)) with false. 2:{ symmetry. apply fle_R_false. apply knots_lt; [apply (vs_x _ _ _ V)|lia|unfold n in *; lia]. }
      replace (fle (nth (length xp - 1) xp 0) (X (S i))) with false. 2:{ symmetry. apply fle_R_false. apply knots_lt; [apply (vs_x _ _ _ V)| |]; unfold n in *; lia. }
      reflexivity.
  - unfold rqs_fwd.
    destruct (bin_mask_at xp (vs_x _ _ _ V) i x Hi ltac:(unfold X in *; lra)) as [Hl Hm].
    rewrite (params_at _ i Hl Hi Hm). rewrite rq_bin_fwd_R by lra. rewrite !fhd_nth, !flast_nth.
    replace (fle (nth (length xp - 1) xp 0) x) with false.
    2:{ symmetry. apply fle_R_false. eapply Rlt_le_trans with (X (S i)); [lra|]. apply knots_le; [apply (vs_x _ _ _ V)| |]; unfold n in *; lia. }
    destruct (fle x (nth 0 xp 0)) eqn:E; [|reflexivity]. apply fle_R in E. 
    assert (i = 0)%nat as ->. { destruct i; auto. exfalso. pose proof (knots_lt xp (vs_x _ _ _ V) 0 (S i) ltac:(lia) ltac:(unfold n in *; lia)). unfold X in * . lra. }
    assert (x = X 0) as -> by (unfold X in *; lra). unfold P, dP. rewrite Phi_left, dPhi_left by auto.
    fold (X 0). fold (D 0). fold (Y 0). f_equal. cbn. ring.
Qed.

(** Left and right pieces with the same derivative. *)
Let f := spline xp yp sl.
Let df x := exp (spline_ld xp yp sl x).
Lemma lin_derive a b c x : is_derive (fun t => (t - a) * b + c) x b.
Proof. auto_derive; auto. ring. Qed.
Lemma left_piece x : exists g e, 0 < e /\ (forall t, x - e < t <= x -> f t = g t) /\ is_derive g x (df x).
Proof.
  pose proof n_ge as Hn. unfold f, df, spline, spline_ld.
  destruct (Rle_dec x (X 0)) as [H0|H0].
  { exists (fun t => (t - X 0) * D 0 + Y 0), 1. split; [lra|split].
    - intros t Ht. rewrite fwd_below by lra. reflexivity.
    - rewrite fwd_below by lra. cbn [snd]. rewrite exp_ln by (apply D_pos; lia). apply lin_derive. }
  destruct (Rle_dec x (X (n-1))) as [H1|H1].
  { destruct (find_bin_r xp x) as (i & Hi & Hx); try (unfold X, n in *; first [lra|lia]).
    fold (X i) in Hx. fold (X (S i)) in Hx. fold n in Hi. destruct (bin_hyps i Hi) as (G1 & G2 & G3 & G4).
    exists (P i), (x - X i). split; [lra|split].
    - intros t Ht. rewrite (fwd_bin i) by (auto; lra). reflexivity.
    - rewrite (fwd_bin i) by (auto; lra). cbn [snd]. rewrite exp_ln by (apply dPhi_pos; auto; lra). apply Phi_derive; auto; lra. }
  { exists (fun t => (t - X (n-1)) * D (n-1) + Y (n-1)), (x - X (n-1)). split; [lra|split].
    - intros t Ht. rewrite fwd_above by lra. reflexivity.
    - rewrite fwd_above by lra. cbn [snd]. rewrite exp_ln by (apply D_pos; lia). apply lin_derive. }
Qed.
Lemma right_piece x : exists g e, 0 < e /\ (forall t, x <= t < x + e -> f t = g t) /\ is_derive g x (df x).
Proof.
  pose proof n_ge as Hn. unfold f, df, spline, spline_ld.
  destruct (Rlt_dec x (X 0)) as [H0|H0].
  { exists (fun t => (t - X 0) * D 0 + Y 0), (X 0 - x). split; [lra|split].
    - intros t Ht. rewrite fwd_below by lra. reflexivity.
    - rewrite fwd_below by lra. cbn [snd]. rewrite exp_ln by (apply D_pos; lia). apply lin_derive. }
  destruct (Rlt_dec x (X (n-1))) as [H1|H1].
  { destruct (find_bin xp x) as (i & Hi & Hx); try (unfold X, n in *; first [lra|lia]).
    fold (X i) in Hx. fold (X (S i)) in Hx. fold n in Hi. destruct (bin_hyps i Hi) as (G1 & G2 & G3 & G4).
    exists (P i), (X (S i) - x). split; [lra|split].
    - intros t Ht. rewrite (fwd_bin i) by (auto; lra). reflexivity.
    - rewrite (fwd_bin i) by (auto; lra). cbn [snd]. rewrite exp_ln by (apply dPhi_pos; auto; lra). apply Phi_derive; auto; lra. }
  { exists (fun t => (t - X (n-1)) * D (n-1) + Y (n-1)), 1. split; [lra|split].
    - intros t Ht. rewrite fwd_above by lra. reflexivity.
    - rewrite fwd_above by lra. cbn [snd]. rewrite exp_ln by (apply D_pos; lia). apply lin_derive. }
Qed.
End Spline.

(** Gluing two functions with the same value and derivative at a point. *)
Lemma glue_derive (f g h : R -> R) x l e1 e2 : 0 < e1 -> 0 < e2 ->
  (forall t, x - e1 < t <= x -> f t = g t) -> (forall t, x <= t < x + e2 -> f t = h t) ->
  is_derive g x l -> is_derive h x l -> is_derive f x l.
Proof.
  intros He1 He2 Hg Hh Dg Dh. apply is_derive_Reals in Dg. apply is_derive_Reals in Dh. apply is_derive_Reals.
  intros eps Heps. destruct (Dg eps Heps) as [a Ha]. destruct (Dh eps Heps) as [b Hb].
  assert (Hm : 0 < Rmin (Rmin a b) (Rmin e1 e2)). { repeat apply Rmin_glb_lt; auto; [destruct a|destruct b]; auto. }
  exists (mkposreal _ Hm). intros t Ht Hlt. cbn [pos] in Hlt.
  pose proof (Rmin_l (Rmin a b) (Rmin e1 e2)). pose proof (Rmin_r (Rmin a b) (Rmin e1 e2)).
  pose proof (Rmin_l a b). pose proof (Rmin_r a b). pose proof (Rmin_l e1 e2). pose proof (Rmin_r e1 e2).
  apply Rabs_def2 in Hlt as [Hl1 Hl2].
  destruct (Rle_dec t 0).
  - rewrite (Hg (x + t)), (Hg x) by lra. apply Ha; auto. apply Rabs_def1; lra.
  - rewrite (Hh (x + t)), (Hh x) by lra. apply Hb; auto. apply Rabs_def1; lra.
Qed.

Section Whole.
Variables xp yp sl : list R.
Hypothesis V : valid_spline xp yp sl.
Let n := length xp.
Let X i := nth i xp 0.
Let Y i := nth i yp 0.
Let D i := nth i sl 0.
Let P i := Phi (X i) (X (S i)) (Y i) (Y (S i)) (D i) (D (S i)).
Let dP i := dPhi (X i) (X (S i)) (Y i) (Y (S i)) (D i) (D (S i)).
Let f := spline xp yp sl.

Lemma spline_derive x : is_derive f x (exp (spline_ld xp yp sl x)).
Proof.
  destruct (left_piece xp yp sl V x) as (g & e1 & He1 & Hg & Dg).
  destruct (right_piece xp yp sl V x) as (h & e2 & He2 & Hh & Dh).
  exact (glue_derive f g h x _ e1 e2 He1 He2 Hg Hh Dg Dh).
Qed.
Lemma spline_incr x y : x < y -> f x < f y.
Proof.
  intros H. apply (incr_function f m_infty p_infty (fun t => exp (spline_ld xp yp sl t))); simpl; auto.
  - intros t _ _. apply spline_derive.
  - intros t _ _. apply exp_pos.
Qed.
Lemma spline_knot i : (i < n)%nat -> f (X i) = Y i.
Proof.
  intros Hi. unfold f, spline. pose proof (n_ge _ _ _ V). destruct (Nat.eq_dec i (n - 1)) as [->|H'].
  - rewrite (fwd_above _ _ _ V) by (unfold X, n; lra). cbn [fst]. unfold X, Y, n. ring.
  - destruct (bin_hyps _ _ _ V i) as (G1 & G2 & G3 & G4); [unfold n in *; lia|].
    rewrite (fwd_bin _ _ _ V i) by (unfold X, n in *; lra || lia). cbn [fst]. apply Phi_left; auto.
Qed.
Lemma spline_below x : x <= X 0 -> f x = (x - X 0) * D 0 + Y 0.
Proof. intros. unfold f, spline. now rewrite (fwd_below _ _ _ V). Qed.
Lemma spline_above x : X (n - 1) <= x -> f x = (x - X (n-1)) * D (n-1) + Y (n-1).
Proof. intros. unfold f, spline. now rewrite (fwd_above _ _ _ V). Qed.
Lemma spline_continuous x : continuous f x.
Proof. apply (ex_derive_continuous (K := R_AbsRing) (V := R_NormedModule)). eexists. apply spline_derive. Qed.
Lemma spline_onto y : exists x, f x = y.
Proof.
  pose proof (n_ge _ _ _ V) as Hn. fold n in Hn.
  pose proof (D_pos _ _ _ V 0 ltac:(unfold n in *; lia)) as H0. pose proof (D_pos _ _ _ V (n-1) ltac:(unfold n in *; lia)) as H1.
  change (0 < D 0) in H0. change (0 < D (n-1)) in H1.
  destruct (Rle_dec y (Y 0)).
  - exists ((y - Y 0) / D 0 + X 0). rewrite spline_below.
    + field. apply Rgt_not_eq. exact H0.
    + assert ((y - Y 0) / D 0 <= 0) by (apply Rle_div_l; lra). lra.
  - destruct (Rle_dec (Y (n-1)) y).
    + exists ((y - Y (n-1)) / D (n-1) + X (n-1)). rewrite spline_above.
      * field. apply Rgt_not_eq. exact H1.
      * assert (0 <= (y - Y (n-1)) / D (n-1)) by (apply Rdiv_le_0_compat; lra). lra.
    + pose proof (spline_knot 0 ltac:(lia)) as K0. pose proof (spline_knot (n-1) ltac:(lia)) as K1.
      destruct (IVT_gen f (X 0) (X (n-1)) y) as (x & _ & Hx).
      * intros t. apply continuity_pt_filterlim. apply spline_continuous.
      * rewrite K0, K1. rewrite Rmin_left, Rmax_right by lra. lra.
      * eauto.
Qed.
Lemma spline_inj x y : f x = f y -> x = y.
Proof. intros H. destruct (Rtotal_order x y) as [L|[L|L]]; auto; apply spline_incr in L; lra. Qed.
Lemma spline_le_iff x y : f x <= f y <-> x <= y.
Proof.
  split; intros H.
  - destruct (Rle_dec x y); auto. assert (Hlt : y < x) by lra. apply spline_incr in Hlt. lra.
  - destruct H as [H| ->]; [left; now apply spline_incr|right; auto].
Qed.
Lemma spline_lt_iff x y : f x < f y <-> x < y.
Proof.
  split; intros H.
  - destruct (Rlt_dec x y); auto. assert (Hlt : y <= x) by lra. apply spline_le_iff in Hlt. lra.
  - now apply spline_incr.
Qed.

Hypothesis WC : well_conditioned xp yp sl.
Lemma inv_of_fwd x : @rqs_inv RNum xp yp sl (f x) = (x, - spline_ld xp yp sl x).
Proof.
  pose proof (n_ge _ _ _ V) as Hn. fold n in Hn.
  pose proof (D_pos _ _ _ V 0 ltac:(unfold n in *; lia)) as H0. pose proof (D_pos _ _ _ V (n-1) ltac:(unfold n in *; lia)) as H1.
  change (0 < D 0) in H0. change (0 < D (n-1)) in H1.
  pose proof (spline_knot 0 ltac:(lia)) as K0. pose proof (spline_knot (n-1) ltac:(lia)) as K1.
  assert (K01 : X 0 < X (n-1)) by (apply (knots_lt xp (vs_x _ _ _ V)); unfold n in *; lia).
  unfold rqs_inv, spline_ld.
  rewrite !fhd_nth, !flast_nth, (vs_leny _ _ _ V), (vs_lens _ _ _ V). fold n. fold (X 0) (X (n-1)) (Y 0) (Y (n-1)) (D 0) (D (n-1)).
  destruct (Rle_dec (X (n-1)) x) as [Ha|Ha].
  { destruct (rq_bin_inv _ _) as [a b]. rewrite (proj2 (fle_R (Y (n-1)) (f x))) by (rewrite <- K1; now apply spline_le_iff).
    rewrite (fwd_above _ _ _ V) by auto. cbn [snd]. f_equal. rewrite spline_above by auto. cbn. field. apply Rgt_not_eq. exact H1. }
  replace (fle (Y (n-1)) (f x)) with false. 2:{ symmetry. apply fle_R_false. rewrite <- K1. apply spline_lt_iff. lra. }
  destruct (Rle_dec x (X 0)) as [Hb|Hb].
  { destruct (rq_bin_inv _ _) as [a b]. rewrite (proj2 (fle_R (f x) (Y 0))) by (rewrite <- K0; now apply spline_le_iff).
    rewrite (fwd_below _ _ _ V) by auto. cbn [snd]. f_equal. rewrite spline_below by auto. cbn. field. apply Rgt_not_eq. exact H0. }
  replace (fle (f x) (Y 0)) with false. 2:{ symmetry. apply fle_R_false. rewrite <- K0. apply spline_lt_iff. lra. }
  destruct (find_bin xp x) as (i & Hi & Hx); try (unfold X, n in *; first [lra|lia]).
  fold (X i) in Hx. fold (X (S i)) in Hx. fold n in Hi. destruct (bin_hyps _ _ _ V i Hi) as (G1 & G2 & G3 & G4).
  destruct (bin_mask_at yp (vs_y _ _ _ V) i (f x)) as [Hl Hm].
  { rewrite (vs_leny _ _ _ V). auto. }
  { fold (Y i) (Y (S i)). rewrite <- (spline_knot i), <- (spline_knot (S i)) by lia. rewrite spline_le_iff, spline_lt_iff. auto. }
  rewrite (vs_leny _ _ _ V) in Hl, Hm. rewrite (params_at _ _ _ V _ i Hl Hi Hm).
  unfold f, spline. rewrite (fwd_bin _ _ _ V i) by (auto; unfold X in *; lra). cbn [fst snd].
  rewrite rq_bin_inv_R; auto. unfold X in *; lra.
Qed.
Lemma fwd_of_inv y : f (spline_inv xp yp sl y) = y.
Proof. destruct (spline_onto y) as [x <-]. unfold spline_inv. now rewrite inv_of_fwd. Qed.
End Whole.
