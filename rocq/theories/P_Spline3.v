(** Proofs about the spline parameters built from a network output (C28). *)
From Coq Require Import Reals Psatz.
From Coquelicot Require Import Coquelicot.
From Verif Require Import Prelude Num M_Core M_Kernels M_Flow P_Lists RNum Spec_Spline P_Real1 P_Spline P_Spline2.
Open Scope R_scope.
Ltac rring q := let lo := fresh in let hi := fresh in pose (lo := rq_min q : R); pose (hi := rq_max q : R); change (rq_min q) with lo; change (rq_max q) with hi; clearbody lo hi; match goal with |- ?a = ?b => change (@eq R a b) end; ring.

Lemma softmax_len (u : list R) : length (@softmax RNum u) = length u.
Proof. unfold softmax. now rewrite !map_length. Qed.
Lemma softmax_nth (u : list R) : exists e : nat -> R, (forall i, 0 < e i) /\
  forall i, (i < length u)%nat -> nth i (@softmax RNum u) 0 = e i / Rsum (length u) e.
Proof.
  exists (fun i => exp (nth i u 0 - vmax u)). split; [intros; apply exp_pos|]. intros i Hi. unfold softmax.
  cbn [fsub fdiv fexp RNum].
  change (@nth R i (map (fun x => x / @fsum RNum (map (fun x0 => exp (x0 - vmax u)) u)) (map (fun x => exp (x - vmax u)) u)) 0 = exp (nth i u 0 - vmax u) / Rsum (length u) (fun i => exp (nth i u 0 - vmax u))).
  rewrite mapR by (rewrite map_length; auto). rewrite (mapR (fun x => exp (x - vmax u))) by auto. f_equal.
  rewrite fsumR, map_length. apply Rsum_ext. intros j Hj. now rewrite (mapR (fun x => exp (x - vmax u))) by auto.
Qed.
Lemma Rsum_pos n f : (0 < n)%nat -> (forall i, 0 < f i) -> 0 < Rsum n f.
Proof.
  destruct n; [lia|]. intros _ H. cbn [Rsum]. pose proof (Rsum_nonneg n f ltac:(intros; left; auto)). pose proof (H n). lra.
Qed.
Section Sizes.
Variables (u : list R) (T m : R).
Let K := length u.
Hypothesis HK : (0 < K)%nat.
Hypothesis Hm : 0 <= m.
Hypothesis HT : INR K * m < T.
Let sz := @normalize_bin_sizes RNum u T m.
Lemma sz_len : length sz = K.
Proof. unfold sz, normalize_bin_sizes. rewrite map_length. apply softmax_len. Qed.
Lemma sz_nth i : (i < K)%nat -> nth i sz 0 = nth i (@softmax RNum u) 0 * (T - INR K * m) + m.
Proof.
  intros Hi. unfold sz, normalize_bin_sizes. 
  change (@nth R i (map (fun s => s * (T - IZR (Z.of_nat (length u)) * m) + m) (@softmax RNum u)) 0 = nth i (@softmax RNum u) 0 * (T - INR K * m) + m).
  rewrite (mapR (fun s => s * (T - IZR (Z.of_nat (length u)) * m) + m)) by (rewrite softmax_len; auto). now rewrite <- INR_IZR_INZ.
Qed.
Lemma sz_lower i : (i < K)%nat -> m < nth i sz 0.
Proof.
  intros Hi. rewrite sz_nth by auto. destruct (softmax_nth u) as (e & He & Hn). rewrite Hn by auto. fold K.
  assert (0 < e i / Rsum K e) by (apply Rdiv_lt_0_compat; auto; now apply Rsum_pos).
  assert (0 < e i / Rsum K e * (T - INR K * m)) by (apply Rmult_lt_0_compat; lra). lra.
Qed.
Lemma sz_sum : Rsum K (fun i => nth i sz 0) = T.
Proof.
  rewrite (Rsum_ext _ _ (fun i => (T - INR K * m) * nth i (@softmax RNum u) 0 + m)).
  2:{ intros. rewrite sz_nth by auto. ring. }
  rewrite Rsum_plus, Rsum_scal, Rsum_const. destruct (softmax_nth u) as (e & He & Hn). fold K in Hn.
  rewrite (Rsum_ext K (fun i => nth i (softmax u) 0) (fun i => / Rsum K e * e i)).
  2:{ intros. rewrite Hn by auto. unfold Rdiv. ring. }
  rewrite Rsum_scal. pose proof (Rsum_pos K e HK He). field. lra.
Qed.
End Sizes.

Lemma cumsum_from_nth a (l : list R) i : (i < length l)%nat -> @nth R i (cumsum_from (N := RNum) a l) 0 = a + Rsum (S i) (fun j => nth j l 0).
Proof.
  revert a i. induction l as [|x l IH]; intros a i Hi; [cbn in Hi; lia|]. cbn [cumsum_from]. cbn [length] in Hi.
  destruct i; [cbn; ring|]. rewrite Rsum_S. cbn [nth]. rewrite IH by lia. cbn [fadd RNum]. ring.
Qed.
Lemma cumsum_len (l : list R) : length (@cumsum RNum l) = length l.
Proof.
  destruct l as [|x l]; [reflexivity|]. cbn. f_equal. generalize (x : R). clear x. induction l; intros; cbn; auto.
Qed.
Lemma cumsum_nth (l : list R) i : (i < length l)%nat -> @nth R i (@cumsum RNum l) 0 = Rsum (S i) (fun j => nth j l 0).
Proof.
  destruct l as [|x l]; intros Hi; [cbn in Hi; lia|]. cbn [cumsum]. destruct i; [cbn; ring|]. cbn [nth]. cbn [length] in Hi.
  rewrite cumsum_from_nth by lia. rewrite (Rsum_S (S i)). reflexivity.
Qed.

Section Knots2.
Variables (q : @rqspline RNum) (u : list R).
Let K := length u.
Hypothesis HK : (0 < K)%nat.
Hypothesis Hm : 0 <= rq_min_bin q.
Hypothesis HT : INR K * rq_min_bin q < rq_max q - rq_min q.
Let sz : list R := @normalize_bin_sizes RNum u (rq_max q - rq_min q) (rq_min_bin q).
Let kp : list R := @knot_positions RNum q u.
Lemma kp_len : length kp = S K.
Proof.
  unfold kp, knot_positions. cbn [length]. rewrite app_length, map_length. cbn [length]. change (@length F ?l) with (@length R l).
  rewrite cumsum_len, removelast_len. cbn [fsub RNum]. rewrite (sz_len u). fold K. lia.
Qed.
Lemma kp_nth i : (i <= K)%nat -> nth i kp 0 = rq_min q + Rsum i (fun j => nth j sz 0).
Proof.
  intros Hi. unfold kp, knot_positions. cbn [fsub RNum]. fold sz.
  change (@nth R i (rq_min q :: map (fun s => rq_min q + s) (@cumsum RNum (removelast sz)) ++ [rq_max q]) 0 = rq_min q + Rsum i (fun j => nth j sz 0)).
  destruct i as [|i]; [cbn; rring q|]. cbn [nth].
  assert (Hc : length (@cumsum RNum (removelast sz)) = (K - 1)%nat).
  { rewrite cumsum_len, removelast_len. unfold sz. now rewrite sz_len. }
  destruct (Nat.eq_dec i (K - 1)) as [->|Hne].
  - rewrite app_nth2 by (rewrite map_length; rnorm; lia). rewrite map_length. rnorm. rewrite Hc, Nat.sub_diag.
    change (nth 0 [rq_max q] 0) with (rq_max q). replace (S (K - 1)) with K by lia. unfold sz.
    rewrite (sz_sum u _ _ HK). rring q.
  - rewrite app_nth1 by (rewrite map_length; rnorm; lia). rewrite (mapR (fun s => rq_min q + s)) by (rnorm; lia).
    rewrite cumsum_nth by (rewrite removelast_len; unfold sz; rewrite sz_len; fold K; lia).
    f_equal. apply Rsum_ext. intros j Hj. apply nth_removelast. unfold sz. rewrite sz_len. fold K. lia.
Qed.
Lemma kp_gap i : (i < K)%nat -> nth (S i) kp 0 - nth i kp 0 = nth i sz 0.
Proof. intros. rewrite !kp_nth by lia. cbn [Rsum]. ring. Qed.
Lemma kp_gap_lower i : (i < K)%nat -> rq_min_bin q < nth (S i) kp 0 - nth i kp 0.
Proof. intros. rewrite kp_gap by auto. unfold sz. apply sz_lower; auto. Qed.
Lemma kp_first : nth 0 kp 0 = rq_min q. Proof. reflexivity. Qed.
Lemma kp_last : nth K kp 0 = rq_max q.
Proof. rewrite kp_nth by lia. pose proof (sz_sum u (rq_max q - rq_min q) (rq_min_bin q) HK) as H. fold K in H. change (rq_min q + Rsum K (fun i => nth i (@normalize_bin_sizes RNum u (rq_max q - rq_min q) (rq_min_bin q)) 0) = rq_max q). rewrite H. rring q. Qed.
Lemma kp_inc i : (S i < length kp)%nat -> nth i kp 0 < nth (S i) kp 0.
Proof. rewrite kp_len. intros. pose proof (kp_gap_lower i ltac:(lia)). lra. Qed.
End Knots2.

(** softplus in closed form *)
Lemma softplus_R v : @softplus RNum v = ln (1 + exp v).
Proof.
  unfold softplus, fabs, f0, f1. rewrite fmax_R. cbn [fofZ fadd fneg fln fexp RNum].
  destruct (flt v 0) eqn:E.
  - apply flt_R in E. rewrite Rmax_right by lra. rewrite Ropp_involutive. cbn. ring.
  - apply flt_R_false in E. rewrite Rmax_left by lra. rewrite <- (ln_exp v) at 1.
    rewrite <- ln_mult. 2: apply exp_pos. 2: pose proof (exp_pos (- v)); lra. f_equal.
    rewrite Rmult_plus_distr_l, <- exp_plus. replace (v + - v) with 0 by ring. rewrite exp_0. ring.
Qed.
Lemma softplus_pos v : 0 < @softplus RNum v.
Proof. rewrite softplus_R. rewrite <- ln_1. apply ln_increasing; [lra|]. pose proof (exp_pos v). lra. Qed.
Lemma slopes_nth (u : list R) (ms : R) i : (i < length u)%nat ->
  nth i (@normalize_knot_slopes RNum u ms) 0 = @softplus RNum (nth i u 0 + ln (exp (1 - ms) - 1)) + ms.
Proof. intros. unfold normalize_knot_slopes. exact (mapR (fun x => softplus (x + ln (exp (1 - ms) - 1)) + ms) u i H). Qed.
Lemma slopes_len (u : list R) (ms : R) : length (@normalize_knot_slopes RNum u ms) = length u.
Proof. apply map_length. Qed.
Lemma slopes_lower (u : list R) (ms : R) i : (i < length u)%nat -> ms < nth i (@normalize_knot_slopes RNum u ms) 0.
Proof. intros. rewrite slopes_nth by auto. match goal with |- _ < @softplus RNum ?v + _ => pose proof (softplus_pos v) end. lra. Qed.
Lemma slopes_zero (u : list R) (ms : R) i : ms < 1 -> (i < length u)%nat -> nth i u 0 = 0 -> nth i (@normalize_knot_slopes RNum u ms) 0 = 1.
Proof.
  intros Hms Hi H0. rewrite slopes_nth, H0, Rplus_0_l by auto. rewrite softplus_R.
  assert (1 < exp (1 - ms)). { pose proof (exp_ineq1 (1 - ms) ltac:(lra)). lra. }
  rewrite exp_ln by lra. replace (1 + (exp (1 - ms) - 1)) with (exp (1 - ms)) by ring. rewrite ln_exp. match goal with |- ?a = ?b => change (@eq R a b) end; ring.
Qed.

(** One row of the network output. *)
Lemma slice_lenR a b (l : list R) : (a <= b)%nat -> (b <= length l)%nat -> length (slice a b l) = (b - a)%nat.
Proof. intros. unfold slice. rewrite firstn_length, skipn_length. lia. Qed.
Section Row.
Variables (q : @rqspline RNum) (row : list R).
Let K := rq_bins q.
Hypothesis HK : (1 <= K)%nat.
Hypothesis Hrow : length row = (3 * K + 1)%nat.
Hypothesis Hm : 0 <= rq_min_bin q.
Hypothesis Hs : 0 <= rq_min_slope q.
Hypothesis HT : INR K * rq_min_bin q < rq_max q - rq_min q.
Lemma row_split : exists u1 u2 u3 : list R, length u1 = K /\ length u2 = K /\ length u3 = S K /\ u3 = skipn (2 * K) row /\
  @row_params RNum q row = (knot_positions q u1, knot_positions q u2, normalize_knot_slopes u3 (rq_min_slope q)).
Proof.
  exists (firstn K row), (slice K (2 * K) row), (skipn (2 * K) row). repeat split.
  - rewrite firstn_length. lia.
  - rewrite slice_lenR by lia. lia.
  - rewrite skipn_length. lia.
Qed.
Lemma row_ok xp yp sl : @row_params RNum q row = (xp, yp, sl) ->
  valid_spline xp yp sl /\ length xp = S K /\
  (nth 0 xp 0 = rq_min q /\ nth K xp 0 = rq_max q) /\ (nth 0 yp 0 = rq_min q /\ nth K yp 0 = rq_max q) /\
  (forall i, (i < K)%nat -> rq_min_bin q <= nth (S i) xp 0 - nth i xp 0 /\ rq_min_bin q <= nth (S i) yp 0 - nth i yp 0) /\
  (forall i, (i <= K)%nat -> rq_min_slope q <= nth i sl 0).
Proof.
  destruct row_split as (u1 & u2 & u3 & L1 & L2 & L3 & _ & ->). intros E. injection E as <- <- <-.
  assert (K1 : (0 < length u1)%nat) by lia. assert (K2 : (0 < length u2)%nat) by lia.
  assert (T1 : INR (length u1) * rq_min_bin q < rq_max q - rq_min q) by (rewrite L1; auto).
  assert (T2 : INR (length u2) * rq_min_bin q < rq_max q - rq_min q) by (rewrite L2; auto).
  pose proof (kp_len q u1 K1) as N1. pose proof (kp_len q u2 K2) as N2. rnorm.
  pose proof (slopes_len u3 (rq_min_slope q)) as N3. rnorm.
  split; [|repeat split].
  - constructor; rnorm; try lia.
    + intros i Hi. apply (kp_inc q u1 K1 Hm T1 i Hi).
    + intros i Hi. apply (kp_inc q u2 K2 Hm T2 i Hi).
    + intros i Hi. pose proof (slopes_lower u3 (rq_min_slope q) i ltac:(lia)). rnorm. lra.
  - lia.
  - rewrite <- L1. apply (kp_last q u1 K1).
  - rewrite <- L2. apply (kp_last q u2 K2).
  - left. apply (kp_gap_lower q u1 K1 T1). lia.
  - left. apply (kp_gap_lower q u2 K2 T2). lia.
  - intros i Hi. left. apply slopes_lower. lia.
Qed.
Lemma row_zero xp yp sl i : @row_params RNum q row = (xp, yp, sl) -> rq_min_slope q < 1 -> (i <= K)%nat -> nth (2 * K + i) row 0 = 0 -> nth i sl 0 = 1.
Proof.
  destruct row_split as (u1 & u2 & u3 & L1 & L2 & L3 & Eu & ->). intros E H1 Hi Hz. injection E as <- <- <-.
  apply slopes_zero; auto; [lia|]. rewrite Eu. transitivity (@nth R (2 * K + i) row 0); [apply nth_skipn|exact Hz].
Qed.
End Row.

(** Bins of size between m and T and slopes between a and b are well conditioned. *)
Lemma cond_bounds m T a b x0 x1 y0 y1 d0 d1 :
  0 < m -> m <= x1 - x0 <= T -> m <= y1 - y0 <= T -> 0 < a -> a <= d0 <= b -> a <= d1 <= b ->
  1 / 2 ^ 63 <= m / T * Rmin (m / T) a / (m / T + b / 2) ->
  bin_conditioned x0 x1 y0 y1 d0 d1.
Proof.
  intros Hm Hw Hh Ha H0 H1 HB. unfold bin_conditioned. eapply Rle_trans; [exact HB|].
  set (s := (y1 - y0) / (x1 - x0)). set (r := m / T) in * .
  assert (Hr : 0 < r) by (apply Rdiv_lt_0_compat; lra).
  assert (Hs : r <= s).
  { unfold r, s, Rdiv. apply Rmult_le_compat; try lra.
    - left. apply Rinv_0_lt_compat. lra.
    - apply Rinv_le_contravar; lra. }
  set (mu := Rmin r a). assert (Hmu : 0 < mu /\ mu <= r /\ mu <= a).
  { unfold mu. repeat split; [apply Rmin_glb_lt; auto|apply Rmin_l|apply Rmin_r]. }
  assert (Hmin : mu <= Rmin s (Rmin d0 d1)) by (repeat apply Rmin_glb; lra).
  replace (s * Rmin s (Rmin d0 d1) / (s + (d0 + d1) / 4)) with (s / (s + (d0 + d1) / 4) * Rmin s (Rmin d0 d1)) by (field; lra).
  replace (r * mu / (r + b / 2)) with (r / (r + b / 2) * mu) by (field; lra).
  apply Rmult_le_compat; try lra. { left. apply Rdiv_lt_0_compat; lra. }
  assert (Hc : 0 < s + (d0 + d1) / 4) by lra. apply (proj1 (Rle_div_r (r / (r + b / 2)) s (s + (d0 + d1) / 4) Hc)). replace (r / (r + b / 2) * (s + (d0 + d1) / 4)) with (r * (s + (d0 + d1) / 4) / (r + b / 2)) by (field; lra).
  apply Rle_div_l; [lra|]. assert (r * ((d0 + d1) / 4) <= s * (b / 2)) by (apply Rmult_le_compat; lra). lra.
Qed.
Lemma row_conditioned (q : @rqspline RNum) (row : list R) b xp yp sl :
  (1 <= rq_bins q)%nat -> length row = (3 * rq_bins q + 1)%nat -> 0 < rq_min_bin q -> 0 < rq_min_slope q ->
  INR (rq_bins q) * rq_min_bin q < rq_max q - rq_min q ->
  @row_params RNum q row = (xp, yp, sl) -> (forall i, (i <= rq_bins q)%nat -> nth i sl 0 <= b) ->
  (let r := rq_min_bin q / (rq_max q - rq_min q) in 1 / 2 ^ 63 <= r * Rmin r (rq_min_slope q) / (r + b / 2)) ->
  well_conditioned xp yp sl.
Proof.
  intros HK Hrow Hm Hs HT E Hb HB. 
  destruct (row_ok q row HK Hrow ltac:(rnorm; lra) ltac:(rnorm; lra) HT xp yp sl E) as (V & L & [X0 XK] & [Y0 YK] & Hg & Hsl).
  intros i Hi. rnorm. rewrite L in Hi.
  assert (Hgap : forall p : list R, (forall i, (S i < length p)%nat -> nth i p 0 < nth (S i) p 0) -> length p = S (rq_bins q) -> nth 0 p 0 = rq_min q -> nth (rq_bins q) p 0 = rq_max q -> nth (S i) p 0 - nth i p 0 <= rq_max q - rq_min q).
  { intros p Hp Lp P0 PK. pose proof (knots_le p Hp 0 i ltac:(lia) ltac:(lia)). pose proof (knots_le p Hp (S i) (rq_bins q) ltac:(lia) ltac:(lia)). rnorm. lra. }
  destruct (Hg i) as [G1 G2]; [lia|].
  apply (cond_bounds (rq_min_bin q) (rq_max q - rq_min q) (rq_min_slope q) b); auto.
  - split; auto. apply Hgap; auto. apply (vs_x _ _ _ V).
  - split; auto. apply Hgap; auto. apply (vs_y _ _ _ V). rewrite (vs_leny _ _ _ V). auto.
  - split; [apply Hsl|apply Hb]; lia.
  - split; [apply Hsl|apply Hb]; lia.
Qed.
Lemma default_bound : let r := (1 / 10000) / (10 - (-10)) in 1 / 2 ^ 63 <= r * Rmin r (1 / 10000) / (r + 400000000 / 2).
Proof.
  intros r. assert (Hr : r = 1 / 200000) by (unfold r; field). rewrite Hr. rewrite Rmin_left by lra.
  simpl pow. lra.
Qed.

Lemma get_params_len (q : @rqspline RNum) n c : length (get_params q n c) = n.
Proof. unfold get_params. rewrite map_length. apply reshape_rows_length. Qed.
Lemma get_params_nth (q : @rqspline RNum) n c i d : rq_shape q n -> length c = n -> (i < n)%nat ->
  exists row : list R, length row = (3 * rq_bins q + 1)%nat /\ nth i (get_params q n c) d = row_params q row /\
    row = slice (i * (rq_bins q * 3 + 1)) (i * (rq_bins q * 3 + 1) + (rq_bins q * 3 + 1)) (rq_cond q c).
Proof.
  intros Hs Hc Hi. specialize (Hs c Hc). eexists. split; [|split; [|reflexivity]].
  - rewrite slice_lenR; [lia|lia|]. rnorm. rewrite Hs. nia.
  - unfold get_params. rewrite (nth_map' _ _ i [] d) by (now rewrite reshape_rows_length). now rewrite nth_reshape_rows.
Qed.
Lemma C28_proof (q : @rqspline RNum) n c j : rq_admissible q -> rq_shape q n -> length c = n -> (j < n)%nat ->
  exists xp yp sl, nth j (get_params q n c) ([], [], []) = (xp, yp, sl) /\
  spline_within (rq_bins q) (rq_min q) (rq_max q) (rq_min_bin q) (rq_min_slope q) xp yp sl.
Proof.
  intros [H1 H2 H3 H4] Hs Hc Hj. destruct (get_params_nth q n c j ([], [], []) Hs Hc Hj) as (row & Hr & -> & _).
  destruct (row_params q row) as [[xp yp] sl] eqn:E. exists xp, yp, sl. split; auto.
  destruct (row_ok q row H1 Hr H2 H3 H4 xp yp sl E) as (V & L & [X0 XK] & [Y0 YK] & Hg & Hsl).
  constructor; auto; intros; now apply Hg.
Qed.
Lemma nth_sliceR a b (l : list R) i : (a + i < b)%nat -> nth i (slice a b l) 0 = nth (a + i) l 0.
Proof. intros. unfold slice. rewrite nth_firstn by lia. apply nth_skipn. Qed.
Lemma C28_zero_proof (q : @rqspline RNum) n c j i xp yp sl : rq_admissible q -> rq_min_slope q < 1 -> rq_shape q n -> length c = n ->
  (j < n)%nat -> nth j (get_params q n c) ([], [], []) = (xp, yp, sl) -> (i <= rq_bins q)%nat ->
  nth (j * (rq_bins q * 3 + 1) + 2 * rq_bins q + i) (rq_cond q c) 0 = 0 -> nth i sl 0 = 1.
Proof.
  intros [H1 H2 H3 H4] Hlt Hs Hc Hj E Hi Hz. destruct (get_params_nth q n c j ([], [], []) Hs Hc Hj) as (row & Hr & E' & Er).
  rewrite E in E'. apply (row_zero q row H1 Hr xp yp sl i); auto. rewrite Er. rewrite nth_sliceR by lia. rewrite Nat.add_assoc. exact Hz.
Qed.
Lemma C28_wc_proof (q : @rqspline RNum) n c j b xp yp sl : rq_admissible q -> 0 < rq_min_bin q -> 0 < rq_min_slope q -> rq_shape q n -> length c = n ->
  (j < n)%nat -> nth j (get_params q n c) ([], [], []) = (xp, yp, sl) -> (forall i, (i <= rq_bins q)%nat -> nth i sl 0 <= b) ->
  (let r := rq_min_bin q / (rq_max q - rq_min q) in 1 / 2 ^ 63 <= r * Rmin r (rq_min_slope q) / (r + b / 2)) ->
  well_conditioned xp yp sl.
Proof.
  intros [H1 H2 H3 H4] Hm Hsl Hs Hc Hj E Hb HB. destruct (get_params_nth q n c j ([], [], []) Hs Hc Hj) as (row & Hr & E' & _).
  rewrite E in E'. eapply row_conditioned; eauto.
Qed.
Lemma C28_default_proof (q : @rqspline RNum) n c j xp yp sl :
  rq_min q = -10 -> rq_max q = 10 -> rq_min_bin q = 1 / 10000 -> rq_min_slope q = 1 / 10000 ->
  (1 <= rq_bins q)%nat -> INR (rq_bins q) < 200000 -> rq_shape q n -> length c = n -> (j < n)%nat ->
  nth j (get_params q n c) ([], [], []) = (xp, yp, sl) -> (forall i, (i <= rq_bins q)%nat -> nth i sl 0 <= 400000000) ->
  valid_spline xp yp sl /\ well_conditioned xp yp sl.
Proof.
  intros Hlo Hhi Hm Hs HK HK2 Hsh Hc Hj E Hb.
  assert (A : rq_admissible q).
  { constructor; rewrite ?Hlo, ?Hhi, ?Hm, ?Hs; try lra. lia. }
  split.
  - destruct (C28_proof q n c j A Hsh Hc Hj) as (a & b & d & E' & W). rewrite E in E'. injection E' as <- <- <-. apply (sw_valid _ _ _ _ _ _ _ _ W).
  - eapply (C28_wc_proof q n c j 400000000); eauto; rewrite ?Hlo, ?Hhi, ?Hm, ?Hs; try lra. apply default_bound.
Qed.
