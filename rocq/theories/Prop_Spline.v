(** Properties C25-C28: the rational-quadratic spline, in exact real arithmetic. *)
From Coq Require Import Reals Psatz.
From Coquelicot Require Import Coquelicot.
From Verif Require Import Prelude Num M_Core M_Kernels M_Flow RNum Spec_Spline P_Spline P_Spline2 P_Spline3.
Open Scope R_scope.

(* ==================================================================================== *)
(** C25.  Strictly increasing, continuous, onto, passes through the knots, linear outside. *)
Theorem C25_strictly_increasing : forall xp yp sl, valid_spline xp yp sl ->
  forall x y, x < y -> spline xp yp sl x < spline xp yp sl y.
Proof. exact spline_incr. Qed.
Theorem C25_onto : forall xp yp sl, valid_spline xp yp sl -> forall y, exists x, spline xp yp sl x = y.
Proof. exact spline_onto. Qed.
Theorem C25_continuous : forall xp yp sl, valid_spline xp yp sl -> forall x, continuous (spline xp yp sl) x.
Proof. exact spline_continuous. Qed.
Theorem C25_knots : forall xp yp sl, valid_spline xp yp sl ->
  forall i, (i < length xp)%nat -> spline xp yp sl (nth i xp 0) = nth i yp 0.
Proof. exact spline_knot. Qed.
Theorem C25_linear_outside : forall xp yp sl, valid_spline xp yp sl -> let K := (length xp - 1)%nat in
  (forall x, x <= nth 0 xp 0 -> spline xp yp sl x = (x - nth 0 xp 0) * nth 0 sl 0 + nth 0 yp 0) /\
  (forall x, nth K xp 0 <= x -> spline xp yp sl x = (x - nth K xp 0) * nth K sl 0 + nth K yp 0).
Proof. intros xp yp sl V. exact (conj (spline_below xp yp sl V) (spline_above xp yp sl V)). Qed.

(* ==================================================================================== *)
(** C26.  The inverse undoes the spline, in both orders, on the whole line. *)
Theorem C26_inverse_of_forward : forall xp yp sl, valid_spline xp yp sl -> well_conditioned xp yp sl ->
  forall x, spline_inv xp yp sl (spline xp yp sl x) = x.
Proof. intros xp yp sl V W x. exact (f_equal fst (inv_of_fwd xp yp sl V W x)). Qed.
Theorem C26_forward_of_inverse : forall xp yp sl, valid_spline xp yp sl -> well_conditioned xp yp sl ->
  forall y, spline xp yp sl (spline_inv xp yp sl y) = y.
Proof. exact fwd_of_inv. Qed.

(* ==================================================================================== *)
(** C27.  The reported log-determinant is ln of the derivative, everywhere (knots and range ends
    included); the inverse reports the opposite. *)
Theorem C27_logdet : forall xp yp sl, valid_spline xp yp sl ->
  forall x, exists d, is_derive (spline xp yp sl) x d /\ 0 < d /\ spline_ld xp yp sl x = ln d.
Proof.
  intros xp yp sl V x. exact (ex_intro _ _ (conj (spline_derive xp yp sl V x) (conj (exp_pos _) (eq_sym (ln_exp _))))).
Qed.
Theorem C27_inverse_logdet : forall xp yp sl, valid_spline xp yp sl -> well_conditioned xp yp sl ->
  forall x, spline_inv_ld xp yp sl (spline xp yp sl x) = - spline_ld xp yp sl x.
Proof. intros xp yp sl V W x. exact (f_equal snd (inv_of_fwd xp yp sl V W x)). Qed.

(* ==================================================================================== *)
(** C28.  Whatever the conditioner outputs, every coordinate gets a valid spline. *)
Theorem C28_valid : forall (q : @rqspline RNum) n c, rq_admissible q -> rq_shape q n -> length c = n ->
  length (get_params q n c) = n /\
  forall j, (j < n)%nat -> exists xp yp sl, nth j (get_params q n c) ([], [], []) = (xp, yp, sl) /\
    spline_within (rq_bins q) (rq_min q) (rq_max q) (rq_min_bin q) (rq_min_slope q) xp yp sl.
Proof. intros q n c A S L. exact (conj (get_params_len q n c) (fun j => C28_proof q n c j A S L)). Qed.

(** A zero in the slope part of the output (the last K + 1 of each row) gives slope one. *)
Theorem C28_zero_slope : forall (q : @rqspline RNum) n c j i xp yp sl,
  rq_admissible q -> rq_min_slope q < 1 -> rq_shape q n -> length c = n ->
  (j < n)%nat -> nth j (get_params q n c) ([], [], []) = (xp, yp, sl) -> (i <= rq_bins q)%nat ->
  nth (j * (rq_bins q * 3 + 1) + 2 * rq_bins q + i) (rq_cond q c) 0 = 0 -> nth i sl 0 = 1.
Proof. exact C28_zero_proof. Qed.

(** With the default settings (range (-10, 10), minimum bin size and slope 1e-4, fewer than
    200000 bins) the parameters also satisfy the condition of C26, as long as no slope exceeds
    4e8. *)
Theorem C28_default_well_conditioned : forall (q : @rqspline RNum) n c j xp yp sl,
  rq_min q = -10 -> rq_max q = 10 -> rq_min_bin q = 1 / 10000 -> rq_min_slope q = 1 / 10000 ->
  (1 <= rq_bins q)%nat -> INR (rq_bins q) < 200000 -> rq_shape q n -> length c = n -> (j < n)%nat ->
  nth j (get_params q n c) ([], [], []) = (xp, yp, sl) ->
  (forall i, (i <= rq_bins q)%nat -> nth i sl 0 <= 400000000) ->
  valid_spline xp yp sl /\ well_conditioned xp yp sl.
Proof. exact C28_default_proof. Qed.

(* ==================================================================================== *)
(** Concrete cases meeting the hypotheses. *)
Example ex_valid : valid_spline [0; 1; 3] [0; 2; 3] [1; 1 / 2; 2] /\ well_conditioned [0; 1; 3] [0; 2; 3] [1; 1 / 2; 2].
Proof.
  split.
  - constructor; cbn [length]; try lia; intros [|[|[|i]]] Hi; cbn [nth] in *; try lia; lra.
  - intros [|[|i]] Hi; cbn [nth length] in *; try lia; unfold bin_conditioned; simpl pow;
      repeat (unfold Rmin; destruct (Rle_dec _ _)); lra.
Qed.
Example ex_value : spline [0; 1; 3] [0; 2; 3] [1; 1 / 2; 2] 1 = 2 /\ spline [0; 1; 3] [0; 2; 3] [1; 1 / 2; 2] 5 = 7.
Proof.
  split.
  - exact (C25_knots _ _ _ (proj1 ex_valid) 1%nat ltac:(cbn; lia)).
  - rewrite (proj2 (C25_linear_outside _ _ _ (proj1 ex_valid))); cbn [nth length Nat.sub]; lra.
Qed.
(** The default layer with 4 bins on 2 coordinates and a non-constant conditioner. *)
Definition ex_q : @rqspline RNum := @mkRQ RNum (-10) 10 4 (1 / 10000) (1 / 10000) (fun c => repeat (nth 0 c 0 * 3) 26).
Example ex_admissible : rq_admissible ex_q /\ rq_shape ex_q 2.
Proof.
  split.
  - constructor; cbn [ex_q rq_bins rq_min_bin rq_min_slope rq_max rq_min]; try lra; [lia|]. cbn [INR]. lra.
  - intros c _. reflexivity.
Qed.

Print Assumptions C25_strictly_increasing.
Print Assumptions C25_onto.
Print Assumptions C25_continuous.
Print Assumptions C25_knots.
Print Assumptions C25_linear_outside.
Print Assumptions C26_inverse_of_forward.
Print Assumptions C26_forward_of_inverse.
Print Assumptions C27_logdet.
Print Assumptions C27_inverse_logdet.
Print Assumptions C28_valid.
Print Assumptions C28_zero_slope.
Print Assumptions C28_default_well_conditioned.
