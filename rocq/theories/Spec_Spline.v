(** Specification vocabulary for splines: what a valid set of spline parameters is, the point at
    which the code's discriminant clipping is harmless. *)
From Coq Require Import Reals.
From Verif Require Import Prelude Num M_Core M_Kernels M_Flow RNum.
Open Scope R_scope.

(** At least one bin; strictly increasing knots and knot values; positive slopes. *)
Record valid_spline (xp yp sl : list R) : Prop := {
  vs_len : (2 <= length xp)%nat;
  vs_leny : length yp = length xp;
  vs_lens : length sl = length xp;
  vs_x : forall i, (S i < length xp)%nat -> nth i xp 0 < nth (S i) xp 0;
  vs_y : forall i, (S i < length yp)%nat -> nth i yp 0 < nth (S i) yp 0;
  vs_s : forall i, (i < length sl)%nat -> 0 < nth i sl 0 }.

(** The spline as a real function and its reported log-derivative; likewise the inverse. *)
Definition spline (xp yp sl : list R) (x : R) : R := fst (rqs_fwd xp yp sl x).
Definition spline_ld (xp yp sl : list R) (x : R) : R := snd (rqs_fwd xp yp sl x).
Definition spline_inv (xp yp sl : list R) (y : R) : R := fst (rqs_inv xp yp sl y).
Definition spline_inv_ld (xp yp sl : list R) (y : R) : R := snd (rqs_inv xp yp sl y).

(** The inverse clips the square-root argument from below at the smallest normal float
    (2^-126).  A bin is well conditioned when the quantity s * min(d0, d1, s) / (s + (d0+d1)/4),
    a lower bound of the square root, is at least 2^-63. *)
Definition bin_conditioned (x0 x1 y0 y1 d0 d1 : R) : Prop :=
  let s := (y1 - y0) / (x1 - x0) in
  1 / 2 ^ 63 <= s * Rmin s (Rmin d0 d1) / (s + (d0 + d1) / 4).
Definition well_conditioned (xp yp sl : list R) : Prop :=
  forall i, (S i < length xp)%nat ->
    bin_conditioned (nth i xp 0) (nth (S i) xp 0) (nth i yp 0) (nth (S i) yp 0)
                    (nth i sl 0) (nth (S i) sl 0).

(** Parameters as the layer promises them: K bins spanning [lo, hi] on both axes, every bin at
    least [m] wide and high, every slope at least [ms]. *)
Record spline_within (K : nat) (lo hi m ms : R) (xp yp sl : list R) : Prop := {
  sw_valid : valid_spline xp yp sl;
  sw_bins : length xp = S K;
  sw_x0 : nth 0 xp 0 = lo; sw_xK : nth K xp 0 = hi;
  sw_y0 : nth 0 yp 0 = lo; sw_yK : nth K yp 0 = hi;
  sw_w : forall i, (i < K)%nat -> m <= nth (S i) xp 0 - nth i xp 0;
  sw_h : forall i, (i < K)%nat -> m <= nth (S i) yp 0 - nth i yp 0;
  sw_s : forall i, (i <= K)%nat -> ms <= nth i sl 0 }.

(** A spline layer whose settings are admissible. *)
Record rq_admissible (q : @rqspline RNum) : Prop := {
  ra_bins : (1 <= rq_bins q)%nat;
  ra_bin : 0 <= rq_min_bin q;
  ra_slope : 0 <= rq_min_slope q;
  ra_fit : INR (rq_bins q) * rq_min_bin q < rq_max q - rq_min q }.
(** The conditioner gives 3 K + 1 numbers for each of the n coordinates. *)
Definition rq_shape (q : @rqspline RNum) (n : nat) : Prop :=
  forall c, length c = n -> length (rq_cond q c) = (n * (rq_bins q * 3 + 1))%nat.
