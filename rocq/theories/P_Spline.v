(** Proofs about the rational-quadratic spline (C25-C27). *)
From Coq Require Import Reals Psatz.
From Coquelicot Require Import Coquelicot.
From Verif Require Import Prelude Num M_Core M_Kernels M_Flow P_Lists RNum Spec_Spline P_Real1.
Open Scope R_scope.

(* ------------------------------------------------------------------ one bin *)
Section Bin.
Variables x0 x1 y0 y1 d0 d1 : R.
Hypothesis Hx : x0 < x1.
Hypothesis Hy : y0 < y1.
Hypothesis Hd0 : 0 < d0.
Hypothesis Hd1 : 0 < d1.
Let w := x1 - x0.
Let h := y1 - y0.
Let s := h / w.
Let zc x := (x - x0) / w.
Let den z := s + (d1 + d0 - 2 * s) * (z - z * z).
Let top z := d1 * (z * z) + 2 * s * (z - z * z) + d0 * ((1 - z) * (1 - z)).
Definition Phi x := y0 + h * (s * (zc x * zc x) + d0 * (zc x - zc x * zc x)) / den (zc x).
Definition dPhi x := s * s * top (zc x) / (den (zc x) * den (zc x)).

Lemma w_pos : 0 < w. Proof. unfold w; lra. Qed.
Lemma h_pos : 0 < h. Proof. unfold h; lra. Qed.
Lemma s_pos : 0 < s. Proof. apply Rdiv_lt_0_compat; [apply h_pos|apply w_pos]. Qed.
Lemma den_pos z : 0 <= z <= 1 -> 0 < den z.
Proof.
  intros Hz. unfold den. pose proof s_pos.
  assert (0 <= z - z * z <= 1 / 4). { split; [nra|]. pose proof (Rle_0_sqr (z - 1/2)) as Hq. unfold Rsqr in Hq. lra. } set (q := z - z * z) in * .
  assert (0 < s * (1 - 2 * q)) by (apply Rmult_lt_0_compat; lra).
  assert (0 <= (d0 + d1) * q) by (apply Rmult_le_pos; lra). nra.
Qed.
Lemma top_pos z : 0 <= z <= 1 -> 0 < top z.
Proof.
  intros Hz. unfold top. pose proof s_pos.
  assert (0 <= z - z * z) by nra. assert (0 <= s * (z - z*z)) by (apply Rmult_le_pos; lra).
  assert (0 <= d1 * (z * z)) by (apply Rmult_le_pos; [lra|apply Rmult_le_pos; lra]).
  assert (0 <= d0 * ((1-z)*(1-z))) by (apply Rmult_le_pos; [lra|apply Rmult_le_pos; lra]).
  destruct (Rle_dec z (1/2)).
  - assert (0 < d0 * ((1-z)*(1-z))) by (apply Rmult_lt_0_compat; [lra|apply Rmult_lt_0_compat; lra]). lra.
  - assert (0 < d1 * (z * z)) by (apply Rmult_lt_0_compat; [lra|apply Rmult_lt_0_compat; lra]). lra.
Qed.
Lemma zc_range x : x0 <= x <= x1 -> 0 <= zc x <= 1.
Proof.
  intros. unfold zc. pose proof w_pos. split.
  - apply Rdiv_le_0_compat; lra.
  - apply Rle_div_l; unfold w in *; lra.
Qed.
Lemma Phi_derive x : x0 <= x <= x1 -> is_derive Phi x (dPhi x).
Proof.
  intros Hr. pose proof (den_pos _ (zc_range x Hr)) as Hd. pose proof w_pos as Hw.
  set (ph := fun z => y0 + h * (s * (z * z) + d0 * (z - z * z)) / den z).
  assert (H1 : is_derive ph (zc x) (h * s * top (zc x) / (den (zc x) * den (zc x)))).
  { unfold ph, den, top in * . generalize dependent (zc x). intros z Hd. auto_derive.
    - apply Rgt_not_eq. exact Hd.
    - field. apply Rgt_not_eq. exact Hd. }
  assert (H2 : is_derive zc x (/ w)).
  { unfold zc. auto_derive; auto. field. lra. }
  pose proof (is_derive_comp ph zc x _ _ H1 H2) as H3. unfold Phi.
  replace (dPhi x) with (scal (/ w) (h * s * top (zc x) / (den (zc x) * den (zc x)))); [exact H3|].
  unfold dPhi. change (/ w * (h * s * top (zc x) / (den (zc x) * den (zc x))) = s * s * top (zc x) / (den (zc x) * den (zc x))).
  replace (s * s) with (s * (h / w)) by reflexivity. field. split; lra.
Qed.
Lemma zc_0 : zc x0 = 0. Proof. unfold zc, Rdiv. ring. Qed.
Lemma zc_1 : zc x1 = 1. Proof. unfold zc, w. field. lra. Qed.
Lemma Phi_left : Phi x0 = y0.
Proof. unfold Phi. rewrite zc_0. unfold den, Rdiv. ring. Qed.
Lemma Phi_right : Phi x1 = y1.
Proof. unfold Phi. rewrite zc_1. pose proof s_pos. unfold den. replace (s + (d1 + d0 - 2 * s) * (1 - 1 * 1)) with s by ring. unfold h at 1. field. lra. Qed.
Lemma dPhi_left : dPhi x0 = d0.
Proof. unfold dPhi. rewrite zc_0. pose proof s_pos. unfold den, top. field. lra. Qed.
Lemma dPhi_right : dPhi x1 = d1.
Proof. unfold dPhi. rewrite zc_1. pose proof s_pos. unfold den, top. field. lra. Qed.
Lemma dPhi_pos x : x0 <= x <= x1 -> 0 < dPhi x.
Proof.
  intros Hr. pose proof (den_pos _ (zc_range x Hr)). pose proof (top_pos _ (zc_range x Hr)). pose proof s_pos.
  unfold dPhi. apply Rdiv_lt_0_compat; [apply Rmult_lt_0_compat; [apply Rmult_lt_0_compat|]|apply Rmult_lt_0_compat]; assumption.
Qed.
Lemma clip01 z : 0 <= z <= 1 -> Rmin (Rmax z 0) 1 = z.
Proof. intros. rewrite Rmax_left, Rmin_left; lra. Qed.
Lemma rq_bin_fwd_R x : x0 <= x <= x1 -> rq_bin_fwd (mkBinp x0 x1 y0 y1 d0 d1) x = (Phi x, ln (dPhi x)).
Proof.
  intros Hr. pose proof (den_pos _ (zc_range x Hr)) as Hd. pose proof (top_pos _ (zc_range x Hr)) as Ht. pose proof s_pos as Hs.
  unfold rq_bin_fwd. cbn [bx0 bx1 by0 by1 bd0 bd1]. unfold f0, f1, f2, fsq. cbn [fofZ fsub fadd fmul fdiv fln RNum].
  rewrite fclip_R. change ((x - x0) / (x1 - x0)) with (zc x). rewrite clip01 by now apply zc_range.
  change ((y1 - y0) / (x1 - x0)) with s. f_equal.
  unfold dPhi, Rdiv. rewrite ln_mult, ln_Rinv, !ln_mult; auto; try (apply Rmult_lt_0_compat; [try apply Rmult_lt_0_compat|]; assumption); try (apply Rmult_lt_0_compat; assumption).
  - unfold den, top. set (z := zc x). ring.
  - apply Rinv_0_lt_compat. now apply Rmult_lt_0_compat.
Qed.

(** The discriminant's square root in closed form. *)
Let yv x := (s * (zc x * zc x) + d0 * (zc x - zc x * zc x)) / den (zc x).
Let rt x := s * top (zc x) / den (zc x).
Lemma rt_lower x : x0 <= x <= x1 -> s * Rmin s (Rmin d0 d1) / (s + (d0 + d1) / 4) <= rt x.
Proof.
  intros Hr. pose proof (zc_range x Hr) as Hz. pose proof (den_pos _ Hz) as Hd. pose proof s_pos as Hs. unfold rt.
  set (z := zc x) in * . clearbody z. set (m := Rmin s (Rmin d0 d1)).
  assert (Hm : 0 < m /\ m <= s /\ m <= d0 /\ m <= d1).
  { unfold m. pose proof (Rmin_l s (Rmin d0 d1)). pose proof (Rmin_r s (Rmin d0 d1)).
    pose proof (Rmin_l d0 d1). pose proof (Rmin_r d0 d1). repeat split; try lra.
    repeat apply Rmin_glb_lt; auto. }
  clearbody m. assert (Hq : 0 <= z - z * z <= 1 / 4). { split; [nra|]. pose proof (Rle_0_sqr (z - 1/2)) as Hq. unfold Rsqr in Hq. lra. }
  assert (Hzz : 0 <= z * z) by nra. assert (H1z : 0 <= (1 - z) * (1 - z)) by nra.
  assert (Ht : m <= top z).
  { unfold top. assert (m * (z * z) <= d1 * (z * z)) by (apply Rmult_le_compat_r; lra).
    assert (m * ((1 - z) * (1 - z)) <= d0 * ((1 - z) * (1 - z))) by (apply Rmult_le_compat_r; lra).
    assert (m * (z - z * z) <= s * (z - z * z)) by (apply Rmult_le_compat_r; lra). lra. }
  assert (Hden : den z <= s + (d0 + d1) / 4).
  { unfold den. assert (0 <= s * (z - z * z)) by (apply Rmult_le_pos; lra).
    assert ((d0 + d1) * (z - z * z) <= (d0 + d1) * (1 / 4)) by (apply Rmult_le_compat_l; lra). lra. }
  unfold Rdiv. rewrite !Rmult_assoc. apply Rmult_le_compat_l; [lra|].
  apply Rmult_le_compat; try lra. { apply Rlt_le, Rinv_0_lt_compat. lra. }
  apply Rinv_le_contravar; auto.
Qed.
Lemma quad_root (a b c z r : R) :
  a * (z * z) + b * z + c = 0 -> r = 2 * a * z + b -> 0 < r -> 1 / 2 ^ 63 <= r -> (b < 0 -> 0 < a) ->
  safe_quadratic_root a b c = z.
Proof.
  intros Hq Hr Hp Hc Ha. unfold safe_quadratic_root, f4, f2, f0, ftiny, f1. cbn [fofZ fsub fadd fmul fdiv fneg fsqrt RNum].
  assert (HD : b * b - 4 * a * c = r * r). { replace c with (- (a * (z * z) + b * z)) by lra. rewrite Hr. ring. }
  rewrite HD, fmax_R.
  assert (Ht : 1 / IZR (2 ^ 126) <= r * r).
  { replace (1 / IZR (2 ^ 126)) with ((1 / 2 ^ 63) * (1 / 2 ^ 63)).
    - assert (0 <= 1 / 2 ^ 63). { apply Rlt_le, Rdiv_lt_0_compat; [lra|]. apply pow_lt. lra. }
      apply Rmult_le_compat; auto.
    - assert (Hp2 : IZR (2 ^ 126) = 2 ^ 63 * 2 ^ 63).
      { rewrite <- pow_add. change (63 + 63)%nat with 126%nat. change 126%Z with (Z.of_nat 126). now rewrite <- pow_IZR. }
      rewrite Hp2. assert (Hn : (2 ^ 63)%R <> 0) by (apply pow_nonzero; lra). generalize dependent (2 ^ 63)%R. intros p. intros. field. auto. }
  rewrite Rmax_left by auto. rewrite sqrt_square by lra.
  destruct (@flt RNum 0 (r * r)) eqn:E.
  2: { apply flt_R_false in E. exfalso. apply E. apply Rmult_lt_0_compat; auto. }
  destruct (@fle RNum 0 b) eqn:Eb.
  - apply fle_R in Eb. replace (2 * c) with (z * (- b - r)). { change (@eq R (z * (- b - r) / (- b - r)) z). field. lra. }
    replace c with (- (a * (z * z) + b * z)) by lra. rewrite Hr. ring.
  - apply fle_R_false in Eb. specialize (Ha Eb). rewrite Hr. change (@eq R ((- b + (2 * a * z + b)) / (2 * a)) z). field. lra.
Qed.
Lemma rq_bin_inv_R x : bin_conditioned x0 x1 y0 y1 d0 d1 -> x0 <= x <= x1 ->
  rq_bin_inv (mkBinp x0 x1 y0 y1 d0 d1) (Phi x) = (x, - ln (dPhi x)).
Proof.
  intros Hc Hr. pose proof (zc_range x Hr) as Hz. pose proof (den_pos _ Hz) as Hd. pose proof (top_pos _ Hz) as Ht.
  pose proof s_pos as Hs. pose proof h_pos as Hh. pose proof w_pos as Hw. pose proof (rt_lower x Hr) as Hlow.
  assert (Hrt : 0 < rt x). { unfold rt. apply Rdiv_lt_0_compat; auto. now apply Rmult_lt_0_compat. }
  unfold bin_conditioned in Hc. change ((y1 - y0) / (x1 - x0)) with s in Hc.
  unfold rq_bin_inv. cbn [bx0 bx1 by0 by1 bd0 bd1]. unfold f0, f1, f2, fsq. cbn [fofZ fsub fadd fmul fdiv fneg fln RNum].
  change ((y1 - y0) / (x1 - x0)) with s. change (x1 - x0) with w. change (y1 - y0) with h.
  assert (Hyv : (Phi x - y0) / h = yv x). { unfold Phi, yv. field. split; lra. }
  assert (Hyr : 0 <= yv x <= 1).
  { unfold yv. set (z := zc x) in * . assert (0 <= z - z * z) by nra. assert (0 <= z * z) by nra.
    assert (0 <= s * (z * z)) by (apply Rmult_le_pos; lra). assert (0 <= d0 * (z - z * z)) by (apply Rmult_le_pos; lra).
    split.
    - apply Rdiv_le_0_compat; lra.
    - apply Rle_div_l; [lra|]. unfold den. assert (0 <= d1 * (z - z * z)) by (apply Rmult_le_pos; lra).
      assert (0 <= s * ((1 - z) * (1 - z))) by (apply Rmult_le_pos; [lra|nra]). lra. }
  rewrite !fclip_R, Hyv, (clip01 (yv x)) by auto.
  rewrite (quad_root _ _ _ (zc x) (rt x)).
  - rewrite clip01 by auto. f_equal.
    + unfold zc. field. lra.
    + unfold dPhi, Rdiv. rewrite ln_mult, ln_Rinv, !ln_mult; auto; try (apply Rmult_lt_0_compat; [try apply Rmult_lt_0_compat|]; assumption); try (apply Rmult_lt_0_compat; assumption).
      * unfold den, top. set (z := zc x). ring.
      * apply Rinv_0_lt_compat. now apply Rmult_lt_0_compat.
  - unfold yv. set (z := zc x) in * . unfold den in * . field. lra.
  - unfold rt, yv. set (z := zc x) in * . unfold den, top in * . field. lra.
  - auto.
  - lra.
  - intros Hb. lra.
Qed.
End Bin.
