(** One coordinate of Adam: the step is bounded by a multiple of the learning rate. *)
From Coq Require Import Reals Psatz.
From Verif Require Import Prelude Num M_Core M_Kernels M_Strategies M_PT M_Net RNum Spec_PT Spec_Adam.
Open Scope R_scope.

Definition b2_ : R := 999 / 1000.
Definition ksq (b : R) : R := (1 - b) ^ 2 / ((1 - b2_) * (1 - b ^ 2 / b2_)).
Lemma bias_step a b : 0 <= a <= b -> 0 <= b -> b <= 9 / 10 -> 2 * b - a * b * b <= (2 - a) * b2_.
Proof.
  unfold b2_. intros A B0 B1.
  assert (H : b * (999 / 1000 - b * b) <= 2 * (999 / 1000 - b)).
  { set (d := 9 / 10 - b). assert (D : 0 <= d <= 9 / 10) by (unfold d; lra). replace b with (9 / 10 - d) by (unfold d; ring).
    assert (0 <= d * d) by nra. assert (d * d * d <= d * d) by nra. nra. }
  assert (a * (999 / 1000 - b * b) <= b * (999 / 1000 - b * b)).
  { apply Rmult_le_compat_r; [nra|lra]. }
  nra.
Qed.
Section Coord.
Variable b : R.
Hypothesis (B0 : 0 <= b) (B1 : b <= 9 / 10).
Lemma den_pos : 0 < 1 - b ^ 2 / b2_.
Proof. unfold b2_. assert (b ^ 2 <= 81 / 100) by nra. lra. Qed.
Lemma ksq_pos : 0 < ksq b.
Proof. unfold ksq. apply Rdiv_lt_0_compat; [nra|]. apply Rmult_lt_0_compat; [unfold b2_; lra|exact den_pos]. Qed.
Lemma ksq_fix : ksq b = (1 - b) ^ 2 / (1 - b2_) + b ^ 2 / b2_ * ksq b.
Proof. pose proof den_pos as D. unfold ksq. field. unfold b2_ in * . repeat split; try lra. Qed.
Lemma reach_sqrt : reach b = sqrt (ksq b).
Proof.
  pose proof den_pos as D. unfold reach, ksq. rewrite sqrt_div; [|nra|apply Rmult_lt_0_compat; [unfold b2_; lra|exact D]].
  fold b2_. rewrite (sqrt_pow2 (1 - b)) by lra. reflexivity.
Qed.
Lemma reach_pos : 0 < reach b.
Proof. rewrite reach_sqrt. apply sqrt_lt_R0, ksq_pos. Qed.
(** The invariant of the moments. *)
Definition minv (mu nu : R) : Prop := 0 <= nu /\ mu ^ 2 <= ksq b * nu.
Lemma minv_0 : minv 0 0.
Proof. split; [lra|]. rewrite Rmult_0_r. lra. Qed.
Lemma minv_step g mu nu : minv mu nu -> minv ((1 - b) * g + b * mu) ((1 - b2_) * (g * g) + b2_ * nu).
Proof.
  intros [H1 H2]. pose proof ksq_pos as K0. assert (E2 : 0 < b2_ < 1) by (unfold b2_; lra). split; [nra|].
  pose proof ksq_fix as KF. assert (C0 : 0 < 1 - b2_) by (unfold b2_; lra). generalize dependent (ksq b). intros K H2 K0 KF. set (a := 1 - b) in * . set (c := 1 - b2_) in * . clearbody a c.
  (* the cross terms *)
  assert (X : 2 * a * b * (g * mu) <= a ^ 2 * b2_ * nu / c + b ^ 2 * K * c * g ^ 2 / b2_).
  { assert (S1 : 0 <= (a * b2_ * mu - b * K * c * g) ^ 2) by apply pow2_ge_0.
    assert (S2 : 2 * a * b * (g * mu) * (c * b2_ * K) <= a ^ 2 * b2_ ^ 2 * mu ^ 2 + b ^ 2 * K ^ 2 * c ^ 2 * g ^ 2) by nra.
    assert (S3 : a ^ 2 * b2_ ^ 2 * mu ^ 2 <= a ^ 2 * b2_ ^ 2 * (K * nu)) by (apply Rmult_le_compat_l; [nra|exact H2]).
    assert (P0 : 0 < c * b2_ * K) by (apply Rmult_lt_0_compat; [apply Rmult_lt_0_compat; [exact C0|exact (proj1 E2)]|exact K0]).
    apply (Rmult_le_reg_r (c * b2_ * K)); [exact P0|].
    replace ((a ^ 2 * b2_ * nu / c + b ^ 2 * K * c * g ^ 2 / b2_) * (c * b2_ * K)) with (a ^ 2 * b2_ ^ 2 * (K * nu) + b ^ 2 * K ^ 2 * c ^ 2 * g ^ 2) by (field; lra). lra. }
  assert (Y : b ^ 2 * mu ^ 2 <= b ^ 2 * (K * nu)) by (apply Rmult_le_compat_l; [nra|exact H2]).
  assert (Z : K * (c * (g * g) + b2_ * nu) = a ^ 2 * g ^ 2 + b ^ 2 * K * c * g ^ 2 / b2_ + a ^ 2 * b2_ * nu / c + b ^ 2 * (K * nu)).
  { transitivity ((a ^ 2 / c + b ^ 2 / b2_ * K) * (c * (g * g) + b2_ * nu)); [now rewrite <- KF|field; lra]. }
  rewrite Z. replace ((a * g + b * mu) ^ 2) with (a ^ 2 * g ^ 2 + 2 * a * b * (g * mu) + b ^ 2 * mu ^ 2) by ring. lra.
Qed.
Lemma pow_range x t : 0 <= x < 1 -> 0 <= x ^ S t <= x.
Proof. intros H. induction t as [|t IH]; [cbn; lra|]. cbn [pow] in * . nra. Qed.
Lemma bias t : 0 < 1 - b2_ ^ S t /\ 1 - b2_ ^ S t <= (1 - b ^ S t) ^ 2 /\ 0 < 1 - b ^ S t.
Proof.
  assert (E2 : 0 <= b2_ < 1) by (unfold b2_; lra). pose proof (pow_range b2_ t E2) as P2. pose proof (pow_range b t ltac:(lra)) as P1.
  split; [lra|]. split; [|lra].
  assert (Q : 2 * b ^ S t - b ^ S t * b ^ S t <= b2_ ^ S t).
  { clear P1 P2. induction t as [|t IH]; [cbn; unfold b2_; nra|]. pose proof (pow_range b t ltac:(lra)) as P1.
    change (b ^ S (S t)) with (b * b ^ S t). change (b2_ ^ S (S t)) with (b2_ * b2_ ^ S t). set (a := b ^ S t) in * . set (c := b2_ ^ S t) in * .
    assert (W : 2 * b - a * b * b <= (2 - a) * b2_) by (exact (bias_step a b P1 B0 B1)).
    assert (W2 : a * (2 * b - a * b * b) <= a * ((2 - a) * b2_)) by (apply Rmult_le_compat_l; lra). nra. }
  nra.
Qed.
Lemma update_bound t eps mu nu : minv mu nu -> 0 < eps -> Rabs (mu / (1 - b ^ S t) / (sqrt (nu / (1 - b2_ ^ S t)) + eps)) <= reach b.
Proof.
  intros [H1 H2] E. destruct (bias t) as (P1 & P2 & P3). pose proof ksq_pos as K0. set (D := 1 - b ^ S t) in * . set (D2 := 1 - b2_ ^ S t) in * .
  set (s := sqrt (nu / D2)). assert (S0 : 0 <= s) by apply sqrt_pos. assert (N0 : 0 <= nu / D2) by (apply Rmult_le_pos; [lra|left; now apply Rinv_0_lt_compat]).
  assert (M : Rabs (mu / D) <= reach b * s).
  { rewrite reach_sqrt. unfold s. rewrite <- sqrt_mult by lra. rewrite <- sqrt_Rsqr_abs. apply sqrt_le_1_alt. unfold Rsqr.
    replace (mu / D * (mu / D)) with (mu ^ 2 / D ^ 2) by (field; lra).
    apply (Rmult_le_reg_r (D ^ 2)); [nra|]. replace (mu ^ 2 / D ^ 2 * D ^ 2) with (mu ^ 2) by (field; lra).
    apply Rle_trans with (1 := H2). rewrite Rmult_assoc. apply Rmult_le_compat_l; [lra|].
    apply (Rmult_le_reg_r D2); [exact P1|]. replace (nu / D2 * D ^ 2 * D2) with (nu * D ^ 2) by (field; lra). apply Rmult_le_compat_l; lra. }
  rewrite (Rabs_mult (mu / D) (/ (s + eps)) : Rabs (mu / D / (s + eps)) = _). rewrite (Rabs_right (/ (s + eps))) by (left; apply Rinv_0_lt_compat; lra).
  apply (Rmult_le_reg_r (s + eps)); [lra|]. replace (Rabs (mu / D) * / (s + eps) * (s + eps)) with (Rabs (mu / D)) by (field; lra).
  pose proof reach_pos. nra.
Qed.
End Coord.
Lemma reach_usual : reach (9 / 10) <= 73 / 10.
Proof.
  rewrite reach_sqrt by lra. rewrite <- (sqrt_Rsqr (73 / 10)) by lra. apply sqrt_le_1_alt. unfold ksq, b2_, Rsqr. 
  apply (Rmult_le_reg_r ((1 - 999 / 1000) * (1 - (9 / 10) ^ 2 / (999 / 1000)))); [lra|].
  replace ((1 - 9 / 10) ^ 2 / ((1 - 999 / 1000) * (1 - (9 / 10) ^ 2 / (999 / 1000))) * ((1 - 999 / 1000) * (1 - (9 / 10) ^ 2 / (999 / 1000)))) with ((1 - 9 / 10) ^ 2) by (field; lra). lra.
Qed.
