(** binary32 satisfies the order laws. *)
From Coq Require Import ZArith Reals Psatz.
From Flocq Require Import Core BinarySingleNaN.
From Verif Require Import Prelude Num Spec_Kernels Float32 Spec_Order.

Section Inst.
Variables (pi : B32) (fe fl ft : B32 -> B32).
Notation BN := (B32Num pi fe fl ft).
Local Instance vexp : Valid_exp (SpecFloat.fexp 24 128). Proof. apply fexp_correct. reflexivity. Qed.
Lemma zero_is : b32_ofZ 0 = B754_zero false. Proof. reflexivity. Qed.
Lemma one_R : is_finite (b32_ofZ 1) = true /\ B2R (b32_ofZ 1) = 1%R /\ Bsign (b32_ofZ 1) = false.
Proof.
  pose proof (binary_normalize_correct 24 128 _ _ mode_NE 1 0 false) as H. unfold b32_ofZ.
  assert (E : F2R (Float radix2 1 0) = 1%R) by (unfold F2R; cbn; lra). cbv zeta in H. rewrite E in H.
  assert (R1 : round radix2 (SpecFloat.fexp 24 128) (round_mode mode_NE) 1 = 1%R).
  { apply round_generic; [apply valid_rnd_round_mode|]. rewrite <- E. apply generic_format_F2R. intros _. unfold cexp. rewrite E.
    rewrite (mag_unique radix2 1 1); [cbn; lia|]. rewrite Rabs_R1. cbn. lra. }
  rewrite R1, Rabs_R1 in H. rewrite Rlt_bool_true in H by (change (1 < bpow radix2 128)%R; change 1%R with (bpow radix2 0); apply bpow_lt; lia).
  destruct H as (H1 & H2 & H3). split; [exact H2|]. split; [exact H1|]. rewrite H3. rewrite Rcompare_Gt by lra. reflexivity.
Qed.
Lemma nonneg_cases (z : B32) : Bleb (B754_zero false) z = true \/ is_nan z = true <-> z <> B754_infinity true /\ (0 <= B2R z)%R.
Proof.
  destruct z as [s|s| |s m e He].
  - split; [intros _; split; [discriminate|cbn; lra]|intros _; left; reflexivity].
  - destruct s; cbn; split; auto; [intros [H|H]; discriminate|intros [H _]; congruence|intros _; split; [discriminate|lra]].
  - cbn; split; auto. intros _. split; [discriminate|lra].
  - split.
    + intros [H|H]; [|discriminate]. split; [discriminate|]. apply (bleb_fin (B754_zero false) (B754_finite s m e He) eq_refl eq_refl) in H. exact H.
    + intros [_ H]. left. apply bleb_fin; auto.
Qed.
Lemma overflow_inf (z : B32) s : B2SF z = binary_overflow 24 128 mode_NE s -> z = B754_infinity s.
Proof. unfold binary_overflow. cbn [overflow_to_inf]. destruct z; cbn; intros H; try discriminate. now injection H as ->. Qed.
Lemma sign_nonneg (x : B32) : Bsign x = false -> (0 <= B2R x)%R.
Proof. destruct x as [s|s| |s m e He]; cbn; intros E; try lra. subst s. apply F2R_ge_0. cbn. lia. Qed.
Lemma sign_nonpos (x : B32) : Bsign x = true -> (B2R x <= 0)%R.
Proof. destruct x as [s|s| |s m e He]; cbn; intros E; try lra. subst s. apply F2R_le_0. cbn. lia. Qed.
Lemma round_0_ge x : (0 <= x)%R -> (0 <= round radix2 (SpecFloat.fexp 24 128) (round_mode mode_NE) x)%R.
Proof. intros H. apply round_ge_generic; auto with typeclass_instances. apply generic_format_0. Qed.
Lemma no_overflow_0 : Rlt_bool (Rabs (round radix2 (SpecFloat.fexp 24 128) (round_mode mode_NE) 0)) (bpow radix2 128) = true.
Proof. rewrite round_0 by auto with typeclass_instances. rewrite Rabs_R0. apply Rlt_bool_true, bpow_gt_0. Qed.

Lemma b32_sub_ge (x y : B32) : Bleb x y = true -> Bleb (B754_zero false) (Bminus mode_NE y x) = true \/ is_nan (Bminus mode_NE y x) = true.
Proof.
  intros H. apply nonneg_cases. destruct (viewP x) as [->|s ->|Fx _]; [rewrite bleb_nan_l in H; discriminate| |].
  { destruct s; destruct y as [[]|[]| |[]]; cbn in H |- *; try discriminate H; (split; [discriminate|lra]). }
  destruct (viewP y) as [->|s ->|Fy _]; [rewrite bleb_nan_r in H; discriminate| |].
  { destruct s; destruct x as [[]|[]| |[]]; cbn in H |- *; try discriminate H; try discriminate Fx; (split; [discriminate|lra]). }
  apply (bleb_fin x y Fx Fy) in H. pose proof (Bminus_correct 24 128 _ _ mode_NE y x Fy Fx) as C.
  destruct (Rlt_bool _ _) eqn:E.
  - destruct C as (C1 & C2 & _). split; [intros X; rewrite X in C2; discriminate|]. rewrite C1. apply round_0_ge. lra.
  - destruct C as (C1 & C2). apply overflow_inf in C1. destruct (Bsign y) eqn:Sy.
    + exfalso. assert (Sx : Bsign x = false) by (destruct (Bsign x); [discriminate C2|reflexivity]).
      apply sign_nonpos in Sy. apply sign_nonneg in Sx. replace (B2R y - B2R x)%R with 0%R in E by lra. rewrite no_overflow_0 in E. discriminate.
    + rewrite C1. split; [discriminate|cbn; lra].
Qed.
Lemma b32_mul_ge (x y : B32) : Bleb (B754_zero false) x = true -> Bleb (B754_zero false) y = true ->
  Bleb (B754_zero false) (Bmult mode_NE x y) = true \/ is_nan (Bmult mode_NE x y) = true.
Proof.
  intros Hx Hy. apply nonneg_cases. destruct x as [sx|sx| |sx mx ex Bx]; destruct y as [sy|sy| |sy my ey By]; try (cbn in Hx; destruct sx; discriminate Hx); try (cbn in Hy; destruct sy; discriminate Hy);
    try (cbn in Hx, Hy; discriminate); try (cbn; split; [discriminate|lra]).
  - cbn in Hx, Hy. destruct sx, sy; try discriminate. cbn. split; [discriminate|lra].
  - destruct sx; [discriminate Hx|]. destruct sy; [discriminate Hy|]. cbn. split; [discriminate|lra].
  - destruct sx; [discriminate Hx|]. destruct sy; [discriminate Hy|]. cbn. split; [discriminate|lra].
  - destruct sx; [discriminate Hx|]. destruct sy; [discriminate Hy|].
    set (x := B754_finite false mx ex Bx) in * . set (y := B754_finite false my ey By) in * .
    pose proof (Bmult_correct 24 128 _ _ mode_NE x y) as C. destruct (Rlt_bool _ _) eqn:E.
    + destruct C as (C1 & C2 & _). split; [intros X; rewrite X in C2; discriminate|]. rewrite C1. apply round_0_ge.
      apply Rmult_le_pos; apply sign_nonneg; reflexivity.
    + apply overflow_inf in C. rewrite C. cbn. split; [discriminate|lra].
Qed.
Lemma b32_add_ge (x b : B32) : Bleb (B754_zero false) b = true -> is_nan x = false ->
  Bleb x (Bplus mode_NE x b) = true \/ is_nan (Bplus mode_NE x b) = true.
Proof.
  intros Hb Nx. destruct (viewP x) as [->|s ->|Fx _]; [discriminate Nx| |].
  { destruct b as [[]|[]| |[]]; destruct s; cbn; auto. }
  destruct (viewP b) as [->|s ->|Fb _]; [discriminate Hb| |].
  { destruct s; [discriminate Hb|]. left. destruct x as [[]|[]| |[]]; try discriminate Fx; reflexivity. }
  apply (bleb_fin (B754_zero false) b eq_refl Fb) in Hb. cbn [B2R] in Hb. pose proof (Bplus_correct 24 128 _ _ mode_NE x b Fx Fb) as C.
  destruct (Rlt_bool _ _) eqn:E.
  - destruct C as (C1 & C2 & _). left. apply bleb_fin; auto. rewrite C1. apply round_ge_generic; auto with typeclass_instances; [apply generic_format_B2R|lra].
  - destruct C as (C1 & C2). apply overflow_inf in C1. rewrite C1. destruct (Bsign x) eqn:Sx.
    + exfalso. symmetry in C2. apply sign_nonpos in C2. replace (B2R b) with 0%R in E by lra. rewrite Rplus_0_r in E.
      rewrite round_generic in E by (auto with typeclass_instances; apply generic_format_B2R). rewrite Rlt_bool_true in E by (apply abs_B2R_lt_emax). discriminate.
    + left. destruct x as [[]|[]| |[]]; try discriminate Fx; reflexivity.
Qed.
Lemma b32_scale (t : B32) : Bltb (B754_zero false) t = true -> is_nan (Bmult mode_NE (Bdiv mode_NE (b32_ofZ 1) t) (B754_infinity true)) = true \/
  Bmult mode_NE (Bdiv mode_NE (b32_ofZ 1) t) (B754_infinity true) = B754_infinity true.
Proof.
  intros H. assert (S : is_nan (Bdiv mode_NE (b32_ofZ 1) t) = true \/ Bsign (Bdiv mode_NE (b32_ofZ 1) t) = false).
  2: { destruct (Bdiv mode_NE (b32_ofZ 1) t) as [s|s| |s m e He]; cbn in S |- *; auto; destruct S as [S|S]; try discriminate S; subst s; auto. }
  destruct one_R as (F1 & R1 & S1). destruct t as [st|st| |st mt et Bt].
  - discriminate H.
  - right. destruct st; [discriminate H|]. clear - S1. destruct (b32_ofZ 1) as [s|s| |s m e He]; cbn in S1 |- *; try subst s; reflexivity.
  - discriminate H.
  - destruct st; [discriminate H|]. set (t := B754_finite false mt et Bt) in * .
    assert (Ht : B2R t <> 0%R). { apply (bltb_fin (B754_zero false) t eq_refl eq_refl) in H. cbn [B2R] in H. lra. }
    pose proof (Bdiv_correct 24 128 _ _ mode_NE (b32_ofZ 1) t Ht) as C. destruct (Rlt_bool _ _).
    + destruct C as (_ & _ & C). destruct (is_nan (Bdiv mode_NE (b32_ofZ 1) t)) eqn:En; [auto|right]. rewrite (C eq_refl), S1. reflexivity.
    + apply overflow_inf in C. right. rewrite C, S1. reflexivity.
Qed.
Theorem B32_order : @OrderLaws BN.
Proof.
  constructor; unfold at_least, impossible; cbn [F fneg flt fle fnan fadd fsub fmul fdiv fninf fofZ B32Num]; unfold f0, f1; cbn [fofZ B32Num]; rewrite ?zero_is.
  - apply bltb_fin; [reflexivity|apply one_R|]. destruct one_R as (_ & -> & _). cbn. lra.
  - apply b32_sub_ge.
  - apply b32_mul_ge.
  - intros x b Hb. destruct (is_nan x) eqn:E; [auto|left]. apply b32_add_ge; auto.
  - apply b32_scale.
Qed.
End Inst.
