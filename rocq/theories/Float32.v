(** IEEE binary32 (Flocq) as an instance of the arithmetic interface: witnesses that the laws
    assumed in [NumLaws] hold for the float type JAX uses by default.  Transcendental functions
    are arbitrary (no law mentions them). *)
From Coq Require Import ZArith Reals Psatz.
From Flocq Require Import Core BinarySingleNaN.
From Verif Require Import Prelude Num Spec_Kernels.

Definition B32 := binary_float 24 128.
Global Instance B32_prec_gt_0 : Prec_gt_0 24. Proof. reflexivity. Qed.
Global Instance B32_prec_lt_emax : Prec_lt_emax 24 128. Proof. reflexivity. Qed.

Definition b32_ofZ (z : Z) : B32 := binary_normalize 24 128 _ _ mode_NE z 0 false.
Definition b32_div (x y : B32) : B32 := Bdiv mode_NE x y.

Section Inst.
Variables (pi : B32) (fe fl ft : B32 -> B32).

Definition B32Num : Num := {|
  F := B32;
  fofZ := b32_ofZ;
  fpi := pi;
  fninf := B754_infinity true;
  fadd := Bplus mode_NE;
  fsub := Bminus mode_NE;
  fmul := Bmult mode_NE;
  fdiv := Bdiv mode_NE;
  fneg := Bopp;
  fexp := fe; fln := fl;
  fsqrt := Bsqrt mode_NE;
  ftanh := ft;
  flt := Bltb; fle := Bleb;
  fnan := is_nan;
  ffinite := is_finite |}.

Lemma b32_add_nan x y : is_nan x = true \/ is_nan y = true -> is_nan (Bplus (prec:=24) (emax:=128) mode_NE x y) = true.
Proof. destruct x, y; simpl; intros [H|H]; try discriminate; auto. Qed.
Lemma b32_sub_nan x y : is_nan x = true \/ is_nan y = true -> is_nan (Bminus (prec:=24) (emax:=128) mode_NE x y) = true.
Proof. destruct x, y; simpl; intros [H|H]; try discriminate; auto. Qed.
Lemma b32_mul_nan x y : is_nan x = true \/ is_nan y = true -> is_nan (Bmult (prec:=24) (emax:=128) mode_NE x y) = true.
Proof. destruct x, y; simpl; intros [H|H]; try discriminate; auto. Qed.
Lemma b32_div_nan x y : is_nan x = true \/ is_nan y = true -> is_nan (Bdiv (prec:=24) (emax:=128) mode_NE x y) = true.
Proof. destruct x, y; simpl; intros [H|H]; try discriminate; auto. Qed.

Inductive view (x : B32) : Prop :=
| v_nan : x = B754_nan -> view x
| v_inf s : x = B754_infinity s -> view x
| v_fin : is_finite x = true -> is_nan x = false -> view x.
Lemma viewP x : view x.
Proof. destruct x; [eapply v_fin| eapply v_inf | eapply v_nan | eapply v_fin]; reflexivity. Qed.

Lemma bleb_fin x y : is_finite x = true -> is_finite y = true ->
  Bleb (prec:=24) (emax:=128) x y = true <-> (B2R x <= B2R y)%R.
Proof. intros Hx Hy. rewrite Bleb_correct by auto. destruct (Rle_bool_spec (B2R x) (B2R y)); split; auto; intros; try discriminate; lra. Qed.
Lemma bltb_fin x y : is_finite x = true -> is_finite y = true ->
  Bltb (prec:=24) (emax:=128) x y = true <-> (B2R x < B2R y)%R.
Proof. intros Hx Hy. rewrite Bltb_correct by auto. destruct (Rlt_bool_spec (B2R x) (B2R y)); split; auto; intros; try discriminate; lra. Qed.

(** Comparison with an infinity. *)
Lemma bleb_inf_l s y : is_finite y = true -> Bleb (prec:=24) (emax:=128) (B754_infinity s) y = s.
Proof. destruct s, y; simpl; intros; try discriminate; reflexivity. Qed.
Lemma bleb_inf_r s y : is_finite y = true -> Bleb (prec:=24) (emax:=128) y (B754_infinity s) = negb s.
Proof. destruct s, y; simpl; intros; try discriminate; try reflexivity; destruct s0; reflexivity. Qed.
Lemma bltb_inf_l s y : is_finite y = true -> Bltb (prec:=24) (emax:=128) (B754_infinity s) y = s.
Proof. destruct s, y; simpl; intros; try discriminate; reflexivity. Qed.
Lemma bltb_inf_r s y : is_finite y = true -> Bltb (prec:=24) (emax:=128) y (B754_infinity s) = negb s.
Proof. destruct s, y; simpl; intros; try discriminate; try reflexivity; destruct s0; reflexivity. Qed.
Lemma bleb_inf_inf s t : Bleb (prec:=24) (emax:=128) (B754_infinity s) (B754_infinity t) = orb s (negb t).
Proof. destruct s, t; reflexivity. Qed.
Lemma bltb_inf_inf s t : Bltb (prec:=24) (emax:=128) (B754_infinity s) (B754_infinity t) = andb s (negb t).
Proof. destruct s, t; reflexivity. Qed.
Lemma bleb_nan_l y : Bleb (prec:=24) (emax:=128) B754_nan y = false.
Proof. destruct y; reflexivity. Qed.
Lemma bleb_nan_r y : Bleb (prec:=24) (emax:=128) y B754_nan = false.
Proof. destruct y as [[]|[]| |[]]; reflexivity. Qed.
Lemma bltb_nan_l y : Bltb (prec:=24) (emax:=128) B754_nan y = false.
Proof. destruct y; reflexivity. Qed.
Lemma bltb_nan_r y : Bltb (prec:=24) (emax:=128) y B754_nan = false.
Proof. destruct y as [[]|[]| |[]]; reflexivity. Qed.

Ltac bsimp := repeat (first
  [ rewrite bleb_nan_l in * | rewrite bleb_nan_r in * | rewrite bltb_nan_l in * | rewrite bltb_nan_r in *
  | rewrite bleb_inf_inf in * | rewrite bltb_inf_inf in *
  | rewrite bleb_inf_l in * by assumption | rewrite bleb_inf_r in * by assumption
  | rewrite bltb_inf_l in * by assumption | rewrite bltb_inf_r in * by assumption ]).
Ltac bview x := let s := fresh "s" in let H := fresh "H" in let H' := fresh "H" in
  destruct (viewP x) as [->|s ->|H H'].
Ltac bfin := repeat match goal with
  | H : context [Bleb ?x ?y] |- _ => let E := fresh in
      pose proof (bleb_fin x y ltac:(assumption) ltac:(assumption)) as E;
      destruct (Bleb x y); try (destruct E as [E _]; specialize (E eq_refl));
      try (destruct E as [_ E]; assert (~ (B2R x <= B2R y)%R) by (let h := fresh in intros h; specialize (E h); discriminate); clear E)
  | |- context [Bleb ?x ?y] => let E := fresh in
      pose proof (bleb_fin x y ltac:(assumption) ltac:(assumption)) as E;
      destruct (Bleb x y); try (destruct E as [E _]; specialize (E eq_refl));
      try (destruct E as [_ E]; assert (~ (B2R x <= B2R y)%R) by (let h := fresh in intros h; specialize (E h); discriminate); clear E)
  | H : context [Bltb ?x ?y] |- _ => let E := fresh in
      pose proof (bltb_fin x y ltac:(assumption) ltac:(assumption)) as E;
      destruct (Bltb x y); try (destruct E as [E _]; specialize (E eq_refl));
      try (destruct E as [_ E]; assert (~ (B2R x < B2R y)%R) by (let h := fresh in intros h; specialize (E h); discriminate); clear E)
  | |- context [Bltb ?x ?y] => let E := fresh in
      pose proof (bltb_fin x y ltac:(assumption) ltac:(assumption)) as E;
      destruct (Bltb x y); try (destruct E as [E _]; specialize (E eq_refl));
      try (destruct E as [_ E]; assert (~ (B2R x < B2R y)%R) by (let h := fresh in intros h; specialize (E h); discriminate); clear E)
  end.

Theorem B32_laws : @NumLaws B32Num.
Proof.
  constructor; cbn [F fneg flt fle fnan fadd fsub fmul fdiv fninf ffinite B32Num].
  - apply Bopp_involutive.
  - intros x y. bview x; bview y; bsimp; simpl; auto; try discriminate.
  - intros x y. bview x; bview y; bsimp; simpl; auto; try discriminate.
  - apply b32_sub_nan.
  - apply b32_add_nan.
  - apply b32_mul_nan.
  - apply b32_div_nan.
  - intros x. destruct x; reflexivity.
  - intros x. bview x; bsimp; auto. destruct s; reflexivity.
  - intros z. destruct z as [[]|[]| |]; simpl; auto.
  - intros z. destruct z as [[]|[]| |]; simpl; auto.
  - intros z. destruct z as [[]|[]| |]; simpl; auto.
  - intros z. destruct z as [[]|[]| |]; simpl; auto.
  - intros z. destruct z as [[]|[]| |]; simpl; auto.
  - intros x. destruct x; simpl; intros; try discriminate; repeat split; discriminate.
  - intros x y. bview x; bview y; bsimp; simpl; intros; try discriminate; auto.
    + destruct s, s0; simpl in *; auto; discriminate.
    + subst. reflexivity.
    + destruct s; simpl in *; auto; discriminate.
    + bfin; auto; try lra; try discriminate.
  - intros x. bview x; bsimp; simpl; intros; try discriminate; auto.
    + destruct s; reflexivity.
    + bfin; auto; lra.
  - intros x y z. bview x; bview y; bview z; bsimp; simpl; intros; try discriminate; auto;
      try (destruct s; simpl in *; discriminate || auto; destruct s0; simpl in *; discriminate || auto; fail);
      try (destruct s, s0, s1; simpl in *; discriminate || auto; fail).
    bfin; auto; try lra; discriminate.
  - intros x y. bview x; bview y; bsimp; simpl; intros; try discriminate; auto;
      try (destruct s; simpl in *; try destruct s0; simpl in *; discriminate || auto; fail).
    bfin; auto; try lra; discriminate.
  - intros x y. bview x; bview y; bsimp; simpl; intros; try discriminate; auto;
      try (destruct s; simpl in *; try destruct s0; simpl in *; discriminate || auto; fail).
    bfin; auto; try lra; discriminate.
Qed.
End Inst.
