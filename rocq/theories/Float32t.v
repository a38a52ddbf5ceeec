(** Enclosures for binary32 arithmetic. *)
From Coq Require Import ZArith Reals Lra Lia.
From Flocq Require Import Core BinarySingleNaN Plus_error Relative.
From Verif Require Import Prelude Num Float32.
Open Scope R_scope.

Definition fmt (r : R) : Prop := generic_format radix2 (FLT_exp (-149) 24) r.
Definition rnd (r : R) : R := round radix2 (FLT_exp (-149) 24) ZnearestE r.
Definition fin (x : B32) : Prop := is_finite x = true.
Definition V (x : B32) : R := @B2R 24 128 x.
Definition big : R := IZR (2 ^ 127).
Lemma big_bpow : big = bpow radix2 127. Proof. unfold big. now rewrite <- IZR_Zpower by lia. Qed.
Lemma big_lt : forall r, Rabs r <= big -> Rabs r < bpow radix2 128.
Proof. intros r H. eapply Rle_lt_trans; [exact H|]. rewrite big_bpow. apply bpow_lt. lia. Qed.

Lemma fmt_V x : fmt (V x). Proof. exact (generic_format_B2R 24 128 x). Qed.
Lemma fmt_int m k : (Z.abs m <= 2 ^ 24)%Z -> (0 <= k)%Z -> fmt (IZR m * bpow radix2 k).
Proof.
  intros H Hk. destruct (Z.eq_dec (Z.abs m) (2 ^ 24)) as [E|E].
  - assert (E' : IZR m * bpow radix2 k = IZR (Z.sgn m) * bpow radix2 (24 + k)).
    { rewrite bpow_plus. rewrite <- (Z.abs_sgn m) at 1. rewrite E, mult_IZR. change (IZR (2 ^ 24)) with (bpow radix2 24). ring. }
    rewrite E'. apply generic_format_FLT. exists (Float radix2 (Z.sgn m) (24 + k)); [reflexivity| |change (-149 <= 24 + k)%Z; lia]. change (Z.abs (Z.sgn m) < 2 ^ 24)%Z. lia.
  - apply generic_format_FLT. exists (Float radix2 m k); [reflexivity| |cbn; lia]. change (Z.abs m < 2 ^ 24)%Z. lia.
Qed.
Lemma fmt_frac m k : (Z.abs m < 2 ^ 24)%Z -> (0 <= k <= 149)%Z -> fmt (IZR m / IZR (2 ^ k)).
Proof.
  intros H Hk. apply generic_format_FLT. exists (Float radix2 m (- k)).
  - unfold F2R. cbn [Fnum Fexp]. rewrite bpow_opp, (IZR_Zpower radix2) by lia. reflexivity.
  - change (Z.abs m < 2 ^ 24)%Z. lia.
  - cbn. lia.
Qed.
Lemma fmt_Z m : (Z.abs m <= 2 ^ 24)%Z -> fmt (IZR m).
Proof. intros H. replace (IZR m) with (IZR m * bpow radix2 0) by (cbn; ring). apply fmt_int; lia. Qed.
Lemma fmt_pow k : (0 <= k)%Z -> fmt (IZR (2 ^ k)).
Proof. intros H. rewrite (IZR_Zpower radix2) by lia. replace (bpow radix2 k) with (IZR 1 * bpow radix2 k) by ring. apply fmt_int; lia. Qed.
Lemma fmt_opp r : fmt r -> fmt (- r). Proof. apply generic_format_opp. Qed.
Lemma fmt_0 : fmt 0. Proof. apply generic_format_0. Qed.

Lemma rnd_le a b : a <= b -> rnd a <= rnd b. Proof. apply round_le; typeclasses eauto. Qed.
Lemma rnd_fmt a : fmt a -> rnd a = a. Proof. apply round_generic; typeclasses eauto. Qed.
Lemma rnd_in lo hi a : fmt lo -> fmt hi -> lo <= a <= hi -> lo <= rnd a <= hi.
Proof. intros H1 H2 [A B]. rewrite <- (rnd_fmt lo H1), <- (rnd_fmt hi H2). split; now apply rnd_le. Qed.
Lemma rnd_abs b a : fmt b -> Rabs a <= b -> Rabs (rnd a) <= b.
Proof. intros H1 H2. apply Rabs_le. apply Rabs_le_inv in H2. apply rnd_in; auto. now apply fmt_opp. Qed.
Lemma rnd_V x : rnd (V x) = V x. Proof. apply rnd_fmt, fmt_V. Qed.
Lemma fmt_big : fmt big. Proof. apply fmt_pow. lia. Qed.

(** The four operations: finite and correctly rounded when the exact result is not too large. *)
Lemma plus_ok x y : fin x -> fin y -> Rabs (V x + V y) <= big -> fin (Bplus mode_NE x y) /\ V (Bplus mode_NE x y) = rnd (V x + V y).
Proof.
  intros Hx Hy H. pose proof (Bplus_correct 24 128 _ _ mode_NE x y Hx Hy) as C.
  rewrite Rlt_bool_true in C. { destruct C as (A & B & _). split; [exact B|exact A]. }
  apply big_lt. apply (rnd_abs big); [exact fmt_big|exact H].
Qed.
Lemma minus_ok x y : fin x -> fin y -> Rabs (V x - V y) <= big -> fin (Bminus mode_NE x y) /\ V (Bminus mode_NE x y) = rnd (V x - V y).
Proof.
  intros Hx Hy H. pose proof (Bminus_correct 24 128 _ _ mode_NE x y Hx Hy) as C.
  rewrite Rlt_bool_true in C. { destruct C as (A & B & _). split; [exact B|exact A]. }
  apply big_lt. apply (rnd_abs big); [exact fmt_big|exact H].
Qed.
Lemma mult_ok x y : fin x -> fin y -> Rabs (V x * V y) <= big -> fin (Bmult mode_NE x y) /\ V (Bmult mode_NE x y) = rnd (V x * V y).
Proof.
  intros Hx Hy H. pose proof (Bmult_correct 24 128 _ _ mode_NE x y) as C.
  rewrite Rlt_bool_true in C. { destruct C as (A & B & _). split; [|exact A]. unfold fin in * . now rewrite B, Hx, Hy. }
  apply big_lt. apply (rnd_abs big); [exact fmt_big|exact H].
Qed.
Lemma div_ok x y : fin x -> V y <> 0 -> Rabs (V x / V y) <= big -> fin (Bdiv mode_NE x y) /\ V (Bdiv mode_NE x y) = rnd (V x / V y).
Proof.
  intros Hx Hy H. pose proof (Bdiv_correct 24 128 _ _ mode_NE x y Hy) as C.
  rewrite Rlt_bool_true in C. { destruct C as (A & B & _). split; [|exact A]. unfold fin in * . now rewrite B, Hx. }
  apply big_lt. apply (rnd_abs big); [exact fmt_big|exact H].
Qed.
Definition fbound (r : R) : Prop := fmt r /\ Rabs r <= big.
Lemma between_big lo hi a : fbound lo -> fbound hi -> lo <= a <= hi -> Rabs a <= big.
Proof. intros [_ A] [_ B] [C D]. apply Rabs_le. apply Rabs_le_inv in A, B. lra. Qed.
Lemma plus_in x y lo hi : fin x -> fin y -> fbound lo -> fbound hi -> lo <= V x + V y <= hi -> fin (Bplus mode_NE x y) /\ lo <= V (Bplus mode_NE x y) <= hi.
Proof. intros Hx Hy Hl Hh H. destruct (plus_ok x y Hx Hy (between_big _ _ _ Hl Hh H)) as [A B]. split; [exact A|]. rewrite B. apply rnd_in; [apply Hl|apply Hh|exact H]. Qed.
Lemma minus_in x y lo hi : fin x -> fin y -> fbound lo -> fbound hi -> lo <= V x - V y <= hi -> fin (Bminus mode_NE x y) /\ lo <= V (Bminus mode_NE x y) <= hi.
Proof. intros Hx Hy Hl Hh H. destruct (minus_ok x y Hx Hy (between_big _ _ _ Hl Hh H)) as [A B]. split; [exact A|]. rewrite B. apply rnd_in; [apply Hl|apply Hh|exact H]. Qed.
Lemma mult_in x y lo hi : fin x -> fin y -> fbound lo -> fbound hi -> lo <= V x * V y <= hi -> fin (Bmult mode_NE x y) /\ lo <= V (Bmult mode_NE x y) <= hi.
Proof. intros Hx Hy Hl Hh H. destruct (mult_ok x y Hx Hy (between_big _ _ _ Hl Hh H)) as [A B]. split; [exact A|]. rewrite B. apply rnd_in; [apply Hl|apply Hh|exact H]. Qed.
Lemma div_in x y lo hi : fin x -> V y <> 0 -> fbound lo -> fbound hi -> lo <= V x / V y <= hi -> fin (Bdiv mode_NE x y) /\ lo <= V (Bdiv mode_NE x y) <= hi.
Proof. intros Hx Hy Hl Hh H. destruct (div_ok x y Hx Hy (between_big _ _ _ Hl Hh H)) as [A B]. split; [exact A|]. rewrite B. apply rnd_in; [apply Hl|apply Hh|exact H]. Qed.
Lemma fbZ m : (Z.abs m <= 2 ^ 24)%Z -> fbound (IZR m).
Proof. intros H. split; [now apply fmt_Z|]. rewrite <- abs_IZR. unfold big. apply IZR_le. lia. Qed.
Lemma fbfrac m k : (Z.abs m < 2 ^ 24)%Z -> (0 <= k <= 149)%Z -> fbound (IZR m / IZR (2 ^ k)).
Proof.
  intros H Hk. split; [now apply fmt_frac|]. assert (0 < IZR (2 ^ k)) by (apply IZR_lt; lia). assert (1 <= IZR (2 ^ k)) by (apply IZR_le; lia).
  unfold Rdiv. rewrite Rabs_mult, <- abs_IZR, (Rabs_pos_eq (/ _)) by (apply Rlt_le, Rinv_0_lt_compat; auto).
  apply Rle_trans with (IZR (Z.abs m) * 1). { apply Rmult_le_compat_l; [apply IZR_le; lia|]. rewrite <- Rinv_1. apply Rinv_le_contravar; lra. }
  rewrite Rmult_1_r. unfold big. apply IZR_le. lia.
Qed.
Lemma fbpow k : (0 <= k <= 127)%Z -> fbound (IZR (2 ^ k)).
Proof.
  intros H. split; [apply fmt_pow; lia|]. rewrite <- abs_IZR. unfold big. apply IZR_le. rewrite Z.abs_eq by lia. apply Z.pow_le_mono_r; lia.
Qed.
Lemma fbopp r : fbound r -> fbound (- r). Proof. intros [A B]. split; [now apply fmt_opp|now rewrite Rabs_Ropp]. Qed.
Lemma fbV x : fin x -> Rabs (V x) <= big -> fbound (V x). Proof. intros _ H. split; [apply fmt_V|exact H]. Qed.

(** Errors. *)
Definition u : R := / 16777216.
Definition eta : R := / IZR (2 ^ 150).
Lemma rnd_plus_rel x y : Rabs (rnd (V x + V y) - (V x + V y)) <= u * Rabs (V x + V y).
Proof.
  destruct (@FLT_plus_error_N_ex radix2 (-149) 24 _ (fun n => negb (Z.even n)) (V x) (V y) (fmt_V x) (fmt_V y)) as (e & He & E).
  change (rnd (V x + V y) = (V x + V y) * (1 + e)) in E. rewrite E. replace ((V x + V y) * (1 + e) - (V x + V y)) with (e * (V x + V y)) by ring.
  rewrite Rabs_mult. apply Rmult_le_compat_r; [apply Rabs_pos|]. eapply Rle_trans; [exact He|].
  assert (U : u_ro radix2 24 = u). { unfold u_ro, u. cbn. lra. } rewrite U. unfold u. lra.
Qed.
Lemma rnd_rel a : Rabs (rnd a - a) <= u * Rabs a + eta.
Proof.
  destruct (error_N_FLT radix2 (-149) 24 ltac:(lia) (fun n => negb (Z.even n)) a) as (e & h & He & Hh & _ & E).
  change (rnd a = a * (1 + e) + h) in E. rewrite E. replace (a * (1 + e) + h - a) with (e * a + h) by ring.
  eapply Rle_trans; [apply Rabs_triang|]. apply Rplus_le_compat.
  - rewrite Rabs_mult. apply Rmult_le_compat_r; [apply Rabs_pos|]. eapply Rle_trans; [exact He|]. unfold u. cbn. lra.
  - eapply Rle_trans; [exact Hh|]. unfold eta. rewrite (IZR_Zpower radix2), <- bpow_opp by lia.
    right. change (/ 2) with (bpow radix2 (-1)). rewrite <- bpow_plus. reflexivity.
Qed.
(** Absolute error for results below a power of two. *)
Lemma rnd_abs_err a e : (-120 <= e)%Z -> Rabs a <= bpow radix2 e -> Rabs (rnd a - a) <= bpow radix2 (e - 25).
Proof.
  intros He H. destruct (Req_dec (Rabs a) (bpow radix2 e)) as [Q|Q].
  - assert (Fa : fmt a).
    { destruct (Rabs_eq_Rabs a (bpow radix2 e)) as [->| ->]. { rewrite Q. symmetry. apply Rabs_pos_eq, bpow_ge_0. }
      - apply generic_format_bpow. unfold FLT_exp. lia.
      - apply generic_format_opp, generic_format_bpow. unfold FLT_exp. lia. }
    rewrite (rnd_fmt a Fa). rewrite Rminus_diag_eq by reflexivity. rewrite Rabs_R0. apply bpow_ge_0.
  - eapply Rle_trans; [apply error_le_half_ulp; typeclasses eauto|].
    destruct (Req_dec a 0) as [->|Ha]. { rewrite ulp_FLT_0 by typeclasses eauto. change (/ 2) with (bpow radix2 (-1)). rewrite <- bpow_plus. apply bpow_le. lia. }
    rewrite ulp_neq_0 by auto. unfold cexp, FLT_exp. change (/ 2) with (bpow radix2 (-1)). rewrite <- bpow_plus. apply bpow_le.
    assert (mag radix2 a <= e)%Z by (apply mag_le_bpow; [auto|lra]). lia.
Qed.
Lemma plus_err x y e : (-120 <= e <= 127)%Z -> fin x -> fin y -> Rabs (V x + V y) <= bpow radix2 e ->
  fin (Bplus mode_NE x y) /\ Rabs (V (Bplus mode_NE x y) - (V x + V y)) <= bpow radix2 (e - 25).
Proof.
  intros He Hx Hy H. destruct (plus_ok x y Hx Hy) as [A B]. { eapply Rle_trans; [exact H|]. rewrite big_bpow. apply bpow_le. lia. }
  split; [exact A|]. rewrite B. apply rnd_abs_err; [lia|exact H].
Qed.

(** Comparisons of finite numbers. *)
Lemma leb_V x y : fin x -> fin y -> (Bleb x y = true <-> V x <= V y). Proof. intros Hx Hy. exact (bleb_fin x y Hx Hy). Qed.
Lemma ltb_V x y : fin x -> fin y -> (Bltb x y = true <-> V x < V y). Proof. intros Hx Hy. exact (bltb_fin x y Hx Hy). Qed.
Lemma fin_nan (x : B32) : fin x -> is_nan x = false. Proof. destruct x; cbn; auto. Qed.
Lemma ofZ_ok z : (Z.abs z <= 2 ^ 24)%Z -> fin (b32_ofZ z) /\ V (b32_ofZ z) = IZR z.
Proof.
  intros H. pose proof (binary_normalize_correct 24 128 _ _ mode_NE z 0 false) as C. cbv zeta in C.
  assert (E : F2R (Float radix2 z 0) = IZR z) by (unfold F2R; cbn; ring). rewrite E in C.
  change (round radix2 (SpecFloat.fexp 24 128) (round_mode mode_NE) (IZR z)) with (rnd (IZR z)) in C.
  rewrite (rnd_fmt _ (fmt_Z z H)) in C. rewrite Rlt_bool_true in C. { destruct C as (A & B & _). split; [exact B|exact A]. }
  apply big_lt. rewrite <- abs_IZR. unfold big. apply IZR_le. lia.
Qed.
