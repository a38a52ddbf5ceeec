(** One coordinate of the affine coupling layer in single precision, there and back. *)
From Coq Require Import ZArith Reals Lra Lia Psatz.
From Flocq Require Import Core BinarySingleNaN.
From Verif Require Import Prelude Num M_Flow Float32 Float32t Spec_FSpline P_FSpline1 P_FSpline5 P_FSpline9 Spec_FNvp.
Open Scope R_scope.
Local Strategy 100 [Bplus Bminus Bmult Bdiv Bopp Bsqrt].

Local Transparent u eta.

Definition near (k h a b : R) : Prop := Rabs (a - b) <= k * Rabs b + h.
Lemma near_trans k1 h1 k2 h2 a b c : 0 <= k1 -> near k1 h1 a b -> near k2 h2 b c -> near (k1 + k2 + k1 * k2) (h1 + h2 + k1 * h2) a c.
Proof.
  unfold near. intros K A B. assert (T1 : Rabs (a - c) <= Rabs (a - b) + Rabs (b - c)). { replace (a - c) with ((a - b) + (b - c)) by ring. apply Rabs_triang. }
  assert (T2 : Rabs b <= Rabs c + Rabs (b - c)). { replace b with (c + (b - c)) at 1 by ring. apply Rabs_triang. }
  assert (k1 * Rabs b <= k1 * (Rabs c + (k2 * Rabs c + h2))) by (apply Rmult_le_compat_l; lra). lra.
Qed.
Lemma near_mul k h a b m M : 0 <= h -> near k h a b -> Rabs m <= M -> near k (h * M) (a * m) (b * m).
Proof.
  unfold near. intros H A B. replace (a * m - b * m) with ((a - b) * m) by ring. rewrite !Rabs_mult. pose proof (Rabs_pos m).
  apply Rle_trans with ((k * Rabs b + h) * Rabs m); [apply Rmult_le_compat_r; auto|]. assert (h * Rabs m <= h * M) by (apply Rmult_le_compat_l; auto). lra.
Qed.
Lemma near_up k h k' h' a b : near k h a b -> k <= k' -> h <= h' -> near k' h' a b.
Proof. unfold near. intros A B C. pose proof (Rabs_pos b). assert (k * Rabs b <= k' * Rabs b) by (apply Rmult_le_compat_r; auto). lra. Qed.
Lemma u_pos : 0 < u /\ u = / 16777216. Proof. split; [unfold u; lra|reflexivity]. Qed.
Lemma eta_pos : 0 < eta. Proof. unfold eta. apply Rinv_0_lt_compat. apply (IZR_lt 0). reflexivity. Qed.
Lemma eta_140 : / IZR (2 ^ 140) = 1024 * eta.
Proof. unfold eta. replace (2 ^ 150)%Z with (1024 * 2 ^ 140)%Z by reflexivity. rewrite mult_IZR. assert (0 < IZR (2 ^ 140)) by (apply (IZR_lt 0); reflexivity). field. lra. Qed.

Lemma V_opp x : V (Bopp x) = - V x. Proof. unfold V. apply B2R_Bopp. Qed.
Lemma fin_opp x : fin x -> fin (Bopp x). Proof. unfold fin. now rewrite is_finite_Bopp. Qed.
Lemma rnd_minus_rel x y : near u 0 (rnd (V x - V y)) (V x - V y).
Proof. unfold near. pose proof (rnd_plus_rel x (Bopp y)) as H. rewrite V_opp in H. unfold Rminus at 2 4. unfold Rminus in H |- * . lra. Qed.
Lemma minus_Pabs' x y k : fin x -> fin y -> Rabs (V x) <= P k -> Rabs (V y) <= P k -> (-149 <= k <= 126)%Z ->
  fin (Bminus mode_NE x y) /\ Rabs (V (Bminus mode_NE x y)) <= P (k + 1) /\ V (Bminus mode_NE x y) = rnd (V x - V y).
Proof.
  intros Fx Fy Hx Hy H. apply Rabs_le_inv in Hx, Hy.
  assert (B : - P (k + 1) <= V x - V y <= P (k + 1)) by (rewrite P_S; lra).
  destruct (minus_in x y (- P (k + 1)) (P (k + 1)) Fx Fy (fbopp _ (fbP (k + 1) ltac:(lia))) (fbP (k + 1) ltac:(lia)) B) as [A C].
  split; [exact A|]. split; [apply Rabs_le; exact C|]. apply minus_ok; auto. apply (between_big (- P (k + 1)) (P (k + 1))); auto; [apply fbopp|]; apply fbP; lia.
Qed.
Lemma plus_Pabs' x y k : fin x -> fin y -> Rabs (V x) <= P k -> Rabs (V y) <= P k -> (-149 <= k <= 126)%Z ->
  fin (Bplus mode_NE x y) /\ Rabs (V (Bplus mode_NE x y)) <= P (k + 1) /\ V (Bplus mode_NE x y) = rnd (V x + V y).
Proof.
  intros Fx Fy Hx Hy H. destruct (plus_Pabs x y k Fx Fy Hx Hy H) as [A B]. split; [exact A|]. split; [exact B|]. apply plus_ok; auto.
  apply Rabs_le_inv in Hx, Hy. apply (between_big (- P (k + 1)) (P (k + 1))); [apply fbopp| |]; try (apply fbP; lia). rewrite P_S. lra.
Qed.
Lemma mul_Pabs' x y a b : fin x -> fin y -> Rabs (V x) <= P a -> Rabs (V y) <= P b -> (-149 <= a + b <= 127)%Z ->
  fin (Bmult mode_NE x y) /\ Rabs (V (Bmult mode_NE x y)) <= P (a + b) /\ V (Bmult mode_NE x y) = rnd (V x * V y).
Proof.
  intros Fx Fy Hx Hy H. destruct (mul_Pabs x y a b Fx Fy Hx Hy H) as [A B]. split; [exact A|]. split; [exact B|]. apply mult_ok; auto.
  rewrite big_bpow, Rabs_mult. apply Rle_trans with (P (a + b)); [|apply P_le; lia]. rewrite P_mul. apply Rmult_le_compat; auto using Rabs_pos.
Qed.

Local Opaque u eta.
(** The scale: [e] stands for exp s, [e'] for exp(-s). *)
Lemma exp_range s : Rabs s <= 1 -> / 3 <= exp s <= 3.
Proof.
  intros H. apply Rabs_le_inv in H. assert (M : forall r, r <= 1 -> exp r <= 3).
  { intros r Hr. apply Rle_trans with (exp 1); [|apply exp_le_3]. destruct (Req_dec r 1) as [->|]; [lra|left; apply exp_increasing; lra]. }
  split; [|apply M; lra]. replace (exp s) with (/ exp (- s)) by (rewrite exp_Ropp, Rinv_inv; reflexivity).
  apply Rinv_le_contravar; [apply exp_pos|apply M; lra].
Qed.
Lemma exp_near fe s : exp_accurate fe -> fin s -> Rabs (V s) <= 1 -> fin (fe s) /\ near (/ 1048576) 0 (V (fe s)) (exp (V s)) /\ Rabs (V (fe s)) <= P 2.
Proof.
  intros A Fs Hs. destruct (A s Fs Hs) as [B C]. change val with V in C. pose proof (exp_range _ Hs) as D. split; [exact B|]. split.
  - unfold near. rewrite (Rabs_pos_eq (exp _)) by lra. lra.
  - change (P 2) with 4. apply Rabs_le_inv in C. apply Rabs_le. lra.
Qed.

(** Rounding of products and the factor exp. *)
Lemma scaled fe (a s y : B32) X k h : exp_accurate fe -> fin s -> Rabs (V s) <= 1 -> 0 <= k -> 0 <= h ->
  near k h (V a) X -> V y = rnd (V a * V (fe s)) ->
  near ((1 + k) * (1 + / 1048576) * (1 + u) - 1) (eta + 4 * h) (V y) (X * exp (V s)).
Proof.
  intros EA Fs Hs K0 H0 NA Ey. destruct (exp_near fe s EA Fs Hs) as (_ & NE & _). pose proof (exp_range _ Hs) as D. pose proof u_pos as [U0 U1].
  assert (N1 : near u eta (V y) (V a * V (fe s))) by (rewrite Ey; apply rnd_rel).
  assert (N2 : near (/ 1048576) 0 (V a * V (fe s)) (V a * exp (V s))).
  { rewrite (Rmult_comm (V a) (V (fe s))), (Rmult_comm (V a) (exp _)). pose proof (near_mul _ 0 _ _ (V a) (Rabs (V a)) (Rle_refl 0) NE (Rle_refl _)) as Q. eapply near_up; [exact Q|lra|lra]. }
  assert (N3 : near k (h * 3) (V a * exp (V s)) (X * exp (V s))). { apply near_mul; auto. rewrite Rabs_pos_eq; lra. }
  pose proof (near_trans u eta _ _ _ _ _ ltac:(lra) N1 (near_trans (/ 1048576) 0 _ _ _ _ _ ltac:(lra) N2 N3)) as N4.
  eapply near_up; [exact N4| |].
  - right. ring.
  - rewrite U1. lra.
Qed.

Section Scalar.
Variables (fe : B32 -> B32) (s s' t t' : B32).
Hypothesis (EA : exp_accurate fe) (Fs : fin s) (Fs' : fin s') (Es : V s' = V s) (Bs : Rabs (V s) <= 1)
  (Ft : fin t) (Ft' : fin t') (Et : V t' = V t) (Bt : Rabs (V t) <= P 100).
Definition gof (x : B32) : B32 := Bmult mode_NE (Bplus mode_NE x t) (fe s).
Definition gob (y : B32) : B32 := Bminus mode_NE (Bmult mode_NE y (fe (Bopp s'))) t'.
Definition gof' (x : B32) : B32 := Bmult mode_NE (Bplus mode_NE x t') (fe s').
Definition gob' (y : B32) : B32 := Bminus mode_NE (Bmult mode_NE y (fe (Bopp s))) t.

Lemma there_and_back x : fin x -> Rabs (V x) <= P 40 ->
  fin (gof x) /\ Rabs (V (gof x)) <= P 110 /\ forall y, fin y -> V y = V (gof x) -> fin (gob y) /\ Rabs (V (gob y)) <= P 110 /\
  Rabs (V (gob y) - V x) <= / 131072 * (Rabs (V x) + Rabs (V t)) + / IZR (2 ^ 140).
Proof using EA Fs Fs' Es Bs Ft Ft' Et Bt.
  intros Fx Bx. destruct (exp_near fe s EA Fs Bs) as (Fe & _ & Be).
  assert (Bs' : Rabs (V (Bopp s')) <= 1) by (rewrite V_opp, Es, Rabs_Ropp; exact Bs).
  destruct (exp_near fe (Bopp s') EA (fin_opp _ Fs') Bs') as (Fe' & _ & Be').
  destruct (plus_Pabs' x t 100 Fx Ft (abs_up _ 40 100 Bx ltac:(lia)) Bt ltac:(lia)) as (Fa & Ba & Ea). set (a := Bplus mode_NE x t) in * .
  destruct (mul_Pabs' a (fe s) 101 2 Fa Fe Ba Be ltac:(lia)) as (Fy0 & By & Ey). change (Bmult mode_NE a (fe s)) with (gof x) in * .
  split; [exact Fy0|]. split; [refine (abs_up _ _ _ By _); lia|]. intros y Fy Vy. rewrite <- Vy in By, Ey.
  destruct (mul_Pabs' y (fe (Bopp s')) 103 2 Fy Fe' By Be' ltac:(lia)) as (Fz & Bz & Ez). set (z := Bmult mode_NE y (fe (Bopp s'))) in * .
  destruct (minus_Pabs' z t' 105 Fz Ft' Bz ltac:(rewrite Et; refine (abs_up _ _ _ Bt _); lia) ltac:(lia)) as (Fr & Br & Er).
  change (Bminus mode_NE z t') with (gob y) in * . set (r := gob y) in * .
  split; [exact Fr|]. split; [refine (abs_up _ _ _ Br _); lia|].
  pose proof u_pos as [U0 U1]. pose proof eta_pos as ET.
  assert (N1 : near u 0 (V a) (V x + V t)). { unfold near. rewrite Ea. pose proof (rnd_plus_rel x t). lra. }
  pose proof (scaled fe a s y (V x + V t) u 0 EA Fs Bs ltac:(lra) ltac:(lra) N1 Ey) as N2.
  assert (N3 : near ((1 + ((1 + u) * (1 + / 1048576) * (1 + u) - 1)) * (1 + / 1048576) * (1 + u) - 1) (eta + 4 * (eta + 4 * 0)) (V z) ((V x + V t) * exp (V s) * exp (V (Bopp s')))).
  { refine (scaled fe y (Bopp s') z _ _ _ EA (fin_opp _ Fs') Bs' _ _ N2 Ez); [rewrite U1; lra|lra]. }
  rewrite V_opp, Es, (Rmult_assoc (V x + V t)), exp_Ropp, Rinv_r, Rmult_1_r in N3 by (pose proof (exp_pos (V s)); lra).
  apply (near_up _ _ (/ 262144) (8 * eta)) in N3; [|rewrite U1; lra|lra].
  pose proof (rnd_minus_rel z t') as N4. rewrite <- Er, Et in N4. unfold near in N3, N4. rewrite U1 in N4.
  pose proof (Rabs_triang (V x) (V t)) as T1. rewrite eta_140.
  assert (T2 : Rabs (V z - V t) <= Rabs (V x) + Rabs (V z - (V x + V t))). { replace (V z - V t) with (V x + (V z - (V x + V t))) by ring. apply Rabs_triang. }
  assert (T3 : Rabs (V r - V x) <= Rabs (V r - (V z - V t)) + Rabs (V z - (V x + V t))). { replace (V r - V x) with ((V r - (V z - V t)) + (V z - (V x + V t))) by ring. apply Rabs_triang. }
  pose proof (Rabs_pos (V x)). pose proof (Rabs_pos (V t)). lra.
Qed.
Lemma back_and_there y : fin y -> Rabs (V y) <= P 40 ->
  fin (gob' y) /\ Rabs (V (gob' y)) <= P 110 /\ forall x, fin x -> V x = V (gob' y) -> fin (gof' x) /\ Rabs (V (gof' x)) <= P 110 /\
  Rabs (V (gof' x) - V y) <= / 131072 * (Rabs (V y) + Rabs (V t)) + / IZR (2 ^ 140).
Proof using EA Fs Fs' Es Bs Ft Ft' Et Bt.
  intros Fy By. assert (Bs' : Rabs (V (Bopp s)) <= 1) by (rewrite V_opp, Rabs_Ropp; exact Bs). assert (Bs2 : Rabs (V s') <= 1) by (rewrite Es; exact Bs).
  destruct (exp_near fe s' EA Fs' Bs2) as (Fe & _ & Be). destruct (exp_near fe (Bopp s) EA (fin_opp _ Fs) Bs') as (Fe' & _ & Be').
  destruct (mul_Pabs' y (fe (Bopp s)) 40 2 Fy Fe' By Be' ltac:(lia)) as (Fz & Bz & Ez). set (z := Bmult mode_NE y (fe (Bopp s))) in * .
  destruct (minus_Pabs' z t 100 Fz Ft (abs_up _ 42 100 Bz ltac:(lia)) Bt ltac:(lia)) as (Fx0 & Bx & Ex). change (Bminus mode_NE z t) with (gob' y) in * .
  split; [exact Fx0|]. split; [refine (abs_up _ _ _ Bx _); lia|]. intros x Fx Vx. rewrite <- Vx in Bx, Ex.
  destruct (plus_Pabs' x t' 101 Fx Ft' Bx ltac:(rewrite Et; refine (abs_up _ _ _ Bt _); lia) ltac:(lia)) as (Fa & Ba & Ea). set (a := Bplus mode_NE x t') in * .
  destruct (mul_Pabs' a (fe s') 102 2 Fa Fe Ba Be ltac:(lia)) as (Fr & Br & Er). change (Bmult mode_NE a (fe s')) with (gof' x) in * . set (r := gof' x) in * .
  split; [exact Fr|]. split; [refine (abs_up _ _ _ Br _); lia|].
  pose proof u_pos as [U0 U1]. pose proof eta_pos as ET. pose proof (exp_range _ Bs) as D.
  assert (N0 : near 0 0 (V y) (V y)). { unfold near. rewrite Rminus_diag_eq, Rabs_R0 by reflexivity. lra. }
  pose proof (scaled fe y (Bopp s) z (V y) 0 0 EA (fin_opp _ Fs) Bs' ltac:(lra) ltac:(lra) N0 Ez) as N1.
  apply (near_up _ _ (/ 900000) eta) in N1; [|rewrite U1; lra|lra]. rewrite V_opp in N1.
  pose proof (near_mul (/ 900000) eta (V z) (V y * exp (- V s)) (exp (V s)) 3 (Rlt_le _ _ ET) N1 ltac:(rewrite Rabs_pos_eq; lra)) as N2. rewrite (Rmult_assoc (V y)), exp_Ropp, Rinv_l, Rmult_1_r in N2 by (pose proof (exp_pos (V s)); lra).
  pose proof (rnd_minus_rel z t) as N3. rewrite <- Ex in N3. pose proof (rnd_plus_rel x t') as N4. rewrite <- Ea, Et in N4.
  assert (N5 : near 0 (3 * u * Rabs (V z) + 2 * u * Rabs (V t)) (V a) (V z)).
  { unfold near in N3 |- * . assert (T1 : Rabs (V x + V t) <= Rabs (V z) + Rabs (V x - (V z - V t))). { replace (V x + V t) with (V z + (V x - (V z - V t))) by ring. apply Rabs_triang. }
    assert (T2 : Rabs (V a - V z) <= Rabs (V a - (V x + V t)) + Rabs (V x - (V z - V t))). { replace (V a - V z) with ((V a - (V x + V t)) + (V x - (V z - V t))) by ring. apply Rabs_triang. }
    assert (T3 : Rabs (V z - V t) <= Rabs (V z) + Rabs (V t)). { unfold Rminus. rewrite <- (Rabs_Ropp (V t)). apply Rabs_triang. }
    rewrite U1 in * . pose proof (Rabs_pos (V z)). pose proof (Rabs_pos (V t)). lra. }
  assert (HP : 0 <= 3 * u * Rabs (V z) + 2 * u * Rabs (V t)). { pose proof (Rabs_pos (V z)). pose proof (Rabs_pos (V t)). rewrite U1. lra. }
  pose proof (scaled fe a s' r (V z) 0 _ EA Fs' Bs2 (Rle_refl 0) HP N5 Er) as N6. apply (near_up _ _ (/ 900000) (eta + 4 * (3 * u * Rabs (V z) + 2 * u * Rabs (V t)))) in N6; [|rewrite U1; lra|lra]. rewrite Es in N6.
  pose proof (near_trans (/ 900000) _ _ _ _ _ _ ltac:(lra) N6 N2) as N7. unfold near in N7.
  assert (ZB : Rabs (V z) <= 4 * Rabs (V y) + eta).
  { unfold near in N1. rewrite Rabs_mult in N1. rewrite (Rabs_pos_eq (exp _)) in N1 by (left; apply exp_pos).
    assert (D' : exp (- V s) <= 3). { refine (proj2 (exp_range (- V s) _)). rewrite Rabs_Ropp. exact Bs. } pose proof (exp_pos (- V s)).
    assert (T : Rabs (V z) <= Rabs (V y * exp (- V s)) + Rabs (V z - V y * exp (- V s))). { replace (V z) with (V y * exp (- V s) + (V z - V y * exp (- V s))) at 1 by ring. apply Rabs_triang. }
    rewrite Rabs_mult, (Rabs_pos_eq (exp _)) in T by lra. pose proof (Rabs_pos (V y)). assert (Rabs (V y) * exp (- V s) <= Rabs (V y) * 3) by (apply Rmult_le_compat_l; lra). lra. }
  rewrite U1 in N7. rewrite eta_140. pose proof (Rabs_pos (V y)). pose proof (Rabs_pos (V t)). lra.
Qed.
End Scalar.

Lemma value_fwd fe s t x : exp_accurate fe -> fin s -> Rabs (V s) <= 1 -> fin t -> Rabs (V t) <= P 100 -> fin x -> Rabs (V x) <= P 40 ->
  Rabs (V (gof fe s t x) - (V x + V t) * exp (V s)) <= / 524288 * Rabs ((V x + V t) * exp (V s)) + / IZR (2 ^ 140).
Proof.
  intros EA Fs Bs Ft Bt Fx Bx. destruct (exp_near fe s EA Fs Bs) as (Fe & _ & Be).
  destruct (plus_Pabs' x t 100 Fx Ft (abs_up _ 40 100 Bx ltac:(lia)) Bt ltac:(lia)) as (Fa & Ba & Ea). unfold gof. set (a := Bplus mode_NE x t) in * .
  destruct (mul_Pabs' a (fe s) 101 2 Fa Fe Ba Be ltac:(lia)) as (Fy & By & Ey). pose proof u_pos as [U0 U1]. pose proof eta_pos as ET.
  assert (N1 : near u 0 (V a) (V x + V t)). { unfold near. rewrite Ea. pose proof (rnd_plus_rel x t). lra. }
  pose proof (scaled fe a s _ (V x + V t) u 0 EA Fs Bs ltac:(lra) ltac:(lra) N1 Ey) as N2.
  apply (near_up _ _ (/ 524288) (/ IZR (2 ^ 140))) in N2; [exact N2|rewrite U1; lra|rewrite eta_140; lra].
Qed.
Lemma value_inv fe s t y : exp_accurate fe -> fin s -> Rabs (V s) <= 1 -> fin t -> Rabs (V t) <= P 100 -> fin y -> Rabs (V y) <= P 40 ->
  Rabs (V (gob fe s t y) - (V y * exp (- V s) - V t)) <= / 524288 * (Rabs (V y * exp (- V s)) + Rabs (V t)) + / IZR (2 ^ 140).
Proof.
  intros EA Fs Bs0 Ft Bt Fy By. assert (Bs : Rabs (V (Bopp s)) <= 1) by (rewrite V_opp, Rabs_Ropp; exact Bs0). destruct (exp_near fe (Bopp s) EA (fin_opp _ Fs) Bs) as (Fe & _ & Be).
  unfold gob. destruct (mul_Pabs' y (fe (Bopp s)) 40 2 Fy Fe By Be ltac:(lia)) as (Fz & Bz & Ez). set (z := Bmult mode_NE y (fe (Bopp s))) in * .
  destruct (minus_Pabs' z t 100 Fz Ft (abs_up _ 42 100 Bz ltac:(lia)) Bt ltac:(lia)) as (Fx & Bx & Ex). pose proof u_pos as [U0 U1]. pose proof eta_pos as ET.
  assert (N0 : near 0 0 (V y) (V y)). { unfold near. rewrite Rminus_diag_eq, Rabs_R0 by reflexivity. lra. }
  pose proof (scaled fe y (Bopp s) z (V y) 0 0 EA (fin_opp _ Fs) Bs ltac:(lra) ltac:(lra) N0 Ez) as N1.
  apply (near_up _ _ (/ 900000) eta) in N1; [|rewrite U1; lra|lra]. rewrite V_opp in N1. unfold near in N1. set (q := V y * exp (- V s)) in * .
  pose proof (rnd_minus_rel z t) as N3. rewrite <- Ex in N3. unfold near in N3. set (r := Bminus mode_NE z t) in * .
  assert (T1 : Rabs (V z - V t) <= Rabs q + Rabs (V z - q) + Rabs (V t)).
  { replace (V z - V t) with (q + (V z - q) + - V t) by ring. eapply Rle_trans; [apply Rabs_triang|]. rewrite Rabs_Ropp. apply Rplus_le_compat_r, Rabs_triang. }
  assert (T2 : Rabs (V r - (q - V t)) <= Rabs (V r - (V z - V t)) + Rabs (V z - q)). { replace (V r - (q - V t)) with ((V r - (V z - V t)) + (V z - q)) by ring. apply Rabs_triang. }
  rewrite eta_140. rewrite U1 in N3. pose proof (Rabs_pos q). pose proof (Rabs_pos (V t)). lra.
Qed.
