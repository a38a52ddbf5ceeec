(** Inside one bin, in single precision: the forward map. *)
From Coq Require Import ZArith Reals Lra Lia Psatz Sorted.
From Flocq Require Import Core BinarySingleNaN.
From Verif Require Import Prelude Num M_Flow Float32 Float32t Spec_FSpline P_Lists P_FSpline1 P_FSpline2 P_FSpline3 P_FSpline4 P_FSpline5.
Open Scope R_scope.

Lemma eta_s s : P (-21) <= s -> 0 <= eta <= u * s / 1000.
Proof.
  intros H. destruct eta_small as [A B]. split; [exact A|]. change (P (-21)) with (/ 2097152) in H. rewrite u_val. change (IZR (2 ^ 60)) with 1152921504606846976 in B. lra.
Qed.
(** How far rounding can push the quotient above one. *)
Lemma ratio_core s d0 d1 z q p a st pr den A1 A2 N e :
  0 < s -> 0 <= d0 -> 0 <= d1 -> 0 <= z <= 1 -> 0 <= q <= z -> 0 <= e <= u * s / 1000 -> e <= u / 1000 ->
  z * z - u - e <= q -> 0 <= p <= (z - q) + u * (z - q) ->
  (d0 + d1) - u * (d0 + d1) <= a <= (d0 + d1) + u * (d0 + d1) -> Rabs (st - (a - 2 * s)) <= u * Rabs (a - 2 * s) ->
  Rabs (pr - st * p) <= u * Rabs (st * p) + e -> (s + pr) - u * (s + pr) <= den -> 0 <= s + pr -> 2 / 5 * s <= den ->
  A1 <= s * q + u * (s * q) + e -> A2 <= d0 * p + u * (d0 * p) + e -> N <= (A1 + A2) + u * (A1 + A2) -> N <= den + 25 * (u * den).
Proof.
  intros Hs H0 H1 Hz Hq He He' Hqz Hp Ha Hst Hpr Hden Hsp Hds HA1 HA2 HN. pose proof u_val as U.
  assert (ZQ : z - q <= 13 / 50). { pose proof (Rle_0_sqr (z - 1 / 2)) as SQ. unfold Rsqr in SQ. rewrite U in * . lra. }
  assert (PB : 0 <= p <= 27 / 100). { rewrite U in * . lra. }
  set (S2 := d0 + d1) in * .
  assert (AB : Rabs (a - 2 * s) <= S2 + u * S2 + 2 * s). { apply Rabs_le. rewrite U in * . unfold S2 in * . lra. }
  assert (UA : u * Rabs (a - 2 * s) <= u * (S2 + u * S2 + 2 * s)) by (apply Rmult_le_compat_l; [rewrite U; lra|exact AB]).
  assert (S20 : 0 <= S2) by (unfold S2; lra).
  assert (STL : S2 - 3 * (u * S2) - 2 * s - 2 * (u * s) <= st). { apply Rabs_le_inv in Hst. rewrite U in * . lra. }
  assert (STU : Rabs st <= S2 + 3 * (u * S2) + 2 * s + 2 * (u * s)). { apply Rabs_le. apply Rabs_le_inv in Hst. rewrite U in * . lra. }
  assert (SP : (S2 - 3 * (u * S2) - 2 * s - 2 * (u * s)) * p <= st * p) by (apply Rmult_le_compat_r; lra).
  assert (SPU : Rabs (st * p) <= (S2 + 3 * (u * S2) + 2 * s + 2 * (u * s)) * p). { rewrite Rabs_mult, (Rabs_pos_eq p) by lra. apply Rmult_le_compat_r; lra. }
  assert (UP : u * Rabs (st * p) <= u * ((S2 + 3 * (u * S2) + 2 * s + 2 * (u * s)) * p)) by (apply Rmult_le_compat_l; [rewrite U; lra|exact SPU]).
  apply Rabs_le_inv in Hpr. unfold S2 in * .
  assert (X3 : 0 <= s * p) by (apply Rmult_le_pos; lra). assert (X3' : s * p <= s * (27 / 100)) by (apply Rmult_le_compat_l; lra).
  assert (X2 : 0 <= d0 * p) by (apply Rmult_le_pos; lra). assert (X4 : 0 <= d1 * p) by (apply Rmult_le_pos; lra). assert (X1 : 0 <= s * q) by (apply Rmult_le_pos; lra).
  assert (PR : d0 * p - 5 * (u * (d0 * p)) - 2 * (s * p) - 6 * (u * (s * p)) - e <= pr). { rewrite U in * . lra. }
  assert (PQ : s * q - 2 * (u * s) <= s - 2 * (s * p)).
  { assert (K : q - 2 * u <= 1 - 2 * p). { pose proof (Rle_0_sqr (1 - z)) as SQ. unfold Rsqr in SQ. rewrite U in * . lra. }
    assert (s * (q - 2 * u) <= s * (1 - 2 * p)) by (apply Rmult_le_compat_l; lra). lra. }
  set (N0 := s * q + d0 * p) in * .
  assert (DL : N0 - 5 * (u * N0) - 5 * (u * s) <= s + pr). { unfold N0. rewrite U in * . lra. }
  assert (N00 : 0 <= N0) by (unfold N0; lra).
  assert (DL2 : N0 - 6 * (u * N0) - 5 * (u * s) <= den). { rewrite U in * . lra. }
  assert (NN : N <= N0 + 3 * (u * N0) + 3 * e). { unfold N0 in * . rewrite U in * . lra. }
  clearbody N0. rewrite U in * . lra.
Qed.

Local Strategy 100 [Bplus Bminus Bmult Bdiv Bopp].
Section BN.
Variables (pi : B32) (fe fl ft : B32 -> B32).
Hypothesis LIB : lib_ok fe fl.
Let BN := B32Num pi fe fl ft.
Definition bin_ok (b : @binp BN) : Prop :=
  cell (bx0 b) (bx1 b) /\ cell (by0 b) (by1 b) /\ slope_ok (bd0 b) /\ slope_ok (bd1 b).

Lemma num_ratio s d0 d1 z : fin s -> P (-21) <= V s <= P 21 -> slope_ok d0 -> slope_ok d1 -> fin z -> 0 <= V z <= 1 ->
  let N := Bplus mode_NE (Bmult mode_NE s (k_sq z)) (Bmult mode_NE d0 (k_z1 z)) in
  fin N /\ 0 <= V N <= P 42 /\ V N <= V (k_den pi fe fl ft s d0 d1 z) + 25 * (u * V (k_den pi fe fl ft s d0 d1 z)).
Proof.
  intros Fs Bs D0 D1 Fz Bz N. destruct (slope_P _ D0) as [F0 B0]. destruct (slope_P _ D1) as [F1 B1].
  destruct (k_sq_ok z Fz Bz) as (F2 & B2 & E2). destruct (k_z1_ok z Fz Bz) as [F3 B3]. destruct (k_2s_ok pi fe fl ft s Fs Bs) as [F4 V4].
  destruct (k_st_ok pi fe fl ft s d0 d1 Fs Bs D0 D1) as [F5 B5]. destruct (k_den_ok pi fe fl ft s d0 d1 z Fs Bs D0 D1 Fz Bz) as (F6 & B6 & C6).
  pose proof (P_pos (-21)) as P21. pose proof (P_pos (-14)) as P14. change (IZR (2 ^ 20)) with 1048576 in B3.
  assert (P0 : P 0 = 1) by reflexivity. assert (QA : P 21 <= P 40) by (apply P_le; lia). assert (QB : P 41 = 2 * P 40) by exact (P_S 40). assert (QC : P 42 = 2 * P 41) by exact (P_S 41). pose proof (P_pos 40) as P40. assert (B4 : P 42 <= big) by (rewrite big_bpow; apply P_le; lia).
  destruct (mult_ok s (k_sq z) Fs F2) as [G1 W1]. { rewrite Rabs_pos_eq by (apply Rmult_le_pos; lra). assert (V s * V (k_sq z) <= P 21 * 1) by (apply Rmult_le_compat; lra). lra. }
  destruct (mul_P0 s (k_sq z) 21 0 Fs F2 ltac:(lra) ltac:(lra) ltac:(lia)) as [_ I1].
  destruct (mult_ok d0 (k_z1 z) F0 F3) as [G2 W2]. { rewrite Rabs_pos_eq by (apply Rmult_le_pos; lra). assert (V d0 * V (k_z1 z) <= P 40 * 1) by (apply Rmult_le_compat; lra). lra. }
  destruct (mul_P0 d0 (k_z1 z) 40 0 F0 F3 ltac:(lra) ltac:(lra) ltac:(lia)) as [_ I2].
  change (21 + 0)%Z with 21%Z in I1. change (40 + 0)%Z with 40%Z in I2.
  set (A1 := Bmult mode_NE s (k_sq z)) in * . set (A2 := Bmult mode_NE d0 (k_z1 z)) in * .
  destruct (plus_P0 A1 A2 40 G1 G2 ltac:(lra) ltac:(lra) ltac:(lia)) as [G3 I3]. change (40 + 1)%Z with 41%Z in I3. fold N in G3, I3. split; [exact G3|]. split; [lra|].
  destruct (plus_ok A1 A2 G1 G2) as [_ W3]. { rewrite Rabs_pos_eq by lra. lra. } fold N in W3.
  (* the addition of the two derivatives *)
  destruct (plus_ok d1 d0 F1 F0) as [G7 W7]. { rewrite Rabs_pos_eq by lra. lra. }
  pose proof (rnd_plus_rel d1 d0) as R7. rewrite <- W7 in R7. rewrite (Rabs_pos_eq (V d1 + V d0)) in R7 by lra. apply Rabs_le_inv in R7.
  set (a := Bplus mode_NE d1 d0) in * .
  destruct (plus_P0 d1 d0 40 F1 F0 ltac:(lra) ltac:(lra) ltac:(lia)) as [_ Ia]. fold a in Ia. change (40 + 1)%Z with 41%Z in Ia.
  destruct (minus_ok a (k_2s pi fe fl ft s) G7 F4) as [_ W5]. { apply Rabs_le. rewrite V4. lra. } fold (k_st pi fe fl ft s d0 d1) in W5. change (Bminus mode_NE a (k_2s pi fe fl ft s)) with (k_st pi fe fl ft s d0 d1) in W5. rewrite V4 in W5.
  pose proof (rnd_plus_rel a (Bopp (k_2s pi fe fl ft s))) as R5. rewrite V_opp, V4 in R5. change (V a + - (2 * V s)) with (V a - 2 * V s) in R5. rewrite <- W5 in R5.
  set (st := k_st pi fe fl ft s d0 d1) in * .
  assert (SPA : Rabs (V st * V (k_z1 z)) <= P 41 * 1). { rewrite Rabs_mult. apply Rmult_le_compat; auto using Rabs_pos; [apply Rabs_le; lra|rewrite Rabs_pos_eq; lra]. }
  destruct (mult_ok st (k_z1 z) F5 F3) as [G8 W8]. { lra. }
  pose proof (rnd_rel (V st * V (k_z1 z))) as R8. rewrite <- W8 in R8. set (pr := Bmult mode_NE st (k_z1 z)) in * .
  assert (PRB : Rabs (V pr) <= P 41). { rewrite W8. apply rnd_abs; [apply (fbP 41); lia|lra]. } apply Rabs_le_inv in PRB.
  destruct (plus_ok s pr Fs G8) as [_ W9]. { apply Rabs_le. lra. } change (Bplus mode_NE s pr) with (k_den pi fe fl ft s d0 d1 z) in W9.
  pose proof (rnd_plus_rel s pr) as R9. rewrite <- W9 in R9. set (den := k_den pi fe fl ft s d0 d1 z) in * .
  pose proof u_val as U. pose proof (eta_s _ (proj1 Bs)) as ES. pose proof eta_tiny as ET.
  assert (SPP : 0 <= V s + V pr).
  { destruct (Rle_lt_dec 0 (V s + V pr)) as [H|H]; [exact H|]. exfalso. assert (rnd (V s + V pr) <= 0) by (rewrite <- (rnd_fmt 0 fmt_0); apply rnd_le; lra). lra. }
  rewrite (Rabs_pos_eq (V s + V pr)) in R9 by exact SPP. apply Rabs_le_inv in R9.
  destruct (minus_ok z (k_sq z) Fz F2) as [_ Wp]. { apply Rabs_le. assert (1 <= P 42) by (rewrite <- P0; apply P_le; lia). lra. } change (Bminus mode_NE z (k_sq z)) with (k_z1 z) in Wp.
  pose proof (rnd_plus_rel z (Bopp (k_sq z))) as Rp. rewrite V_opp in Rp. change (V z + - V (k_sq z)) with (V z - V (k_sq z)) in Rp. rewrite <- Wp in Rp. rewrite (Rabs_pos_eq (V z - V (k_sq z))) in Rp by lra. apply Rabs_le_inv in Rp.
  pose proof (rnd_rel (V s * V (k_sq z))) as R1. rewrite <- W1 in R1. rewrite (Rabs_pos_eq (V s * V (k_sq z))) in R1 by (apply Rmult_le_pos; lra). apply Rabs_le_inv in R1.
  pose proof (rnd_rel (V d0 * V (k_z1 z))) as R2. rewrite <- W2 in R2. rewrite (Rabs_pos_eq (V d0 * V (k_z1 z))) in R2 by (apply Rmult_le_pos; lra). apply Rabs_le_inv in R2.
  pose proof (rnd_plus_rel A1 A2) as R3. rewrite <- W3 in R3. rewrite (Rabs_pos_eq (V A1 + V A2)) in R3 by lra. apply Rabs_le_inv in R3. apply Rabs_le_inv in E2.
  apply (ratio_core (V s) (V d0) (V d1) (V z) (V (k_sq z)) (V (k_z1 z)) (V a) (V st) (V pr) (V den) (V A1) (V A2) (V N) eta); try lra; try exact R5; try exact R8.
Qed.

Lemma bin_fwd_ok b x : bin_ok b -> fin x -> Rabs (V x) <= P 60 ->
  let r := @rq_bin_fwd BN b x in
  (fin (fst r) /\ V (by0 b) <= V (fst r) <= V (by1 b) + / 16384) /\ fin (snd r) /\ Rabs (V (snd r)) <= 1024.
Proof.
  intros (HX & HY & D0 & D1) Fx Bx r. destruct (cell_width _ _ HX) as [FW BW]. destruct (cell_width _ _ HY) as [FH BH]. destruct (cell_slope _ _ _ _ HY HX) as [Fs Bs].
  set (W := Bminus mode_NE (bx1 b) (bx0 b)) in * . set (H := Bminus mode_NE (by1 b) (by0 b)) in * . set (s := Bdiv mode_NE H W) in * . cbv zeta in Bs, Fs.
  destruct HX as (FX0 & FX1 & LX & UX & GX). destruct HY as (FY0 & FY1 & LY & UY & GY).
  assert (X0 : Rabs (V (bx0 b)) <= P 60). { apply Rabs_le. assert (P 4 <= P 60) by (apply P_le; lia). change (P 4) with 16 in * . lra. }
  destruct (minus_Pabs x (bx0 b) 60 Fx FX0 Bx X0 ltac:(lia)) as [G1 I1].
  assert (AW : P (-16) <= Rabs (V W)). { rewrite Rabs_pos_eq; [apply BW|]. pose proof (P_pos (-16)). lra. }
  destruct (div_Pabs (Bminus mode_NE x (bx0 b)) W 61 (-16) G1 I1 AW ltac:(lia)) as [G2 I2].
  destruct (fclip_ok pi fe fl ft _ G2) as [Fz Ez]. fold BN in Fz, Ez. set (z := @fclip BN (Bdiv mode_NE (Bminus mode_NE x (bx0 b)) W) (@f0 BN) (@f1 BN)) in * .
  assert (Bz : 0 <= V z <= 1) by (rewrite Ez; apply clip01).
  destruct (num_ratio s (bd0 b) (bd1 b) z Fs Bs D0 D1 Fz Bz) as (FN & BNN & RN). cbv zeta in * .
  set (N := Bplus mode_NE (Bmult mode_NE s (k_sq z)) (Bmult mode_NE (bd0 b) (k_z1 z))) in * .
  destruct (k_den_ok pi fe fl ft s (bd0 b) (bd1 b) z Fs Bs D0 D1 Fz Bz) as (Fd & Bd & _).
  destruct (k_ld_ok pi fe fl ft LIB s (bd0 b) (bd1 b) z Fs Bs D0 D1 Fz Bz) as [LD _].
  assert (Er : r = (Bplus mode_NE (by0 b) (Bdiv mode_NE (Bmult mode_NE H N) (k_den pi fe fl ft s (bd0 b) (bd1 b) z)), k_ldf pi fe fl ft s (bd0 b) (bd1 b) z)).
  { subst r N z s W H. unfold rq_bin_fwd, k_den, k_ldf, k_arg, k_sq1, k_1z, k_st, k_z1, k_2s, k_sq, fsq. cbv zeta. unfold fadd, fsub, fmul, fdiv, fln. cbn [BN B32Num]. reflexivity. }
  rewrite Er. clear Er r. cbn [fst snd]. split; [|exact LD]. set (den := k_den pi fe fl ft s (bd0 b) (bd1 b) z) in * .
  pose proof (P_pos (-16)) as P16. pose proof (P_pos (-23)) as P23. pose proof u_val as U. pose proof eta_tiny as ET. pose proof eta_small as ES.
  assert (BH' : 0 <= V H <= P 5) by (change (P 5) with 32; lra).
  destruct (mul_P0 H N 5 42 FH FN BH' BNN ltac:(lia)) as [F3 B3]. change (5 + 42)%Z with 47%Z in B3.
  destruct (mult_ok H N FH FN) as [_ W3]. { rewrite Rabs_pos_eq by (apply Rmult_le_pos; lra). rewrite big_bpow. apply Rle_trans with (P 5 * P 42); [apply Rmult_le_compat; lra|]. rewrite <- P_mul. apply P_le. lia. }
  pose proof (rnd_rel (V H * V N)) as R3. rewrite <- W3 in R3. rewrite (Rabs_pos_eq (V H * V N)) in R3 by (apply Rmult_le_pos; lra). apply Rabs_le_inv in R3.
  set (HN := Bmult mode_NE H N) in * .
  assert (DI : 0 < / V den <= P 23). { split; [apply Rinv_0_lt_compat; lra|]. change 23%Z with (- -23)%Z. rewrite bpow_opp. apply Rinv_le_contravar; lra. }
  assert (Q0 : 0 <= V HN / V den) by (apply Rmult_le_pos; lra).
  (* the quotient *)
  assert (HH : V H <= V (by1 b) - V (by0 b) + 20 * u).
  { destruct (minus_ok (by1 b) (by0 b) FY1 FY0) as [_ WH]. { rewrite Rabs_pos_eq by lra. unfold big. apply Rle_trans with 20; [lra|apply IZR_le; lia]. }
    fold H in WH. pose proof (rnd_plus_rel (by1 b) (Bopp (by0 b))) as R. rewrite V_opp in R. change (V (by1 b) + - V (by0 b)) with (V (by1 b) - V (by0 b)) in R. rewrite <- WH in R. rewrite (Rabs_pos_eq (V (by1 b) - V (by0 b))) in R by lra. apply Rabs_le_inv in R. rewrite U in * . lra. }
  assert (QU : V HN / V den <= V H + 28 * (u * V H) + u).
  { assert (S1 : V H * V N <= V H * (V den + 25 * (u * V den))) by (apply Rmult_le_compat_l; lra).
    assert (HD : 0 <= V H * V den) by (apply Rmult_le_pos; lra).
    assert (S2 : V HN <= V H * V den + 28 * (u * (V H * V den)) + eta). { rewrite U in * . lra. }
    assert (S3 : V HN * / V den <= (V H * V den + 28 * (u * (V H * V den)) + eta) * / V den) by (apply Rmult_le_compat_r; lra).
    assert (S4 : (V H * V den + 28 * (u * (V H * V den)) + eta) * / V den = V H + 28 * (u * V H) + eta * / V den) by (field; lra).
    assert (S5 : eta * / V den <= / IZR (2 ^ 60) * P 23) by (apply Rmult_le_compat; lra). change (IZR (2 ^ 60)) with 1152921504606846976 in S5. change (P 23) with 8388608 in S5. unfold Rdiv. rewrite U in * . lra. }
  assert (QB : V HN / V den <= 22) by (rewrite U in * ; lra).
  destruct (div_ok HN den F3 ltac:(lra)) as [F4 W4]. { rewrite Rabs_pos_eq by exact Q0. unfold big. apply Rle_trans with 22; [exact QB|apply IZR_le; lia]. }
  pose proof (rnd_rel (V HN / V den)) as R4. rewrite <- W4 in R4. rewrite (Rabs_pos_eq (V HN / V den)) in R4 by exact Q0. apply Rabs_le_inv in R4.
  assert (B4 : 0 <= V (Bdiv mode_NE HN den)). { rewrite W4, <- (rnd_fmt 0 fmt_0). now apply rnd_le. }
  set (Q := Bdiv mode_NE HN den) in * .
  assert (QV : V Q <= V H + 30 * (u * V H) + 3 * u) by (rewrite U in * ; lra).
  destruct (plus_err (by0 b) Q 5 ltac:(lia) FY0 F4) as [F5 E5]. { change (P 5) with 32. apply Rabs_le. rewrite U in * . lra. }
  split; [exact F5|]. split.
  - destruct (plus_ok (by0 b) Q FY0 F4) as [_ W5]. { apply Rabs_le. assert (32 <= big) by (unfold big; apply IZR_le; lia). rewrite U in * . lra. }
    rewrite W5, <- (rnd_V (by0 b)) at 1. apply rnd_le. lra.
  - apply Rabs_le_inv in E5. change (P (5 - 25)) with (/ 1048576) in E5. rewrite U in * . lra.
Qed.
End BN.
