(** Inside one bin, in single precision: the inverse map. *)
From Coq Require Import ZArith Reals Lra Lia Psatz Sorted.
From Flocq Require Import Core BinarySingleNaN.
From Verif Require Import Prelude Num M_Flow Float32 Float32t Spec_FSpline P_Lists P_FSpline1 P_FSpline2 P_FSpline3 P_FSpline4 P_FSpline5 P_FSpline6.
Open Scope R_scope.
Local Strategy 100 [Bplus Bminus Bmult Bdiv Bopp Bsqrt].

Lemma sqrt_in x a b : fin x -> 0 <= V x -> fbound a -> fbound b -> 0 <= a -> 0 <= b -> a * a <= V x <= b * b -> fin (Bsqrt mode_NE x) /\ a <= V (Bsqrt mode_NE x) <= b.
Proof.
  intros Fx Hx Ha Hb A0 B0 [HA HB]. destruct (Bsqrt_correct 24 128 _ _ mode_NE x) as (E & F & _). split.
  - unfold fin. rewrite F. destruct x as [s|s| |s m e Hm]; try reflexivity; try discriminate Fx. destruct s; [|reflexivity].
    exfalso. unfold V in Hx. cbn in Hx. assert (F2R (Float radix2 (Z.neg m) e) < 0) by (apply F2R_lt_0; reflexivity). lra.
  - change (V (Bsqrt mode_NE x)) with (B2R (Bsqrt mode_NE x)). rewrite E. change (round radix2 (SpecFloat.fexp 24 128) (round_mode mode_NE) (sqrt (B2R x))) with (rnd (sqrt (V x))).
    apply rnd_in; [apply Ha|apply Hb|]. split.
    + rewrite <- (sqrt_square a A0). apply sqrt_le_1_alt. exact HA.
    + rewrite <- (sqrt_square b B0). apply sqrt_le_1_alt. exact HB.
Qed.

Lemma clip_in pi fe fl ft x : fin x -> fin (@fclip (B32Num pi fe fl ft) x f0 f1) /\ 0 <= V (@fclip (B32Num pi fe fl ft) x f0 f1) <= 1.
Proof. intros H. destruct (fclip_ok pi fe fl ft x H) as [A B]. split; [exact A|]. rewrite B. apply clip01. Qed.
Section BN.
Variables (pi : B32) (fe fl ft : B32 -> B32).
Hypothesis LIB : lib_ok fe fl.
Let BN := B32Num pi fe fl ft.

Lemma tiny_ok : fin (@ftiny BN) /\ 0 < V (@ftiny BN) <= 1.
Proof.
  assert (E : @ftiny BN = Bdiv mode_NE (b32_ofZ 1) (b32_ofZ (2 ^ 126)%Z)) by reflexivity. rewrite E.
  destruct (ofZ_ok 1 ltac:(lia)) as [F1 V1].
  assert (V2 : V (b32_ofZ (2 ^ 126)) = P 126).
  { pose proof (binary_normalize_correct 24 128 _ _ mode_NE (2 ^ 126) 0 false) as C. cbv zeta in C.
    assert (E2 : F2R (Float radix2 (2 ^ 126) 0) = P 126). { unfold F2R. cbn [Fnum Fexp]. rewrite (IZR_Zpower radix2) by lia. cbn [bpow]. ring. } rewrite E2 in C.
    change (round radix2 (SpecFloat.fexp 24 128) (round_mode mode_NE) (P 126)) with (rnd (P 126)) in C.
    rewrite (rnd_fmt _ (proj1 (fbP 126 ltac:(lia)))) in C. rewrite Rlt_bool_true in C; [exact (proj1 C)|]. rewrite Rabs_pos_eq by apply bpow_ge_0. apply bpow_lt. lia. }
  destruct (div_P (b32_ofZ 1) (b32_ofZ (2 ^ 126)) 0 0 126 126 F1) as [A B]; [rewrite V1; cbn; lra|rewrite V2; lra|lia|lia|].
  split; [exact A|]. pose proof (P_pos (0 - 126)). assert (P (0 - 126) <= P 0) by (apply P_le; lia). change (P 0) with 1 in * . lra.
Qed.
Section Root.
Variables (s d0 d1 w : B32).
Hypothesis (Fs : fin s) (Bs : P (-21) <= V s <= P 21) (D0 : slope_ok d0) (D1 : slope_ok d1) (Fw : fin w) (Bw : 0 <= V w <= 1).
Definition i_c := Bmult mode_NE (Bopp s) w.
Definition i_b := Bminus mode_NE d0 (Bmult mode_NE (k_st pi fe fl ft s d0 d1) w).
Definition i_a := Bminus mode_NE s i_b.
Lemma root_fin : fin (@safe_quadratic_root BN i_a i_b i_c).
Proof.
  destruct (slope_P _ D0) as [F0 B0]. destruct (k_st_ok pi fe fl ft s d0 d1 Fs Bs D0 D1) as [F1 B1]. set (st := k_st pi fe fl ft s d0 d1) in * .
  destruct (f0_ok pi fe fl ft) as [G0 V0]. destruct (f2_ok pi fe fl ft) as [G2 V2]. destruct (f4_ok pi fe fl ft) as [G4 V4]. fold BN in G0, V0, G2, V2, G4, V4.
  pose proof (P_pos (-21)) as P21. pose proof (P_pos (-14)) as P14. assert (P0 : P 0 = 1) by reflexivity.
  assert (Q22 : P 22 = 2 * P 21) by exact (P_S 21). assert (Q41 : P 22 <= P 41) by (apply P_le; lia).
  assert (As : Rabs (V s) <= P 21) by (apply Rabs_le; lra). assert (Aw : Rabs (V w) <= P 0) by (rewrite P0, Rabs_pos_eq; lra).
  assert (Ast : Rabs (V st) <= P 41) by (apply Rabs_le; lra).
  destruct (mul_Pabs st w 41 0 F1 Fw Ast Aw ltac:(lia)) as [Fp Bp]. set (p := Bmult mode_NE st w) in * . change (41 + 0)%Z with 41%Z in Bp.
  assert (A0 : Rabs (V d0) <= P 41) by (rewrite Rabs_pos_eq by lra; eapply Rle_trans; [apply (proj2 B0)|apply P_le; lia]).
  destruct (minus_Pabs d0 p 41 F0 Fp A0 Bp ltac:(lia)) as [Fb Bb]. change (41 + 1)%Z with 42%Z in Bb. change (Bminus mode_NE d0 p) with i_b in * .
  destruct (minus_Pabs s i_b 42 Fs Fb (abs_up _ 21 42 As ltac:(lia)) Bb ltac:(lia)) as [Fa Ba]. change (42 + 1)%Z with 43%Z in Ba. change (Bminus mode_NE s i_b) with i_a in * .
  destruct (mul_Pabs (Bopp s) w 21 0 (fin_opp _ Fs) Fw ltac:(rewrite V_opp, Rabs_Ropp; exact As) Aw ltac:(lia)) as [Fc Bc]. change (21 + 0)%Z with 21%Z in Bc. change (Bmult mode_NE (Bopp s) w) with i_c in * .
  assert (Cn : V i_c <= 0).
  { destruct (mult_in (Bopp s) w (- P 21) 0 (fin_opp _ Fs) Fw (fbopp _ (fbP 21 ltac:(lia))) fb0) as [_ B]; [|exact (proj2 B)]. rewrite V_opp. assert (0 <= V s * V w <= P 21 * 1) by (split; [apply Rmult_le_pos; lra|apply Rmult_le_compat; lra]). lra. }
  destruct (mul_Pabs i_b i_b 42 42 Fb Fb Bb Bb ltac:(lia)) as [Fbb Bbb]. change (42 + 42)%Z with 84%Z in Bbb.
  destruct (mul_Pabs (@f4 BN) i_a 2 43 G4 Fa ltac:(rewrite V4, Rabs_pos_eq by lra; cbn; lra) Ba ltac:(lia)) as [F4a B4a]. change (2 + 43)%Z with 45%Z in B4a.
  destruct (mul_Pabs (Bmult mode_NE (@f4 BN) i_a) i_c 45 21 F4a Fc B4a Bc ltac:(lia)) as [Fac Bac]. change (45 + 21)%Z with 66%Z in Bac.
  set (bb := Bmult mode_NE i_b i_b) in * . set (ac := Bmult mode_NE (Bmult mode_NE (@f4 BN) i_a) i_c) in * .
  destruct (minus_Pabs bb ac 84 Fbb Fac Bbb (abs_up _ 66 84 Bac ltac:(lia)) ltac:(lia)) as [Fsd Bsd]. change (84 + 1)%Z with 85%Z in Bsd. set (sd := Bminus mode_NE bb ac) in * .
  assert (BB0 : 0 <= V bb). { destruct (mult_in i_b i_b 0 (P 84) Fb Fb fb0 (fbP 84 ltac:(lia))) as [_ B]; [|exact (proj1 B)]. split; [apply Rle_0_sqr|]. change 84%Z with (42 + 42)%Z. rewrite P_mul. apply Rabs_le_inv in Bb. nra. }
  destruct tiny_ok as [Ft Bt]. destruct (fmax_ok pi fe fl ft sd (@ftiny BN) Fsd Ft) as [Fm Em]. fold BN in Fm, Em.
  assert (Bm : 0 < V (@fmax BN sd (@ftiny BN)) <= P 43 * P 43 /\ V sd <= V (@fmax BN sd (@ftiny BN))).
  { rewrite Em. split; [split|].
    - pose proof (Rmax_r (V sd) (V (@ftiny BN))). lra.
    - rewrite <- P_mul. apply Rmax_lub; [apply Rabs_le_inv in Bsd; eapply Rle_trans; [apply (proj2 Bsd)|apply P_le; lia]|].
      apply Rle_trans with (P 0); [change (P 0) with 1; lra|apply P_le; lia].
    - apply Rmax_l. }
  destruct Bm as [Bm Bm'].
  destruct (sqrt_in (@fmax BN sd (@ftiny BN)) 0 (P 43) Fm ltac:(lra) fb0 (fbP 43 ltac:(lia)) ltac:(lra) (bpow_ge_0 _ _) ltac:(lra)) as [Fss0 Bss0].
  (* the square root that is used *)
  set (ss := if Bltb (@f0 BN) sd then Bsqrt mode_NE (@fmax BN sd (@ftiny BN)) else @f0 BN).
  assert (SS : fin ss /\ 0 <= V ss <= P 43).
  { unfold ss. destruct (Bltb (@f0 BN) sd); [auto|]. rewrite V0. pose proof (P_pos 43). split; [exact G0|lra]. }
  destruct SS as [Fss Bss].
  assert (E : @safe_quadratic_root BN i_a i_b i_c = if Bleb (@f0 BN) i_b then Bdiv mode_NE (Bmult mode_NE (@f2 BN) i_c) (Bminus mode_NE (Bopp i_b) ss)
                                     else Bdiv mode_NE (Bplus mode_NE (Bopp i_b) ss) (Bmult mode_NE (@f2 BN) i_a)).
  { transitivity (Bdiv mode_NE (if Bleb (@f0 BN) i_b then Bmult mode_NE (@f2 BN) i_c else Bplus mode_NE (Bopp i_b) ss)
                              (if Bleb (@f0 BN) i_b then Bminus mode_NE (Bopp i_b) ss else Bmult mode_NE (@f2 BN) i_a)); [reflexivity|]. destruct (Bleb _ _); reflexivity. }
  rewrite E. clear E. pose proof (leb_V (@f0 BN) i_b G0 Fb) as LB. rewrite V0 in LB. destruct (Bleb (@f0 BN) i_b).
  - assert (Hb : 0 <= V i_b) by now apply LB. clear LB. apply Rabs_le_inv in Bb.
    destruct (mul_Pabs (@f2 BN) i_c 1 21 G2 Fc ltac:(rewrite V2, Rabs_pos_eq by lra; cbn; lra) Bc ltac:(lia)) as [Fn Bn].
    assert (K : P (-60) <= V i_b + V ss).
    { destruct (Rlt_le_dec (V w) (P (-58))) as [L|L].
      - (* the linear coefficient is large *)
        assert (Bp' : Rabs (V st * V w) <= P (-17)).
        { change (-17)%Z with (41 + -58)%Z. rewrite P_mul, Rabs_mult. apply Rmult_le_compat; auto using Rabs_pos. rewrite Rabs_pos_eq; lra. }
        destruct (mult_in st w (- P (-17)) (P (-17)) F1 Fw (fbopp _ (fbP (-17) ltac:(lia))) (fbP (-17) ltac:(lia)) (Rabs_le_inv _ _ Bp')) as [_ Bq]. fold p in Bq.
        assert (C1 : P (-14) = 2 * P (-15)) by exact (P_S (-15)). assert (C2 : P (-15) = 2 * P (-16)) by exact (P_S (-16)). assert (C3 : P (-16) = 2 * P (-17)) by exact (P_S (-17)). pose proof (P_pos (-17)).
        destruct (minus_in d0 p (P (-15)) (P 42) F0 Fp (fbP (-15) ltac:(lia)) (fbP 42 ltac:(lia))) as [_ Bi].
        { apply Rabs_le_inv in A0, Bp. assert (P 42 = 2 * P 41) by exact (P_S 41). lra. }
        change (Bminus mode_NE d0 p) with i_b in Bi. assert (P (-60) <= P (-15)) by (apply P_le; lia). lra.
      - destruct (Rlt_le_dec (V i_b) (P (-60))) as [M|M]; [|lra].
        (* the discriminant is large *)
        assert (C1 : V i_c <= - P (-79)).
        { destruct (mult_in (Bopp s) w (- P 21) (- P (-79)) (fin_opp _ Fs) Fw (fbopp _ (fbP 21 ltac:(lia))) (fbopp _ (fbP (-79) ltac:(lia)))) as [_ B]; [|exact (proj2 B)].
          rewrite V_opp. assert (P (-79) <= V s * V w). { change (-79)%Z with (-21 + -58)%Z. rewrite P_mul. pose proof (P_pos (-58)). apply Rmult_le_compat; lra. } assert (V s * V w <= P 21 * 1) by (apply Rmult_le_compat; lra). lra. }
        assert (A1 : P (-22) <= V i_a).
        { destruct (minus_in s i_b (P (-22)) (P 43) Fs Fb (fbP (-22) ltac:(lia)) (fbP 43 ltac:(lia))) as [_ B]; [|exact (proj1 B)].
          assert (P (-21) = 2 * P (-22)) by exact (P_S (-22)). assert (P (-60) <= P (-22)) by (apply P_le; lia). assert (P 21 <= P 43) by (apply P_le; lia). lra. }
        assert (A4 : P (-20) <= V (Bmult mode_NE (@f4 BN) i_a)).
        { destruct (mult_in (@f4 BN) i_a (P (-20)) (P 45) G4 Fa (fbP (-20) ltac:(lia)) (fbP 45 ltac:(lia))) as [_ B]; [|exact (proj1 B)].
          rewrite V4. assert (P (-20) = 2 * P (-21)) by exact (P_S (-21)). assert (P (-21) = 2 * P (-22)) by exact (P_S (-22)). assert (P 45 = 2 * P 44) by exact (P_S 44). assert (P 44 = 2 * P 43) by exact (P_S 43). apply Rabs_le_inv in Ba. lra. }
        assert (AC : V ac <= - P (-99)).
        { destruct (mult_in (Bmult mode_NE (@f4 BN) i_a) i_c (- P 66) (- P (-99)) F4a Fc (fbopp _ (fbP 66 ltac:(lia))) (fbopp _ (fbP (-99) ltac:(lia)))) as [_ B]; [|exact (proj2 B)].
          assert (P (-99) <= V (Bmult mode_NE (@f4 BN) i_a) * - V i_c). { change (-99)%Z with (-20 + -79)%Z. rewrite P_mul. pose proof (P_pos (-20)). pose proof (P_pos (-79)). apply Rmult_le_compat; lra. }
          assert (V (Bmult mode_NE (@f4 BN) i_a) * - V i_c <= P 66). { change 66%Z with (45 + 21)%Z. rewrite P_mul. apply Rabs_le_inv in B4a, Bc. pose proof (P_pos (-20)). apply Rmult_le_compat; lra. } lra. }
        assert (SD : P (-99) <= V sd).
        { destruct (minus_in bb ac (P (-99)) (P 85) Fbb Fac (fbP (-99) ltac:(lia)) (fbP 85 ltac:(lia))) as [_ B]; [|exact (proj1 B)].
          apply Rabs_le_inv in Bbb, Bac. assert (P 85 = 2 * P 84) by exact (P_S 84). assert (P 66 <= P 84) by (apply P_le; lia). lra. }
        assert (SS : P (-50) <= V ss).
        { unfold ss. pose proof (P_pos (-99)). assert (LT : Bltb (@f0 BN) sd = true) by (apply ltb_V; auto; rewrite V0; lra). rewrite LT.
          refine (proj1 (proj2 (sqrt_in (@fmax BN sd (@ftiny BN)) (P (-50)) (P 43) Fm ltac:(lra) (fbP (-50) ltac:(lia)) (fbP 43 ltac:(lia)) (bpow_ge_0 _ _) (bpow_ge_0 _ _) _))).
          split; [|lra]. rewrite <- P_mul. assert (P (-50 + -50) <= P (-99)) by (apply P_le; lia). lra. }
        assert (P (-60) <= P (-50)) by (apply P_le; lia). lra. }
    destruct (minus_in (Bopp i_b) ss (- P 45) (- P (-60)) (fin_opp _ Fb) Fss (fbopp _ (fbP 45 ltac:(lia))) (fbopp _ (fbP (-60) ltac:(lia)))) as [Fd Bd].
    { rewrite V_opp. assert (P 45 = 2 * P 44) by exact (P_S 44). assert (P 44 = 2 * P 43) by exact (P_S 43). assert (P 43 = 2 * P 42) by exact (P_S 42). lra. }
    refine (proj1 (div_Pabs (Bmult mode_NE (@f2 BN) i_c) (Bminus mode_NE (Bopp i_b) ss) 22 (-60) Fn Bn _ ltac:(lia))).
    rewrite Rabs_left1; [lra|]. pose proof (P_pos (-60)). lra.
  - assert (Hb : V i_b < 0). { destruct (Rle_lt_dec 0 (V i_b)) as [L|L]; [apply LB in L; discriminate|exact L]. } clear LB.
    destruct (plus_Pabs (Bopp i_b) ss 43 (fin_opp _ Fb) Fss) as [Fn Bn]; [rewrite V_opp, Rabs_Ropp; exact (abs_up _ 42 43 Bb ltac:(lia))|rewrite Rabs_pos_eq; lra|lia|].
    assert (A1 : P (-21) <= V i_a).
    { destruct (minus_in s i_b (P (-21)) (P 43) Fs Fb (fbP (-21) ltac:(lia)) (fbP 43 ltac:(lia))) as [_ B]; [|exact (proj1 B)].
      apply Rabs_le_inv in Bb. assert (P 43 = 2 * P 42) by exact (P_S 42). assert (P 21 <= P 42) by (apply P_le; lia). lra. }
    apply Rabs_le_inv in Ba.
    destruct (mult_in (@f2 BN) i_a (P (-20)) (P 44) G2 Fa (fbP (-20) ltac:(lia)) (fbP 44 ltac:(lia))) as [Fd Bd].
    { rewrite V2. assert (P (-20) = 2 * P (-21)) by exact (P_S (-21)). assert (P 44 = 2 * P 43) by exact (P_S 43). lra. }
    refine (proj1 (div_Pabs (Bplus mode_NE (Bopp i_b) ss) (Bmult mode_NE (@f2 BN) i_a) 44 (-20) Fn Bn _ ltac:(lia))).
    rewrite Rabs_pos_eq; [lra|]. pose proof (P_pos (-20)). lra.
Qed.
End Root.

Lemma bin_inv_ok b y : bin_ok pi fe fl ft b -> fin y -> Rabs (V y) <= P 60 ->
  let r := @rq_bin_inv BN b y in
  (fin (fst r) /\ V (bx0 b) <= V (fst r) <= V (bx1 b) + / 524288) /\ fin (snd r) /\ Rabs (V (snd r)) <= 1024.
Proof.
  intros (HX & HY & D0 & D1) Fy By r. destruct (cell_width _ _ HX) as [FW BW]. destruct (cell_width _ _ HY) as [FH BH]. destruct (cell_slope _ _ _ _ HY HX) as [Fs Bs].
  set (W := Bminus mode_NE (bx1 b) (bx0 b)) in * . set (H := Bminus mode_NE (by1 b) (by0 b)) in * . set (s := Bdiv mode_NE H W) in * . cbv zeta in Bs, Fs.
  destruct HX as (FX0 & FX1 & LX & UX & GX). destruct HY as (FY0 & FY1 & LY & UY & GY).
  assert (X0 : Rabs (V (by0 b)) <= P 60). { apply Rabs_le. assert (P 4 <= P 60) by (apply P_le; lia). change (P 4) with 16 in * . lra. }
  destruct (minus_Pabs y (by0 b) 60 Fy FY0 By X0 ltac:(lia)) as [G1 I1].
  assert (AW : P (-16) <= Rabs (V H)). { rewrite Rabs_pos_eq; [apply BH|]. pose proof (P_pos (-16)). lra. }
  destruct (div_Pabs (Bminus mode_NE y (by0 b)) H 61 (-16) G1 I1 AW ltac:(lia)) as [G2 I2].
  pose (w := @fclip BN (Bdiv mode_NE (Bminus mode_NE y (by0 b)) H) (@f0 BN) (@f1 BN)). assert (Qw : fin w /\ 0 <= V w <= 1) by exact (clip_in pi fe fl ft _ G2). destruct Qw as [Fw Bw].
  pose proof (root_fin s (bd0 b) (bd1 b) w Fs Bs D0 D1 Fw Bw) as G3.
  pose (z := @fclip BN (@safe_quadratic_root BN (i_a s (bd0 b) (bd1 b) w) (i_b s (bd0 b) (bd1 b) w) (i_c s w)) (@f0 BN) (@f1 BN)). assert (Qz : fin z /\ 0 <= V z <= 1) by exact (clip_in pi fe fl ft _ G3). destruct Qz as [Fz Bz].
  destruct (k_ld_ok pi fe fl ft LIB s (bd0 b) (bd1 b) z Fs Bs D0 D1 Fz Bz) as [_ LD].
  assert (Er : r = (Bplus mode_NE (Bmult mode_NE W z) (bx0 b), k_ldi pi fe fl ft s (bd0 b) (bd1 b) z)).
  { subst r z w s W H. unfold rq_bin_inv, k_den, k_ldi, k_arg, k_sq1, k_1z, i_a, i_b, i_c, k_st, k_z1, k_2s, k_sq, fsq. cbv zeta. unfold fadd, fsub, fmul, fdiv, fln. cbn [BN B32Num]. reflexivity. }
  rewrite Er. clear Er r. cbn [fst snd]. split; [|exact LD].
  pose proof (P_pos (-16)) as P16. pose proof u_val as U.
  assert (WB : Rabs (V W) <= big). { rewrite Rabs_pos_eq by lra. unfold big. apply Rle_trans with 20; [lra|apply IZR_le; lia]. }
  destruct (mult_in W z 0 (V W) FW Fz fb0 (fbV W FW WB)) as [F3 B3]. { split; [apply Rmult_le_pos; lra|]. assert (V W * V z <= V W * 1) by (apply Rmult_le_compat_l; lra). lra. }
  set (q := Bmult mode_NE W z) in * .
  assert (WW : V W <= V (bx1 b) - V (bx0 b) + 20 * u).
  { destruct (minus_ok (bx1 b) (bx0 b) FX1 FX0) as [_ WH]. { rewrite Rabs_pos_eq by lra. unfold big. apply Rle_trans with 20; [lra|apply IZR_le; lia]. }
    fold W in WH. pose proof (rnd_plus_rel (bx1 b) (Bopp (bx0 b))) as R. rewrite V_opp in R. change (V (bx1 b) + - V (bx0 b)) with (V (bx1 b) - V (bx0 b)) in R. rewrite <- WH in R. rewrite (Rabs_pos_eq (V (bx1 b) - V (bx0 b))) in R by lra. apply Rabs_le_inv in R. rewrite U in * . lra. }
  destruct (plus_err q (bx0 b) 4 ltac:(lia) F3 FX0) as [F5 E5]. { change (P 4) with 16. apply Rabs_le. rewrite U in * . lra. }
  split; [exact F5|]. split.
  - destruct (plus_ok q (bx0 b) F3 FX0) as [_ W5]. { apply Rabs_le. assert (32 <= big) by (unfold big; apply IZR_le; lia). rewrite U in * . lra. }
    rewrite W5, <- (rnd_V (bx0 b)) at 1. apply rnd_le. lra.
  - apply Rabs_le_inv in E5. change (P (4 - 25)) with (/ 2097152) in E5. rewrite U in * . lra.
Qed.
End BN.
