(** Inside one bin, in single precision: everything stays finite. *)
From Coq Require Import ZArith Reals Lra Lia Psatz Sorted.
From Flocq Require Import Core BinarySingleNaN.
From Verif Require Import Prelude Num M_Flow Float32 Float32t Spec_FSpline P_Lists P_FSpline1 P_FSpline2 P_FSpline3 P_FSpline4.
Open Scope R_scope.

Notation P k := (bpow radix2 k).
Lemma fbP k : (-149 <= k <= 127)%Z -> fbound (P k).
Proof.
  intros H. split.
  - apply generic_format_bpow. unfold FLT_exp. lia.
  - rewrite Rabs_pos_eq by apply bpow_ge_0. rewrite big_bpow. apply bpow_le. lia.
Qed.
Lemma fb0 : fbound 0. Proof. exact (fbZ 0 ltac:(lia)). Qed.
Lemma P_pos k : 0 < P k. Proof. apply bpow_gt_0. Qed.
Lemma P_mul a b : P (a + b) = P a * P b. Proof. apply bpow_plus. Qed.
Lemma P_le a b : (a <= b)%Z -> P a <= P b. Proof. apply bpow_le. Qed.
Lemma P_S a : P (a + 1) = 2 * P a. Proof. rewrite bpow_plus_1. reflexivity. Qed.

Lemma mul_bnd a b x y : 0 <= a <= x -> 0 <= b <= y -> 0 <= a * b <= x * y. Proof. intros. split; [nra|]. apply Rmult_le_compat; lra. Qed.
Lemma mul_P x y a b c d : fin x -> fin y -> P a <= V x <= P b -> P c <= V y <= P d -> (-149 <= a + c)%Z -> (a + c <= b + d <= 127)%Z ->
  fin (Bmult mode_NE x y) /\ P (a + c) <= V (Bmult mode_NE x y) <= P (b + d).
Proof.
  intros Fx Fy Hx Hy H1 H2. apply mult_in; auto; [apply fbP; lia|apply fbP; lia|]. rewrite !P_mul. pose proof (P_pos a). pose proof (P_pos c). pose proof (P_pos b). pose proof (P_pos d).
  split; apply Rmult_le_compat; lra.
Qed.
Lemma mul_P0 x y b d : fin x -> fin y -> 0 <= V x <= P b -> 0 <= V y <= P d -> (-149 <= b + d <= 127)%Z ->
  fin (Bmult mode_NE x y) /\ 0 <= V (Bmult mode_NE x y) <= P (b + d).
Proof.
  intros Fx Fy Hx Hy H1. apply mult_in; auto; [apply fb0|apply fbP; lia|]. rewrite P_mul. split; [apply Rmult_le_pos; lra|apply Rmult_le_compat; lra].
Qed.
Lemma mul_Pabs x y b d : fin x -> fin y -> Rabs (V x) <= P b -> Rabs (V y) <= P d -> (-149 <= b + d <= 127)%Z ->
  fin (Bmult mode_NE x y) /\ Rabs (V (Bmult mode_NE x y)) <= P (b + d).
Proof.
  intros Fx Fy Hx Hy H1. destruct (mult_in x y (- P (b + d)) (P (b + d)) Fx Fy) as [A B]; [apply fbopp, fbP; lia|apply fbP; lia| |split; [exact A|now apply Rabs_le]].
  apply Rabs_le_inv. rewrite Rabs_mult, P_mul. apply Rmult_le_compat; auto using Rabs_pos.
Qed.
Lemma div_P x y a b c d : fin x -> P a <= V x <= P b -> P c <= V y <= P d -> (-149 <= a - d)%Z -> (a - d <= b - c <= 127)%Z ->
  fin (Bdiv mode_NE x y) /\ P (a - d) <= V (Bdiv mode_NE x y) <= P (b - c).
Proof.
  intros Fx Hx Hy H1 H2. pose proof (P_pos a). pose proof (P_pos c). pose proof (P_pos b). pose proof (P_pos d).
  apply div_in; auto; [lra|apply fbP; lia|apply fbP; lia|]. unfold Zminus. rewrite !P_mul, !bpow_opp. unfold Rdiv.
  split; apply Rmult_le_compat; try lra; try (apply Rlt_le, Rinv_0_lt_compat; lra); apply Rinv_le_contravar; lra.
Qed.
Lemma div_Pabs x y b c : fin x -> Rabs (V x) <= P b -> P c <= Rabs (V y) -> (-149 <= b - c <= 127)%Z ->
  fin (Bdiv mode_NE x y) /\ Rabs (V (Bdiv mode_NE x y)) <= P (b - c).
Proof.
  intros Fx Hx Hy H1. pose proof (P_pos b). pose proof (P_pos c).
  assert (Y : V y <> 0). { intros E. rewrite E, Rabs_R0 in Hy. lra. }
  destruct (div_in x y (- P (b - c)) (P (b - c)) Fx Y) as [A B]; [apply fbopp, fbP; lia|apply fbP; lia| |split; [exact A|now apply Rabs_le]].
  apply Rabs_le_inv. unfold Rdiv. rewrite Rabs_mult, Rabs_inv. unfold Zminus. rewrite P_mul, bpow_opp.
  apply Rmult_le_compat; auto using Rabs_pos; [apply Rlt_le, Rinv_0_lt_compat; lra|apply Rinv_le_contravar; lra].
Qed.
Lemma plus_P0 x y k : fin x -> fin y -> 0 <= V x <= P k -> 0 <= V y <= P k -> (-149 <= k <= 126)%Z -> fin (Bplus mode_NE x y) /\ 0 <= V (Bplus mode_NE x y) <= P (k + 1).
Proof. intros Fx Fy Hx Hy H. apply plus_in; auto; [apply fb0|apply fbP; lia|]. rewrite P_S. lra. Qed.
Lemma plus_Pabs x y k : fin x -> fin y -> Rabs (V x) <= P k -> Rabs (V y) <= P k -> (-149 <= k <= 126)%Z -> fin (Bplus mode_NE x y) /\ Rabs (V (Bplus mode_NE x y)) <= P (k + 1).
Proof.
  intros Fx Fy Hx Hy H. destruct (plus_in x y (- P (k + 1)) (P (k + 1)) Fx Fy) as [A B]; [apply fbopp, fbP; lia|apply fbP; lia| |split; [exact A|now apply Rabs_le]].
  apply Rabs_le_inv in Hx, Hy. rewrite P_S. lra.
Qed.
Lemma minus_Pabs x y k : fin x -> fin y -> Rabs (V x) <= P k -> Rabs (V y) <= P k -> (-149 <= k <= 126)%Z -> fin (Bminus mode_NE x y) /\ Rabs (V (Bminus mode_NE x y)) <= P (k + 1).
Proof.
  intros Fx Fy Hx Hy H. destruct (minus_in x y (- P (k + 1)) (P (k + 1)) Fx Fy) as [A B]; [apply fbopp, fbP; lia|apply fbP; lia| |split; [exact A|now apply Rabs_le]].
  apply Rabs_le_inv in Hx, Hy. rewrite P_S. lra.
Qed.
Lemma abs_of x k : 0 <= x <= P k -> Rabs x <= P k. Proof. intros. rewrite Rabs_pos_eq; lra. Qed.
Lemma abs_up r a b : Rabs r <= P a -> (a <= b)%Z -> Rabs r <= P b. Proof. intros A B. eapply Rle_trans; [exact A|now apply P_le]. Qed.
Ltac pk := unfold bpow in * ; cbn [Z.pow_pos radix2 radix_val Pos.iter] in * .

Section BN.
Variables (pi : B32) (fe fl ft : B32 -> B32).
Hypothesis LIB : lib_ok fe fl.
Let BN := B32Num pi fe fl ft.

(** What is known of a bin. *)
Definition cell (x0 x1 : B32) : Prop := fin x0 /\ fin x1 /\ -10 <= V x0 /\ V x1 <= 10 /\ V x0 + / 65536 <= V x1.
Definition slope_ok (d : B32) : Prop := fin d /\ / 16384 <= V d <= IZR (2 ^ 40).
Lemma cell_width x0 x1 : cell x0 x1 -> fin (Bminus mode_NE x1 x0) /\ P (-16) <= V (Bminus mode_NE x1 x0) <= 20.
Proof.
  intros (F0 & F1 & A & B & C). apply minus_in; auto; [apply fbP; lia|exact (fbZ 20 ltac:(lia))|]. change (P (-16)) with (/ 65536). lra.
Qed.
Lemma cell_slope y0 y1 x0 x1 : cell y0 y1 -> cell x0 x1 ->
  let s := Bdiv mode_NE (Bminus mode_NE y1 y0) (Bminus mode_NE x1 x0) in fin s /\ P (-21) <= V s <= P 21.
Proof.
  intros Hy Hx s. destruct (cell_width _ _ Hy) as [A B]. destruct (cell_width _ _ Hx) as [C D].
  assert (E : 20 <= P 5) by (cbn; lra). exact (div_P (Bminus mode_NE y1 y0) (Bminus mode_NE x1 x0) (-16) 5 (-16) 5 A ltac:(lra) ltac:(lra) ltac:(lia) ltac:(lia)).
Qed.

(** The quantities made from the slope, the two derivatives and the relative position. *)
Section Cell.
Variables (s d0 d1 z : B32).
Hypothesis (Fs : fin s) (Bs : P (-21) <= V s <= P 21) (D0 : slope_ok d0) (D1 : slope_ok d1) (Fz : fin z) (Bz : 0 <= V z <= 1).
Definition k_2s := Bmult mode_NE (@f2 BN) s.
Definition k_st := Bminus mode_NE (Bplus mode_NE d1 d0) k_2s.
Definition k_sq := Bmult mode_NE z z.
Definition k_z1 := Bminus mode_NE z k_sq.
Definition k_1z := Bminus mode_NE (@f1 BN) z.
Definition k_sq1 := Bmult mode_NE k_1z k_1z.
Definition k_den := Bplus mode_NE s (Bmult mode_NE k_st k_z1).
Definition k_arg := Bplus mode_NE (Bplus mode_NE (Bmult mode_NE d1 k_sq) (Bmult mode_NE k_2s k_z1)) (Bmult mode_NE d0 k_sq1).
Lemma slope_P d : slope_ok d -> fin d /\ P (-14) <= V d <= P 40.
Proof. intros [A B]. split; [exact A|]. change (P (-14)) with (/ 16384). change (P 40) with (IZR (2 ^ 40)). exact B. Qed.
Lemma k_2s_ok : fin k_2s /\ V k_2s = 2 * V s.
Proof.
  destruct (f2_ok pi fe fl ft) as [F2 V2]. fold BN in F2, V2. pose proof (P_pos (-21)).
  destruct (mult_ok (@f2 BN) s F2 Fs) as [A B]. { rewrite V2, Rabs_pos_eq by lra. rewrite big_bpow. apply Rle_trans with (P 22); [change 22%Z with (21 + 1)%Z; rewrite P_S; lra|apply P_le; lia]. }
  split; [exact A|]. unfold k_2s. rewrite B, V2. apply rnd_fmt.
  replace (2 * V s) with (V s * P 1) by (cbn; lra). apply generic_format_FLT.
  destruct (FLT_format_generic radix2 (-149) 24 (V s) (fmt_V s)) as [f E1 E2 E3]. exists (Float radix2 (Fnum f) (Fexp f + 1)); [|exact E2|cbn in * ; lia].
  rewrite E1. unfold F2R. cbn [Fnum Fexp]. rewrite bpow_plus. ring.
Qed.
Lemma k_st_ok : fin k_st /\ - (2 * V s) <= V k_st <= P 41.
Proof.
  destruct (slope_P _ D0) as [F0 B0]. destruct (slope_P _ D1) as [F1 B1]. destruct k_2s_ok as [F2 V2]. pose proof (P_pos (-14)). pose proof (P_pos (-21)).
  destruct (plus_P0 d1 d0 40 F1 F0 ltac:(lra) ltac:(lra) ltac:(lia)) as [FS BS].
  assert (FB : fbound (- (2 * V s))). { rewrite <- V2. apply fbopp, fbV; [exact F2|]. rewrite V2, Rabs_pos_eq by lra. rewrite big_bpow. apply Rle_trans with (P (21 + 1)); [rewrite P_S; lra|apply P_le; lia]. }
  change (40 + 1)%Z with 41%Z in BS.
  refine (minus_in _ _ _ _ FS F2 FB (fbP 41 ltac:(lia)) _). rewrite V2. lra.
Qed.
Lemma k_sq_ok : fin k_sq /\ 0 <= V k_sq <= V z /\ Rabs (V k_sq - V z * V z) <= u + eta.
Proof.
  pose proof eta_tiny as ET. pose proof u_val as U.
  assert (BZ : Rabs (V z) <= big). { rewrite Rabs_pos_eq by lra. unfold big. apply Rle_trans with 1; [lra|apply IZR_le; lia]. }
  destruct (mult_in z z 0 (V z) Fz Fz fb0 (fbV z Fz BZ)) as [A B]. { split; nra. }
  split; [exact A|]. split; [exact B|]. destruct (mult_ok z z Fz Fz) as [_ E]. { rewrite Rabs_pos_eq by nra. unfold big. apply Rle_trans with 1; [nra|apply IZR_le; lia]. }
  unfold k_sq. rewrite E. eapply Rle_trans; [apply rnd_rel|]. rewrite (Rabs_pos_eq (V z * V z)) by nra. assert (u * (V z * V z) <= u * 1) by (apply Rmult_le_compat_l; [rewrite U; lra|nra]). lra.
Qed.
Lemma k_z1_ok : fin k_z1 /\ 0 <= V k_z1 <= 262145 / IZR (2 ^ 20).
Proof.
  destruct k_sq_ok as (A & B & C). apply Rabs_le_inv in C. pose proof eta_tiny as ET. pose proof u_val as U.
  refine (minus_in z k_sq 0 (262145 / IZR (2 ^ 20)) Fz A fb0 (fbfrac 262145 20 ltac:(lia) ltac:(lia)) _).
  pose proof (Rle_0_sqr (V z - 1 / 2)) as SQ; unfold Rsqr in SQ. change (IZR (2 ^ 20)) with 1048576. split; [lra|]. rewrite U in * . lra.
Qed.
Lemma k_1z_ok : fin k_1z /\ 0 <= V k_1z <= 1 /\ (V z <= 1 / 2 -> 1 / 2 <= V k_1z).
Proof.
  destruct (f1_ok pi fe fl ft) as [F1 V1]. fold BN in F1, V1.
  destruct (minus_in (@f1 BN) z 0 1 F1 Fz fb0 (fbZ 1 ltac:(lia))) as [A B]; [lra|]. split; [exact A|]. split; [exact B|]. intros H.
  refine (proj1 (proj2 (minus_in (@f1 BN) z (1 / 2) 1 F1 Fz (fbfrac 1 1 ltac:(lia) ltac:(lia)) (fbZ 1 ltac:(lia)) _))). lra.
Qed.
Lemma k_den_ok : fin k_den /\ P (-23) <= V k_den <= P 43 /\ 2 / 5 * V s <= V k_den.
Proof.
  destruct k_st_ok as [F1 B1]. destruct k_z1_ok as [F2 B2]. assert (S0 : / 2097152 <= V s) by exact (proj1 Bs). pose proof (P_pos (-21)) as P21. pose proof eta_tiny as ET. pose proof u_val as U.
  assert (PB : - (2 * V s) * (262145 / IZR (2 ^ 20)) <= V k_st * V k_z1 <= P 41 * 1).
  { change (IZR (2 ^ 20)) with 1048576 in * . pose proof (P_pos 41). split.
    - assert (- (2 * V s) * V k_z1 <= V k_st * V k_z1) by (apply Rmult_le_compat_r; lra). nra.
    - destruct (Rle_lt_dec (V k_st) 0); [nra|]. apply Rmult_le_compat; lra. }
  assert (SB : V s <= P 41) by (eapply Rle_trans; [apply (proj2 Bs)|apply P_le; lia]).
  assert (AB : Rabs (V k_st * V k_z1) <= P 41). { change (IZR (2 ^ 20)) with 1048576 in * . apply Rabs_le. pose proof (P_pos 41). lra. }
  destruct (mult_ok k_st k_z1 F1 F2) as [F3 E3]. { eapply Rle_trans; [exact AB|]. rewrite big_bpow. apply P_le. lia. }
  destruct (mult_in k_st k_z1 (- P 41) (P 41) F1 F2) as [_ B3]; [apply fbopp, fbP; lia|apply fbP; lia|apply Rabs_le_inv; exact AB|].
  set (p := Bmult mode_NE k_st k_z1) in * .
  assert (LB : - (V s * (11 / 20)) <= V p).
  { rewrite E3. apply Rle_trans with (rnd (- (2 * V s) * (262145 / IZR (2 ^ 20)))); [|apply rnd_le; apply PB].
    pose proof (rnd_rel (- (2 * V s) * (262145 / IZR (2 ^ 20)))) as R. change (IZR (2 ^ 20)) with 1048576 in * . rewrite (Rabs_left (- (2 * V s) * (262145 / 1048576))) in R by lra. apply Rabs_le_inv in R. rewrite U in * . lra. }
  assert (QQ : V s + V p <= P 43). { change 43%Z with (41 + 1 + 1)%Z. rewrite !P_S. lra. }
  destruct (plus_ok s p Fs F3) as [F4 E4]. { rewrite Rabs_pos_eq by lra. rewrite big_bpow. eapply Rle_trans; [exact QQ|apply P_le; lia]. }
  change k_den with (Bplus mode_NE s p). split; [exact F4|]. split.
  - refine (proj2 (plus_in s p (P (-23)) (P 43) Fs F3 (fbP (-23) ltac:(lia)) (fbP 43 ltac:(lia)) _)). split; [change (P (-23)) with (/ 8388608); lra|exact QQ].
  - rewrite E4. pose proof (rnd_plus_rel s p) as R. rewrite (Rabs_pos_eq (V s + V p)) in R by lra. apply Rabs_le_inv in R. rewrite U in * . lra.
Qed.
Lemma k_arg_ok : fin k_arg /\ P (-16) <= V k_arg.
Proof.
  destruct (slope_P _ D0) as [F0 B0]. destruct (slope_P _ D1) as [F1 B1]. destruct k_2s_ok as [F2 V2]. destruct k_z1_ok as [F3 B3]. destruct k_1z_ok as (F4 & B4 & C4).
  destruct k_sq_ok as (F5 & B5 & _). pose proof (P_pos (-14)). pose proof (P_pos (-21)). change (IZR (2 ^ 20)) with 1048576 in * . assert (P1 : P 0 = 1) by reflexivity.
  destruct (mul_P0 k_1z k_1z 0 0 F4 F4 ltac:(lra) ltac:(lra) ltac:(lia)) as [F6 B6]. fold k_sq1 in F6, B6.
  destruct (mul_P0 d1 k_sq 40 0 F1 F5 ltac:(lra) ltac:(lra) ltac:(lia)) as [F7 B7].
  destruct (mul_P0 k_2s k_z1 22 0 F2 F3) as [F8 B8]; [change 22%Z with (21 + 1)%Z; rewrite V2, P_S; lra|lra|lia|].
  destruct (mul_P0 d0 k_sq1 40 0 F0 F6 ltac:(lra) ltac:(cbn [Z.add] in B6; lra) ltac:(lia)) as [F9 B9].
  assert (PL : P (22 + 0) <= P (40 + 0)) by (apply P_le; lia).
  destruct (plus_P0 _ _ (40 + 0) F7 F8 ltac:(lra) ltac:(lra) ltac:(lia)) as [F10 B10].
  assert (PL2 : P (40 + 0) <= P (40 + 0 + 1)) by (apply P_le; lia).
  destruct (plus_P0 _ _ (40 + 0 + 1) F10 F9 ltac:(lra) ltac:(lra) ltac:(lia)) as [F11 B11].
  change (fin k_arg) in F11. split; [exact F11|]. clear B11 PL2.
  change (22 + 0)%Z with 22%Z in * . change (40 + 0)%Z with 40%Z in * . change (40 + 1)%Z with 41%Z in * . change (0 + 0)%Z with 0%Z in * .
  pose proof (P_S 40) as E41. pose proof (P_S 41) as E42. pose proof (P_S 42) as E43. cbn [Z.add Pos.add Pos.succ] in E41, E42, E43. pose proof (P_pos 40).
  destruct (Rle_lt_dec (V z) (1 / 2)) as [L|L].
  - assert (Q1 : P (-2) <= V k_sq1). { specialize (C4 L). refine (proj1 (proj2 (mul_P k_1z k_1z (-1) 0 (-1) 0 F4 F4 _ _ ltac:(lia) ltac:(lia)))); change (P (-1)) with (/ 2); lra. }
    destruct (mul_P d0 k_sq1 (-14) 40 (-2) 0 F0 F6 ltac:(lra) ltac:(lra) ltac:(lia) ltac:(lia)) as [_ Q2].
    refine (proj1 (proj2 (plus_in _ _ (P (-16)) (P 42) F10 F9 (fbP (-16) ltac:(lia)) (fbP 42 ltac:(lia)) _))). change (P (-14 + -2)) with (P (-16)) in Q2. lra.
  - assert (Q1 : P (-2) <= V k_sq). { refine (proj1 (proj2 (mul_P z z (-1) 0 (-1) 0 Fz Fz _ _ ltac:(lia) ltac:(lia)))); change (P (-1)) with (/ 2); lra. }
    destruct (mul_P d1 k_sq (-14) 40 (-2) 0 F1 F5 ltac:(lra) ltac:(lra) ltac:(lia) ltac:(lia)) as [_ Q2]. change (P (-14 + -2)) with (P (-16)) in Q2.
    assert (Q3 : P (-16) <= V (Bplus mode_NE (Bmult mode_NE d1 k_sq) (Bmult mode_NE k_2s k_z1))).
    { refine (proj1 (proj2 (plus_in _ _ (P (-16)) (P 42) F7 F8 (fbP (-16) ltac:(lia)) (fbP 42 ltac:(lia)) _))). lra. }
    refine (proj1 (proj2 (plus_in _ _ (P (-16)) (P 43) F10 F9 (fbP (-16) ltac:(lia)) (fbP 43 ltac:(lia)) _))). lra.
Qed.
(** The two log-derivatives. *)
Definition k_ldf := Bminus mode_NE (Bplus mode_NE (Bmult mode_NE (@f2 BN) (fl s)) (fl k_arg)) (Bmult mode_NE (@f2 BN) (fl k_den)).
Definition k_ldi := Bplus mode_NE (Bminus mode_NE (Bmult mode_NE (Bopp (@f2 BN)) (fl s)) (fl k_arg)) (Bmult mode_NE (@f2 BN) (fl k_den)).
Lemma k_ld_ok : (fin k_ldf /\ Rabs (V k_ldf) <= 1024) /\ fin k_ldi /\ Rabs (V k_ldi) <= 1024.
Proof.
  destruct (f2_ok pi fe fl ft) as [F2 V2]. fold BN in F2, V2. destruct k_arg_ok as [Fa Ba]. destruct k_den_ok as (Fd & Bd & _). pose proof (P_pos (-16)) as Q16. pose proof (P_pos (-21)) as Q21. pose proof (P_pos (-23)) as Q23.
  destruct (lb_ln _ _ LIB s Fs ltac:(change val with V; lra)) as [G1 H1]. destruct (lb_ln _ _ LIB k_arg Fa ltac:(change val with V; lra)) as [G2 H2].
  destruct (lb_ln _ _ LIB k_den Fd ltac:(change val with V; lra)) as [G3 H3]. change val with V in * . change isfin with fin in * .
  assert (A2 : Rabs (V (@f2 BN)) <= P 1) by (rewrite V2, Rabs_pos_eq by lra; cbn; lra).
  assert (A2' : Rabs (V (Bopp (@f2 BN))) <= P 1) by (rewrite V_opp, Rabs_Ropp; exact A2).
  change 128 with (P 7) in * . change 1024 with (P 10).
  destruct (mul_Pabs (@f2 BN) (fl s) 1 7 F2 G1 A2 H1 ltac:(lia)) as [I1 J1].
  destruct (mul_Pabs (Bopp (@f2 BN)) (fl s) 1 7 (fin_opp _ F2) G1 A2' H1 ltac:(lia)) as [I1' J1'].
  destruct (mul_Pabs (@f2 BN) (fl k_den) 1 7 F2 G3 A2 H3 ltac:(lia)) as [I3 J3].
  split.
  - destruct (plus_Pabs _ _ 8 I1 G2 J1 (abs_up _ 7 8 H2 ltac:(lia)) ltac:(lia)) as [K1 L1].
    exact (minus_Pabs _ _ 9 K1 I3 L1 (abs_up _ 8 9 J3 ltac:(lia)) ltac:(lia)).
  - destruct (minus_Pabs _ _ 8 I1' G2 J1' (abs_up _ 7 8 H2 ltac:(lia)) ltac:(lia)) as [K1 L1].
    exact (plus_Pabs _ _ 9 K1 I3 L1 (abs_up _ 8 9 J3 ltac:(lia)) ltac:(lia)).
Qed.
End Cell.
End BN.
