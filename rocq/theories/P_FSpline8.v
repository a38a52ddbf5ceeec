(** The spline of one coordinate, the bijection and the coupling layer, in single precision. *)
From Coq Require Import ZArith Reals Lra Lia Psatz Sorted.
From Flocq Require Import Core BinarySingleNaN.
From Verif Require Import Prelude Num M_Flow Float32 Float32t Spec_FSpline P_Lists P_FSpline1 P_FSpline2 P_FSpline3 P_FSpline4 P_FSpline5 P_FSpline6 P_FSpline7.
Open Scope R_scope.
Local Strategy 100 [Bplus Bminus Bmult Bdiv Bopp Bsqrt].

Lemma nth_remlast {A} (l : list A) i d : (S i < length l)%nat -> nth i (removelast l) d = nth i l d.
Proof.
  revert i. induction l as [|a [|b l] IH]; intros i H; [cbn in H; lia|cbn in H; lia|]. destruct i; [reflexivity|].
  change (removelast (a :: b :: l)) with (a :: removelast (b :: l)). cbn [nth]. rewrite IH by (cbn in * ; lia). reflexivity.
Qed.
Lemma nth_tail {A} (l : list A) i d : nth i (tl l) d = nth (S i) l d.
Proof. destruct l; [destruct i; reflexivity|reflexivity]. Qed.
Lemma gapped_range g l x : 0 <= g -> gapped g (x :: l) -> forall y, In y (x :: l) -> V x <= V y.
Proof.
  intros Hg. revert x. induction l as [|a l IH]; intros x G y [<-|Hy]; try lra; [destruct Hy|]. inversion G as [|? ? G1 H1]; subst. inversion H1; subst. pose proof (IH a G1 y Hy). lra.
Qed.
Lemma gapped_range' g l x : 0 <= g -> gapped g (l ++ [x]) -> forall y, In y (l ++ [x]) -> V y <= V x.
Proof.
  intros Hg. induction l as [|a l IH]; intros G y Hy; [destruct Hy as [<-|[]]; lra|]. inversion G as [|? ? G1 H1]; subst. destruct Hy as [<-|Hy]; [|auto].
  destruct l as [|b l]; cbn in * ; inversion H1; subst; [lra|]. pose proof (IH G1 b (or_introl eq_refl)). lra.
Qed.

Section BN.
Variables (pi : B32) (fe fl ft : B32 -> B32).
Hypothesis LIB : lib_ok fe fl.
Let BN := B32Num pi fe fl ft.

(** The knots on one axis. *)
Definition axis (l : list B32) (lo hi : B32) (K : nat) : Prop :=
  (forall x, In x l -> fin x) /\ gapped (/ 65536) l /\ length l = S K /\ @fhd BN l = lo /\ @flast BN l = hi /\ (1 <= K)%nat /\
  fin lo /\ fin hi /\ -10 <= V lo /\ V hi <= 10 /\ (forall x, In x l -> V lo <= V x <= V hi).
Lemma axis_cell l lo hi K i d : axis l lo hi K -> (i < K)%nat -> cell (nth i l d) (nth (S i) l d).
Proof.
  intros (F & G & L & _ & _ & HK & Fl & Fh & Bl & Bh & R) Hi.
  assert (I1 : In (nth i l d) l) by (apply nth_In; lia). assert (I2 : In (nth (S i) l d) l) by (apply nth_In; lia).
  pose proof (gapped_nth _ _ G i d ltac:(lia)). destruct (R _ I1), (R _ I2). repeat split; auto; lra.
Qed.
Definition slopes_of (sl : list B32) (K : nat) : Prop := length sl = S K /\ forall x, In x sl -> slope_ok x.
Lemma cell_V a b a' b' : cell a b -> fin a' -> V a' = V a -> fin b' -> V b' = V b -> cell a' b'.
Proof. intros (A & B & C & D & E) Fa Ea Fb Eb. repeat split; auto; lra. Qed.
Lemma bin_params_ok xp yp sl lo hi K i sel : axis xp lo hi K -> axis yp lo hi K -> slopes_of sl K -> onehot sel i -> length sel = K ->
  bin_ok pi fe fl ft (@bin_params BN sel xp yp sl) /\
  V (@bx0 BN (@bin_params BN sel xp yp sl)) = V (nth i xp (@f0 BN)) /\ V (@by0 BN (@bin_params BN sel xp yp sl)) = V (nth i yp (@f0 BN)) /\
  V (@bx1 BN (@bin_params BN sel xp yp sl)) = V (nth (S i) xp (@f0 BN)) /\ V (@by1 BN (@bin_params BN sel xp yp sl)) = V (nth (S i) yp (@f0 BN)).
Proof.
  intros HX HY [LS HS] OH L.
  assert (BIG : forall p l, axis p lo hi K -> In l p -> fin l /\ Rabs (V l) <= big).
  { intros p l (F & _ & _ & _ & _ & _ & Fl & Fh & Bl & Bh & R) Hl. split; [auto|]. destruct (R l Hl). apply Rabs_le. assert (16 <= big) by (unfold big; apply IZR_le; lia). lra. }
  assert (BIGS : forall l, In l sl -> fin l /\ Rabs (V l) <= big).
  { intros l Hl. destruct (HS l Hl) as [A B]. split; [exact A|]. rewrite Rabs_pos_eq by lra. eapply Rle_trans; [apply B|]. unfold big. apply IZR_le. lia. }
  assert (GL : forall p, length p = S K -> (forall x, In x p -> fin x /\ Rabs (V x) <= big) -> fin (@pick_left BN sel p) /\ V (@pick_left BN sel p) = V (nth i p (@f0 BN))).
  { intros p Lp Hp. destruct (pick_one pi fe fl ft sel (removelast p) i OH) as [A B]; [rewrite len_removelast; lia|intros x Hx; apply Hp; now apply in_removelast|].
    fold BN in A, B. split; [exact A|]. destruct OH as [Hi _]. rewrite nth_remlast in B by lia. exact B. }
  assert (GR : forall p, length p = S K -> (forall x, In x p -> fin x /\ Rabs (V x) <= big) -> fin (@pick_right BN sel p) /\ V (@pick_right BN sel p) = V (nth (S i) p (@f0 BN))).
  { intros p Lp Hp. destruct (pick_one pi fe fl ft sel (tl p) i OH) as [A B]; [destruct p; cbn in * ; lia|intros x Hx; apply Hp; destruct p; [destruct Hx|now right]|].
    fold BN in A, B. split; [exact A|]. rewrite nth_tail in B. exact B. }
  pose proof HX as (_ & _ & LX & _). pose proof HY as (_ & _ & LY & _). destruct OH as [Hi _]. rewrite L in Hi.
  destruct (GL xp LX (fun l => BIG xp l HX)) as [A1 A2]. destruct (GR xp LX (fun l => BIG xp l HX)) as [A3 A4].
  destruct (GL yp LY (fun l => BIG yp l HY)) as [B1 B2]. destruct (GR yp LY (fun l => BIG yp l HY)) as [B3 B4].
  destruct (GL sl LS BIGS) as [C1 C2]. destruct (GR sl LS BIGS) as [C3 C4].
  split; [|repeat split; assumption]. split; [|split; [|split]].
  - exact (cell_V _ _ _ _ (axis_cell xp lo hi K i _ HX Hi) A1 A2 A3 A4).
  - exact (cell_V _ _ _ _ (axis_cell yp lo hi K i _ HY Hi) B1 B2 B3 B4).
  - assert (Q : slope_ok (nth i sl (@f0 BN))) by (apply HS, nth_In; lia). destruct Q as [_ Q]. rewrite <- C2 in Q. exact (conj C1 Q).
  - assert (Q : slope_ok (nth (S i) sl (@f0 BN))) by (apply HS, nth_In; lia). destruct Q as [_ Q]. rewrite <- C4 in Q. exact (conj C3 Q).
Qed.

Lemma abs60 x k : V x <= P k -> - P k <= V x -> Rabs (V x) <= P k. Proof. intros. apply Rabs_le. lra. Qed.
Lemma tail_ok x lo s : fin x -> Rabs (V x) <= P 60 -> fin lo -> Rabs (V lo) <= 10 -> slope_ok s ->
  (fin (Bplus mode_NE (Bmult mode_NE (Bminus mode_NE x lo) s) lo) /\ Rabs (V (Bplus mode_NE (Bmult mode_NE (Bminus mode_NE x lo) s) lo)) <= P 102 /\
     (V x = V lo -> V (Bplus mode_NE (Bmult mode_NE (Bminus mode_NE x lo) s) lo) = V lo)) /\
  (fin (Bplus mode_NE (Bdiv mode_NE (Bminus mode_NE x lo) s) lo) /\ Rabs (V (Bplus mode_NE (Bdiv mode_NE (Bminus mode_NE x lo) s) lo)) <= P 102 /\
     (V x = V lo -> V (Bplus mode_NE (Bdiv mode_NE (Bminus mode_NE x lo) s) lo) = V lo)).
Proof.
  intros Fx Bx Fl Bl Hs. destruct (slope_P _ Hs) as [Fs Bs]. pose proof (P_pos (-14)) as P14.
  assert (B4 : Rabs (V lo) <= P 4) by (change (P 4) with 16; lra).
  destruct (minus_Pabs x lo 60 Fx Fl Bx (abs_up _ 4 60 B4 ltac:(lia)) ltac:(lia)) as [F1 B1]. change (60 + 1)%Z with 61%Z in B1.
  assert (AS : Rabs (V s) <= P 40) by (apply Rabs_le; lra). assert (AS' : P (-14) <= Rabs (V s)) by (rewrite Rabs_pos_eq; lra).
  destruct (mul_Pabs _ s 61 40 F1 Fs B1 AS ltac:(lia)) as [F2 B2]. destruct (div_Pabs _ s 61 (-14) F1 B1 AS' ltac:(lia)) as [F3 B3].
  assert (Z0 : V x = V lo -> V (Bminus mode_NE x lo) = 0).
  { intros E. destruct (minus_ok x lo Fx Fl) as [_ W]. { rewrite E, Rminus_diag_eq by reflexivity. rewrite Rabs_R0. unfold big. apply IZR_le. lia. } rewrite W, E, Rminus_diag_eq by reflexivity. apply rnd_fmt, fmt_0. }
  assert (LB : Rabs (V lo) <= big) by (eapply Rle_trans; [exact B4|]; rewrite big_bpow; apply P_le; lia).
  split.
  - destruct (plus_Pabs _ lo 101 F2 Fl B2 (abs_up _ 4 101 B4 ltac:(lia)) ltac:(lia)) as [F4 B4']. split; [exact F4|]. split; [exact B4'|]. intros E. specialize (Z0 E).
    destruct (mult_in (Bminus mode_NE x lo) s 0 0 F1 Fs fb0 fb0) as [_ Q]; [rewrite Z0; lra|]. assert (Q0 : V (Bmult mode_NE (Bminus mode_NE x lo) s) = 0) by lra.
    destruct (plus_ok _ lo F2 Fl) as [_ W]; [rewrite Q0, Rplus_0_l; exact LB|]. rewrite W, Q0, Rplus_0_l. apply rnd_V.
  - destruct (plus_Pabs _ lo 75 F3 Fl B3 (abs_up _ 4 75 B4 ltac:(lia)) ltac:(lia)) as [F4 B4']. split; [exact F4|]. split; [exact (abs_up _ (75 + 1) 102 B4' ltac:(lia))|]. intros E. specialize (Z0 E).
    destruct (div_in (Bminus mode_NE x lo) s 0 0 F1 ltac:(lra) fb0 fb0) as [_ Q]; [rewrite Z0; unfold Rdiv; lra|]. assert (Q0 : V (Bdiv mode_NE (Bminus mode_NE x lo) s) = 0) by lra.
    destruct (plus_ok _ lo F3 Fl) as [_ W]; [rewrite Q0, Rplus_0_l; exact LB|]. rewrite W, Q0, Rplus_0_l. apply rnd_V.
Qed.
Lemma axis_end xp lo hi K : axis xp lo hi K -> Rabs (V lo) <= 10 /\ Rabs (V hi) <= 10 /\ V lo < V hi.
Proof.
  intros HX. pose proof (axis_cell xp lo hi K 0 (@f0 BN) HX) as C. destruct HX as (F & G & L & _ & _ & HK & Fl & Fh & Bl & Bh & R). specialize (C ltac:(lia)).
  assert (In (nth 0 xp (@f0 BN)) xp) by (apply nth_In; lia). assert (In (nth 1 xp (@f0 BN)) xp) by (apply nth_In; lia).
  destruct C as (_ & _ & _ & _ & C). destruct (R _ H), (R _ H0). assert (V lo < V hi) by lra. split; [apply Rabs_le; lra|]. split; [apply Rabs_le; lra|lra].
Qed.
Lemma slope_ends sl K : slopes_of sl K -> slope_ok (@fhd BN sl) /\ slope_ok (@flast BN sl).
Proof.
  intros [L H]. destruct sl as [|a sl]; [discriminate|]. split; [apply H; now left|]. apply H. unfold flast.
  destruct (exists_last (l := a :: sl) ltac:(congruence)) as (r & z & E). rewrite E, last_last. apply in_or_app. right. now left.
Qed.
Lemma ln_slope s : slope_ok s -> fin (fl s) /\ Rabs (V (fl s)) <= P 10.
Proof. intros H. destruct (slope_P _ H) as [F B]. pose proof (P_pos (-14)). destruct (lb_ln _ _ LIB s F ltac:(change val with V; lra)) as [A C]. split; [exact A|]. change val with V in C. change (P 10) with 1024. lra. Qed.

Lemma fwd_ok xp yp sl lo hi K x : axis xp lo hi K -> axis yp lo hi K -> slopes_of sl K -> fin x -> Rabs (V x) <= P 60 ->
  let r := @rqs_fwd BN xp yp sl x in
  fin (fst r) /\ Rabs (V (fst r)) <= P 102 /\ fin (snd r) /\ Rabs (V (snd r)) <= P 10 /\ (V lo <= V x <= V hi -> V lo <= V (fst r) <= V hi + / 16384).
Proof.
  intros HX HY HS Fx Bx. cbv zeta. pose proof HX as (FX & GX & LX & E1 & E2 & HK & Fl & Fh & Bl & Bh & RX). pose proof HY as (FY & GY & LY & E3 & E4 & _ & _ & _ & _ & _ & RY).
  destruct (mask_onehot pi fe fl ft (/ 65536) xp x ltac:(lra) Fx GX FX ltac:(lia)) as (i & OH & LM). fold BN in OH, LM. rewrite LX in LM. replace (S K - 1)%nat with K in LM by lia.
  destruct (bin_params_ok xp yp sl lo hi K i _ HX HY HS OH LM) as (BO & X0 & Y0 & X1 & Y1).
  destruct (bin_fwd_ok pi fe fl ft LIB _ x BO Fx Bx) as ((A1 & A2) & A3 & A4). fold BN in A1, A2, A3, A4.
  destruct (axis_end _ _ _ _ HX) as (AL & AH & LT). destruct (slope_ends _ _ HS) as [S0 S1].
  destruct (tail_ok x lo (@fhd BN sl) Fx Bx Fl AL S0) as [(T1 & T2 & T3) _]. destruct (tail_ok x hi (@flast BN sl) Fx Bx Fh AH S1) as [(U1 & U2 & U3) _].
  destruct (ln_slope _ S0) as [M1 M2]. destruct (ln_slope _ S1) as [N1 N2].
  unfold rqs_fwd. cbv zeta. change (@fhd BN xp) with (@fhd BN xp). rewrite E1, E2, E3, E4. 
  destruct (@rq_bin_fwd BN (@bin_params BN (@bin_mask BN xp x) xp yp sl) x) as [y ld]. cbn [fst snd] in A1, A2, A3, A4 |- * .
  destruct OH as [Hi _]. rewrite LM in Hi.
  assert (I1 : In (nth i yp (@f0 BN)) yp) by (apply nth_In; lia). assert (I2 : In (nth (S i) yp (@f0 BN)) yp) by (apply nth_In; lia). destruct (RY _ I1) as [RA RB], (RY _ I2) as [RC RD].
  assert (YB : V lo <= V y <= V hi + / 16384) by lra.
  assert (Y102 : Rabs (V y) <= P 102). { apply Rabs_le. apply Rabs_le_inv in AL, AH. assert (P 4 <= P 102) by (apply P_le; lia). change (P 4) with 16 in * . lra. }
  change (@fle BN) with (@Bleb 24 128). change (@fadd BN) with (Bplus (prec := 24) (emax := 128) mode_NE) in * . change (@fsub BN) with (Bminus (prec := 24) (emax := 128) mode_NE). change (@fmul BN) with (Bmult (prec := 24) (emax := 128) mode_NE). change (@fln BN) with fl.
  pose proof (leb_V x lo Fx Fl) as L1. pose proof (leb_V hi x Fh Fx) as L2. 
  destruct (Bleb hi x).
  - assert (V hi <= V x) by now apply L2. split; [exact U1|]. split; [exact U2|]. split; [exact N1|]. split; [exact N2|]. intros R. rewrite U3 by lra. lra.
  - destruct (Bleb x lo).
    + assert (V x <= V lo) by now apply L1. split; [exact T1|]. split; [exact T2|]. split; [exact M1|]. split; [exact M2|]. intros R. rewrite T3 by lra. lra.
    + split; [exact A1|]. split; [exact Y102|]. split; [exact A3|]. split; [exact A4|]. intros _. exact YB.
Qed.
Lemma inv_ok xp yp sl lo hi K x : axis xp lo hi K -> axis yp lo hi K -> slopes_of sl K -> fin x -> Rabs (V x) <= P 60 ->
  let r := @rqs_inv BN xp yp sl x in
  fin (fst r) /\ Rabs (V (fst r)) <= P 102 /\ fin (snd r) /\ Rabs (V (snd r)) <= P 10 /\ (V lo <= V x <= V hi -> V lo <= V (fst r) <= V hi + / 524288).
Proof.
  intros HX HY HS Fx Bx. cbv zeta. pose proof HX as (FX & GX & LX & E1 & E2 & HK & Fl & Fh & Bl & Bh & RX). pose proof HY as (FY & GY & LY & E3 & E4 & _ & _ & _ & _ & _ & RY).
  destruct (mask_onehot pi fe fl ft (/ 65536) yp x ltac:(lra) Fx GY FY ltac:(lia)) as (i & OH & LM). fold BN in OH, LM. rewrite LY in LM. replace (S K - 1)%nat with K in LM by lia.
  destruct (bin_params_ok xp yp sl lo hi K i _ HX HY HS OH LM) as (BO & X0 & Y0 & X1 & Y1).
  destruct (bin_inv_ok pi fe fl ft LIB _ x BO Fx Bx) as ((A1 & A2) & A3 & A4). fold BN in A1, A2, A3, A4.
  destruct (axis_end _ _ _ _ HX) as (AL & AH & LT). destruct (slope_ends _ _ HS) as [S0 S1].
  destruct (tail_ok x lo (@fhd BN sl) Fx Bx Fl AL S0) as [_ (T1 & T2 & T3)]. destruct (tail_ok x hi (@flast BN sl) Fx Bx Fh AH S1) as [_ (U1 & U2 & U3)].
  destruct (ln_slope _ S0) as [M1 M2]. destruct (ln_slope _ S1) as [N1 N2].
  unfold rqs_inv. cbv zeta. rewrite E1, E2, E3, E4. 
  destruct (@rq_bin_inv BN (@bin_params BN (@bin_mask BN yp x) xp yp sl) x) as [y ld]. cbn [fst snd] in A1, A2, A3, A4 |- * .
  destruct OH as [Hi _]. rewrite LM in Hi.
  assert (I1 : In (nth i xp (@f0 BN)) xp) by (apply nth_In; lia). assert (I2 : In (nth (S i) xp (@f0 BN)) xp) by (apply nth_In; lia). destruct (RX _ I1) as [RA RB], (RX _ I2) as [RC RD].
  assert (YB : V lo <= V y <= V hi + / 524288) by lra.
  assert (Y102 : Rabs (V y) <= P 102). { apply Rabs_le. apply Rabs_le_inv in AL, AH. assert (P 4 <= P 102) by (apply P_le; lia). change (P 4) with 16 in * . lra. }
  change (@fle BN) with (@Bleb 24 128). change (@fadd BN) with (Bplus (prec := 24) (emax := 128) mode_NE) in * . change (@fsub BN) with (Bminus (prec := 24) (emax := 128) mode_NE). change (@fdiv BN) with (Bdiv (prec := 24) (emax := 128) mode_NE). change (@fln BN) with fl. change (@fneg BN) with (@Bopp 24 128).
  pose proof (leb_V x lo Fx Fl) as L1. pose proof (leb_V hi x Fh Fx) as L2. 
  destruct (Bleb hi x).
  - assert (V hi <= V x) by now apply L2. split; [exact U1|]. split; [exact U2|]. split; [now apply fin_opp|]. split; [rewrite V_opp, Rabs_Ropp; exact N2|]. intros R. rewrite U3 by lra. lra.
  - destruct (Bleb x lo).
    + assert (V x <= V lo) by now apply L1. split; [exact T1|]. split; [exact T2|]. split; [now apply fin_opp|]. split; [rewrite V_opp, Rabs_Ropp; exact M2|]. intros R. rewrite T3 by lra. lra.
    + split; [exact A1|]. split; [exact Y102|]. split; [exact A3|]. split; [exact A4|]. intros _. exact YB.
Qed.
End BN.
