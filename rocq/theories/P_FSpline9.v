(** The bijection and the coupling layer, in single precision. *)
From Coq Require Import ZArith Reals Lra Lia Psatz Sorted.
From Flocq Require Import Core BinarySingleNaN.
From Verif Require Import Prelude Num M_Flow Float32 Float32t Spec_FSpline P_Lists P_FSpline1 P_FSpline2 P_FSpline3 P_FSpline4 P_FSpline5 P_FSpline6 P_FSpline7 P_FSpline8.
Open Scope R_scope.
Local Strategy 100 [Bplus Bminus Bmult Bdiv Bopp Bsqrt].

Section BN.
Variables (pi : B32) (fe fl ft : B32 -> B32).
Hypothesis LIB : lib_ok fe fl.
Let BN := B32Num pi fe fl ft.

Lemma knots_axis (q : @rqspline BN) w : range_ok (@rq_min BN q) (@rq_max BN q) (@rq_min_bin BN q) (length w) -> (forall x, In x w -> fin x) ->
  axis pi fe fl ft (@knot_positions BN q w) (@rq_min BN q) (@rq_max BN q) (length w).
Proof.
  intros RO Fw. assert (Hw : w <> []). { intros ->. destruct RO as (_ & _ & _ & K & _). cbn in K. lia. }
  destruct (knots_gapped pi fe fl ft LIB q w Hw RO Fw) as [A B]. destruct (knots_ok pi fe fl ft LIB q w Hw RO Fw) as [_ L]. fold BN in A, B, L.
  destruct RO as (Fl & Fh & Fm & HK & Bl & Bh & _). change val with V in * .
  split; [exact A|]. split; [exact B|]. split; [exact L|]. split; [reflexivity|]. split.
  { unfold flast, knot_positions. rewrite app_comm_cons. apply last_last. }
  split; [lia|]. split; [exact Fl|]. split; [exact Fh|]. split; [exact Bl|]. split; [exact Bh|]. intros x Hx. split.
  - unfold knot_positions in B, Hx. exact (gapped_range (/ 65536) _ _ ltac:(lra) B x Hx).
  - unfold knot_positions in B, Hx. rewrite app_comm_cons in B, Hx. exact (gapped_range' (/ 65536) _ _ ltac:(lra) B x Hx).
Qed.
Lemma in_firstn {A} n (l : list A) x : In x (firstn n l) -> In x l.
Proof. revert n. induction l as [|a l IH]; intros [|n] H; cbn in * ; auto; [easy|]. destruct H; eauto. Qed.
Lemma in_skipn {A} n (l : list A) x : In x (skipn n l) -> In x l.
Proof. revert n. induction l as [|a l IH]; intros [|n] H; cbn in * ; auto; eauto. Qed.
Lemma row_ok (q : @rqspline BN) row : settings_ok q -> length row = (rq_bins q * 3 + 1)%nat -> (forall v, In v row -> within 30 v) ->
  let p := @row_params BN q row in
  axis pi fe fl ft (fst (fst p)) (@rq_min BN q) (@rq_max BN q) (rq_bins q) /\ axis pi fe fl ft (snd (fst p)) (@rq_min BN q) (@rq_max BN q) (rq_bins q) /\
  slopes_of (snd p) (rq_bins q).
Proof.
  intros (RO & SM) L H. cbv zeta. unfold row_params. cbn [fst snd]. fold BN in RO, SM.
  assert (L1 : length (firstn (rq_bins q) row) = rq_bins q) by (rewrite firstn_length; lia).
  assert (L2 : length (slice (rq_bins q) (2 * rq_bins q) row) = rq_bins q) by (unfold slice; rewrite firstn_length, skipn_length; lia).
  split; [|split].
  - pose proof (knots_axis q (firstn (rq_bins q) row)) as K. change (@F BN) with B32 in * . rewrite L1 in K. apply K; [exact RO|]. intros x Hx. apply in_firstn in Hx. apply (H x Hx).
  - pose proof (knots_axis q (slice (rq_bins q) (2 * rq_bins q) row)) as K. change (@F BN) with B32 in * . rewrite L2 in K. apply K; [exact RO|]. intros x Hx. unfold slice in Hx. apply in_firstn, in_skipn in Hx. apply (H x Hx).
  - split.
    + unfold normalize_knot_slopes. rewrite map_length, skipn_length. change (@F BN) with B32. lia.
    + intros x Hx. apply (slopes_ok pi fe fl ft LIB _ _ SM) in Hx; [exact Hx|]. intros y Hy. apply in_skipn in Hy. apply (H y Hy).
Qed.
Lemma P_Z k : (0 <= k)%Z -> P k = IZR (2 ^ k). Proof. intros H. symmetry. apply (IZR_Zpower radix2). exact H. Qed.

(** One coordinate. *)
Definition coord_ok (q : @rqspline BN) (slack : R) (x y ld : B32) : Prop :=
  within 102 y /\ within 10 ld /\
  (val (@rq_min BN q) <= val x <= val (@rq_max BN q) -> val (@rq_min BN q) <= val y <= val (@rq_max BN q) + slack).
Lemma coord_fwd (q : @rqspline BN) row x : settings_ok q -> length row = (rq_bins q * 3 + 1)%nat -> (forall v, In v row -> within 30 v) -> within 60 x ->
  let '(xp, yp, sl) := @row_params BN q row in coord_ok q (/ 16384) x (fst (@rqs_fwd BN xp yp sl x)) (snd (@rqs_fwd BN xp yp sl x)).
Proof.
  intros S L H [Fx Bx]. destruct (row_ok q row S L H) as (A & B & C). destruct (@row_params BN q row) as [[xp yp] sl]. cbn [fst snd] in * .
  rewrite <- P_Z in Bx by lia. destruct (fwd_ok pi fe fl ft LIB xp yp sl _ _ _ x A B C Fx Bx) as (E1 & E2 & E3 & E4 & E5). fold BN in E1, E2, E3, E4, E5.
  split; [split; [exact E1|rewrite <- P_Z by lia; exact E2]|]. split; [split; [exact E3|rewrite <- P_Z by lia; exact E4]|]. exact E5.
Qed.
Lemma coord_inv (q : @rqspline BN) row x : settings_ok q -> length row = (rq_bins q * 3 + 1)%nat -> (forall v, In v row -> within 30 v) -> within 60 x ->
  let '(xp, yp, sl) := @row_params BN q row in coord_ok q (/ 524288) x (fst (@rqs_inv BN xp yp sl x)) (snd (@rqs_inv BN xp yp sl x)).
Proof.
  intros S L H [Fx Bx]. destruct (row_ok q row S L H) as (A & B & C). destruct (@row_params BN q row) as [[xp yp] sl]. cbn [fst snd] in * .
  rewrite <- P_Z in Bx by lia. destruct (inv_ok pi fe fl ft LIB xp yp sl _ _ _ x A B C Fx Bx) as (E1 & E2 & E3 & E4 & E5). fold BN in E1, E2, E3, E4, E5.
  split; [split; [exact E1|rewrite <- P_Z by lia; exact E2]|]. split; [split; [exact E3|rewrite <- P_Z by lia; exact E4]|]. exact E5.
Qed.

(** All coordinates. *)
Definition gp (q : @rqspline BN) (n : nat) (c : list B32) : list (list B32 * list B32 * list B32) := @get_params BN q n c.
Definition runs (q : @rqspline BN) (f : list B32 -> list B32 -> list B32 -> B32 -> B32 * B32) (x c : list B32) : list (B32 * B32) :=
  map2 (fun p xi => let '(xp, yp, sl) := p in f xp yp sl xi) (gp q (length x) c) x.
Lemma runs_ok (q : @rqspline BN) f slack x c : settings_ok q -> conditioner_ok q (length x) -> length c = length x -> (forall v, In v c -> within 60 v) -> (forall v, In v x -> within 60 v) ->
  (forall row v, length row = (rq_bins q * 3 + 1)%nat -> (forall y, In y row -> within 30 y) -> within 60 v ->
     let '(xp, yp, sl) := @row_params BN q row in coord_ok q slack v (fst (f xp yp sl v)) (snd (f xp yp sl v))) ->
  length (runs q f x c) = length x /\
  forall i d e, (i < length x)%nat -> coord_ok q slack (nth i x d) (fst (nth i (runs q f x c) e)) (snd (nth i (runs q f x c) e)).
Proof.
  intros S C Lc Hc Hx Hf. set (m := (rq_bins q * 3 + 1)%nat). destruct (C c Lc Hc) as [LC BC]. fold BN in LC, BC. fold m in LC.
  assert (LG : length (gp q (length x) c) = length x) by (unfold gp, get_params, reshape_rows; rewrite !map_length, seq_length; reflexivity).
  split; [unfold runs; rewrite map2_length, LG; lia|]. intros i d e Hi.
  unfold runs. rewrite (nth_map2 _ (gp q (length x) c) x i (@row_params BN q [] : list B32 * list B32 * list B32) d e); [|rewrite LG; exact Hi|exact Hi].
  assert (EG : nth i (gp q (length x) c) (@row_params BN q [] : list B32 * list B32 * list B32) = @row_params BN q (slice (i * m) (i * m + m) (@rq_cond BN q c))).
  { unfold gp, get_params. rewrite (map_nth (@row_params BN q)). f_equal. unfold reshape_rows. fold m.
    rewrite (nth_indep _ [] (slice (0 * m) (0 * m + m) (@rq_cond BN q c))) by (rewrite map_length, seq_length; lia).
    rewrite (map_nth (fun j => slice (j * m) (j * m + m) (@rq_cond BN q c)) (seq 0 (length x)) 0%nat). rewrite seq_nth by lia. reflexivity. }
  rewrite EG. pose proof (Hf (slice (i * m) (i * m + m) (@rq_cond BN q c)) (nth i x d)) as K.
  destruct (@row_params BN q _) as [[xp yp] sl]. apply K.
  - unfold slice. rewrite firstn_length, skipn_length. change (@F BN) with B32 in * . fold m. change (@length (@F BN)) with (@length B32) in * . assert (i * m + m <= length x * m)%nat by nia. rewrite LC. lia.
  - intros y Hy. unfold slice in Hy. apply in_firstn, in_skipn in Hy. auto.
  - apply Hx, nth_In. exact Hi.
Qed.

(** The coupling layer. *)
Lemma mix1 m y x : (m = b32_ofZ 0 \/ m = b32_ofZ 1) -> fin y -> Rabs (V y) <= big -> fin x -> Rabs (V x) <= big ->
  let r := Bplus mode_NE (Bmult mode_NE (Bminus mode_NE (b32_ofZ 1) m) y) (Bmult mode_NE m x) in
  fin r /\ V r = (if Bool.bool_dec (Bltb (b32_ofZ 0) m) true then V x else V y).
Proof.
  intros Hm Fy By Fx Bx. cbv zeta. destruct (ofZ_ok 0 ltac:(lia)) as [F0 V0]. destruct (ofZ_ok 1 ltac:(lia)) as [F1 V1].
  assert (Z : forall a b : B32, fin a -> fin b -> V a = 0 -> fin (Bmult mode_NE a b) /\ V (Bmult mode_NE a b) = 0).
  { intros a b Fa Fb E. destruct (mult_in a b 0 0 Fa Fb fb0 fb0) as [A B]; [rewrite E; lra|]. split; [exact A|lra]. }
  assert (O : forall a b : B32, fin a -> fin b -> V a = 1 -> Rabs (V b) <= big -> fin (Bmult mode_NE a b) /\ V (Bmult mode_NE a b) = V b).
  { intros a b Fa Fb E Bb. destruct (mult_ok a b Fa Fb) as [A B]; [rewrite E, Rmult_1_l; exact Bb|]. split; [exact A|]. rewrite B, E, Rmult_1_l. apply rnd_V. }
  destruct Hm as [-> | ->].
  - destruct (minus_in (b32_ofZ 1) (b32_ofZ 0) 1 1 F1 F0 (fbZ 1 ltac:(lia)) (fbZ 1 ltac:(lia))) as [G1 I1]; [lra|].
    destruct (O _ y G1 Fy ltac:(lra) By) as [G2 I2]. destruct (Z _ x F0 Fx V0) as [G3 I3].
    destruct (plus_ok _ _ G2 G3) as [G4 I4]; [rewrite I2, I3, Rplus_0_r; exact By|]. split; [exact G4|].
    rewrite I4, I2, I3, Rplus_0_r, rnd_V. destruct (Bool.bool_dec _ true) as [E|E]; [|reflexivity]. apply (ltb_V _ _ F0 F0) in E. lra.
  - destruct (minus_in (b32_ofZ 1) (b32_ofZ 1) 0 0 F1 F1 fb0 fb0) as [G1 I1]; [lra|].
    destruct (Z _ y G1 Fy ltac:(lra)) as [G2 I2]. destruct (O _ x F1 Fx V1 Bx) as [G3 I3].
    destruct (plus_ok _ _ G2 G3) as [G4 I4]; [rewrite I2, I3, Rplus_0_l; exact Bx|]. split; [exact G4|].
    rewrite I4, I2, I3, Rplus_0_l, rnd_V. destruct (Bool.bool_dec _ true) as [E|E]; [reflexivity|]. exfalso. apply E. apply (ltb_V _ _ F0 F1). lra.
Qed.
Lemma sum_ok l : (Z.of_nat (length l) <= 2 ^ 24)%Z -> (forall v, In v l -> fin v /\ Rabs (V v) <= P 10) -> fin (bsum l) /\ Rabs (V (bsum l)) <= INR (length l) * P 10.
Proof.
  induction l as [|a l IH]; intros L H.
  - change (bsum []) with (b32_ofZ 0). cbn [length INR]. destruct (ofZ_ok 0 ltac:(lia)) as [F0 V0]. split; [exact F0|]. rewrite V0, Rabs_R0. lra.
  - destruct IH as [A B]; [cbn [length] in L; lia|intros; apply H; now right|]. destruct (H a (or_introl eq_refl)) as [Fa Ba].
    change (bsum (a :: l)) with (Bplus mode_NE a (bsum l)). cbn [length] in * .
    assert (FB : fbound (INR (S (length l)) * P 10)).
    { rewrite INR_IZR_INZ. split; [apply fmt_int; lia|]. rewrite Rabs_pos_eq by (apply Rmult_le_pos; [apply IZR_le; lia|apply bpow_ge_0]).
      rewrite big_bpow. change 127%Z with (117 + 10)%Z. rewrite P_mul. apply Rmult_le_compat_r; [apply bpow_ge_0|]. apply Rle_trans with (IZR (2 ^ 24)); [apply IZR_le; lia|]. rewrite <- P_Z by lia. apply P_le. lia. }
    rewrite S_INR in FB |- * . apply Rabs_le_inv in Ba, B.
    destruct (plus_in a (bsum l) (- ((INR (length l) + 1) * P 10)) ((INR (length l) + 1) * P 10) Fa A (fbopp _ FB) FB) as [C D]; [lra|]. split; [exact C|]. apply Rabs_le. exact D.
Qed.
Lemma context_ok mask x : mask01 mask (length x) -> (forall v, In v x -> within 60 v) ->
  length (@vmul BN x mask) = length x /\ forall v, In v (@vmul BN x mask) -> within 60 v.
Proof.
  intros [LM M] H. assert (L : length (@vmul BN x mask) = length x) by (unfold vmul; rewrite map2_length; change (@F BN) with B32; lia). split; [exact L|].
  intros v Hv. apply (In_nth _ _ (@f0 BN)) in Hv as (i & Hi & <-). assert (Hi' : (i < length x)%nat) by (rewrite <- L; exact Hi). clear Hi. rename Hi' into Hi.
  unfold vmul. rewrite (nth_map2 _ _ _ i (@f0 BN) (@f0 BN) (@f0 BN)) by (change (@F BN) with B32; lia).
  destruct (H (nth i x (@f0 BN)) (nth_In _ _ Hi)) as [Fx Bx]. rewrite <- P_Z in Bx by lia. change val with V in Bx.
  assert (FM : fin (nth i mask (@f0 BN)) /\ Rabs (V (nth i mask (@f0 BN))) <= P 0).
  { destruct (ofZ_ok 0 ltac:(lia)) as [F0 V0]. destruct (ofZ_ok 1 ltac:(lia)) as [F1 V1]. change (P 0) with 1.
    destruct (M i (@f0 BN) Hi) as [E|E]; rewrite E; (split; [assumption|]); [rewrite V0, Rabs_R0|rewrite V1, Rabs_R1]; lra. }
  destruct FM as [FM BM]. destruct (mul_Pabs _ _ 60 0 Fx FM Bx BM ltac:(lia)) as [A B]. split; [exact A|]. rewrite <- P_Z by lia. exact B.
Qed.
Lemma layer_ok (q : @rqspline BN) f slack mask x : settings_ok q -> conditioner_ok q (length x) -> mask01 mask (length x) -> (Z.of_nat (length x) <= 2 ^ 24)%Z ->
  (forall v, In v x -> within 60 v) ->
  (forall row v, length row = (rq_bins q * 3 + 1)%nat -> (forall y, In y row -> within 30 y) -> within 60 v ->
     let '(xp, yp, sl) := @row_params BN q row in coord_ok q slack v (fst (f xp yp sl v)) (snd (f xp yp sl v))) ->
  forall c, length c = length x -> (forall v, In v c -> within 60 v) -> let outs := runs q f x c in
  let y := @mask_mix BN mask (map fst outs) x in let ld := @mask_logdet BN mask (map snd outs) in
  length y = length x /\ isfin ld /\
  forall i d, (i < length x)%nat -> within 102 (nth i y d) /\
    (nth i mask d = b32_ofZ 1 -> val (nth i y d) = val (nth i x d)) /\
    (nth i mask d = b32_ofZ 0 -> val (@rq_min BN q) <= val (nth i x d) <= val (@rq_max BN q) -> val (@rq_min BN q) <= val (nth i y d) <= val (@rq_max BN q) + slack).
Proof.
  intros S C [LM M] HN Hx Hf c Lc Hc. cbv zeta. destruct (runs_ok q f slack x c S C Lc Hc Hx Hf) as [LO HO]. set (outs := runs q f x c) in * .
  assert (P60 : P 102 <= big) by (rewrite big_bpow; apply P_le; lia).
  assert (LY : length (@mask_mix BN mask (map fst outs) x) = length x).
  { unfold mask_mix, vadd, vmul. rewrite !map2_length, !map_length. change (@F BN) with B32. lia. }
  split; [exact LY|]. split.
  - refine (proj1 (sum_ok (@vmul BN (map (fun a => @fsub BN (@f1 BN) a) mask) (map snd outs)) _ _)).
    + unfold vmul. rewrite map2_length, !map_length. change (@F BN) with B32. lia.
    + intros v Hv. apply (In_nth _ _ (@f0 BN)) in Hv as (i & Hi & <-). unfold vmul in Hi |- * . rewrite map2_length, !map_length in Hi. change (@F BN) with B32 in Hi.
      rewrite (nth_map2 _ _ _ i (@f0 BN) (@f0 BN) (@f0 BN)) by (rewrite map_length; change (@F BN) with B32; lia).
      rewrite (nth_indep _ (@f0 BN) (@fsub BN (@f1 BN) (@f0 BN))) by (rewrite map_length; change (@F BN) with B32; lia). rewrite (map_nth (fun a => @fsub BN (@f1 BN) a)).
      rewrite (nth_indep (map snd outs) (@f0 BN) (snd (@f0 BN, @f0 BN))) by (rewrite map_length; lia). rewrite (map_nth snd).
      destruct (HO i (@f0 BN) (@f0 BN, @f0 BN) ltac:(lia)) as (_ & [F1 B1] & _). rewrite <- P_Z in B1 by lia. change val with V in B1.
      destruct (mix1 (nth i mask (@f0 BN)) (snd (nth i outs (@f0 BN, @f0 BN))) (@f0 BN) (M i _ ltac:(lia)) F1) as [G1 G2].
      * eapply Rle_trans; [exact B1|]. rewrite big_bpow. apply P_le. lia.
      * exact (proj1 (ofZ_ok 0 ltac:(lia))).
      * change (@f0 BN) with (b32_ofZ 0). rewrite (proj2 (ofZ_ok 0 ltac:(lia))), Rabs_R0. unfold big. apply IZR_le. lia.
      * clear G1 G2. assert (FM : fin (Bminus mode_NE (b32_ofZ 1) (nth i mask (@f0 BN))) /\ 0 <= V (Bminus mode_NE (b32_ofZ 1) (nth i mask (@f0 BN))) <= 1).
        { destruct (ofZ_ok 0 ltac:(lia)) as [F0 V0]. destruct (ofZ_ok 1 ltac:(lia)) as [F1' V1]. destruct (M i (@f0 BN) ltac:(lia)) as [E|E]; rewrite E; apply minus_in; auto using fb0; try (exact (fbZ 1 ltac:(lia))); lra. }
        destruct FM as [FM BM]. refine (mul_Pabs _ _ 0 10 FM F1 _ B1 ltac:(lia)). rewrite Rabs_pos_eq by lra. change (P 0) with 1. lra.
  - intros i d Hi.
    assert (EY : nth i (@mask_mix BN mask (map fst outs) x) d = Bplus mode_NE (Bmult mode_NE (Bminus mode_NE (b32_ofZ 1) (nth i mask d)) (fst (nth i outs (d, d)))) (Bmult mode_NE (nth i mask d) (nth i x d))).
    { unfold mask_mix, vadd. rewrite (nth_map2 _ _ _ i d d d) by (unfold vmul; rewrite map2_length, ?map_length; change (@F BN) with B32; lia).
      unfold vmul. rewrite (nth_map2 _ _ _ i d d d) by (rewrite map_length; change (@F BN) with B32; lia). rewrite (nth_map2 _ _ _ i d d d) by (change (@F BN) with B32; lia).
      rewrite (nth_indep (map (fun a => _) mask) d (@fsub BN (@f1 BN) d)) by (rewrite map_length; change (@F BN) with B32; lia). rewrite (map_nth (fun a => @fsub BN (@f1 BN) a)).
      rewrite (nth_indep (map fst outs) d (fst (d, d))) by (rewrite map_length; lia). rewrite (map_nth fst). reflexivity. }
    rewrite EY. destruct (HO i d (d, d) Hi) as ([F1 B1] & _ & R1). rewrite <- P_Z in B1 by lia. change val with V in * . 
    destruct (Hx (nth i x d) (nth_In _ _ Hi)) as [Fx Bx]. rewrite <- P_Z in Bx by lia. change val with V in Bx. assert (P 60 <= P 102) by (apply P_le; lia).
    destruct (mix1 (nth i mask d) (fst (nth i outs (d, d))) (nth i x d) (M i d Hi) F1 ltac:(lra) Fx ltac:(lra)) as [G1 G2].
    set (r := Bplus mode_NE _ _) in * . destruct (ofZ_ok 0 ltac:(lia)) as [F0 V0]. destruct (ofZ_ok 1 ltac:(lia)) as [F1' V1].
    split; [|split].
    + split; [exact G1|]. change val with V. rewrite <- P_Z by lia. rewrite G2. destruct (Bool.bool_dec _ true); lra.
    + intros E. rewrite G2. destruct (Bool.bool_dec _ true) as [_|E']; [reflexivity|]. exfalso. apply E'. rewrite E. apply (ltb_V _ _ F0 F1'). lra.
    + intros E R. rewrite G2. destruct (Bool.bool_dec _ true) as [E'|_]; [|exact (R1 R)]. exfalso. rewrite E in E'. apply (ltb_V _ _ F0 F0) in E'. lra.
Qed.
End BN.
