(** The affine coupling layer of RealNVP in single precision, there and back. *)
From Coq Require Import ZArith Reals Lra Lia Psatz.
From Flocq Require Import Core BinarySingleNaN.
From Verif Require Import Prelude Num M_Flow Float32 Float32t Spec_FSpline P_Lists P_FSpline1 P_FSpline5 P_FSpline9 P_FSpline11 P_Units2 P_URun1 Spec_FNvp P_FNvp1.
Open Scope R_scope.
Local Strategy 100 [Bplus Bminus Bmult Bdiv Bopp Bsqrt].

Lemma rnd_opp a : rnd (- a) = - rnd a. Proof. unfold rnd. exact (round_NE_opp radix2 (FLT_exp (-149) 24) a). Qed.
Lemma sum_opp a b : Forall2 (fun p q => fin p /\ fin q /\ Rabs (V p) <= P 0 /\ V q = - V p) a b -> (Z.of_nat (length a) <= 2 ^ 16)%Z ->
  fin (bsum a) /\ fin (bsum b) /\ V (bsum b) = - V (bsum a).
Proof.
  intros H. induction H as [|p q a b (Fp & Fq & Bp & E) H IH]; intros L.
  - change (bsum []) with (b32_ofZ 0). destruct (ofZ_ok 0 ltac:(lia)) as [F0 V0]. rewrite V0. split; [exact F0|]. split; [exact F0|]. lra.
  - cbn [length] in L. destruct (IH ltac:(lia)) as (Fa & Fb & Eb).
    change (bsum (p :: a)) with (Bplus mode_NE p (bsum a)). change (bsum (q :: b)) with (Bplus mode_NE q (bsum b)).
    assert (Ba : Rabs (V (bsum a)) <= P 16).
    { destruct (sum_P' a 0 ltac:(lia) ltac:(lia)) as [_ B]; [|exact B]. clear - H. intros v Hv. induction H as [|p q a b (Fp & _ & Bp & _) H IH]; [destruct Hv|]. destruct Hv as [<-|Hv]; auto. }
    destruct (plus_Pabs' p (bsum a) 16 Fp Fa (abs_up _ 0 16 Bp ltac:(lia)) Ba ltac:(lia)) as (F1 & _ & E1).
    assert (Bq : Rabs (V q) <= P 0) by (rewrite E, Rabs_Ropp; exact Bp). assert (Bb : Rabs (V (bsum b)) <= P 16) by (rewrite Eb, Rabs_Ropp; exact Ba).
    destruct (plus_Pabs' q (bsum b) 16 Fq Fb (abs_up _ 0 16 Bq ltac:(lia)) Bb ltac:(lia)) as (F2 & _ & E2).
    split; [exact F1|]. split; [exact F2|]. rewrite E1, E2, E, Eb, <- rnd_opp. f_equal. ring.
Qed.
Lemma mult_one x : fin x -> Rabs (V x) <= big -> fin (Bmult mode_NE x (b32_ofZ 1)) /\ V (Bmult mode_NE x (b32_ofZ 1)) = V x.
Proof.
  intros Fx Bx. destruct (ofZ_ok 1 ltac:(lia)) as [F1 V1]. destruct (mult_ok x (b32_ofZ 1) Fx F1) as [A B]; [rewrite V1, Rmult_1_r; exact Bx|].
  split; [exact A|]. rewrite B, V1, Rmult_1_r. apply rnd_V.
Qed.
Lemma P_big k : (k <= 127)%Z -> P k <= big. Proof. intros H. rewrite big_bpow. now apply P_le. Qed.

Section BN.
Variables (pi : B32) (fe fl ft : B32 -> B32).
Let BN := B32Num pi fe fl ft.

Lemma one_minus_zero : Bminus mode_NE (b32_ofZ 1) (b32_ofZ 0) = b32_ofZ 1. Proof. apply B2SF_inj. vm_compute. reflexivity. Qed.
Lemma one_minus_one : Bminus mode_NE (b32_ofZ 1) (b32_ofZ 1) = b32_ofZ 0. Proof. apply B2SF_inj. vm_compute. reflexivity. Qed.
Lemma nvp_mask n i : length (@realnvp_mask BN n i) = n /\ forall j d, (j < n)%nat -> nth j (@realnvp_mask BN n i) d = if held n i j then b32_ofZ 1 else b32_ofZ 0.
Proof.
  unfold realnvp_mask, held. split; [destruct (i mod 2 =? 0)%nat; rewrite ?map_length, seq_length; reflexivity|].
  intros j d H. assert (E : forall d, nth j (map (fun j0 => if (j0 <? n / 2)%nat then @f0 BN else @f1 BN) (seq 0 n)) d = if (j <? n / 2)%nat then b32_ofZ 0 else b32_ofZ 1).
  { intros d'. rewrite (nth_indep _ d' ((fun j0 => if (j0 <? n / 2)%nat then @f0 BN else @f1 BN) 0%nat)) by (rewrite map_length, seq_length; lia).
    rewrite (map_nth (fun j0 => if (j0 <? n / 2)%nat then @f0 BN else @f1 BN) (seq 0 n) 0%nat). rewrite seq_nth by lia. reflexivity. }
  destruct (i mod 2 =? 0)%nat.
  - rewrite (nth_indep _ d (@fsub BN (@f1 BN) d)) by (rewrite !map_length, seq_length; lia). rewrite (map_nth (fun a => @fsub BN (@f1 BN) a)), E.
    destruct (j <? n / 2)%nat; [exact one_minus_zero|exact one_minus_one].
  - rewrite E. destruct (j <? n / 2)%nat; reflexivity.
Qed.

(** Entrywise. *)
Lemma mix_len n i w x : length w = n -> length x = n -> length (@mask_mix BN (@realnvp_mask BN n i) w x) = n.
Proof. intros Lw Lx. destruct (nvp_mask n i) as [LM _]. unfold mask_mix, vadd, vmul. rewrite !map2_length, !map_length. change (@F BN) with B32 in * . lia. Qed.
Lemma mix_nth n i w x j d : length w = n -> length x = n -> (j < n)%nat -> bnd 120 w -> bnd 120 x ->
  length (@mask_mix BN (@realnvp_mask BN n i) w x) = n /\
  fin (nth j (@mask_mix BN (@realnvp_mask BN n i) w x) d) /\
  V (nth j (@mask_mix BN (@realnvp_mask BN n i) w x) d) = if held n i j then V (nth j x d) else V (nth j w d).
Proof.
  intros Lw Lx Hj Bw Bx. destruct (nvp_mask n i) as [LM EM]. set (m := @realnvp_mask BN n i) in * .
  assert (LL : length (@mask_mix BN m w x) = n). { unfold mask_mix, vadd, vmul. rewrite !map2_length, !map_length. change (@F BN) with B32 in * . lia. }
  split; [exact LL|].
  assert (E : nth j (@mask_mix BN m w x) d = Bplus mode_NE (Bmult mode_NE (Bminus mode_NE (b32_ofZ 1) (nth j m d)) (nth j w d)) (Bmult mode_NE (nth j m d) (nth j x d))).
  { unfold mask_mix, vadd. rewrite (nth_map2 _ _ _ j d d d) by (unfold vmul; rewrite map2_length, ?map_length; change (@F BN) with B32 in * ; lia).
    unfold vmul. rewrite (nth_map2 _ _ _ j d d d) by (rewrite ?map_length; change (@F BN) with B32 in * ; lia). rewrite (nth_map2 _ _ _ j d d d) by (change (@F BN) with B32 in * ; lia).
    rewrite (nth_indep (map (fun a => _) m) d (@fsub BN (@f1 BN) d)) by (rewrite map_length; change (@F BN) with B32 in * ; lia). rewrite (map_nth (fun a => @fsub BN (@f1 BN) a)). reflexivity. }
  rewrite E, (EM j d Hj). assert (I1 : (j < length w)%nat) by lia. assert (I2 : (j < length x)%nat) by lia.
  destruct (Bw (nth j w d) (nth_In w d I1)) as [F1 B1]. destruct (Bx (nth j x d) (nth_In x d I2)) as [F2 B2].
  pose proof (P_big 120 ltac:(lia)) as PB.
  destruct (mix1 (if held n i j then b32_ofZ 1 else b32_ofZ 0) (nth j w d) (nth j x d) ltac:(destruct (held n i j); auto) F1 ltac:(lra) F2 ltac:(lra)) as [A B].
  split; [exact A|]. refine (eq_trans B _). clear A B. destruct (ofZ_ok 0 ltac:(lia)) as [G0 V0]. destruct (ofZ_ok 1 ltac:(lia)) as [G1 V1].
  destruct (held n i j); destruct (Bool.bool_dec _ true) as [Q|Q]; auto.
  - exfalso. apply Q. apply (ltb_V _ _ G0 G1). lra.
  - apply (ltb_V _ _ G0 G0) in Q. lra.
Qed.
Lemma ctx_ok0 n i x : length x = n -> (forall v, In v x -> fin v) -> (forall j d, (j < n)%nat -> held n i j = true -> Rabs (V (nth j x d)) <= P 40) -> bnd 110 x ->
  let c := @vmul BN x (@realnvp_mask BN n i) in length c = n /\ (forall v, In v c -> within 40 v) /\
  forall j d, (j < n)%nat -> fin (nth j c d) /\ V (nth j c d) = if held n i j then V (nth j x d) else 0.
Proof.
  intros Lx Fx HB Bx c. destruct (nvp_mask n i) as [LM EM].
  assert (Lc : length c = n) by (unfold c, vmul; rewrite map2_length; change (@F BN) with B32 in * ; lia).
  assert (N : forall j d, (j < n)%nat -> fin (nth j c d) /\ V (nth j c d) = if held n i j then V (nth j x d) else 0).
  { intros j d Hj. unfold c, vmul. rewrite (nth_map2 _ _ _ j d d d) by (change (@F BN) with B32 in * ; lia). rewrite (EM j d Hj). change (@fmul BN) with (@Bmult 24 128 _ _ mode_NE).
    assert (I2 : (j < length x)%nat) by lia. destruct (Bx (nth j x d) (nth_In x d I2)) as [F2 B2]. pose proof (P_big 110 ltac:(lia)).
    destruct (held n i j). { apply mult_one; [exact F2|lra]. }
    destruct (ofZ_ok 0 ltac:(lia)) as [G0 V0]. destruct (mult_in (nth j x d) (b32_ofZ 0) 0 0 F2 G0 fb0 fb0) as [A B]; [rewrite V0; lra|]. split; [exact A|]. exact (Rle_antisym _ _ (proj2 B) (proj1 B)). }
  split; [exact Lc|]. split; [|exact N]. intros v Hv. apply (In_nth _ _ (@f0 BN)) in Hv as (j & Hj & <-). rewrite Lc in Hj.
  destruct (N j (@f0 BN) Hj) as [A B]. split; [exact A|]. change val with V. rewrite B, <- P_Z by lia. destruct (held n i j) eqn:Eh; [auto|]. rewrite Rabs_R0. apply bpow_ge_0.
Qed.
Definition ctx (n i : nat) (x : list B32) : list B32 := @vmul BN x (@realnvp_mask BN n i).
Lemma ctx_ok n i x : length x = n -> (forall v, In v x -> fin v) -> (forall j d, (j < n)%nat -> held n i j = true -> Rabs (V (nth j x d)) <= P 40) -> bnd 110 x ->
  length (ctx n i x) = n /\ (forall v, In v (ctx n i x) -> within 40 v) /\
  forall j d, (j < n)%nat -> fin (nth j (ctx n i x) d) /\ V (nth j (ctx n i x) d) = if held n i j then V (nth j x d) else 0.
Proof. exact (ctx_ok0 n i x). Qed.

Section Layer.
Variables (sn tn : list B32 -> list B32) (n i : nat).
Hypothesis (EA : exp_accurate fe) (TH : tanh_fit ft) (Hs : network_ok sn n) (Ht : network_ok tn n) (Hn : (n <= 2 ^ 16)%nat).
Definition scl (c : list B32) : list B32 := map (fun s : B32 => Bmult mode_NE (ft s) (b32_ofZ 1)) (sn c).
Definition shf (c : list B32) : list B32 := map (fun s : B32 => Bmult mode_NE s (b32_ofZ 1)) (tn c).

Lemma scl_ok c c' : length c = n -> (forall v, In v c -> within 40 v) -> same_numbers c c' ->
  length (scl c) = n /\ length (scl c') = n /\ length (shf c) = n /\ length (shf c') = n /\
  forall j d, (j < n)%nat -> let s := nth j (scl c) d in let s' := nth j (scl c') d in let t := nth j (shf c) d in let t' := nth j (shf c') d in
    fin s /\ fin s' /\ V s' = V s /\ Rabs (V s) <= 1 /\ fin t /\ fin t' /\ V t' = V t /\ Rabs (V t) <= P 100 /\ V t = V (nth j (tn c) d).
Proof.
  intros Lc Bc SN. destruct (Hs c Lc Bc) as (L1 & B1 & S1). destruct (Ht c Lc Bc) as (L2 & B2 & S2). specialize (S1 c' SN). specialize (S2 c' SN).
  pose proof (f2_len _ _ _ S1) as L1'. pose proof (f2_len _ _ _ S2) as L2'. unfold scl, shf. rewrite !map_length.
  split; [exact L1|]. split; [exact (eq_trans (eq_sym L1') L1)|]. split; [exact L2|]. split; [exact (eq_trans (eq_sym L2') L2)|]. intros j d Hj. cbv zeta.
  assert (L1'' : length (sn c') = n) by exact (eq_trans (eq_sym L1') L1). assert (L2'' : length (tn c') = n) by exact (eq_trans (eq_sym L2') L2).
  destruct TH as [T1 T2].
  assert (Q : forall l f, length l = n -> nth j (map f l) d = f (nth j l (b32_ofZ 0) : B32)).
  { intros l f Ll. rewrite (nth_indep _ d (f (b32_ofZ 0))) by (rewrite map_length; lia). apply map_nth. }
  rewrite !Q by lia. clear Q.
  assert (J1 : (j < length (sn c))%nat) by lia. assert (J2 : (j < length (tn c))%nat) by lia.
  destruct (f2_nth _ _ _ (b32_ofZ 0) (b32_ofZ 0) S1 j J1) as (A1 & A2 & A3). destruct (f2_nth _ _ _ (b32_ofZ 0) (b32_ofZ 0) S2 j J2) as (A4 & A5 & A6).
  destruct (B2 (nth j (tn c) (b32_ofZ 0)) (nth_In _ _ J2)) as [_ A7]. rewrite <- P_Z in A7 by lia. change val with V in * . change isfin with fin in * .
  pose proof (P_big 100 ltac:(lia)) as PB. pose proof (P_big 0 ltac:(lia)) as PB0. change (P 0) with 1 in PB0.
  destruct (T1 _ A1) as [C1 C2]. destruct (T1 _ A2) as [C3 C4]. change val with V in * .
  destruct (mult_one _ C1) as [D1 D2]; [apply Rabs_le in C2; lra|]. destruct (mult_one _ C3) as [D3 D4]; [apply Rabs_le in C4; lra|].
  destruct (mult_one _ A4) as [D5 D6]; [lra|]. destruct (mult_one _ A5) as [D7 D8]; [rewrite <- A6; lra|].
  rewrite D2, D4, D6, D8. split; [exact D1|]. split; [exact D3|]. split; [symmetry; apply (T2 _ _ A1 A2 A3)|]. split; [apply Rabs_le; exact C2|].
  split; [exact D5|]. split; [exact D7|]. split; [symmetry; exact A6|]. split; [exact A7|]. apply f_equal. apply nth_indep. exact J2.
Qed.
Definition fwd_list (c x : list B32) : list B32 := @vmul BN (@vadd BN x (shf c)) (map fe (scl c)).
Definition inv_list (c x : list B32) : list B32 := @vsub BN (@vmul BN x (map (fun s : B32 => fe (Bopp s)) (scl c))) (shf c).
Definition mixed (w x : list B32) : list B32 := @mask_mix BN (@realnvp_mask BN n i) w x.
Lemma fwd_len c x : length x = n -> length (shf c) = n -> length (scl c) = n -> length (fwd_list c x) = n.
Proof. intros L1 L2 L3. unfold fwd_list, vmul, vadd. rewrite !map2_length, map_length; change (@F BN) with B32 in * ; lia. Qed.
Lemma inv_len c x : length x = n -> length (shf c) = n -> length (scl c) = n -> length (inv_list c x) = n.
Proof. intros L1 L2 L3. unfold inv_list, vmul, vsub. rewrite !map2_length, map_length; change (@F BN) with B32 in * ; lia. Qed.
Lemma fwd_nth c x j d : length x = n -> length (shf c) = n -> length (scl c) = n -> (j < n)%nat -> length (fwd_list c x) = n /\
  nth j (fwd_list c x) d = gof fe (nth j (scl c) d) (nth j (shf c) d) (nth j x d).
Proof.
  intros L1 L2 L3 Hj. unfold fwd_list, vmul, vadd. split; [rewrite !map2_length, map_length; change (@F BN) with B32 in * ; lia|].
  rewrite (nth_map2 _ _ _ j d d d) by (rewrite ?map2_length, ?map_length; change (@F BN) with B32 in * ; lia). rewrite (nth_map2 _ _ _ j d d d) by (change (@F BN) with B32 in * ; lia).
  rewrite (nth_indep (map fe _) d (fe d)) by (rewrite map_length; lia). rewrite (map_nth fe). reflexivity.
Qed.
Lemma inv_nth c x j d : length x = n -> length (shf c) = n -> length (scl c) = n -> (j < n)%nat -> length (inv_list c x) = n /\
  nth j (inv_list c x) d = gob fe (nth j (scl c) d) (nth j (shf c) d) (nth j x d).
Proof.
  intros L1 L2 L3 Hj. unfold inv_list, vmul, vsub. split; [rewrite !map2_length, map_length; change (@F BN) with B32 in * ; lia|].
  rewrite (nth_map2 _ _ _ j d d d) by (rewrite ?map2_length, ?map_length; change (@F BN) with B32 in * ; lia). rewrite (nth_map2 _ _ _ j d d d) by (rewrite ?map_length; change (@F BN) with B32 in * ; lia).
  rewrite (nth_indep (map (fun s : B32 => fe (Bopp s)) _) d (fe (Bopp d))) by (rewrite map_length; lia). rewrite (map_nth (fun s : B32 => fe (Bopp s))). reflexivity.
Qed.
Lemma logdets a b : length a = n -> length b = n -> (forall j d, (j < n)%nat -> fin (nth j a d) /\ fin (nth j b d) /\ Rabs (V (nth j a d)) <= 1 /\ V (nth j b d) = - V (nth j a d)) ->
  fin (@mask_logdet BN (@realnvp_mask BN n i) a) /\ fin (@mask_logdet BN (@realnvp_mask BN n i) b) /\
  V (@mask_logdet BN (@realnvp_mask BN n i) b) = - V (@mask_logdet BN (@realnvp_mask BN n i) a).
Proof.
  intros La Lb H. destruct (nvp_mask n i) as [LM EM]. unfold mask_logdet. set (m1 := map (fun a0 => @fsub BN (@f1 BN) a0) (@realnvp_mask BN n i)).
  assert (L1 : length m1 = n) by (unfold m1; rewrite map_length; exact LM).
  assert (M1 : forall j d, (j < n)%nat -> nth j m1 d = b32_ofZ 0 \/ nth j m1 d = b32_ofZ 1).
  { intros j d Hj. unfold m1. rewrite (nth_indep _ d (@fsub BN (@f1 BN) d)) by (rewrite map_length; change (@F BN) with B32 in * ; lia). rewrite (map_nth (fun a => @fsub BN (@f1 BN) a)), (EM j d Hj).
    destruct (held n i j); [left; exact one_minus_one|right; exact one_minus_zero]. }
  refine (sum_opp (@vmul BN m1 a) (@vmul BN m1 b) _ _).
  2: { unfold vmul. rewrite map2_length. change (@F BN) with B32 in * . change (2 ^ 16)%Z with (Z.of_nat (2 ^ 16)). apply Nat2Z.inj_le. lia. }
  apply (f2_of_nth _ (b32_ofZ 0) (b32_ofZ 0)); [unfold vmul; rewrite !map2_length; change (@F BN) with B32 in * ; lia|].
  intros j Hj. unfold vmul in Hj |- * . rewrite map2_length in Hj. change (@F BN) with B32 in Hj.
  rewrite !(nth_map2 _ _ _ j (b32_ofZ 0) (b32_ofZ 0) (b32_ofZ 0)) by (change (@F BN) with B32; lia).
  destruct (H j (b32_ofZ 0) ltac:(lia)) as (Fa & Fb & Ba & E).
  assert (FM : fin (nth j m1 (b32_ofZ 0)) /\ Rabs (V (nth j m1 (b32_ofZ 0))) <= P 0).
  { destruct (ofZ_ok 0 ltac:(lia)) as [F0 V0]. destruct (ofZ_ok 1 ltac:(lia)) as [F1 V1]. change (P 0) with 1.
    destruct (M1 j (b32_ofZ 0) ltac:(lia)) as [Q|Q]; rewrite Q; (split; [assumption|]); [rewrite V0, Rabs_R0|rewrite V1, Rabs_R1]; lra. }
  destruct FM as [FM BM]. change 1 with (P 0) in Ba.
  destruct (mul_Pabs' _ _ 0 0 FM Fa BM Ba ltac:(lia)) as (G1 & G2 & G3).
  assert (Bb : Rabs (V (nth j b (b32_ofZ 0))) <= P 0) by (rewrite E, Rabs_Ropp; exact Ba). destruct (mul_Pabs' _ _ 0 0 FM Fb BM Bb ltac:(lia)) as (G4 & G5 & G6).
  split; [exact G1|]. split; [exact G4|]. split; [exact G2|].
  refine (eq_trans G6 (eq_trans _ (f_equal Ropp (eq_sym G3)))). rewrite E, <- rnd_opp. f_equal. ring.
Qed.
Lemma vneg_ok l j d : (j < length l)%nat -> nth j (@vneg BN l) d = Bopp (nth j l d).
Proof. intros H. unfold vneg. rewrite (nth_indep _ d (@fneg BN d)) by (rewrite map_length; exact H). apply (map_nth (@fneg BN)). Qed.

Definition L : @layer BN := @coupling_layer BN (@mkCoupling BN (@realnvp_mask BN n i) (@mlp_affine BN sn tn (@f1 BN))).
Lemma same_ctx c c' : length c = n -> length c' = n -> (forall j d, (j < n)%nat -> fin (nth j c d) /\ fin (nth j c' d) /\ V (nth j c d) = V (nth j c' d)) -> same_numbers c c'.
Proof. intros L1 L2 H. apply (f2_of_nth _ (b32_ofZ 0) (b32_ofZ 0)); [lia|]. intros j Hj. apply H. lia. Qed.

Lemma fwd_inv x : length x = n -> (forall v, In v x -> within 40 v) ->
  let '(y, l) := @ly_fwd BN L x in let '(x', l') := @ly_inv BN L y in
  back_again n i (tn (@vmul BN x (@realnvp_mask BN n i))) x x' l l'.
Proof using EA TH Hs Ht Hn.
  intros Lx Bx.
  assert (Bx' : bnd 40 x) by (intros v Hv; apply within_P; [lia|auto]).
  assert (BX : forall k, (40 <= k)%Z -> bnd k x) by (intros k Hk v Hv; destruct (Bx' v Hv) as [A B]; split; [exact A|exact (abs_up _ _ _ B Hk)]).
  destruct (ctx_ok n i x Lx (fun v Hv => proj1 (Bx v Hv)) ltac:(intros j d Hj _; assert (J : (j < length x)%nat) by lia; exact (proj2 (Bx' _ (nth_In x d J)))) (BX 110%Z ltac:(lia))) as (Lc & Bc & Nc).
  unfold L, coupling_layer. cbn [ly_fwd ly_inv]. unfold coupling_fwd, coupling_inv. cbn [cp_bij cp_mask mlp_affine bj_fwd bj_inv].
  change (@vmul BN x (@realnvp_mask BN n i)) with (ctx n i x) in * . set (c := ctx n i x) in * . change (map (fun s => @fmul BN (@ftanh BN s) (@f1 BN)) (sn c)) with (scl c). change (map (fun s => @fmul BN s (@f1 BN)) (tn c)) with (shf c).
  change (@vmul BN (@vadd BN x (shf c)) (map (@fexp BN) (scl c))) with (fwd_list c x). change (@mask_mix BN (@realnvp_mask BN n i) (fwd_list c x) x) with (mixed (fwd_list c x) x). set (y := mixed (fwd_list c x) x).
  change (@vmul BN y (@realnvp_mask BN n i)) with (ctx n i y). set (c' := ctx n i y). change (map (fun s => @fmul BN (@ftanh BN s) (@f1 BN)) (sn c')) with (scl c'). change (map (fun s => @fmul BN s (@f1 BN)) (tn c')) with (shf c').
  change (@vsub BN (@vmul BN y (map (fun s => @fexp BN (@fneg BN s)) (scl c'))) (shf c')) with (inv_list c' y).
  assert (S0 : same_numbers c c). { apply same_ctx; auto. intros j d Hj. destruct (Nc j d Hj) as [A _]. auto. }
  destruct (scl_ok c c Lc Bc S0) as (Ls & _ & Lt & _ & K0).
  assert (W : forall j d, (j < n)%nat -> let s := nth j (scl c) d in let t := nth j (shf c) d in let v := nth j x d in fin (gof fe s t v) /\ Rabs (V (gof fe s t v)) <= P 110).
  { intros j d Hj. cbv zeta. destruct (K0 j d Hj) as (A1 & _ & _ & A4 & A5 & _ & _ & A8 & _). assert (J : (j < length x)%nat) by lia. destruct (Bx' _ (nth_In x d J)) as [Fv Bv].
    destruct (there_and_back fe _ _ _ _ EA A1 A1 eq_refl A4 A5 A5 eq_refl A8 _ Fv Bv) as (Q1 & Q2 & _). auto. }
  assert (LF : length (fwd_list c x) = n) by (exact (fwd_len c x Lx Lt Ls)).
  assert (BF : bnd 110 (fwd_list c x)). { intros v Hv. apply (In_nth _ _ (b32_ofZ 0)) in Hv as (j & Hj & <-). apply (fun h => eq_ind _ (fun m => (j < m)%nat) h _ LF) in Hj. rewrite (proj2 (fwd_nth c x j (b32_ofZ 0) Lx Lt Ls Hj)). apply W. exact Hj. }
  assert (UP : forall l, bnd 110 l -> bnd 120 l). { intros l H v Hv. destruct (H v Hv) as [A B]. split; [exact A|]. refine (abs_up _ _ _ B _). lia. }
  assert (Y : forall j d, (j < n)%nat -> fin (nth j y d) /\ V (nth j y d) = if held n i j then V (nth j x d) else V (nth j (fwd_list c x) d)).
  { intros j d Hj. exact (proj2 (mix_nth n i (fwd_list c x) x j d LF Lx Hj (UP _ BF) (BX 120%Z ltac:(lia)))). }
  assert (Ly : length y = n) by (exact (mix_len n i _ _ LF Lx)).
  assert (BY : bnd 110 y). { intros v Hv. apply (In_nth _ _ (b32_ofZ 0)) in Hv as (j & Hj & <-). apply (fun h => eq_ind _ (fun m => (j < m)%nat) h _ Ly) in Hj. destruct (Y j (b32_ofZ 0) Hj) as [A B]. split; [exact A|]. refine (eq_ind_r (fun r => Rabs r <= P 110) _ B).
    destruct (held n i j). { assert (J : (j < length x)%nat) by lia. exact (proj2 (BX 110%Z ltac:(lia) _ (nth_In x _ J))). } assert (J : (j < length (fwd_list c x))%nat) by lia. exact (proj2 (BF _ (nth_In _ (b32_ofZ 0) J))). }
  destruct (ctx_ok n i y Ly (fun v Hv => proj1 (BY v Hv)) ltac:(intros j d Hj Hh; rewrite (proj2 (Y j d Hj)), Hh; assert (J : (j < length x)%nat) by lia; exact (proj2 (Bx' _ (nth_In x d J)))) BY) as (Lc' & Bc' & Nc').
  change (@vmul BN y (@realnvp_mask BN n i)) with c' in * .
  assert (SN : same_numbers c c'). { apply same_ctx; auto. intros j d Hj. destruct (Nc j d Hj) as [A1 A2]. destruct (Nc' j d Hj) as [A3 A4]. split; [exact A1|]. split; [exact A3|]. refine (eq_trans A2 (eq_trans _ (eq_sym A4))). pose proof (proj2 (Y j d Hj)) as Y2. destruct (held n i j) eqn:Eh; [|reflexivity]. exact (eq_sym Y2). }
  destruct (scl_ok c c' Lc Bc SN) as (_ & Ls' & _ & Lt' & K1).
  assert (LI : length (inv_list c' y) = n) by (exact (inv_len c' y Ly Lt' Ls')).
  assert (W2 : forall j d, (j < n)%nat -> held n i j = false -> let r := nth j (inv_list c' y) d in fin r /\ Rabs (V r) <= P 110 /\
    Rabs (V r - V (nth j x d)) <= / 131072 * (Rabs (V (nth j x d)) + Rabs (V (nth j (tn c) d))) + / IZR (2 ^ 140)).
  { intros j d Hj Hh. cbv zeta. rewrite (proj2 (inv_nth c' y j d Ly Lt' Ls' Hj)). destruct (K1 j d Hj) as (A1 & A2 & A3 & A4 & A5 & A6 & A7 & A8 & A9). rewrite <- A9.
    assert (J : (j < length x)%nat) by lia. destruct (Bx' _ (nth_In x d J)) as [Fv Bv].
    destruct (there_and_back fe _ _ _ _ EA A1 A2 A3 A4 A5 A6 A7 A8 _ Fv Bv) as (_ & _ & Q). destruct (Y j d Hj) as [Y1 Y2]. rewrite Hh, (proj2 (fwd_nth c x j d Lx Lt Ls Hj)) in Y2. exact (Q _ Y1 Y2). }
  assert (W3 : bnd 110 (inv_list c' y)).
  { intros v Hv. apply (In_nth _ _ (b32_ofZ 0)) in Hv as (j & Hj & <-). apply (fun h => eq_ind _ (fun m => (j < m)%nat) h _ LI) in Hj. destruct (held n i j) eqn:Hh.
    - rewrite (proj2 (inv_nth c' y j (b32_ofZ 0) Ly Lt' Ls' Hj)). destruct (K1 j (b32_ofZ 0) Hj) as (A1 & A2 & A3 & A4 & A5 & A6 & A7 & A8 & A9).
      destruct (Y j (b32_ofZ 0) Hj) as [Y1 Y2]. rewrite Hh in Y2. assert (J : (j < length x)%nat) by lia. destruct (Bx' _ (nth_In x (b32_ofZ 0) J)) as [Fv Bv]. rewrite <- Y2 in Bv.
      rewrite <- A3 in A4. rewrite <- A7 in A8.
      destruct (back_and_there fe _ _ _ _ EA A2 A2 eq_refl A4 A6 A6 eq_refl A8 _ Y1 Bv) as (Q1 & Q2 & _). exact (conj Q1 Q2).
    - destruct (W2 j (b32_ofZ 0) Hj Hh) as (Q1 & Q2 & _). auto. }
  assert (LD : fin (@mask_logdet BN (@realnvp_mask BN n i) (scl c)) /\ fin (@mask_logdet BN (@realnvp_mask BN n i) (@vneg BN (scl c'))) /\
    V (@mask_logdet BN (@realnvp_mask BN n i) (@vneg BN (scl c'))) = - V (@mask_logdet BN (@realnvp_mask BN n i) (scl c))).
  { apply logdets; [exact Ls|unfold vneg; rewrite map_length; exact Ls'|]. intros j d Hj. destruct (K1 j d Hj) as (A1 & A2 & A3 & A4 & _).
    rewrite vneg_ok by (change (@F BN) with B32; lia). split; [exact A1|]. split; [apply fin_opp; exact A2|]. split; [exact A4|]. refine (eq_trans (V_opp _) (f_equal Ropp _)). exact A3. }
  destruct LD as (D1 & D2 & D3). split; [exact (mix_len n i _ _ LI Ly)|]. split; [exact D1|]. split; [exact D2|]. split; [exact D3|].
  intros j d Hj. destruct (mix_nth n i (inv_list c' y) y j d LI Ly Hj (UP _ W3) (UP _ BY)) as (_ & M1 & M2). split; [exact M1|]. change val with V.
  destruct (held n i j) eqn:Hh.
  - refine (eq_trans M2 _). pose proof (proj2 (Y j d Hj)) as Y2. rewrite Hh in Y2. exact Y2.
  - refine (eq_ind_r (fun r => Rabs (r - _) <= _) _ M2). exact (proj2 (proj2 (W2 j d Hj Hh))).
Qed.
Lemma inv_fwd x : length x = n -> (forall v, In v x -> within 40 v) ->
  let '(y, l) := @ly_inv BN L x in let '(x', l') := @ly_fwd BN L y in
  back_again n i (tn (@vmul BN x (@realnvp_mask BN n i))) x x' l l'.
Proof using EA TH Hs Ht Hn.
  intros Lx Bx.
  assert (Bx' : bnd 40 x) by (intros v Hv; apply within_P; [lia|auto]).
  assert (BX : forall k, (40 <= k)%Z -> bnd k x) by (intros k Hk v Hv; destruct (Bx' v Hv) as [A B]; split; [exact A|exact (abs_up _ _ _ B Hk)]).
  destruct (ctx_ok n i x Lx (fun v Hv => proj1 (Bx v Hv)) ltac:(intros j d Hj _; assert (J : (j < length x)%nat) by lia; exact (proj2 (Bx' _ (nth_In x d J)))) (BX 110%Z ltac:(lia))) as (Lc & Bc & Nc).
  unfold L, coupling_layer. cbn [ly_fwd ly_inv]. unfold coupling_fwd, coupling_inv. cbn [cp_bij cp_mask mlp_affine bj_fwd bj_inv].
  change (@vmul BN x (@realnvp_mask BN n i)) with (ctx n i x) in * . set (c := ctx n i x) in * . change (map (fun s => @fmul BN (@ftanh BN s) (@f1 BN)) (sn c)) with (scl c). change (map (fun s => @fmul BN s (@f1 BN)) (tn c)) with (shf c).
  change (@vsub BN (@vmul BN x (map (fun s => @fexp BN (@fneg BN s)) (scl c))) (shf c)) with (inv_list c x). change (@mask_mix BN (@realnvp_mask BN n i) (inv_list c x) x) with (mixed (inv_list c x) x). set (y := mixed (inv_list c x) x).
  change (@vmul BN y (@realnvp_mask BN n i)) with (ctx n i y). set (c' := ctx n i y). change (map (fun s => @fmul BN (@ftanh BN s) (@f1 BN)) (sn c')) with (scl c'). change (map (fun s => @fmul BN s (@f1 BN)) (tn c')) with (shf c').
  change (@vmul BN (@vadd BN y (shf c')) (map (@fexp BN) (scl c'))) with (fwd_list c' y).
  assert (S0 : same_numbers c c). { apply same_ctx; auto. intros j d Hj. destruct (Nc j d Hj) as [A _]. auto. }
  destruct (scl_ok c c Lc Bc S0) as (Ls & _ & Lt & _ & K0).
  assert (W : forall j d, (j < n)%nat -> let s := nth j (scl c) d in let t := nth j (shf c) d in let v := nth j x d in fin (gob fe s t v) /\ Rabs (V (gob fe s t v)) <= P 110).
  { intros j d Hj. cbv zeta. destruct (K0 j d Hj) as (A1 & _ & _ & A4 & A5 & _ & _ & A8 & _). assert (J : (j < length x)%nat) by lia. destruct (Bx' _ (nth_In x d J)) as [Fv Bv].
    destruct (back_and_there fe _ _ _ _ EA A1 A1 eq_refl A4 A5 A5 eq_refl A8 _ Fv Bv) as (Q1 & Q2 & _). exact (conj Q1 Q2). }
  assert (LF : length (inv_list c x) = n) by (exact (inv_len c x Lx Lt Ls)).
  assert (BF : bnd 110 (inv_list c x)). { intros v Hv. apply (In_nth _ _ (b32_ofZ 0)) in Hv as (j & Hj & <-). apply (fun h => eq_ind _ (fun m => (j < m)%nat) h _ LF) in Hj. rewrite (proj2 (inv_nth c x j (b32_ofZ 0) Lx Lt Ls Hj)). apply W. exact Hj. }
  assert (UP : forall l, bnd 110 l -> bnd 120 l). { intros l H v Hv. destruct (H v Hv) as [A B]. split; [exact A|]. refine (abs_up _ _ _ B _). lia. }
  assert (Y : forall j d, (j < n)%nat -> fin (nth j y d) /\ V (nth j y d) = if held n i j then V (nth j x d) else V (nth j (inv_list c x) d)).
  { intros j d Hj. exact (proj2 (mix_nth n i (inv_list c x) x j d LF Lx Hj (UP _ BF) (BX 120%Z ltac:(lia)))). }
  assert (Ly : length y = n) by (exact (mix_len n i _ _ LF Lx)).
  assert (BY : bnd 110 y). { intros v Hv. apply (In_nth _ _ (b32_ofZ 0)) in Hv as (j & Hj & <-). apply (fun h => eq_ind _ (fun m => (j < m)%nat) h _ Ly) in Hj. destruct (Y j (b32_ofZ 0) Hj) as [A B]. split; [exact A|]. refine (eq_ind_r (fun r => Rabs r <= P 110) _ B).
    destruct (held n i j). { assert (J : (j < length x)%nat) by lia. exact (proj2 (BX 110%Z ltac:(lia) _ (nth_In x _ J))). } assert (J : (j < length (inv_list c x))%nat) by lia. exact (proj2 (BF _ (nth_In _ (b32_ofZ 0) J))). }
  destruct (ctx_ok n i y Ly (fun v Hv => proj1 (BY v Hv)) ltac:(intros j d Hj Hh; rewrite (proj2 (Y j d Hj)), Hh; assert (J : (j < length x)%nat) by lia; exact (proj2 (Bx' _ (nth_In x d J)))) BY) as (Lc' & Bc' & Nc').
  change (@vmul BN y (@realnvp_mask BN n i)) with c' in * .
  assert (SN : same_numbers c c'). { apply same_ctx; auto. intros j d Hj. destruct (Nc j d Hj) as [A1 A2]. destruct (Nc' j d Hj) as [A3 A4]. split; [exact A1|]. split; [exact A3|]. refine (eq_trans A2 (eq_trans _ (eq_sym A4))). pose proof (proj2 (Y j d Hj)) as Y2. destruct (held n i j) eqn:Eh; [|reflexivity]. exact (eq_sym Y2). }
  destruct (scl_ok c c' Lc Bc SN) as (_ & Ls' & _ & Lt' & K1).
  assert (LI : length (fwd_list c' y) = n) by (exact (fwd_len c' y Ly Lt' Ls')).
  assert (W2 : forall j d, (j < n)%nat -> held n i j = false -> let r := nth j (fwd_list c' y) d in fin r /\ Rabs (V r) <= P 110 /\
    Rabs (V r - V (nth j x d)) <= / 131072 * (Rabs (V (nth j x d)) + Rabs (V (nth j (tn c) d))) + / IZR (2 ^ 140)).
  { intros j d Hj Hh. cbv zeta. rewrite (proj2 (fwd_nth c' y j d Ly Lt' Ls' Hj)). destruct (K1 j d Hj) as (A1 & A2 & A3 & A4 & A5 & A6 & A7 & A8 & A9). rewrite <- A9.
    assert (J : (j < length x)%nat) by lia. destruct (Bx' _ (nth_In x d J)) as [Fv Bv].
    destruct (back_and_there fe _ _ _ _ EA A1 A2 A3 A4 A5 A6 A7 A8 _ Fv Bv) as (_ & _ & Q). destruct (Y j d Hj) as [Y1 Y2]. rewrite Hh, (proj2 (inv_nth c x j d Lx Lt Ls Hj)) in Y2. exact (Q _ Y1 Y2). }
  assert (W3 : bnd 110 (fwd_list c' y)).
  { intros v Hv. apply (In_nth _ _ (b32_ofZ 0)) in Hv as (j & Hj & <-). apply (fun h => eq_ind _ (fun m => (j < m)%nat) h _ LI) in Hj. destruct (held n i j) eqn:Hh.
    - rewrite (proj2 (fwd_nth c' y j (b32_ofZ 0) Ly Lt' Ls' Hj)). destruct (K1 j (b32_ofZ 0) Hj) as (A1 & A2 & A3 & A4 & A5 & A6 & A7 & A8 & A9).
      destruct (Y j (b32_ofZ 0) Hj) as [Y1 Y2]. rewrite Hh in Y2. assert (J : (j < length x)%nat) by lia. destruct (Bx' _ (nth_In x (b32_ofZ 0) J)) as [Fv Bv]. rewrite <- Y2 in Bv.
      rewrite <- A3 in A4. rewrite <- A7 in A8.
      destruct (there_and_back fe _ _ _ _ EA A2 A2 eq_refl A4 A6 A6 eq_refl A8 _ Y1 Bv) as (Q1 & Q2 & _). exact (conj Q1 Q2).
    - destruct (W2 j (b32_ofZ 0) Hj Hh) as (Q1 & Q2 & _). auto. }
  assert (LD : fin (@mask_logdet BN (@realnvp_mask BN n i) (@vneg BN (scl c))) /\ fin (@mask_logdet BN (@realnvp_mask BN n i) (scl c')) /\
    V (@mask_logdet BN (@realnvp_mask BN n i) (scl c')) = - V (@mask_logdet BN (@realnvp_mask BN n i) (@vneg BN (scl c)))).
  { apply logdets; [unfold vneg; rewrite map_length; exact Ls|exact Ls'|]. intros j d Hj. destruct (K1 j d Hj) as (A1 & A2 & A3 & A4 & _).
    rewrite vneg_ok by (change (@F BN) with B32; lia). split; [apply fin_opp; exact A1|]. split; [exact A2|].
    pose proof (V_opp (nth j (scl c) d)) as E. split; [refine (eq_ind_r (fun r => Rabs r <= 1) _ E); rewrite Rabs_Ropp; exact A4|].
    refine (eq_trans A3 _). refine (eq_trans _ (f_equal Ropp (eq_sym E))). ring. }
  destruct LD as (D1 & D2 & D3). split; [exact (mix_len n i _ _ LI Ly)|]. split; [exact D1|]. split; [exact D2|]. split; [exact D3|].
  intros j d Hj. destruct (mix_nth n i (fwd_list c' y) y j d LI Ly Hj (UP _ W3) (UP _ BY)) as (_ & M1 & M2). split; [exact M1|]. change val with V.
  destruct (held n i j) eqn:Hh.
  - refine (eq_trans M2 _). pose proof (proj2 (Y j d Hj)) as Y2. rewrite Hh in Y2. exact Y2.
  - refine (eq_ind_r (fun r => Rabs (r - _) <= _) _ M2). exact (proj2 (proj2 (W2 j d Hj Hh))).
Qed.
Lemma scl_val c j d : length c = n -> (forall v, In v c -> within 40 v) -> (j < n)%nat -> V (nth j (scl c) d) = V (ft (nth j (sn c) d)).
Proof.
  intros Lc Bc Hj. destruct (Hs c Lc Bc) as (L1 & B1 & _). unfold scl. assert (J1 : (j < length (sn c))%nat) by lia.
  rewrite (nth_indep _ d (Bmult mode_NE (ft d) (b32_ofZ 1))) by (rewrite map_length; exact J1). rewrite (map_nth (fun s : B32 => Bmult mode_NE (ft s) (b32_ofZ 1))).
  destruct TH as [T1 _]. destruct (T1 _ (proj1 (B1 _ (nth_In (sn c) d J1)))) as [C1 C2]. change val with V in C2. pose proof (P_big 0 ltac:(lia)) as PB0. change (P 0) with 1 in PB0.
  apply mult_one; [exact C1|]. apply Rabs_le in C2. lra.
Qed.
Lemma fwd_value x : length x = n -> (forall v, In v x -> within 40 v) -> let c := @vmul BN x (@realnvp_mask BN n i) in
  forall j d, (j < n)%nat -> held n i j = false ->
  let q := (val (nth j x d) + val (nth j (tn c) d)) * exp (val (ft (nth j (sn c) d))) in
  Rabs (val (nth j (fst (@ly_fwd BN L x)) d) - q) <= / 524288 * Rabs q + / IZR (2 ^ 140).
Proof using EA TH Hs Ht Hn.
  intros Lx Bx.
  assert (Bx' : bnd 40 x) by (intros v Hv; apply within_P; [lia|auto]).
  assert (BX : forall k, (40 <= k)%Z -> bnd k x) by (intros k Hk v Hv; destruct (Bx' v Hv) as [A B]; split; [exact A|exact (abs_up _ _ _ B Hk)]).
  destruct (ctx_ok n i x Lx (fun v Hv => proj1 (Bx v Hv)) ltac:(intros j d Hj _; assert (J : (j < length x)%nat) by lia; exact (proj2 (Bx' _ (nth_In x d J)))) (BX 110%Z ltac:(lia))) as (Lc & Bc & Nc).
  unfold L, coupling_layer. cbn [ly_fwd ly_inv]. unfold coupling_fwd, coupling_inv. cbn [cp_bij cp_mask mlp_affine bj_fwd bj_inv].
  change (@vmul BN x (@realnvp_mask BN n i)) with (ctx n i x) in * . set (c := ctx n i x) in * . change (map (fun s => @fmul BN (@ftanh BN s) (@f1 BN)) (sn c)) with (scl c). change (map (fun s => @fmul BN s (@f1 BN)) (tn c)) with (shf c).
  change (@vmul BN (@vadd BN x (shf c)) (map (@fexp BN) (scl c))) with (fwd_list c x). change (@mask_mix BN (@realnvp_mask BN n i) (fwd_list c x) x) with (mixed (fwd_list c x) x). set (y := mixed (fwd_list c x) x).
  assert (S0 : same_numbers c c). { apply same_ctx; auto. intros j d Hj. destruct (Nc j d Hj) as [A _]. auto. }
  destruct (scl_ok c c Lc Bc S0) as (Ls & _ & Lt & _ & K0).
  assert (W : forall j d, (j < n)%nat -> let s := nth j (scl c) d in let t := nth j (shf c) d in let v := nth j x d in fin (gof fe s t v) /\ Rabs (V (gof fe s t v)) <= P 110).
  { intros j d Hj. cbv zeta. destruct (K0 j d Hj) as (A1 & _ & _ & A4 & A5 & _ & _ & A8 & _). assert (J : (j < length x)%nat) by lia. destruct (Bx' _ (nth_In x d J)) as [Fv Bv].
    destruct (there_and_back fe _ _ _ _ EA A1 A1 eq_refl A4 A5 A5 eq_refl A8 _ Fv Bv) as (Q1 & Q2 & _). auto. }
  assert (LF : length (fwd_list c x) = n) by (exact (fwd_len c x Lx Lt Ls)).
  assert (BF : bnd 110 (fwd_list c x)). { intros v Hv. apply (In_nth _ _ (b32_ofZ 0)) in Hv as (j & Hj & <-). apply (fun h => eq_ind _ (fun m => (j < m)%nat) h _ LF) in Hj. rewrite (proj2 (fwd_nth c x j (b32_ofZ 0) Lx Lt Ls Hj)). apply W. exact Hj. }
  assert (UP : forall l, bnd 110 l -> bnd 120 l). { intros l H v Hv. destruct (H v Hv) as [A B]. split; [exact A|]. refine (abs_up _ _ _ B _). lia. }
  assert (Y : forall j d, (j < n)%nat -> fin (nth j y d) /\ V (nth j y d) = if held n i j then V (nth j x d) else V (nth j (fwd_list c x) d)).
  { intros j d Hj. exact (proj2 (mix_nth n i (fwd_list c x) x j d LF Lx Hj (UP _ BF) (BX 120%Z ltac:(lia)))). }
  cbv zeta. intros j d Hj Hh. destruct (Y j d Hj) as [_ Y2]. rewrite Hh in Y2. change val with V. refine (eq_ind_r (fun r => Rabs (r - _) <= _) _ Y2).
  rewrite (proj2 (fwd_nth c x j d Lx Lt Ls Hj)). destruct (K0 j d Hj) as (A1 & _ & _ & A4 & A5 & _ & _ & A8 & A9). assert (J : (j < length x)%nat) by lia. destruct (Bx' _ (nth_In x d J)) as [Fv Bv].
  pose proof (value_fwd fe _ _ _ EA A1 A4 A5 A8 Fv Bv) as Q. rewrite A9, (scl_val c j d Lc Bc Hj) in Q. exact Q.
Qed.
Lemma inv_value x : length x = n -> (forall v, In v x -> within 40 v) -> let c := @vmul BN x (@realnvp_mask BN n i) in
  forall j d, (j < n)%nat -> held n i j = false ->
  let q := val (nth j x d) * exp (- val (ft (nth j (sn c) d))) in let t := val (nth j (tn c) d) in
  Rabs (val (nth j (fst (@ly_inv BN L x)) d) - (q - t)) <= / 524288 * (Rabs q + Rabs t) + / IZR (2 ^ 140).
Proof using EA TH Hs Ht Hn.
  intros Lx Bx.
  assert (Bx' : bnd 40 x) by (intros v Hv; apply within_P; [lia|auto]).
  assert (BX : forall k, (40 <= k)%Z -> bnd k x) by (intros k Hk v Hv; destruct (Bx' v Hv) as [A B]; split; [exact A|exact (abs_up _ _ _ B Hk)]).
  destruct (ctx_ok n i x Lx (fun v Hv => proj1 (Bx v Hv)) ltac:(intros j d Hj _; assert (J : (j < length x)%nat) by lia; exact (proj2 (Bx' _ (nth_In x d J)))) (BX 110%Z ltac:(lia))) as (Lc & Bc & Nc).
  unfold L, coupling_layer. cbn [ly_fwd ly_inv]. unfold coupling_fwd, coupling_inv. cbn [cp_bij cp_mask mlp_affine bj_fwd bj_inv].
  change (@vmul BN x (@realnvp_mask BN n i)) with (ctx n i x) in * . set (c := ctx n i x) in * . change (map (fun s => @fmul BN (@ftanh BN s) (@f1 BN)) (sn c)) with (scl c). change (map (fun s => @fmul BN s (@f1 BN)) (tn c)) with (shf c).
  change (@vsub BN (@vmul BN x (map (fun s => @fexp BN (@fneg BN s)) (scl c))) (shf c)) with (inv_list c x). change (@mask_mix BN (@realnvp_mask BN n i) (inv_list c x) x) with (mixed (inv_list c x) x). set (y := mixed (inv_list c x) x).
  assert (S0 : same_numbers c c). { apply same_ctx; auto. intros j d Hj. destruct (Nc j d Hj) as [A _]. auto. }
  destruct (scl_ok c c Lc Bc S0) as (Ls & _ & Lt & _ & K0).
  assert (W : forall j d, (j < n)%nat -> let s := nth j (scl c) d in let t := nth j (shf c) d in let v := nth j x d in fin (gob fe s t v) /\ Rabs (V (gob fe s t v)) <= P 110).
  { intros j d Hj. cbv zeta. destruct (K0 j d Hj) as (A1 & _ & _ & A4 & A5 & _ & _ & A8 & _). assert (J : (j < length x)%nat) by lia. destruct (Bx' _ (nth_In x d J)) as [Fv Bv].
    destruct (back_and_there fe _ _ _ _ EA A1 A1 eq_refl A4 A5 A5 eq_refl A8 _ Fv Bv) as (Q1 & Q2 & _). exact (conj Q1 Q2). }
  assert (LF : length (inv_list c x) = n) by (exact (inv_len c x Lx Lt Ls)).
  assert (BF : bnd 110 (inv_list c x)). { intros v Hv. apply (In_nth _ _ (b32_ofZ 0)) in Hv as (j & Hj & <-). apply (fun h => eq_ind _ (fun m => (j < m)%nat) h _ LF) in Hj. rewrite (proj2 (inv_nth c x j (b32_ofZ 0) Lx Lt Ls Hj)). apply W. exact Hj. }
  assert (UP : forall l, bnd 110 l -> bnd 120 l). { intros l H v Hv. destruct (H v Hv) as [A B]. split; [exact A|]. refine (abs_up _ _ _ B _). lia. }
  assert (Y : forall j d, (j < n)%nat -> fin (nth j y d) /\ V (nth j y d) = if held n i j then V (nth j x d) else V (nth j (inv_list c x) d)).
  { intros j d Hj. exact (proj2 (mix_nth n i (inv_list c x) x j d LF Lx Hj (UP _ BF) (BX 120%Z ltac:(lia)))). }
  cbv zeta. intros j d Hj Hh. destruct (Y j d Hj) as [_ Y2]. rewrite Hh in Y2. change val with V. refine (eq_ind_r (fun r => Rabs (r - _) <= _) _ Y2).
  rewrite (proj2 (inv_nth c x j d Lx Lt Ls Hj)). destruct (K0 j d Hj) as (A1 & _ & _ & A4 & A5 & _ & _ & A8 & A9). assert (J : (j < length x)%nat) by lia. destruct (Bx' _ (nth_In x d J)) as [Fv Bv].
  pose proof (value_inv fe _ _ _ EA A1 A4 A5 A8 Fv Bv) as Q. rewrite A9, (scl_val c j d Lc Bc Hj) in Q. exact Q.
Qed.
End Layer.
End BN.
