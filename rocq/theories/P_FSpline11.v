(** The conditioner network in single precision: moderate parameters and the tanh activation give moderate outputs. *)
From Coq Require Import ZArith Reals Lra Lia Psatz.
From Flocq Require Import Core BinarySingleNaN.
From Verif Require Import Prelude Num M_Flow M_Net Float32 Float32t Spec_FSpline P_Lists P_FSpline1 P_FSpline5 P_FSpline9.
Open Scope R_scope.
Local Strategy 100 [Bplus Bminus Bmult Bdiv Bopp Bsqrt].

Section BN.
Variables (pi : B32) (fe fl ft : B32 -> B32).
Let BN := B32Num pi fe fl ft.
Lemma sum_P l k : (Z.of_nat (length l) <= 2 ^ 16)%Z -> (0 <= k <= 100)%Z -> (forall v, In v l -> fin v /\ Rabs (V v) <= P k) ->
  fin (bsum l) /\ Rabs (V (bsum l)) <= INR (length l) * P k.
Proof.
  intros L HK H. induction l as [|a l IH].
  - change (bsum []) with (b32_ofZ 0). cbn [length INR]. destruct (ofZ_ok 0 ltac:(lia)) as [F0 V0]. split; [exact F0|]. rewrite V0, Rabs_R0. lra.
  - destruct IH as [A B]; [cbn [length] in L; lia|intros; apply H; now right|]. destruct (H a (or_introl eq_refl)) as [Fa Ba].
    change (bsum (a :: l)) with (Bplus mode_NE a (bsum l)). cbn [length] in * .
    assert (FB : fbound (INR (S (length l)) * P k)).
    { rewrite INR_IZR_INZ. split.
      - apply generic_format_FLT. exists (Float radix2 (Z.of_nat (S (length l))) k); [reflexivity| |]; cbn [Fnum Fexp].
        + change (Z.abs (Z.of_nat (S (length l))) < 2 ^ 24)%Z. lia.
        + change (-149 <= k)%Z. lia.
      - rewrite Rabs_pos_eq by (apply Rmult_le_pos; [apply IZR_le; lia|apply bpow_ge_0]).
        rewrite big_bpow. apply Rle_trans with (P (16 + k)); [|apply P_le; lia]. rewrite P_mul. apply Rmult_le_compat_r; [apply bpow_ge_0|].
        rewrite (P_Z 16) by lia. apply IZR_le. lia. }
    rewrite S_INR in FB |- * . apply Rabs_le_inv in Ba, B.
    destruct (plus_in a (bsum l) (- ((INR (length l) + 1) * P k)) ((INR (length l) + 1) * P k) Fa A (fbopp _ FB) FB) as [C D]; [lra|]. split; [exact C|]. apply Rabs_le. exact D.
Qed.
Lemma sum_P' l k : (Z.of_nat (length l) <= 2 ^ 16)%Z -> (0 <= k <= 100)%Z -> (forall v, In v l -> fin v /\ Rabs (V v) <= P k) ->
  fin (bsum l) /\ Rabs (V (bsum l)) <= P (k + 16).
Proof.
  intros L HK H. destruct (sum_P l k L HK H) as [A B]. split; [exact A|]. eapply Rle_trans; [exact B|]. rewrite Z.add_comm, P_mul. apply Rmult_le_compat_r; [apply bpow_ge_0|].
  rewrite (P_Z 16) by lia. rewrite INR_IZR_INZ. apply IZR_le. lia.
Qed.
Definition bnd (k : Z) (h : list B32) : Prop := forall v, In v h -> fin v /\ Rabs (V v) <= P k.
Lemma within_P k v : (0 <= k)%Z -> within k v <-> fin v /\ Rabs (V v) <= P k.
Proof. intros H. unfold within. rewrite (P_Z k H). reflexivity. Qed.
Lemma dot_P (row h : list B32) k : (Z.of_nat (length row) <= 2 ^ 16)%Z -> (0 <= k <= 80)%Z -> (forall v, In v row -> within 12 v) -> bnd k h ->
  fin (@vdot BN row h) /\ Rabs (V (@vdot BN row h)) <= P (k + 28).
Proof.
  intros L HK HR HH. replace (k + 28)%Z with ((12 + k) + 16)%Z by lia. refine (sum_P' (@vmul BN row h) (12 + k) _ ltac:(lia) _).
  - unfold vmul. rewrite map2_length. change (@F BN) with B32. lia.
  - intros v Hv. apply (In_nth _ _ (@f0 BN)) in Hv as (i & Hi & <-). unfold vmul in Hi |- * . rewrite map2_length in Hi. change (@F BN) with B32 in Hi.
    rewrite (nth_map2 _ _ _ i (@f0 BN) (@f0 BN) (@f0 BN)) by (change (@F BN) with B32; lia).
    assert (I1 : (i < length row)%nat) by lia. assert (I2 : (i < length h)%nat) by lia.
    destruct (proj1 (within_P 12 (nth i row (@f0 BN)) ltac:(lia)) (HR (nth i row (@f0 BN)) (nth_In row _ I1))) as [A B].
    destruct (HH (nth i h (@f0 BN)) (nth_In h _ I2)) as [C D].
    exact (mul_Pabs _ _ 12 k A C B D ltac:(lia)).
Qed.
Lemma call_P (l : @linear BN) a b (h : list B32) k : linear_ok l a b -> (a <= 2 ^ 16)%nat -> (0 <= k <= 80)%Z -> bnd k h ->
  length (@linear_call BN l h) = b /\ bnd (k + 29) (@linear_call BN l h).
Proof.
  intros (L1 & R & Bs) Ha HK HH. fold BN in L1, R, Bs. unfold linear_call.
  assert (Y : length (map (fun row => @vdot BN row h) (@ln_w BN l)) = b /\ bnd (k + 28) (map (fun row => @vdot BN row h) (@ln_w BN l))).
  { split; [rewrite map_length; exact L1|]. intros v Hv. apply in_map_iff in Hv as (row & <- & Hr). destruct (R row Hr) as [Lr Br]. apply dot_P; auto.
    change (2 ^ 16)%Z with (Z.of_nat (2 ^ 16)). apply Nat2Z.inj_le. apply Nat.le_trans with a; [apply Nat.eq_le_incl; exact Lr|exact Ha]. }
  destruct Y as [LY BY]. destruct (@ln_b BN l) as [bs|].
  - destruct Bs as [LB BB]. split; [unfold vadd; rewrite map2_length; change (@F BN) with B32 in * ; lia|].
    intros v Hv. apply (In_nth _ _ (@f0 BN)) in Hv as (i & Hi & <-). unfold vadd in Hi |- * . rewrite map2_length in Hi. change (@F BN) with B32 in Hi, LY |- * .
    rewrite (nth_map2 _ _ _ i (@f0 BN) (@f0 BN) (@f0 BN)) by (change (@F BN) with B32; lia).
    assert (I1 : (i < length bs)%nat) by lia. assert (I2 : (i < length (map (fun row => @vdot BN row h) (@ln_w BN l)))%nat) by (change (@F BN) with B32; lia).
    destruct (proj1 (within_P 12 (nth i bs (@f0 BN)) ltac:(lia)) (BB (nth i bs (@f0 BN)) (nth_In bs _ I1))) as [A B].
    destruct (BY (nth i (map (fun row => @vdot BN row h) (@ln_w BN l)) (@f0 BN)) (nth_In _ _ I2)) as [C D].
    replace (k + 29)%Z with ((k + 28) + 1)%Z by lia. assert (U1 : (12 <= k + 28)%Z) by lia. assert (U2 : (-149 <= k + 28 <= 126)%Z) by lia. exact (plus_Pabs _ _ (k + 28) C A D (abs_up _ 12 (k + 28) B U1) U2).
  - split; [exact LY|]. intros v Hv. destruct (BY v Hv) as [A B]. split; [exact A|]. assert (U : (k + 28 <= k + 29)%Z) by lia. exact (abs_up _ _ _ B U).
Qed.
Hypothesis TH : tanh_ok ft.
Lemma act_P (h : list B32) k : bnd k h -> bnd 0 (map ft h).
Proof. intros H v Hv. apply in_map_iff in Hv as (y & <- & Hy). destruct (TH y (proj1 (H y Hy))) as [A B]. split; [exact A|]. change (P 0) with 1. change val with V in B. apply Rabs_le. lra. Qed.
Definition hid (ls : list (@linear BN)) (h : list B32) : list B32 := fold_left (fun h l => map ft (@linear_call BN l h)) ls h.
Lemma net_P (ls : list (@linear BN)) lst : forall a ws (h : list B32), linears_ok (ls ++ [lst]) (a :: ws) -> bnd 0 h ->
  length (@linear_call BN lst (hid ls h)) = last ws 0%nat /\ bnd 29 (@linear_call BN lst (hid ls h)).
Proof.
  induction ls as [|l ls IH]; intros a ws h LO HH.
  - destruct ws as [|b r]; [destruct LO|]. destruct LO as (Ha & L & R). destruct r; [|destruct R]. exact (call_P lst a b h 0 L Ha ltac:(lia) HH).
  - destruct ws as [|b r]; [destruct LO|]. destruct LO as (Ha & L & R). fold BN in R.
    destruct (call_P l a b h 0 L Ha ltac:(lia) HH) as [LC BC]. specialize (IH b r (map ft (@linear_call BN l h)) R (act_P _ _ BC)).
    change (hid (l :: ls) h) with (hid ls (map ft (@linear_call BN l h))). destruct r as [|c r']; [|exact IH].
    exfalso. change (linears_ok (ls ++ [lst]) [b]) in R. destruct ls; exact R.
Qed.
Lemma mlp_P (m : @mlp BN) a ws (x : list B32) : @ml_act BN m = ft -> @ml_hidden BN m <> [] -> linears_ok (@ml_hidden BN m ++ [@ml_last BN m]) (a :: ws) ->
  (forall v, In v x -> within 60 v) -> length (@mlp_call BN m x) = last ws 0%nat /\ forall v, In v (@mlp_call BN m x) -> within 30 v.
Proof.
  intros EA NE LO Hx. destruct m as [hs lst act]. cbn [ml_act ml_hidden ml_last] in * . subst act. destruct hs as [|l hs]; [easy|]. destruct ws as [|b r]; [destruct LO|]. destruct LO as (Ha & L & R). fold BN in R.
  assert (BX : bnd 60 x). { intros v Hv. apply within_P; [lia|auto]. }
  destruct (call_P l a b x 60 L Ha ltac:(lia) BX) as [LC BC].
  destruct (net_P hs lst b r _ R (act_P _ _ BC)) as [A B]. unfold mlp_call. cbn [ml_act ml_hidden ml_last fold_left].
  assert (r <> []). { intros ->. change (linears_ok (hs ++ [lst]) [b]) in R. destruct hs; exact R. }
  assert (EL : last (b :: r) 0%nat = last r 0%nat) by (destruct r; easy).
  split; [rewrite EL; exact A|]. intros v Hv. apply within_P; [lia|]. destruct (B v Hv) as [C D]. split; [exact C|]. assert (U : (29 <= 30)%Z) by lia. exact (abs_up _ _ _ D U).
Qed.
Lemma conditioner_proof (m : @mlp BN) n K lo hi ws : (1 <= n)%nat -> @ml_act BN m = ft -> @ml_hidden BN m <> [] ->
  linears_ok (@ml_hidden BN m ++ [@ml_last BN m]) (n :: ws ++ [(n * (K * 3 + 1))%nat]) ->
  conditioner_ok (@rqspline_new BN (n * (K * 3 + 1)) n lo hi (@mlp_call BN m)) n.
Proof.
  intros Hn EA NE LO c Lc Hc. destruct (mlp_P m n _ c EA NE LO Hc) as [A B]. rewrite last_last in A.
  assert (EB : rq_bins (@rqspline_new BN (n * (K * 3 + 1)) n lo hi (@mlp_call BN m)) = K).
  { unfold rqspline_new. cbn [rq_bins]. unfold num_bins_of. rewrite (Nat.mul_comm n), Nat.div_mul by lia. replace (K * 3 + 1 - 1)%nat with (K * 3)%nat by lia. apply Nat.div_mul. lia. }
  split; [|exact B]. refine (eq_trans A _). apply f_equal, f_equal2; [|reflexivity]. apply f_equal2; [symmetry; exact EB|reflexivity].
Qed.
End BN.
