(** A multilayer perceptron with one hidden layer and relu, in single precision: moderate outputs that depend on the numbers only. *)
From Coq Require Import ZArith Reals Lra Lia Psatz.
From Flocq Require Import Core BinarySingleNaN.
From Verif Require Import Prelude Num M_Flow M_Net Float32 Float32t Spec_FSpline P_Lists P_FSpline1 P_FSpline5 P_FSpline9 P_FSpline11 P_Units2 P_URun1 Spec_FNvp P_FNvp1 P_FNvp2.
Open Scope R_scope.
Local Strategy 100 [Bplus Bminus Bmult Bdiv Bopp Bsqrt].

(** The same numbers, bounded. *)
Definition sameb (k : Z) (a b : list B32) : Prop := Forall2 (fun p q => fin p /\ fin q /\ Rabs (V p) <= P k /\ V p = V q) a b.
Lemma sameb_l k a b : sameb k a b -> bnd k a.
Proof. intros H. induction H as [|p q a b (F1 & F2 & B & E) H IH]; intros v Hv; [destruct Hv|]. destruct Hv as [<-|Hv]; auto. Qed.
Lemma sameb_r k a b : sameb k a b -> bnd k b.
Proof. intros H. induction H as [|p q a b (F1 & F2 & B & E) H IH]; intros v Hv; [destruct Hv|]. destruct Hv as [<-|Hv]; [rewrite <- E; auto|auto]. Qed.
Lemma sameb_of k a b : same_numbers a b -> bnd k a -> sameb k a b.
Proof.
  intros H. induction H as [|p q a b (F1 & F2 & E) H IH]; intros B; constructor; [|apply IH; intros v Hv; apply B; now right].
  destruct (B p (or_introl eq_refl)) as [A1 A2]. split; [exact F1|]. split; [exact F2|]. split; [exact A2|exact E].
Qed.
Lemma same_of k a b : sameb k a b -> same_numbers a b.
Proof. intros H. induction H as [|p q a b (F1 & F2 & B & E) H IH]; constructor; [|exact IH]. split; [exact F1|]. split; [exact F2|exact E]. Qed.
Lemma sum_same k a b : sameb k a b -> (Z.of_nat (length a) <= 2 ^ 16)%Z -> (0 <= k <= 100)%Z -> V (bsum a) = V (bsum b).
Proof.
  intros H. induction H as [|p q a b (Fp & Fq & Bp & E) H IH]; intros LL HK; [reflexivity|]. cbn [length] in LL.
  specialize (IH ltac:(lia) HK). pose proof (f2_len _ _ _ H) as LE.
  destruct (sum_P' a k ltac:(lia) HK (sameb_l _ _ _ H)) as [Fa Ba]. destruct (sum_P' b k ltac:(lia) HK (sameb_r _ _ _ H)) as [Fb Bb].
  change (bsum (p :: a)) with (Bplus mode_NE p (bsum a)). change (bsum (q :: b)) with (Bplus mode_NE q (bsum b)).
  assert (Bp' : Rabs (V p) <= P (k + 16)) by (refine (abs_up _ _ _ Bp _); lia). assert (Bq' : Rabs (V q) <= P (k + 16)) by (rewrite <- E; exact Bp').
  destruct (plus_Pabs' p (bsum a) (k + 16) Fp Fa Bp' Ba ltac:(lia)) as (_ & _ & E1). destruct (plus_Pabs' q (bsum b) (k + 16) Fq Fb Bq' Bb ltac:(lia)) as (_ & _ & E2).
  rewrite E1, E2, E, IH. reflexivity.
Qed.
Lemma mul_same k (row a b : list B32) : sameb k a b -> (0 <= k <= 80)%Z -> (forall v, In v row -> within 12 v) -> sameb (12 + k) (map2 (Bmult mode_NE) row a) (map2 (Bmult mode_NE) row b).
Proof.
  intros H HK. revert row. induction H as [|p q a b (Fp & Fq & Bp & E) H IH]; intros [|r row] R0; try constructor.
  - destruct (proj1 (within_P 12 r ltac:(lia)) (R0 r (or_introl eq_refl))) as [Fr Br].
    destruct (mul_Pabs' r p 12 k Fr Fp Br Bp ltac:(lia)) as (G1 & G2 & G3). assert (Bq : Rabs (V q) <= P k) by (rewrite <- E; exact Bp).
    destruct (mul_Pabs' r q 12 k Fr Fq Br Bq ltac:(lia)) as (G4 & G5 & G6). split; [exact G1|]. split; [exact G4|]. split; [exact G2|]. rewrite G3, G6, E. reflexivity.
  - apply IH. intros v Hv. apply R0. now right.
Qed.

Section BN.
Variables (pi : B32) (fe fl ft : B32 -> B32).
Let BN := B32Num pi fe fl ft.
Lemma dot_same k (row a b : list B32) : sameb k a b -> (0 <= k <= 80)%Z -> (Z.of_nat (length row) <= 2 ^ 16)%Z -> (forall v, In v row -> within 12 v) ->
  fin (@vdot BN row a) /\ fin (@vdot BN row b) /\ Rabs (V (@vdot BN row a)) <= P (k + 28) /\ V (@vdot BN row a) = V (@vdot BN row b).
Proof.
  intros H HK HL HR. destruct (dot_P pi fe fl ft row a k HL HK HR (sameb_l _ _ _ H)) as [A1 A2]. destruct (dot_P pi fe fl ft row b k HL HK HR (sameb_r _ _ _ H)) as [A3 _].
  split; [exact A1|]. split; [exact A3|]. split; [exact A2|]. assert (LL : (Z.of_nat (length (map2 (Bmult mode_NE) row a)) <= 2 ^ 16)%Z) by (apply Z.le_trans with (Z.of_nat (length row)); [apply Nat2Z.inj_le; rewrite map2_length; apply Nat.le_min_l|exact HL]).
  exact (sum_same (12 + k) _ _ (mul_same k row a b H HK HR) LL ltac:(lia)).
Qed.
Lemma call_same (l : @linear BN) n m k (a b : list B32) : linear_ok l n m -> (n <= 2 ^ 16)%nat -> (0 <= k <= 80)%Z -> sameb k a b ->
  length (@linear_call BN l a) = m /\ sameb (k + 29) (@linear_call BN l a) (@linear_call BN l b).
Proof.
  intros LO Hn HK H. destruct (call_P pi fe fl ft l n m a k LO Hn HK (sameb_l _ _ _ H)) as [L1 B1]. split; [exact L1|].
  apply sameb_of; [|exact B1]. clear L1 B1. destruct LO as (Lw & R0 & Bs). fold BN in Lw, R0, Bs. unfold linear_call.
  assert (Y : sameb (k + 28) (map (fun row => @vdot BN row a) (@ln_w BN l)) (map (fun row => @vdot BN row b) (@ln_w BN l))).
  { clear Lw Bs. induction (@ln_w BN l) as [|row w IH]; [constructor|]. cbn [map]. constructor; [|apply IH; intros r Hr; apply R0; now right].
    destruct (R0 row (or_introl eq_refl)) as [Lr Br]. apply dot_same; auto. change (2 ^ 16)%Z with (Z.of_nat (2 ^ 16)). apply Nat2Z.inj_le. apply Nat.le_trans with n; [apply Nat.eq_le_incl; exact Lr|exact Hn]. }
  destruct (@ln_b BN l) as [bs|]; [|exact (same_of _ _ _ Y)]. destruct Bs as [_ BB]. clear - Y BB HK. unfold vadd. revert bs BB.
  induction Y as [|p q ya yb (F1 & F2 & B & E) Y IH]; intros [|c bs] BB; try constructor.
  - destruct (proj1 (within_P 12 c ltac:(lia)) (BB c (or_introl eq_refl))) as [Fc Bc]. assert (Bc' : Rabs (V c) <= P (k + 28)) by (refine (abs_up _ _ _ Bc _); lia).
    assert (Bq : Rabs (V q) <= P (k + 28)) by (rewrite <- E; exact B).
    destruct (plus_Pabs' p c (k + 28) F1 Fc B Bc' ltac:(lia)) as (G1 & _ & G3). destruct (plus_Pabs' q c (k + 28) F2 Fc Bq Bc' ltac:(lia)) as (G4 & _ & G6).
    split; [exact G1|]. split; [exact G4|]. refine (eq_trans G3 (eq_trans _ (eq_sym G6))). rewrite E. reflexivity.
  - apply IH. intros v Hv. apply BB. now right.
Qed.
Lemma relu_V x : fin x -> fin (@relu BN x) /\ V (@relu BN x) = Rmax (V x) 0.
Proof.
  intros Fx. destruct (ofZ_ok 0 ltac:(lia)) as [F0 V0]. unfold relu, fmax. change (@fnan BN) with (@is_nan 24 128). change (@fle BN) with (@Bleb 24 128). change (@f0 BN) with (b32_ofZ 0).
  rewrite (fin_nan _ Fx), (fin_nan _ F0). pose proof (leb_V x (b32_ofZ 0) Fx F0) as Q. destruct (Bleb x (b32_ofZ 0)).
  - split; [exact F0|]. rewrite V0. symmetry. apply Rmax_right. rewrite <- V0. apply Q. reflexivity.
  - split; [exact Fx|]. symmetry. apply Rmax_left. rewrite <- V0. destruct (Rle_or_lt (V x) (V (b32_ofZ 0))) as [H|H]; [apply Q in H; discriminate|lra].
Qed.
Lemma relu_same k a b : sameb k a b -> sameb k (map (@relu BN) a) (map (@relu BN) b).
Proof.
  intros H. induction H as [|p q a b (F1 & F2 & B & E) H IH]; [constructor|]. cbn [map]. constructor; [|exact IH].
  destruct (relu_V p F1) as [A1 A2]. destruct (relu_V q F2) as [A3 A4]. split; [exact A1|]. split; [exact A3|]. split; [|rewrite A2, A4, E; reflexivity].
  rewrite A2. unfold Rmax. destruct (Rle_dec (V p) 0); [rewrite Rabs_R0; apply bpow_ge_0|exact B].
Qed.
Lemma network_proof (m : @mlp BN) l n h : @ml_act BN m = @relu BN -> @ml_hidden BN m = [l] -> linears_ok [l; @ml_last BN m] [n; h; n] -> network_ok (@mlp_call BN m) n.
Proof.
  intros EA EH (H1 & L1 & H2 & L2 & _) c Lc Bc. unfold mlp_call. rewrite EA, EH. cbn [fold_left].
  assert (Bc' : bnd 40 c) by (intros v Hv; apply within_P; [lia|auto]).
  assert (G : forall c', same_numbers c c' -> length (@linear_call BN (@ml_last BN m) (map (@relu BN) (@linear_call BN l c))) = n /\
     sameb 98 (@linear_call BN (@ml_last BN m) (map (@relu BN) (@linear_call BN l c))) (@linear_call BN (@ml_last BN m) (map (@relu BN) (@linear_call BN l c')))).
  { intros c' S. destruct (call_same l n h 40 c c' L1 H1 ltac:(lia) (sameb_of _ _ _ S Bc')) as [_ S1].
    exact (call_same (@ml_last BN m) h n 69 _ _ L2 H2 ltac:(lia) (relu_same _ _ _ S1)). }
  assert (S0 : same_numbers c c). { apply (f2_of_nth _ (b32_ofZ 0) (b32_ofZ 0)); [reflexivity|]. intros i Hi. pose proof (proj1 (Bc _ (nth_In c (b32_ofZ 0) Hi))). auto. }
  destruct (G c S0) as [G1 G2]. split; [exact G1|]. split; [|intros c' S; exact (same_of _ _ _ (proj2 (G c' S)))].
  intros v Hv. apply within_P; [lia|]. destruct (sameb_l _ _ _ G2 v Hv) as [A B]. split; [exact A|]. refine (abs_up _ _ _ B _). lia.
Qed.
End BN.
