(** Positivity and contraction of the independence sampler's operator on finitely many states. *)
From Coq Require Import Reals Lra Lia Permutation.
From Verif Require Import Prelude RNum Spec_Inv P_Inv1 P_Erg1.
Open Scope R_scope.

Lemma tot_swap {A B} (l : list A) (m : list B) h : total l (fun a => total m (fun b => h a b)) = total m (fun b => total l (fun a => h a b)).
Proof.
  induction l as [|a l IH]; cbn [total fold_right].
  - symmetry. apply total_0. reflexivity.
  - change (total m (h a) + total l (fun a0 => total m (h a0)) = total m (fun b => h a b + total l (fun a0 => h a0 b))). rewrite total_plus. f_equal. exact IH.
Qed.
Lemma tot_nn {A} (l : list A) h : (forall a, In a l -> 0 <= h a) -> 0 <= total l h.
Proof. intros H. rewrite <- (total_0 l (fun _ => 0)) by reflexivity. apply total_le. auto. Qed.
Lemma least {A} (v : A -> R) l : l <> [] -> exists a, In a l /\ forall b, In b l -> v a <= v b.
Proof.
  induction l as [|a l IH]; intros N; [congruence|]. destruct l as [|b l].
  - exists a. split; [now left|]. intros b [<-|[]]. lra.
  - destruct (IH ltac:(discriminate)) as (m & Hm & L). destruct (Rle_dec (v a) (v m)) as [C|C].
    + exists a. split; [now left|]. intros z [<-|Hz]; [lra|]. specialize (L z Hz). lra.
    + exists m. split; [now right|]. intros z [<-|Hz]; [lra|]. now apply L.
Qed.
(** The minimum is a positive semidefinite kernel. *)
Lemma min_psd {A} n : forall (l : list A) (c v : A -> R), (length l <= n)%nat -> (forall a, In a l -> 0 <= v a) ->
  0 <= total l (fun a => total l (fun b => c a * c b * Rmin (v a) (v b))).
Proof.
  induction n as [|n IH]; intros l c v L V.
  - destruct l; [|cbn in L; lia]. cbn. lra.
  - destruct l as [|a1 l1]; [cbn; lra|]. destruct (least v (a1 :: l1) ltac:(discriminate)) as (a & Ha & Hmin). revert L V Ha Hmin. generalize (a1 :: l1) as l0. clear a1 l1. intros l L V Ha Hmin.
    destruct (in_split _ _ Ha) as (l1 & l2 & El). set (l' := l1 ++ l2).
    assert (PM : Permutation l (a :: l')) by (rewrite El; symmetry; apply Permutation_middle).
    assert (L' : (length l' <= n)%nat). { apply Permutation_length in PM. cbn in PM. lia. }
    assert (IN : forall b, In b l' -> In b l). { intros b Hb. apply (Permutation_in b (Permutation_sym PM)). now right. }
    rewrite (total_perm l (a :: l')) by exact PM. rewrite (total_ext (a :: l') _ (fun a0 => total (a :: l') (fun b => c a0 * c b * Rmin (v a0) (v b)))) by (intros; apply total_perm, PM).
    set (w := fun b => v b - v a).
    assert (SPL : forall x y, Rmin (v x) (v y) = v a + Rmin (w x) (w y)).
    { intros x y. unfold w, Rmin. destruct (Rle_dec (v x) (v y)), (Rle_dec (v x - v a) (v y - v a)); lra. }
    assert (W : forall b, In b (a :: l') -> 0 <= w b). { intros b [<-|Hb]; unfold w; [lra|]. specialize (Hmin b (IN b Hb)). lra. }
    rewrite (total_ext _ _ (fun x => v a * total (a :: l') c * c x + total (a :: l') (fun y => c x * c y * Rmin (w x) (w y)))).
    2:{ intros x _. rewrite (total_ext _ _ (fun y => (v a * c x) * c y + c x * c y * Rmin (w x) (w y))) by (intros y _; rewrite SPL; ring). rewrite total_plus, total_scal. ring. }
    rewrite total_plus, total_scal.
    assert (Z : total (a :: l') (fun x => total (a :: l') (fun y => c x * c y * Rmin (w x) (w y))) = total l' (fun x => total l' (fun y => c x * c y * Rmin (w x) (w y)))).
    { assert (Wa : w a = 0) by (unfold w; ring).
      assert (Z1 : forall y, In y (a :: l') -> Rmin (w a) (w y) = 0) by (intros y Hy; rewrite Wa; apply Rmin_left, W, Hy).
      assert (Z2 : forall y, In y (a :: l') -> Rmin (w y) (w a) = 0) by (intros y Hy; rewrite Wa; apply Rmin_right, W, Hy).
      change (total (a :: l') (fun y => c a * c y * Rmin (w a) (w y)) + total l' (fun x => c x * c a * Rmin (w x) (w a) + total l' (fun y => c x * c y * Rmin (w x) (w y))) = total l' (fun x => total l' (fun y => c x * c y * Rmin (w x) (w y)))).
      rewrite total_0 by (intros y Hy; rewrite Z1 by exact Hy; ring). rewrite total_plus, (total_0 l') by (intros y Hy; rewrite Z2 by (now right); ring). ring. }
    rewrite Z. pose proof (IH l' c w L' (fun b Hb => W b (or_intror Hb))) as P0. pose proof (V a Ha) as Va.
    replace (v a * total (a :: l') c * total (a :: l') c) with (v a * (total (a :: l') c)²) by (unfold Rsqr; ring).
    pose proof (Rle_0_sqr (total (a :: l') c)) as Sq. pose proof (Rmult_le_pos _ _ Va Sq). lra.
Qed.

Section Op.
Context {A : Type}.
Variables (X : list A) (p q : A -> R) (acc : A -> A -> R).
Hypothesis P0 : forall x, In x X -> 0 <= p x.
Hypothesis P1 : total X p = 1.
Hypothesis Q0 : forall x, In x X -> 0 < q x.
Hypothesis Q1 : total X q <= 1.
Hypothesis A01 : forall x y, In x X -> In y X -> 0 <= acc x y <= 1.
Hypothesis BAL : forall x y, In x X -> In y X -> p x * q y * acc x y = Rmin (p x * q y) (p y * q x).
Definition M (x y : A) : R := Rmin (p x * q y) (p y * q x).
Definition T (g : A -> R) (x : A) : R := g x + total X (fun y => q y * acc x y * (g y - g x)).
Definition B (g h : A -> R) : R := total X (fun x => p x * (g x * h x)).
Lemma M_sym x y : M x y = M y x. Proof. apply Rmin_comm. Qed.
Lemma B_sym g h : B g h = B h g. Proof. apply total_ext. intros; ring. Qed.
Lemma B_ext g h g' h' : (forall x, In x X -> g x = g' x) -> (forall x, In x X -> h x = h' x) -> B g h = B g' h'.
Proof. intros H H'. apply total_ext. intros x Hx. rewrite H, H' by auto. ring. Qed.
Lemma T_ext g g' : (forall x, In x X -> g x = g' x) -> forall x, In x X -> T g x = T g' x.
Proof. intros H x Hx. unfold T. rewrite (H x Hx). f_equal. apply total_ext. intros y Hy. rewrite (H y Hy). ring. Qed.
Lemma B_T g h : B g (T h) = B g h + total X (fun x => total X (fun y => M x y * (g x * (h y - h x)))).
Proof.
  unfold B, T. rewrite <- total_plus. apply total_ext. intros x Hx. rewrite Rmult_plus_distr_l, Rmult_plus_distr_l. f_equal.
  rewrite <- !total_scal. apply total_ext. intros y Hy. unfold M. rewrite <- BAL by auto. ring.
Qed.
Lemma B_dirichlet g h : B g (T h) = B g h - / 2 * total X (fun x => total X (fun y => M x y * ((g x - g y) * (h x - h y)))).
Proof.
  rewrite B_T. set (S1 := total X (fun x => total X (fun y => M x y * (g x * (h y - h x))))).
  assert (E2 : S1 = total X (fun x => total X (fun y => M x y * (g y * (h x - h y))))).
  { unfold S1. rewrite tot_swap. apply total_ext. intros x _. apply total_ext. intros y _. rewrite (M_sym y x). reflexivity. }
  assert (E3 : total X (fun x => total X (fun y => M x y * ((g x - g y) * (h x - h y)))) = - (S1 + S1)).
  { assert (Z : forall a b : R, a + (b + b) = 0 -> a = - (b + b)) by (intros; lra). apply Z. rewrite E2 at 2. unfold S1. rewrite <- !total_plus. apply total_0. intros x _.
    rewrite <- !total_plus. apply total_0. intros; ring. }
  rewrite E3. lra.
Qed.
Lemma T_self g h : B g (T h) = B (T g) h.
Proof. rewrite (B_sym (T g) h), !B_dirichlet, (B_sym h g). f_equal. f_equal. apply total_ext. intros x _. apply total_ext. intros; ring. Qed.
Lemma T_inv g : total X (fun x => p x * T g x) = total X (fun x => p x * g x).
Proof.
  pose proof (B_dirichlet (fun _ => 1) g) as H. unfold B in H.
  rewrite (total_ext X (fun x => p x * (1 * T g x)) (fun x => p x * T g x)) in H by (intros; ring).
  rewrite (total_ext X (fun x => p x * (1 * g x)) (fun x => p x * g x)) in H by (intros; ring).
  rewrite (total_0 X (fun x => total X _)) in H by (intros x _; apply total_0; intros; ring). lra.
Qed.
Lemma M_nonneg x y : In x X -> In y X -> 0 <= M x y.
Proof. intros Hx Hy. apply Rmin_glb; apply Rmult_le_pos; auto; left; auto. Qed.
Lemma B_nonneg g : 0 <= B g g.
Proof. apply tot_nn. intros x Hx. apply Rmult_le_pos; [auto|]. apply Rle_0_sqr. Qed.
Lemma T_positive g : 0 <= B g (T g).
Proof.
  assert (E : B g (T g) = total X (fun x => p x * (g x * g x) * (1 - total X (fun y => q y * acc x y))) + total X (fun x => total X (fun y => (q x * g x) * (q y * g y) * Rmin (p x / q x) (p y / q y)))).
  { rewrite <- total_plus. unfold B, T. apply total_ext. intros x Hx. 
    rewrite (total_ext X (fun y => q y * acc x y * (g y - g x)) (fun y => 1 * (q y * acc x y * g y) + (- g x) * (q y * acc x y))) by (intros; ring). rewrite total_lin.
    rewrite (total_ext X (fun y => q x * g x * (q y * g y) * _) (fun y => (p x * g x) * (q y * acc x y * g y))); [rewrite total_scal; ring|].
    intros y Hy. pose proof (BAL x y Hx Hy) as Hb. pose proof (Q0 x Hx) as qx. pose proof (Q0 y Hy) as qy.
    assert (Al : q x * q y * Rmin (p x / q x) (p y / q y) = p x * q y * acc x y).
    { rewrite Hb. assert (U : 0 < q x * q y) by (now apply Rmult_lt_0_compat).
      replace (p x * q y) with (q x * q y * (p x / q x)) by (field; lra). replace (p y * q x) with (q x * q y * (p y / q y)) by (field; lra).
      generalize (p x / q x) (p y / q y) (q x * q y) U. intros a b u Hu. unfold Rmin. destruct (Rle_dec a b), (Rle_dec (u * a) (u * b)); nra. }
    transitivity (g x * g y * (q x * q y * Rmin (p x / q x) (p y / q y))); [ring|]. rewrite Al. ring. }
  rewrite E. apply Rplus_le_le_0_compat.
  - apply tot_nn. intros x Hx. apply Rmult_le_pos; [apply Rmult_le_pos; [auto|apply Rle_0_sqr]|].
    assert (total X (fun y => q y * acc x y) <= total X q); [|lra]. apply total_le. intros y Hy. pose proof (Q0 y Hy). pose proof (A01 x y Hx Hy). nra.
  - apply (min_psd (length X) X (fun x => q x * g x) (fun x => p x / q x) (le_n _)). intros x Hx. apply Rmult_le_pos; [auto|]. left. apply Rinv_0_lt_compat. auto.
Qed.
(** Cauchy-Schwarz for the form [B g (T h)]. *)
Lemma T_lin a b g h x : T (fun y => a * g y + b * h y) x = a * T g x + b * T h x.
Proof. unfold T. rewrite (total_ext X _ (fun y => a * (q y * acc x y * (g y - g x)) + b * (q y * acc x y * (h y - h x)))) by (intros; ring). rewrite total_lin. ring. Qed.
Lemma B_lin2 f a b g h : B f (fun y => a * g y + b * h y) = a * B f g + b * B f h.
Proof. unfold B. rewrite <- total_lin. apply total_ext. intros; ring. Qed.
Lemma B_lin1 f a b g h : B (fun y => a * g y + b * h y) f = a * B g f + b * B h f.
Proof. unfold B. rewrite <- total_lin. apply total_ext. intros; ring. Qed.
Lemma T_cs g h : (B g (T h))^2 <= B g (T g) * B h (T h).
Proof.
  assert (Q : forall t, 0 <= B g (T g) + t * (2 * B g (T h)) + t * t * B h (T h)).
  { intros t. pose proof (T_positive (fun y => 1 * g y + t * h y)) as H.
    rewrite (B_ext _ (T (fun y => 1 * g y + t * h y)) (fun y => 1 * g y + t * h y) (fun y => 1 * T g y + t * T h y)) in H by (intros; auto using T_lin).
    rewrite B_lin1, !B_lin2 in H. rewrite (T_self h g), (B_sym (T h) g) in H. lra. }
  pose proof (T_positive h) as Hh. pose proof (T_positive g) as Hg. set (a := B h (T h)) in * . set (b := B g (T h)) in * . set (c := B g (T g)) in * . clearbody a b c.
  destruct (Req_dec a 0) as [->|Na].
  - destruct (Req_dec b 0) as [->|Nb]; [nra|]. specialize (Q (- (c + 1) / (2 * b))). replace (- (c + 1) / (2 * b) * (2 * b)) with (- (c + 1)) in Q by (field; auto). lra.
  - specialize (Q (- b / a)). replace (c + - b / a * (2 * b) + - b / a * (- b / a) * a) with ((c * a - b ^ 2) / a) in Q by (field; auto).
    assert (0 < a) by lra. assert (0 <= c * a - b ^ 2); [|lra]. replace (c * a - b ^ 2) with ((c * a - b ^ 2) / a * a) by (field; auto). apply Rmult_le_pos; lra.
Qed.

Section Gap.
Variable W : R.
Hypothesis W1 : 1 <= W.
Hypothesis CV : forall x, In x X -> p x <= W * q x.
Let r : R := 1 - / W.
Definition centred (g : A -> R) : Prop := total X (fun x => p x * g x) = 0.
Lemma T_centred g : centred g -> centred (T g). Proof. unfold centred. now rewrite T_inv. Qed.
Lemma r01 : 0 <= r < 1.
Proof. unfold r. assert (0 < / W <= 1); [|lra]. split; [apply Rinv_0_lt_compat; lra|]. rewrite <- Rinv_1. apply Rinv_le_contravar; lra. Qed.
Lemma T_gap g : centred g -> B g (T g) <= r * B g g.
Proof.
  intros C. rewrite B_dirichlet. unfold r.
  assert (V : total X (fun x => total X (fun y => p x * p y * ((g x - g y) * (g x - g y)))) = 2 * B g g).
  { rewrite (total_ext X _ (fun x => 1 * (p x * (g x * g x)) + p x * B g g)).
    - rewrite total_lin with (a := 1) (b := 1) (g := fun x => p x * B g g) || idtac.
      rewrite (total_ext X _ (fun x => 1 * (p x * (g x * g x)) + B g g * p x)) by (intros; ring). rewrite total_lin, P1. unfold B. ring.
    - intros x Hx. rewrite (total_ext X _ (fun y => (p x * (g x * g x)) * p y + p x * ((-2 * g x) * (p y * g y) + 1 * (p y * (g y * g y))))) by (intros; ring).
      rewrite total_plus, total_scal, total_scal, total_lin, P1. unfold centred in C. rewrite C. unfold B. ring. }
  assert (D : / W * (2 * B g g) <= total X (fun x => total X (fun y => M x y * ((g x - g y) * (g x - g y))))).
  { rewrite <- V, <- total_scal. apply total_le. intros x Hx. rewrite <- total_scal. apply total_le. intros y Hy. rewrite <- Rmult_assoc.
    apply Rmult_le_compat_r; [apply Rle_0_sqr|]. assert (Wp : 0 < W) by lra.
    assert (K : forall z, In z X -> / W * p z <= q z). { intros z Hz. apply Rmult_le_reg_l with W; [exact Wp|]. rewrite <- Rmult_assoc, Rinv_r, Rmult_1_l by lra. apply CV, Hz. }
    apply Rmin_glb; [pose proof (Rmult_le_compat_l (p x) _ _ (P0 x Hx) (K y Hy))|pose proof (Rmult_le_compat_l (p y) _ _ (P0 y Hy) (K x Hx))]; lra. }
  lra.
Qed.
Lemma T_gap2 g : centred g -> B (T g) (T g) <= r * B g (T g).
Proof.
  intros C. pose proof (T_cs g (T g)) as CS. rewrite (T_self g (T g)) in CS. pose proof (T_gap (T g) (T_centred g C)) as G2. pose proof r01 as R01.
  pose proof (T_positive g) as Pg. pose proof (B_nonneg (T g)) as Pn. set (n2 := B (T g) (T g)) in * . set (l := B g (T g)) in * . set (m := B (T g) (T (T g))) in * . clearbody n2 l m r.
  destruct (Req_dec n2 0) as [->|N]; [nra|]. assert (0 < n2) by lra. apply Rmult_le_reg_l with n2; [assumption|].
  apply Rle_trans with (l * m); [lra|]. apply Rle_trans with (l * (r * n2)); [apply Rmult_le_compat_l; lra|]. apply Req_le. ring.
Qed.
Definition Tn (k : nat) (g : A -> R) : A -> R := Nat.iter k T g.
Lemma Tn_centred k g : centred g -> centred (Tn k g).
Proof. intros C. induction k as [|k IH]; [exact C|]. cbn. now apply T_centred. Qed.
Lemma Tn_self j : forall k g h, B g (Tn (j + k) h) = B (Tn j g) (Tn k h).
Proof.
  induction j as [|j IH]; intros k g h; [reflexivity|]. change (Tn (S j + k) h) with (T (Tn (j + k) h)). rewrite T_self, IH.
  assert (Q : forall i z, Tn i (T z) = T (Tn i z)). { induction i as [|i IHi]; intros z; [reflexivity|]. change (T (Tn i (T z)) = T (T (Tn i z))). now rewrite IHi. }
  now rewrite Q.
Qed.
Definition lag (g : A -> R) (k : nat) : R := B g (Tn k g).
Lemma lag_even g j : lag g (j + j) = B (Tn j g) (Tn j g).
Proof. apply Tn_self. Qed.
Lemma lag_odd g j : lag g (j + S j) = B (Tn j g) (T (Tn j g)).
Proof. unfold lag. rewrite Tn_self. reflexivity. Qed.
Lemma lag_nonneg g k : 0 <= lag g k.
Proof.
  destruct (Nat.Even_or_Odd k) as [[j ->]|[j ->]].
  - replace (2 * j)%nat with (j + j)%nat by lia. rewrite lag_even. apply B_nonneg.
  - replace (2 * j + 1)%nat with (j + S j)%nat by lia. rewrite lag_odd. apply T_positive.
Qed.
Lemma lag_step g k : centred g -> lag g (S k) <= r * lag g k.
Proof.
  intros C. destruct (Nat.Even_or_Odd k) as [[j ->]|[j ->]].
  - replace (S (2 * j)) with (j + S j)%nat by lia. replace (2 * j)%nat with (j + j)%nat by lia. rewrite lag_even, lag_odd. apply T_gap, Tn_centred, C.
  - replace (S (2 * j + 1)) with (S j + S j)%nat by lia. replace (2 * j + 1)%nat with (j + S j)%nat by lia. rewrite lag_even, lag_odd.
    change (Tn (S j) g) with (T (Tn j g)). apply T_gap2, Tn_centred, C.
Qed.
Lemma lag_decay g k j : centred g -> lag g (j + k) <= r ^ j * lag g k.
Proof.
  intros C. induction j as [|j IH]; [cbn; lra|]. cbn [Nat.add pow]. pose proof (lag_step g (j + k) C). pose proof r01. 
  apply Rle_trans with (r * lag g (j + k)); [assumption|]. rewrite Rmult_assoc. apply Rmult_le_compat_l; lra.
Qed.
Lemma geo m : total (seq 0 m) (fun k => r ^ k) <= W.
Proof.
  assert (Q : forall s, total (seq s m) (fun k => r ^ k) * (1 - r) = r ^ s - r ^ (s + m)).
  { induction m as [|m IH]; intros s; cbn [seq].
    - rewrite Nat.add_0_r. cbn. ring.
    - change (total (s :: seq (S s) m) (fun k => r ^ k)) with (r ^ s + total (seq (S s) m) (fun k => r ^ k)). rewrite Rmult_plus_distr_r, IH. replace (s + S m)%nat with (S s + m)%nat by lia. cbn [pow Nat.add]. ring. }
  specialize (Q 0%nat). cbn [Nat.add] in Q. rewrite pow_O in Q. pose proof r01 as R01. pose proof (pow_le r m (proj1 R01)) as Pm.
  unfold r in Q at 2. replace (1 - (1 - / W)) with (/ W) in Q by ring. set (t := total (seq 0 m) (fun k => r ^ k)) in * .
  assert (t = W * (1 - r ^ m)) as ->. { rewrite <- Q. field. lra. } nra.
Qed.
End Gap.
End Op.
