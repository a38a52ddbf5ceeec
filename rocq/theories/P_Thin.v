(** Thinning a stationary chain. *)
From Coq Require Import Reals Lra Lia.
From Verif Require Import Prelude Num M_Core M_Kernels M_Strategies P_Lists Spec_Kernels RNum Spec_Real Spec_Inv Spec_InvPT P_Kernels P_Real1 P_Inv1 P_Inv2 P_Inv3 P_Inv4 P_Inv5 P_InvPT
  Spec_Erg P_Erg1 P_Erg2 P_Erg4 Spec_Lln P_Lln1 Spec_Rate P_Rate Spec_Cov P_Cov1 P_Cov2 P_Cov3 Spec_Warm P_Warm P_Rev1 P_Rev2 Spec_Rev P_Rev3 P_Lln2 Spec_Thin.
Open Scope R_scope.

Lemma stride_from_filter {A} t (l : list A) : (0 < t)%nat -> forall c s, (c < t)%nat -> ((s + c) mod t = 0)%nat ->
  stride_from t c l = map snd (filter (fun p => (fst p mod t =? 0)%nat) (combine (seq s (length l)) l)).
Proof.
  intros Ht. induction l as [|x l IH]; intros c s Hc E; [destruct c; reflexivity|]. cbn [length seq combine filter fst].
  destruct c as [|c]; cbn [stride_from].
  - rewrite Nat.add_0_r in E. rewrite E, Nat.eqb_refl. cbn [map snd]. f_equal. apply IH; [lia|].
    replace (S s + (t - 1))%nat with (s + 1 * t)%nat by lia. rewrite Nat.mod_add by lia. exact E.
  - destruct (Nat.eqb_spec (s mod t) 0) as [Z|Z].
    + exfalso. rewrite <- Nat.add_mod_idemp_l, Z in E by lia. cbn [Nat.add] in E. rewrite Nat.mod_small in E by lia. lia.
    + apply IH; [lia|]. replace (S s + c)%nat with (s + S c)%nat by lia. exact E.
Qed.
(** Every t-th entry is what slicing with step t keeps. *)
Lemma every_stride {A} t (l : list A) : (0 < t)%nat -> every t l = stride t l.
Proof. intros Ht. unfold every, stride. symmetry. apply stride_from_filter; [exact Ht|exact Ht|apply Nat.mod_0_l; lia]. Qed.

Lemma every_1 {A} (l : list A) : every 1 l = l.
Proof. rewrite every_stride by lia. apply stride_1. Qed.
Lemma total_addf {A} (l : list A) h k : total l (fun a => h a + k a) = total l h + total l k.
Proof. induction l as [|a l IH]; [cbn; ring|]. change (h a + k a + total l (fun a => h a + k a) = h a + total l h + (k a + total l k)). rewrite IH. ring. Qed.
Lemma seq_shift_total a n (h : nat -> R) : total (seq a n) h = total (seq 0 n) (fun s => h (a + s)%nat).
Proof.
  revert a h. induction n as [|n IH]; intros a h; [reflexivity|]. rewrite !seq_S, !total_app, IH. f_equal.
Qed.
Lemma seq_split (c t : nat) (h : nat -> R) : total (seq 0 (c * t)) h = total (seq 0 t) (fun b => total (seq 0 c) (fun a => h (a * t + b)%nat)).
Proof.
  induction c as [|c IH].
  - symmetry. refine (eq_trans (total_ext _ _ (fun _ => 0) _) _); [intros; reflexivity|]. rewrite total_cst. exact (Rmult_0_r _).
  - replace (S c * t)%nat with (c * t + t)%nat by lia. rewrite seq_app, total_app, IH, (seq_shift_total (0 + c * t)). rewrite <- total_addf. apply total_ext. intros b _.
    rewrite (seq_S c 0), total_app. cbn [Nat.add]. f_equal. symmetry. exact (Rplus_0_r _).
Qed.
Lemma total_sq_le {A} (L : list A) h : (total L h)^2 <= INR (length L) * total L (fun a => (h a)^2).
Proof.
  induction L as [|a L IH]; [cbn; lra|]. cbn [length]. rewrite S_INR. change (total (a :: L) h) with (h a + total L h). change (total (a :: L) (fun a => h a ^ 2)) with (h a ^ 2 + total L (fun a => h a ^ 2)).
  set (s := total L h) in * . set (q := total L (fun a => h a ^ 2)) in * . set (n := INR (length L)) in * . assert (N0 : 0 <= n) by apply pos_INR.
  destruct (Req_dec n 0) as [Z|Z].
  - assert (s ^ 2 <= 0) by nra. assert (s = 0) by nra. assert (Q : 0 <= q) by (apply tot_nn; intros; apply pow2_ge_0). nra.
  - assert (0 < n) by lra. assert (D : 0 <= / n) by (left; apply Rinv_0_lt_compat; lra). set (y := / n) in * . assert (E : n * y = 1) by (unfold y; field; lra).
    assert (H1 : 2 * (h a) * s <= n * h a ^ 2 + y * s ^ 2). { pose proof (pow2_ge_0 (n * h a - s)) as P. assert (0 <= y * (n * h a - s)^2) by (apply Rmult_le_pos; auto). nra. }
    assert (H2 : y * s ^ 2 <= q). { assert (y * s ^ 2 <= y * (n * q)) by (apply Rmult_le_compat_l; auto). replace (y * (n * q)) with (n * y * q) in H0 by ring. rewrite E in H0. lra. }
    nra.
Qed.

Section Thin.
Variables (X : list (list R)) (w : list R -> R) (kk : list R -> list R -> R).
Hypothesis KN : forall x y, In x X -> In y X -> 0 <= kk x y.
Hypothesis K1 : forall x, In x X -> total X (kk x) = 1.
Hypothesis KB : forall x y, In x X -> In y X -> w x * kk x y = w y * kk y x.
Hypothesis WN : forall x, In x X -> 0 <= w x.
Notation PE := (PE X kk).
Notation lagk := (lagk X w kk).
Lemma PE_mono m : forall F H x, In x X -> (forall l, length l = m -> F l <= H l) -> PE m F x <= PE m H x.
Proof using KN.
  induction m as [|m IH]; intros F H x Hx Q; cbn [P_Rev1.PE]; [now apply Q|]. apply total_le. intros y Hy. apply Rmult_le_compat_l; [auto|]. apply IH; [exact Hy|]. intros l Hl. apply Q. cbn. now rewrite Hl.
Qed.
Definition J (m : nat) (F : list (list R) -> R) : R := total X (fun x => w x * PE m F x).
Lemma J_mono m F H : (forall l, length l = m -> F l <= H l) -> J m F <= J m H.
Proof using KN WN. intros Q. apply total_le. intros x Hx. apply Rmult_le_compat_l; [auto|]. now apply PE_mono. Qed.
Lemma J_len m F H : (forall l, length l = m -> F l = H l) -> J m F = J m H.
Proof using KN WN. intros Q. apply Rle_antisym; apply J_mono; intros l Hl; rewrite (Q l Hl); lra. Qed.
Lemma J_scal m c F : J m (fun l => c * F l) = c * J m F.
Proof using. unfold J. rewrite <- total_scal. apply total_ext. intros x _. rewrite PE_scal. ring. Qed.
Lemma J_total {A} m (L : list A) F : J m (fun l => total L (fun a => F a l)) = total L (fun a => J m (F a)).
Proof using. unfold J. rewrite tot_swap. apply total_ext. intros x _. now rewrite PE_total, total_scal. Qed.
Variable u : list R -> R.
Lemma J_two m i j : (i < m)%nat -> (j < m)%nat -> J m (fun l => u (nth i l []) * u (nth j l [])) = lagk u ((j - i) + (i - j)).
Proof using KN K1 KB WN.
  intros Hi Hj. destruct (le_ge_dec i j) as [C|C].
  - replace (j - i + (i - j))%nat with (j - i)%nat by lia. exact (PE_cov X w kk K1 KB u m i j C Hj).
  - replace (j - i + (i - j))%nat with (i - j)%nat by lia. rewrite <- (PE_cov X w kk K1 KB u m j i C Hi). apply J_len. intros; ring.
Qed.
Variables (t c : nat).
Hypothesis T0 : (0 < t)%nat.
Notation m := (c * t)%nat.
(** Sum over the positions b, b + t, b + 2 t, ... *)
Definition Sb (b : nat) (l : list (list R)) : R := total (seq 0 c) (fun a => u (nth (a * t + b) l [])).
Lemma in_range a b : (a < c)%nat -> (b < t)%nat -> (a * t + b < m)%nat.
Proof using. clear T0. intros. nia. Qed.
Lemma J_SS b b' : (b < t)%nat -> (b' < t)%nat -> J m (fun l => Sb b l * Sb b' l) =
  total (seq 0 c) (fun a => total (seq 0 c) (fun a' => lagk u ((a' * t + b' - (a * t + b)) + (a * t + b - (a' * t + b'))))).
Proof using KN K1 KB WN T0.
  intros Hb Hb'. rewrite (J_len m _ (fun l => total (seq 0 c) (fun a => total (seq 0 c) (fun a' => u (nth (a * t + b) l []) * u (nth (a' * t + b') l []))))).
  - rewrite J_total. apply total_ext. intros a Ha. apply in_seq in Ha. rewrite J_total. apply total_ext. intros a' Ha'. apply in_seq in Ha'. apply J_two; apply in_range; lia.
  - intros l _. unfold Sb. rewrite (Rmult_comm (total _ _)), <- total_scal. apply total_ext. intros a _. rewrite Rmult_comm, <- total_scal. reflexivity.
Qed.
Lemma J_S2 b : (b < t)%nat -> J m (fun l => (Sb b l)^2) = J m (fun l => (Sb 0 l)^2).
Proof using KN K1 KB WN T0.
  intros Hb. rewrite (J_len m (fun l => Sb b l ^ 2) (fun l => Sb b l * Sb b l)) by (intros; ring). rewrite (J_len m (fun l => Sb 0 l ^ 2) (fun l => Sb 0 l * Sb 0 l)) by (intros; ring).
  rewrite !J_SS by lia. apply total_ext. intros a _. apply total_ext. intros a' _. f_equal. lia.
Qed.
Lemma sum_Sb l : total (seq 0 m) (fun i => u (nth i l [])) = total (seq 0 t) (fun b => Sb b l).
Proof using. apply seq_split. Qed.
Lemma full_le : J m (fun l => (total (seq 0 m) (fun i => u (nth i l [])))^2) <= INR t * INR t * J m (fun l => (Sb 0 l)^2).
Proof using KN K1 KB WN T0.
  apply Rle_trans with (J m (fun l => INR t * total (seq 0 t) (fun b => (Sb b l)^2))).
  - apply J_mono. intros l _. rewrite sum_Sb. pose proof (total_sq_le (seq 0 t) (fun b => Sb b l)) as H. rewrite seq_length in H. exact H.
  - rewrite J_scal, J_total. rewrite (total_ext (seq 0 t) _ (fun _ => J m (fun l => (Sb 0 l)^2))) by (intros b Hb; apply in_seq in Hb; apply J_S2; lia). rewrite total_cst, seq_length. right. ring.
Qed.
Hypothesis LN : forall k, 0 <= lagk u k.
Lemma full_ge : INR t * J m (fun l => (Sb 0 l)^2) <= J m (fun l => (total (seq 0 m) (fun i => u (nth i l [])))^2).
Proof using KN K1 KB WN T0 LN.
  rewrite (J_len m (fun l => total (seq 0 m) (fun i => u (nth i l [])) ^ 2) (fun l => total (seq 0 t) (fun b => total (seq 0 t) (fun b' => Sb b l * Sb b' l)))) by (intros l _; rewrite sum_Sb; apply tot_sq).
  rewrite J_total. rewrite <- (seq_length t 0) at 1. rewrite <- total_cst. apply total_le. intros b Hb. apply in_seq in Hb. rewrite J_total, <- (J_S2 b) by lia.
  assert (N : forall b', In b' (seq 0 t) -> 0 <= J m (fun l => Sb b l * Sb b' l)).
  { intros b' Hb'. apply in_seq in Hb'. rewrite J_SS by lia. apply tot_nn. intros a _. apply tot_nn. intros a' _. apply LN. }
  rewrite (J_len m (fun l => Sb b l ^ 2) (fun l => Sb b l * Sb b l)) by (intros; ring).
  clear - N Hb. assert (I : In b (seq 0 t)) by (apply in_seq; lia). revert N I. generalize (seq 0 t). intros L. induction L as [|x L IH]; intros N [].
  - subst x. change (J m (fun l => Sb b l * Sb b l) <= J m (fun l => Sb b l * Sb b l) + total L (fun b' => J m (fun l => Sb b l * Sb b' l))).
    assert (0 <= total L (fun b' => J m (fun l => Sb b l * Sb b' l))) by (apply tot_nn; intros; apply N; now right). lra.
  - change (J m (fun l => Sb b l * Sb b l) <= J m (fun l => Sb b l * Sb x l) + total L (fun b' => J m (fun l => Sb b l * Sb b' l))).
    pose proof (N x (or_introl eq_refl)). assert (J m (fun l => Sb b l * Sb b l) <= total L (fun b' => J m (fun l => Sb b l * Sb b' l))) by (apply IH; auto; intros; apply N; now right). lra.
Qed.
End Thin.

(** In terms of averages. *)
Section Avg.
Variables (X : list (list R)) (w : list R -> R) (kk : list R -> list R -> R) (g : list R -> R) (mu : R) (t c : nat).
Hypothesis KN : forall x y, In x X -> In y X -> 0 <= kk x y.
Hypothesis K1 : forall x, In x X -> total X (kk x) = 1.
Hypothesis KB : forall x y, In x X -> In y X -> w x * kk x y = w y * kk y x.
Hypothesis WN : forall x, In x X -> 0 <= w x.
Hypothesis T0 : (0 < t)%nat.
Hypothesis C0 : (0 < c)%nat.
Notation m := (c * t)%nat.
Notation u := (fun x => g x - mu).
Lemma avg_dev (l : list (list R)) : l <> [] -> average g l - mu = / INR (length l) * total (seq 0 (length l)) (fun i => u (nth i l [])).
Proof using.
  intros Hl. assert (N0 : INR (length l) <> 0) by (apply not_0_INR; destruct l; [congruence|discriminate]).
  assert (E : total l u = total l g - INR (length l) * mu).
  { clear. induction l as [|x l IH]; [cbn; ring|]. cbn [length]. rewrite S_INR. change (g x - mu + total l u = g x + total l g - (INR (length l) + 1) * mu). rewrite IH. ring. }
  refine (eq_trans _ (f_equal (Rmult (/ INR (length l))) (tot_nth u l []))). rewrite E. unfold average. field. exact N0.
Qed.
Lemma every_length {A} (l : list A) : length l = m -> length (every t l) = c.
Proof using T0. clear C0. intros Hl. rewrite every_stride, length_stride, Hl by exact T0. unfold cdiv. replace (c * t + t - 1)%nat with (t - 1 + c * t)%nat by lia. rewrite Nat.div_add by lia. rewrite Nat.div_small by lia. lia. Qed.
Lemma every_dev (l : list (list R)) : length l = m -> average g (every t l) - mu = / INR c * Sb u t c 0 l.
Proof using T0 C0.
  intros Hl. pose proof (every_length l Hl) as L. rewrite avg_dev by (intros Z; rewrite Z in L; cbn in L; lia). rewrite L. f_equal. unfold Sb. apply total_ext. intros i _.
  rewrite every_stride, nth_stride, Nat.add_0_r by exact T0. reflexivity.
Qed.
Lemma thin_le : J X w kk m (fun l => (average g l - mu)^2) <= J X w kk m (fun l => (average g (every t l) - mu)^2).
Proof using KN K1 KB WN T0 C0.
  assert (NT : 0 < INR t) by (now apply lt_0_INR). assert (NC : 0 < INR c) by (now apply lt_0_INR).
  rewrite (J_len X w kk KN WN m _ (fun l => / (INR m)^2 * (total (seq 0 m) (fun i => u (nth i l [])))^2)).
  2:{ intros l Hl. rewrite avg_dev by (intros Z; rewrite Z in Hl; cbn in Hl; nia). rewrite Hl. rewrite Rpow_mult_distr, pow_inv. reflexivity. }
  rewrite (J_len X w kk KN WN m (fun l => (average g (every t l) - mu)^2) (fun l => / (INR c)^2 * (Sb u t c 0 l)^2)).
  2:{ intros l Hl. rewrite every_dev by exact Hl. rewrite Rpow_mult_distr, pow_inv. reflexivity. }
  rewrite !J_scal. pose proof (full_le X w kk KN K1 KB WN u t c T0) as H. rewrite mult_INR. set (a := J X w kk m _) in * . set (b := J X w kk m (fun l => Sb _ t c 0 l ^ 2)) in * .
  assert (I : 0 < / (INR c * INR t)^2) by (apply Rinv_0_lt_compat, pow_lt; nra).
  apply Rle_trans with (/ (INR c * INR t)^2 * (INR t * INR t * b)); [apply Rmult_le_compat_l; lra|]. right. field. split; lra.
Qed.
Lemma thin_ge : (forall k, 0 <= lagk X w kk u k) -> J X w kk m (fun l => (average g (every t l) - mu)^2) <= INR t * J X w kk m (fun l => (average g l - mu)^2).
Proof using KN K1 KB WN T0 C0.
  intros LN. assert (NT : 0 < INR t) by (now apply lt_0_INR). assert (NC : 0 < INR c) by (now apply lt_0_INR).
  rewrite (J_len X w kk KN WN m (fun l => (average g l - mu)^2) (fun l => / (INR m)^2 * (total (seq 0 m) (fun i => u (nth i l [])))^2)).
  2:{ intros l Hl. rewrite avg_dev by (intros Z; rewrite Z in Hl; cbn in Hl; nia). rewrite Hl. rewrite Rpow_mult_distr, pow_inv. reflexivity. }
  rewrite (J_len X w kk KN WN m (fun l => (average g (every t l) - mu)^2) (fun l => / (INR c)^2 * (Sb u t c 0 l)^2)).
  2:{ intros l Hl. rewrite every_dev by exact Hl. rewrite Rpow_mult_distr, pow_inv. reflexivity. }
  rewrite !J_scal. pose proof (full_ge X w kk KN K1 KB WN u t c T0 LN) as H. rewrite mult_INR. set (a := J X w kk m (fun l => total _ _ ^ 2)) in * . set (b := J X w kk m (fun l => Sb _ t c 0 l ^ 2)) in * .
  assert (I : 0 < INR t * / (INR c * INR t)^2) by (apply Rmult_lt_0_compat; [lra|apply Rinv_0_lt_compat, pow_lt; nra]).
  rewrite <- Rmult_assoc. apply Rle_trans with (INR t * / (INR c * INR t)^2 * (INR t * b)); [|apply Rmult_le_compat_l; lra]. right. field. split; lra.
Qed.
End Avg.

Section LocalThin.
Context {G : @Rng RNum}.
Variables (X : list (list R)) (n : nat) (f : @lpdf RNum) (d : @datad RNum) (kern : @skernel RNum G) (P : expect key -> Prop) (E1 E : expect key) (g : list R -> R) (t c : nat).
Hypothesis NS : normal_shape.
Hypothesis SX : states X n.
Hypothesis K : ideal_kernel X n f d kern P.
Hypothesis PE1 : P E1.
Hypothesis NE : X <> [].
Hypothesis T0 : (0 < t)%nat.
Hypothesis C0 : (0 < c)%nat.
Hypothesis C : key_chain (same_law E1) (c * t) E.
Notation pr := (target_prob X f d).
Notation kk := (kl f d kern E1).
Notation mu := (target_mean X (density f d) g).
Lemma local_J t' : local_thinned_error X kern f d (c * t) t' g E = J X pr kk (c * t) (fun l => (average g (every t' l) - mu)^2).
Proof.
  unfold local_thinned_error, expected_under, mean_square_error, J. apply total_ext. intros x Hx. f_equal.
  exact (serial_path X n f d kern P E1 NS SX K PE1 (c * t) (fun l => (average g (every t' l) - mu)^2) E x C Hx).
Qed.
Lemma local_thin : local_thinned_error X kern f d (c * t) 1 g E <= local_thinned_error X kern f d (c * t) t g E.
Proof.
  rewrite !local_J. apply Rle_trans with (J X pr kk (c * t) (fun l => (average g l - mu)^2)).
  - right. unfold J. apply total_ext. intros x _. f_equal. apply PE_ext. intros l. now rewrite every_1.
  - refine (thin_le X pr kk g mu t c _ _ _ _ T0 C0).
    + intros x y; apply (kl_nn X n f d kern P E1); assumption.
    + intros x; apply (kl_one X n f d kern P E1); assumption.
    + intros x y; apply (pr_bal X n f d kern P E1); assumption.
    + intros x _. apply pr_nn, NE.
Qed.
(** One kept position is one draw from the target. *)
Lemma local_one : c = 1%nat -> local_thinned_error X kern f d (c * t) t g E = variance X f d g.
Proof.
  intros C1. rewrite local_J.
  assert (KN : forall x y, In x X -> In y X -> 0 <= kk x y) by (intros x y; apply (kl_nn X n f d kern P E1); assumption).
  assert (K1 : forall x, In x X -> total X (kk x) = 1) by (intros x; apply (kl_one X n f d kern P E1); assumption).
  assert (KB : forall x y, In x X -> In y X -> pr x * kk x y = pr y * kk y x) by (intros x y; apply (pr_bal X n f d kern P E1); assumption).
  assert (WN : forall x, In x X -> 0 <= pr x) by (intros x _; apply pr_nn, NE).
  rewrite (J_len X pr kk KN WN (c * t) _ (fun l => (g (nth 0 l []) - mu) * (g (nth 0 l []) - mu))).
  - rewrite (J_two X pr kk KN K1 KB WN (fun x => g x - mu) (c * t) 0 0) by (subst c; lia). unfold lagk, Bk, variance, expected_under. apply total_ext. intros x _. cbn [Nat.sub Nat.add Tkn]. ring.
  - intros l Hl. rewrite (every_dev g mu t c T0 C0 l Hl). rewrite C1. unfold Sb. cbn [seq total fold_right]. unfold total. cbn [fold_right Nat.mul Nat.add INR]. rewrite Rinv_1. ring.
Qed.
End LocalThin.

Section GlobalThin.
Context {G : @Rng RNum} {NF : @NFOps RNum G}.
Variables (p : @nfp RNum G NF) (X Y : list (list R)) (f : @lpdf RNum) (d : @datad RNum) (q : list R -> R) (a : R) (dim t c : nat) (g : list R -> R) (E Ea Ed : expect key).
Hypothesis HS : samples_shape (nfp_model p) dim.
Hypothesis HB : (0 < nfp_bs p)%nat.
Hypothesis IG : ignores_n_steps f.
Hypothesis NX : NoDup X.
Hypothesis NY : NoDup Y.
Hypothesis XY : forall x, In x X -> In x Y.
Hypothesis NE : X <> [].
Hypothesis A0 : 0 < a.
Hypothesis HQ : forall y, q y = a * exp (m_logp (nfp_model p) y).
Hypothesis T0 : (0 < t)%nat.
Hypothesis C0 : (0 < c)%nat.
Hypothesis SP : splits2 E Ea Ed.
Hypothesis CA : key_chain (flow_tests X Y (density f d) q) (c * t) Ea.
Hypothesis FD : flow_source (nfp_model p) Y q (nfp_bs p) (c * t) Ed.
Notation qq := (P_Inv4.q (nfp_model p) a).
Notation pr := (target_prob X f d).
Notation TT := (T X qq (ac (nfp_model p) f d)).
Notation kk := (kg p X f d a).
Notation mu := (target_mean X (density f d) g).
Let QX : total X qq <= 1 := qX (nfp_model p) X Y a A0 (Q1 p Y q a (c * t) Ed HB HQ FD) NX NY XY.
Let KT : forall h x, In x X -> TT h x = Tk X kk h x := T_kg p X f d a NX.
Lemma kg_nn x y : In x X -> In y X -> 0 <= kk x y.
Proof.
  intros Hx Hy. unfold kg, T. assert (D : forall z, 0 <= delta y z <= 1) by (intros z; unfold delta; destruct (veq_dec z y); lra).
  assert (H : total X (fun z => (- delta y x) * qq z) <= total X (fun z => qq z * ac (nfp_model p) f d x z * (delta y z - delta y x))).
  { apply total_le. intros z Hz. pose proof (D z). pose proof (D x). pose proof (ac01 (nfp_model p) f d x z) as A. pose proof (qq_pos (nfp_model p) a A0 z) as Q.
    assert (U1 : 0 <= qq z * ac (nfp_model p) f d x z <= qq z) by nra. nra. }
  rewrite total_scal in H. pose proof (D x). nra.
Qed.
Lemma kg_one x : In x X -> total X (kk x) = 1.
Proof.
  intros Hx. pose proof (KT (fun _ => 1) x Hx) as Q. unfold Tk in Q. rewrite (total_ext X (fun y => kk x y * 1) (kk x)) in Q by (intros; ring). rewrite <- Q. unfold T.
  rewrite (total_ext X _ (fun _ => 0)) by (intros; ring). rewrite total_cst. ring.
Qed.
Lemma kg_pr' x y : In x X -> In y X -> pr x * kk x y = pr y * kk y x.
Proof. intros Hx Hy. now apply kg_pr. Qed.
Lemma Tkn_Tn u k : forall x, In x X -> Tkn X kk k u x = Tn X qq (ac (nfp_model p) f d) k u x.
Proof.
  induction k as [|k IH]; intros x Hx; [reflexivity|]. change (Tk X kk (Tkn X kk k u) x = TT (Tn X qq (ac (nfp_model p) f d) k u) x). rewrite KT by exact Hx. apply Tk_ext. exact IH.
Qed.
Lemma lagk_nn u k : 0 <= lagk X pr kk u k.
Proof.
  assert (Q : lagk X pr kk u k = lag X pr qq (ac (nfp_model p) f d) u k).
  { unfold lagk, lag, Bk, B. apply total_ext. intros x Hx. now rewrite Tkn_Tn. }
  rewrite Q. apply lag_nonneg.
  - intros x _. apply pr_nn, NE.
  - intros x _. apply qq_pos, A0.
  - exact QX.
  - intros x y _ _. apply ac01.
  - intros x y Hx Hy. now apply (bal (nfp_model p) X f d a).
Qed.
Lemma global_J t' : global_thinned_error X p f d (c * t) t' g E = J X pr kk (c * t) (fun l => (average g (every t' l) - mu)^2).
Proof.
  unfold global_thinned_error, expected_under, mean_square_error, J. apply total_ext. intros x Hx. f_equal.
  rewrite (group_path p Y f d q a dim (c * t) E Ea Ed HS HB IG HQ SP FD (fun l => (average g (every t' l) - mu)^2) x).
  apply (scan_PE p X Y f d q a (c * t) Ed HB NX NY XY A0 HQ FD); [|exact Hx]. exact (CA' p X Y f d q a (c * t) Ea HQ CA).
Qed.
Lemma global_1 : global_thinned_error X p f d (c * t) 1 g E = J X pr kk (c * t) (fun l => (average g l - mu)^2).
Proof. rewrite global_J. unfold J. apply total_ext. intros x _. f_equal. apply PE_ext. intros l. now rewrite every_1. Qed.
Lemma global_thin : global_thinned_error X p f d (c * t) 1 g E <= global_thinned_error X p f d (c * t) t g E <= INR t * global_thinned_error X p f d (c * t) 1 g E.
Proof.
  rewrite global_1, global_J. assert (WN : forall x, In x X -> 0 <= pr x) by (intros x _; apply pr_nn, NE). split.
  - exact (thin_le X pr kk g mu t c kg_nn kg_one kg_pr' WN T0 C0).
  - exact (thin_ge X pr kk g mu t c kg_nn kg_one kg_pr' WN T0 C0 (lagk_nn _)).
Qed.
End GlobalThin.
