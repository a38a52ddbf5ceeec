(** Autocovariances of the global sampler. *)
From Coq Require Import Reals Lra Lia Permutation Classical.
From Verif Require Import Prelude Num M_Core M_Kernels M_Strategies P_Lists Spec_Kernels RNum Spec_Real Spec_Inv P_Kernels P_Real1 P_Inv1 P_Inv2 P_Inv3 P_Inv4 P_Inv5 Spec_Erg P_Erg1 P_Erg2 P_Erg4 Spec_Lln P_Lln1 Spec_Rate P_Rate Spec_Cov P_Cov1.
Open Scope R_scope.

Section Chain.
Context {G : @Rng RNum} {NF : @NFOps RNum G}.
Variables (m : mdl) (X Y : list (list R)) (f : @lpdf RNum) (d : @datad RNum) (c : R).
Hypothesis C0 : 0 < c.
Notation qq := (P_Inv4.q m c).
Hypothesis Q1 : total Y qq = 1.
Hypothesis NE : X <> [].
Hypothesis NX : NoDup X.
Hypothesis NY : NoDup Y.
Hypothesis XY : forall x, In x X -> In x Y.
Definition ac (x y : list R) : R := Rmin 1 (exp (fr m f d x y)).
Notation TT := (T X qq ac).
Notation TTn := (Tn X qq ac).
Notation pr := (target_prob X f d).
Lemma ac01 x y : 0 <= ac x y <= 1.
Proof. unfold ac. split; [apply Rmin_glb; [lra|apply Rlt_le, exp_pos]|apply Rmin_l]. Qed.
Lemma wsum_pos : 0 < total X (density f d).
Proof. apply total_pos; [intros; apply exp_pos|exact NE]. Qed.
Lemma pr_sum : total X pr = 1.
Proof. rewrite (total_ext X _ (fun x => / total X (density f d) * density f d x)) by (intros; unfold target_prob, Rdiv; ring). rewrite total_scal. apply Rinv_l, Rgt_not_eq, wsum_pos. Qed.
Lemma pr_nn x : 0 <= pr x.
Proof. unfold target_prob. apply Rmult_le_pos; [left; apply exp_pos|left; apply Rinv_0_lt_compat, wsum_pos]. Qed.
Lemma qq_pos x : 0 < qq x.
Proof. apply Rmult_lt_0_compat; [exact C0|apply exp_pos]. Qed.
Lemma qX : total X qq <= 1.
Proof.
  set (h := fun x => if in_dec veq_dec x X then qq x else 0).
  assert (HX : forall x, In x X -> h x = qq x) by (intros x Hx; unfold h; destruct (in_dec veq_dec x X); [reflexivity|contradiction]).
  assert (HN : forall y, In y Y -> ~ In y X -> h y = 0) by (intros y _ Hn; unfold h; destruct (in_dec veq_dec y X); [contradiction|reflexivity]).
  rewrite <- (total_ext X h qq HX), <- (total_sub X Y h NX NY XY HN), <- Q1.
  apply total_le. intros y _. unfold h. destruct (in_dec veq_dec y X); [lra|left; apply qq_pos].
Qed.
Lemma bal x y : In x X -> In y X -> pr x * qq y * ac x y = Rmin (pr x * qq y) (pr y * qq x).
Proof.
  intros Hx Hy. pose proof wsum_pos as W0. set (W := total X (density f d)) in * .
  assert (Ex : wt f d x * qq y * exp (fr m f d x y) = wt f d y * qq x).
  { unfold P_Inv4.q, wt, fr. replace (lpx f d y - lpx f d x - (lq m y - lq m x)) with ((lpx f d y + lq m x) + - (lpx f d x + lq m y)) by ring. rewrite exp_plus, exp_Ropp, !exp_plus.
    field. repeat split; apply Rgt_not_eq; apply exp_pos. }
  assert (P : 0 < pr x * qq y). { apply Rmult_lt_0_compat; [|apply qq_pos]. unfold target_prob. fold W. apply Rdiv_lt_0_compat; [apply exp_pos|exact W0]. }
  unfold ac. rewrite (scale_min _ _ P). f_equal. unfold target_prob. fold W. change (density f d x) with (wt f d x). change (density f d y) with (wt f d y). unfold Rdiv.
  transitivity (/ W * (wt f d x * qq y * exp (fr m f d x y))); [ring|]. rewrite Ex. ring.
Qed.
Lemma flow_op_T E g x : src m X Y f d c E -> In x X -> flow_op m Y f d c E g x = TT g x.
Proof.
  intros H Hx. set (A := fun y => test_prob E (fr m f d x y)).
  unfold flow_op. rewrite (total_ext Y _ (fun y => g x * qq y + 1 * (qq y * A y * (g y - g x)))).
  - rewrite total_lin, Q1. unfold T. rewrite (total_sub X Y) ; auto.
    + rewrite Rmult_1_r, Rmult_1_l. f_equal. apply total_ext. intros y Hy. unfold A, ac. rewrite (proj1 (src_r m X Y f d c C0 E x y H Hx (XY y Hy)) Hy). reflexivity.
    + intros y Hy Hn. unfold A. rewrite (proj2 (src_r m X Y f d c C0 E x y H Hx Hy) Hn). ring.
  - intros y Hy. rewrite (ex_ext _ E _ (fun b => g x + (g y - g x) * (if Rltb (ln (uniform b)) (fr m f d x y) then 1 else 0))).
    + rewrite ex_affine. unfold A, test_prob. ring.
    + intros b. unfold mv. destruct (Rltb _ _); ring.
Qed.
Notation sp := (scan_path m Y f d c).
Lemma sp_const n E a x : sp n E (fun _ => a) x = a.
Proof. unfold scan_path. rewrite (iid_ext _ _ _ _ (fun _ => a)) by (intros; apply ex_const). now apply iid_const. Qed.
Lemma sp_scal n E a F x : sp n E (fun l => a * F l) x = a * sp n E F x.
Proof.
  unfold scan_path. rewrite (iid_ext Y qq n _ (fun l => a * ex E (fun k => F (visited (Ok (scan m f d k x l)))) + 0 * 0)).
  - rewrite iid_lin. ring.
  - intros l _. rewrite ex_scal. ring.
Qed.
Lemma one_lag u n : forall j E, (j < n)%nat -> key_chain (src m X Y f d c) n E -> forall x, In x X -> sp n E (fun l => u (nth j l [])) x = TTn (S j) u x.
Proof.
  induction n as [|n IH]; intros j E Hj; [lia|]. intros (E0 & E1 & SP & S1 & CH) x Hx. rewrite (scan_path_S m Y f d c n E E0 E1 _ x SP), (flow_op_T E1 _ x S1 Hx).
  change (TTn (S j) u x) with (TT (TTn j u) x). apply T_ext; [|exact Hx]. intros y Hy. destruct j as [|j].
  - cbn [nth]. apply sp_const.
  - cbn [nth]. apply IH; auto. lia.
Qed.
Lemma two_lag u n : forall i j E, (i <= j)%nat -> (j < n)%nat -> key_chain (src m X Y f d c) n E -> forall x, In x X ->
  sp n E (fun l => u (nth i l []) * u (nth j l [])) x = TTn (S i) (fun y => u y * TTn (j - i) u y) x.
Proof.
  induction n as [|n IH]; intros i j E Hi Hj; [lia|]. intros (E0 & E1 & SP & S1 & CH) x Hx. rewrite (scan_path_S m Y f d c n E E0 E1 _ x SP), (flow_op_T E1 _ x S1 Hx).
  change (TTn (S i) (fun y => u y * TTn (j - i) u y) x) with (TT (TTn i (fun y => u y * TTn (j - i) u y)) x). apply T_ext; [|exact Hx]. intros y Hy. destruct i as [|i].
  - destruct j as [|j].
    + cbn [nth]. apply sp_const.
    + cbn [nth]. rewrite sp_scal. rewrite (one_lag u n j E0) by (auto; lia). reflexivity.
  - destruct j as [|j]; [lia|]. cbn [nth]. rewrite (IH i j E0) by (auto; lia). reflexivity.
Qed.
Lemma Tn_inv k g : total X (fun x => pr x * TTn k g x) = total X (fun x => pr x * g x).
Proof.
  induction k as [|k IH]; [reflexivity|]. rewrite <- IH. apply (T_inv X pr qq ac).
  intros; now apply bal.
Qed.
Lemma cov_lag u n i j E : (i <= j)%nat -> (j < n)%nat -> key_chain (src m X Y f d c) n E ->
  expected_under X pr (sp n E (fun l => u (nth i l []) * u (nth j l []))) = lag X pr qq ac u (j - i).
Proof.
  intros Hi Hj CH. unfold expected_under. rewrite (total_ext X _ (fun x => pr x * TTn (S i) (fun y => u y * TTn (j - i) u y) x)).
  - rewrite Tn_inv. reflexivity.
  - intros x Hx. now rewrite (two_lag u n i j E Hi Hj CH x Hx).
Qed.
End Chain.

Lemma seq_S_map n : seq 0 (S n) = 0%nat :: map S (seq 0 n).
Proof. cbn [seq]. f_equal. symmetry. apply seq_shift. Qed.
Lemma lag_sum_up (L : nat -> R) (W : R) n : 1 <= W -> 0 <= L 0%nat -> (forall k, 0 <= L k) -> (forall k, L k <= (1 - / W) ^ k * L 0%nat) ->
  total (seq 0 n) (fun i => total (seq 0 n) (fun j => L ((j - i) + (i - j))%nat)) <= INR n * ((2 * W - 1) * L 0%nat).
Proof.
  intros W1 L0 Ln Ld. set (r := 1 - / W).
  assert (R1 : forall i, In i (seq 0 n) -> total (seq 0 n) (fun j => L ((j - i) + (i - j))%nat) <= (2 * W - 1) * L 0%nat).
  { intros i Hi. apply in_seq in Hi. replace n with (S i + (n - S i))%nat by lia. rewrite seq_app, total_app.
    assert (A1 : total (seq 0 (S i)) (fun j => L ((j - i) + (i - j))%nat) <= L 0%nat * W).
    { apply Rle_trans with (L 0%nat * total (seq 0 (S i)) (fun k => r ^ k)); [|apply Rmult_le_compat_l; [exact L0|apply (geo W W1)]].
      assert (RV : total (seq 0 (S i)) (fun k => r ^ k) = total (seq 0 (S i)) (fun j => r ^ (i - j))).
      { clear. induction i as [|i IH]; [reflexivity|]. rewrite (seq_S_map (S i)) at 2. rewrite (seq_S (S i) 0), total_app, IH.
        change (total (seq 0 (S i)) (fun j => r ^ (i - j)) + (r ^ (0 + S i) + 0) = r ^ (S i) + total (map S (seq 0 (S i))) (fun j => r ^ (S i - j))). rewrite total_map. cbn [Nat.sub Nat.add]. ring. }
      rewrite RV, <- total_scal. apply total_le. intros j Hj. apply in_seq in Hj. replace ((j - i) + (i - j))%nat with (i - j)%nat by lia. rewrite Rmult_comm. apply Ld. }
    assert (A2 : total (seq (0 + S i) (n - S i)) (fun j => L ((j - i) + (i - j))%nat) <= L 0%nat * (W - 1)).
    { apply Rle_trans with (L 0%nat * (r * total (seq 0 (n - S i)) (fun k => r ^ k))).
      - rewrite <- total_scal, <- total_scal. cbn [Nat.add]. 
        assert (SH : seq (S i) (n - S i) = map (fun k => (S i + k)%nat) (seq 0 (n - S i))).
        { generalize (n - S i)%nat as e. intros e. replace (S i) with (S i + 0)%nat at 1 by lia. generalize 0%nat as s. induction e as [|e IHe]; intros s; [reflexivity|]. cbn [seq map]. f_equal. rewrite <- IHe. f_equal. lia. }
        rewrite SH, total_map. apply total_le. intros k Hk. replace ((S i + k - i) + (i - (S i + k)))%nat with (S k) by lia.
        pose proof (Ld (S k)) as H. cbn [pow] in H. fold r in H. lra.
      - apply Rmult_le_compat_l; [exact L0|]. assert (E : W - 1 = r * W) by (unfold r; field; lra). rewrite E. apply Rmult_le_compat_l; [apply (r01 W W1)|apply (geo W W1)]. }
    lra. }
  apply Rle_trans with (total (seq 0 n) (fun _ => (2 * W - 1) * L 0%nat * 1)); [rewrite total_scal|].
  - apply Rle_trans with (total (seq 0 n) (fun _ => (2 * W - 1) * L 0%nat)); [apply total_le; exact R1|].
    apply Req_le. assert (C : forall s m c, total (seq s m) (fun _ => c) = INR m * c).
    { intros s m c0. revert s. induction m as [|m IH]; intros s; [cbn; ring|]. cbn [seq]. change (c0 + total (seq (S s) m) (fun _ => c0) = INR (S m) * c0). rewrite IH, S_INR. ring. }
    rewrite !C. ring.
  - apply Req_le. assert (C : forall s m c, total (seq s m) (fun _ => c) = INR m * c).
    { intros s m c0. revert s. induction m as [|m IH]; intros s; [cbn; ring|]. cbn [seq]. change (c0 + total (seq (S s) m) (fun _ => c0) = INR (S m) * c0). rewrite IH, S_INR. ring. }
    rewrite C. ring.
Qed.
Lemma lag_sum_low (L : nat -> R) n : (forall k, 0 <= L k) ->
  INR n * L 0%nat <= total (seq 0 n) (fun i => total (seq 0 n) (fun j => L ((j - i) + (i - j))%nat)).
Proof.
  intros Ln. assert (C : forall s m c, total (seq s m) (fun _ => c) = INR m * c).
  { intros s m c0. revert s. induction m as [|m IH]; intros s; [cbn; ring|]. cbn [seq]. change (c0 + total (seq (S s) m) (fun _ => c0) = INR (S m) * c0). rewrite IH, S_INR. ring. }
  rewrite <- (C 0%nat n). apply total_le. intros i Hi. apply in_seq in Hi. replace n with (i + (1 + (n - i - 1)))%nat by lia. rewrite !seq_app, !total_app.
  pose proof (tot_nn (seq 0 i) (fun j => L ((j - i) + (i - j))%nat) ltac:(intros; apply Ln)) as H1.
  pose proof (tot_nn (seq (0 + i + 1) (n - i - 1)) (fun j => L ((j - i) + (i - j))%nat) ltac:(intros; apply Ln)) as H2.
  assert (H3 : total (seq (0 + i) 1) (fun j => L ((j - i) + (i - j))%nat) = L 0%nat). { cbn [seq Nat.add total fold_right]. rewrite Nat.sub_diag. cbn [Nat.add]. ring. }
  lra.
Qed.
