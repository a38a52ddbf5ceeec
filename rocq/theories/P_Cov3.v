(** Autocovariances and mean square errors of a call of the global sampler. *)
From Coq Require Import Reals Lra Lia Permutation Classical.
From Verif Require Import Prelude Num M_Core M_Kernels M_Strategies P_Lists Spec_Kernels RNum Spec_Real Spec_Inv P_Kernels P_Real1 P_Inv1 P_Inv2 P_Inv3 P_Inv4 P_Inv5 Spec_Erg P_Erg1 P_Erg2 P_Erg4 Spec_Lln P_Lln1 Spec_Rate P_Rate Spec_Cov P_Cov1 P_Cov2.
Open Scope R_scope.

Section Cov.
Context {G : @Rng RNum} {NF : @NFOps RNum G}.
Variables (p : @nfp RNum G NF) (X Y : list (list R)) (f : @lpdf RNum) (d : @datad RNum) (q : list R -> R) (a W : R) (dim n : nat) (g : list R -> R) (E Ea Ed : expect key).
Hypothesis HS : samples_shape (nfp_model p) dim.
Hypothesis HB : (0 < nfp_bs p)%nat.
Hypothesis IG : ignores_n_steps f.
Hypothesis NX : NoDup X.
Hypothesis NY : NoDup Y.
Hypothesis XY : forall x, In x X -> In x Y.
Hypothesis NE : X <> [].
Hypothesis A0 : 0 < a.
Hypothesis HQ : forall y, q y = a * exp (m_logp (nfp_model p) y).
Hypothesis SP : splits2 E Ea Ed.
Hypothesis CA : key_chain (flow_tests X Y (density f d) q) n Ea.
Hypothesis FD : flow_source (nfp_model p) Y q (nfp_bs p) n Ed.
Hypothesis CV : covers X (density f d) q W.
Notation qq := (P_Inv4.q (nfp_model p) a).
Notation pr := (target_prob X f d).
Notation acc := (ac (nfp_model p) f d).
Notation sp := (scan_path (nfp_model p) Y f d a).
Let mu := target_mean X (density f d) g.
Let u (x : list R) : R := g x - mu.
Notation L := (lag X pr qq acc u).

Lemma EQ y : qq y = q y. Proof. symmetry. apply HQ. Qed.
Lemma FD' : flow_source (nfp_model p) Y qq (nfp_bs p) n Ed.
Proof.
  destruct FD as [D1 D2]. split.
  - intros s Hs h. etransitivity; [exact (D1 s Hs h)|]. symmetry. apply iid_qeq, EQ.
  - revert D2. apply chain_imp. intros E' H s Hs h. etransitivity; [exact (H s Hs h)|]. symmetry. apply iid_qeq, EQ.
Qed.
Lemma CA' : key_chain (src (nfp_model p) X Y f d a) n Ea.
Proof. revert CA. apply chain_imp. intros E' H x' y Hx' Hy. specialize (H x' y Hx' Hy). cbv zeta in * . rewrite !EQ. exact H. Qed.
Lemma Q1 : total Y qq = 1.
Proof. destruct FD' as [D _]. pose proof (D 1%nat ltac:(lia) (fun _ => 1)) as Q. cbv beta in Q. refine (eq_trans _ (eq_trans (eq_sym Q) (ex_const _ Ed 1))). cbn [iid]. apply total_ext. intros; ring. Qed.
Lemma group_path F x : ex E (fun k => F (visited (group_sample p f d n k x))) = sp n Ea F x.
Proof.
  unfold scan_path. set (H := fun b1 b2 => F (visited (Ok (scan (nfp_model p) f d b1 x (props_of p b2 n))))).
  rewrite (ex_ext _ E _ (fun k => H (split k 2 0) (split k 2 1))).
  - rewrite (proj1 (SP H)), (proj2 (SP H)). exact (flow_draws (nfp_model p) Y qq Q1 p n Ed (fun props => ex Ea (fun b1 => F (visited (Ok (scan (nfp_model p) f d b1 x props))))) eq_refl HB FD').
  - intros k. unfold H. destruct (group_is p f d dim HS HB IG n k x) as (props & -> & _ & ->). reflexivity.
Qed.
Lemma cv x : In x X -> pr x <= W * qq x.
Proof. intros Hx. rewrite EQ. exact (CV x Hx). Qed.
Lemma psum : total X pr = 1. Proof. exact (pr_sum X f d NE). Qed.
Lemma W1 : 1 <= W.
Proof.
  pose proof (qX (nfp_model p) X Y a A0 Q1 NX NY XY) as H1. assert (H2 : 1 <= W * total X qq).
  { rewrite <- psum, <- total_scal. apply total_le. apply cv. }
  assert (H3 : 0 < total X qq) by (apply total_pos; [intros; apply qq_pos, A0|exact NE]). nra.
Qed.
Lemma u_centred : centred X pr u.
Proof.
  unfold centred, u. rewrite (total_ext X _ (fun x => 1 * (pr x * g x) + (- mu) * pr x)) by (intros; ring). rewrite total_lin, psum.
  unfold mu, target_mean, expected_under. rewrite (total_ext X (fun x => pr x * g x) (fun x => / total X (density f d) * (density f d x * g x))) by (intros; unfold target_prob, Rdiv; ring).
  rewrite total_scal. unfold Rdiv. ring.
Qed.
Lemma lag_var : L 0%nat = variance X f d g.
Proof. unfold lag, B, variance, expected_under. apply total_ext. intros x _. unfold u, mu. cbn. ring. Qed.
Lemma cov_is i j : (i <= j)%nat -> (j < n)%nat -> autocov X p f d n i j g E = L (j - i)%nat.
Proof.
  intros Hi Hj. rewrite <- (cov_lag (nfp_model p) X Y f d a A0 Q1 NE NX NY XY u n i j Ea Hi Hj CA'). unfold autocov, expected_under. apply total_ext. intros x _. f_equal.
  exact (group_path (fun l => u (nth i l []) * u (nth j l [])) x).
Qed.
Notation D lem := (lem (list R) X pr qq acc).
Lemma BALt x y : In x X -> In y X -> pr x * qq y * acc x y = Rmin (pr x * qq y) (pr y * qq x).
Proof. intros. apply (bal (nfp_model p) X f d a); auto. Qed.
Lemma L_nonneg k : 0 <= L k.
Proof.
  apply lag_nonneg; intros; try (first [apply (pr_nn X f d NE)|apply qq_pos, A0|exact (qX (nfp_model p) X Y a A0 Q1 NX NY XY)|apply ac01|now apply BALt|exact psum|now apply cv|exact W1|exact u_centred]).
Qed.
Lemma L_step k : L (S k) <= (1 - / W) * L k.
Proof.
  apply lag_step; intros; try (first [apply (pr_nn X f d NE)|apply qq_pos, A0|exact (qX (nfp_model p) X Y a A0 Q1 NX NY XY)|apply ac01|now apply BALt|exact psum|now apply cv|exact W1|exact u_centred]).
Qed.
Lemma L_decay k : L k <= (1 - / W) ^ k * L 0%nat.
Proof.
  induction k as [|k IH]; [cbn [pow]; lra|]. cbn [pow]. pose proof (L_step k) as H. pose proof (r01 W W1) as R.
  apply Rle_trans with ((1 - / W) * L k); [exact H|]. rewrite Rmult_assoc. apply Rmult_le_compat_l; lra.
Qed.
Lemma cov_bounds i j : (i <= j)%nat -> (j < n)%nat ->
  0 <= autocov X p f d n i j g E <= (1 - 1 / W) ^ (j - i) * variance X f d g.
Proof. intros Hi Hj. rewrite (cov_is i j Hi Hj), <- lag_var. unfold Rdiv. rewrite Rmult_1_l. split; [apply L_nonneg|apply L_decay]. Qed.
Lemma cov_step i j : (i <= j)%nat -> (S j < n)%nat -> autocov X p f d n i (S j) g E <= (1 - 1 / W) * autocov X p f d n i j g E.
Proof. intros Hi Hj. rewrite !cov_is by lia. replace (S j - i)%nat with (S (j - i)) by lia. unfold Rdiv. rewrite Rmult_1_l. apply L_step. Qed.
Lemma cov_shift i j i' j' : (i <= j)%nat -> (j < n)%nat -> (i' <= j')%nat -> (j' < n)%nat -> (j - i = j' - i')%nat -> autocov X p f d n i j g E = autocov X p f d n i' j' g E.
Proof. intros. rewrite !cov_is by lia. now f_equal. Qed.

Lemma sp_lin E' b c F H x : sp n E' (fun l => b * F l + c * H l) x = b * sp n E' F x + c * sp n E' H x.
Proof.
  unfold scan_path. rewrite <- iid_lin. apply iid_ext. intros l _. exact (ex_lin _ E' b (fun k => F (visited (Ok (scan (nfp_model p) f d k x l)))) c (fun k => H (visited (Ok (scan (nfp_model p) f d k x l))))).
Qed.
Lemma sp_total {A} E' (l0 : list A) F x : sp n E' (fun l => total l0 (fun a0 => F a0 l)) x = total l0 (fun a0 => sp n E' (F a0) x).
Proof.
  induction l0 as [|a0 l0 IH]; [exact (sp_const (nfp_model p) Y f d a Q1 n E' 0 x)|].
  change (sp n E' (fun l => F a0 l + total l0 (fun a1 => F a1 l)) x = sp n E' (F a0) x + total l0 (fun a1 => sp n E' (F a1) x)). rewrite <- IH.
  pose proof (sp_lin E' 1 1 (F a0) (fun l => total l0 (fun a1 => F a1 l)) x) as H. rewrite !Rmult_1_l in H. rewrite <- H. unfold scan_path. apply iid_ext. intros l _. apply ex_ext. intros k. ring.
Qed.
Lemma sp_len E' F H x : (forall l, length l = n -> F l = H l) -> sp n E' F x = sp n E' H x.
Proof. intros Q. unfold scan_path. apply iid_ext. intros l Hl. apply ex_ext. intros k. apply Q. cbn [visited]. now rewrite map_length, scan_length. Qed.
Lemma tot_nth {A} (h : A -> R) (l : list A) d0 : total l h = total (seq 0 (length l)) (fun i => h (nth i l d0)).
Proof. induction l as [|x l IH]; [reflexivity|]. cbn [length]. rewrite seq_S_map. change (h x + total l h = h x + total (map S (seq 0 (length l))) (fun i => h (nth i (x :: l) d0))). rewrite total_map, IH. reflexivity. Qed.
Lemma tot_sq (s : list nat) (h : nat -> R) : (total s h)^2 = total s (fun i => total s (fun j => h i * h j)).
Proof. rewrite (total_ext s (fun i => total s (fun j => h i * h j)) (fun i => total s h * h i)) by (intros; rewrite total_scal; ring). rewrite total_scal. ring. Qed.
Lemma sq_avg l : length l = n -> (0 < n)%nat -> (average g l - mu)^2 = / (INR n * INR n) * total (seq 0 n) (fun i => total (seq 0 n) (fun j => u (nth i l []) * u (nth j l []))).
Proof.
  intros Hl Hn. assert (N0 : INR n <> 0) by (apply not_0_INR; lia). rewrite <- (tot_sq (seq 0 n) (fun i => u (nth i l []))).
  assert (E1 : total (seq 0 n) (fun i => u (nth i l [])) = total l g - INR n * mu).
  { rewrite <- Hl. rewrite <- (tot_nth u l []). clear. unfold u. induction l as [|x l IH]; [cbn; ring|]. cbn [length]. rewrite S_INR. change (g x - mu + total l (fun x0 => g x0 - mu) = g x + total l g - (INR (length l) + 1) * mu). rewrite IH. ring. }
  rewrite E1. unfold average. rewrite Hl. field. exact N0.
Qed.
Lemma error_is : (0 < n)%nat -> call_error X p f d n g E = / (INR n * INR n) * total (seq 0 n) (fun i => total (seq 0 n) (fun j => L ((j - i) + (i - j))%nat)).
Proof.
  intros Hn. unfold call_error, expected_under, mean_square_error. fold mu.
  rewrite (total_ext X _ (fun x => / (INR n * INR n) * total (seq 0 n) (fun i => total (seq 0 n) (fun j => pr x * sp n Ea (fun l => u (nth i l []) * u (nth j l [])) x)))).
  - rewrite total_scal. f_equal. rewrite tot_swap. apply total_ext. intros i Hi. rewrite tot_swap. apply total_ext. intros j Hj. apply in_seq in Hi, Hj.
    destruct (le_ge_dec i j) as [C|C].
    + replace (j - i + (i - j))%nat with (j - i)%nat by lia. exact (cov_lag (nfp_model p) X Y f d a A0 Q1 NE NX NY XY u n i j Ea C ltac:(lia) CA').
    + replace (j - i + (i - j))%nat with (i - j)%nat by lia. rewrite <- (cov_lag (nfp_model p) X Y f d a A0 Q1 NE NX NY XY u n j i Ea C ltac:(lia) CA'). unfold expected_under. apply total_ext. intros x _. f_equal.
      apply sp_len. intros l _. ring.
  - intros x Hx. rewrite (group_path (fun l => (average g l - mu)^2) x).
    rewrite (sp_len Ea _ (fun l => / (INR n * INR n) * total (seq 0 n) (fun i => total (seq 0 n) (fun j => u (nth i l []) * u (nth j l [])))) x) by (intros l Hl; now apply sq_avg).
    rewrite (sp_scal (nfp_model p) Y f d a n Ea). rewrite sp_total.
    rewrite (total_ext (seq 0 n) (fun a0 => sp n Ea _ x) (fun i => total (seq 0 n) (fun j => sp n Ea (fun l => u (nth i l []) * u (nth j l [])) x))) by (intros i _; apply sp_total).
    transitivity (/ (INR n * INR n) * (pr x * total (seq 0 n) (fun i => total (seq 0 n) (fun j => sp n Ea (fun l => u (nth i l []) * u (nth j l [])) x)))); [ring|]. f_equal.
    rewrite <- total_scal. apply total_ext. intros i _. now rewrite <- total_scal.
Qed.
Lemma error_bounds : (0 < n)%nat -> variance X f d g / INR n <= call_error X p f d n g E <= (2 * W - 1) * (variance X f d g / INR n).
Proof.
  intros Hn. rewrite (error_is Hn), <- lag_var. assert (N0 : 0 < INR n) by (apply lt_0_INR; lia).
  pose proof (lag_sum_low L n L_nonneg) as LO. pose proof (lag_sum_up L W n W1 (L_nonneg 0) L_nonneg L_decay) as UP.
  set (s := total (seq 0 n) _) in * . clearbody s. assert (I0 : 0 < / (INR n * INR n)) by (apply Rinv_0_lt_compat; nra).
  split.
  - apply Rle_trans with (/ (INR n * INR n) * (INR n * L 0%nat)); [apply Req_le; field; lra|]. apply Rmult_le_compat_l; lra.
  - apply Rle_trans with (/ (INR n * INR n) * (INR n * ((2 * W - 1) * L 0%nat))); [apply Rmult_le_compat_l; lra|]. apply Req_le; field; lra.
Qed.
End Cov.


(** Finitely many states are always covered by some factor. *)
Lemma cover_exists (X : list (list R)) (w q : list R -> R) : (forall x, In x X -> 0 < q x) -> exists W, covers X w q W.
Proof.
  intros Q. unfold covers. set (s := total X w). clearbody s.
  assert (H : exists W, 0 <= W /\ forall x, In x X -> w x / s <= W * q x).
  { induction X as [|x X IH]; [exists 0; split; [lra|intros x []]|]. destruct IH as (W & W0 & H); [intros; apply Q; now right|].
    exists (W + Rabs (w x / s) / q x). pose proof (Q x (or_introl eq_refl)) as qx. assert (P : 0 <= Rabs (w x / s) / q x) by (apply Rmult_le_pos; [apply Rabs_pos|left; now apply Rinv_0_lt_compat]).
    split; [lra|]. intros y [<-|Hy].
    - rewrite Rmult_plus_distr_r. replace (Rabs (w x / s) / q x * q x) with (Rabs (w x / s)) by (field; lra). pose proof (Rle_abs (w x / s)). pose proof (Rmult_le_pos _ _ W0 (Rlt_le _ _ qx)). lra.
    - specialize (H y Hy). pose proof (Q y (or_intror Hy)) as qy. pose proof (Rmult_le_pos _ _ P (Rlt_le _ _ qy)). lra. }
  destruct H as (W & _ & H). exists W. exact H.
Qed.
