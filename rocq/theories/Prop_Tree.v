(** C62: saving and loading flows.  C63: to_precision.  C64: what training can change.  C65: log_prob of trained
    spline flows. *)
From Coq Require Import Reals Psatz.
From Verif Require Import Prelude Num M_Core M_Kernels M_Strategies M_Flow M_Net M_Model M_Tree RNum MxR Spec_Kernels Spec_Train Spec_FM Spec_Jac Spec_Real Spec_Spline Spec_Flow Spec_Net Spec_Tree Spec_TreeR P_Real3 P_Net P_Tree1 P_Tree2 P_Tree3 P_Tree4 P_Tree5 P_Tree6 P_Tree7 P_Tree8 P_Tree9 P_Tree10 P_Tree11 P_Tree12 P_Tree13 P_Tree14 Prop_Net2.
Open Scope nat_scope.

(* ==================================================================================== *)
(** C62.  A model saved after any history of training comes back identical (hence with the same log_prob and
    samples) when loaded into a new model built with the same sizes and any key, whatever else was in the
    directory and whatever is saved later under other names. *)
Theorem C62_realnvp_round_trip : forall (N : Num) (G : Rng) li logp sample grad n L h k k' lv0 like tx s0 ds lv s fs path (later : list (string * list leaf)),
  nvp_tree li n L h k = Ok lv0 -> nvp_tree li n L h k' = Ok like ->
  @training_run N G (tree_ops logp sample grad) tx lv0 s0 ds lv s ->
  (forall q m, In (q, m) later -> q <> path) ->
  load_model (fold_left (fun f qm => save_model f (fst qm) (snd qm)) later (save_model fs path lv)) path like = Ok lv.
Proof. intros N G li logp sample grad. exact (nvp_run_load li logp sample grad). Qed.
Theorem C62_rqspline_round_trip : forall (N : Num) (G : Rng) li logp sample grad n L bins hidden lo hi lo' hi' k k' lv0 like tx s0 ds lv s fs path (later : list (string * list leaf)),
  rqs_tree li n L bins hidden lo hi k = Ok lv0 -> rqs_tree li n L bins hidden lo' hi' k' = Ok like ->
  @training_run N G (tree_ops logp sample grad) tx lv0 s0 ds lv s ->
  (forall q m, In (q, m) later -> q <> path) ->
  load_model (fold_left (fun f qm => save_model f (fst qm) (snd qm)) later (save_model fs path lv)) path like = Ok lv.
Proof. intros N G li logp sample grad. exact (rqs_run_load li logp sample grad). Qed.
(** Loading a RealNVP file into a RealNVP of other sizes raises, and only then. *)
Theorem C62_realnvp_sizes : forall (N : Num) (G : Rng) li logp sample grad n L h k lv0 n' L' h' k' like tx s0 ds lv s fs path,
  nvp_tree li n' L' h' k' = Ok like -> nvp_tree li n L h k = Ok lv0 ->
  @training_run N G (tree_ops logp sample grad) tx lv0 s0 ds lv s ->
  ((exists r, load_model (save_model fs path lv) path like = Ok r) <-> n' = n /\ L' = L /\ h' = h).
Proof. intros N G li logp sample grad. exact (nvp_run_fit li logp sample grad). Qed.
(** For the spline model the sizes checked are the number of features, the number of layers, and the layer widths
    of the conditioner as far as the receiving model has them: a file of a deeper conditioner is accepted, and
    silently cut, when its widths continue those of the receiving model (number of bins included). *)
Theorem C62_rqspline_sizes : forall (N : Num) (G : Rng) li logp sample grad n L bins hidden lo hi k lv0 n' L' bins' hidden' lo' hi' k' like tx s0 ds lv s fs path,
  rqs_tree li n' L' bins' hidden' lo' hi' k' = Ok like -> rqs_tree li n L bins hidden lo hi k = Ok lv0 ->
  @training_run N G (tree_ops logp sample grad) tx lv0 s0 ds lv s ->
  ((exists r, load_model (save_model fs path lv) path like = Ok r) <->
   n' = n /\ L' = L /\ exists rest, hidden ++ [n * (bins * 3 + 1)] = hidden' ++ [n' * (bins' * 3 + 1)] ++ rest).
Proof. intros N G li logp sample grad. exact (rqs_run_fit li logp sample grad). Qed.
(** A file of one class never loads into a model of the other. *)
Theorem C62_classes : forall (N : Num) (G : Rng) li n L h k n' L' bins hidden lo hi k' nvp rqs fs path,
  nvp_tree li n L h k = Ok nvp -> rqs_tree li n' L' bins hidden lo hi k' = Ok rqs ->
  (~ exists r, load_model (save_model fs path rqs) path nvp = Ok r) /\
  (~ exists r, load_model (save_model fs path nvp) path rqs = Ok r).
Proof.
  intros N G li n L h k n' L' bins hidden lo hi k' nvp rqs fs path H1 H2.
  exact (conj (nvp_rqs_fit _ _ _ _ _ _ _ _ _ fs path (nvp_tree_skel li _ _ _ _ _ H1) (rqs_tree_skel li _ _ _ _ _ _ _ _ H2))
              (rqs_nvp_fit _ _ _ _ _ _ _ _ _ fs path (nvp_tree_skel li _ _ _ _ _ H1) (rqs_tree_skel li _ _ _ _ _ _ _ _ H2))).
Qed.
(** A path never saved to raises. *)
Theorem C62_missing : forall (N : Num) path (like : list leaf) (saved : list (string * list leaf)), (forall q m, In (q, m) saved -> q <> path) ->
  exists e, load_model (fold_left (fun f qm => save_model f (fst qm) (snd qm)) saved []) path like = Raise e.
Proof. exact @missing_proof. Qed.

(* ==================================================================================== *)
(** C63.  to_precision accepts exactly the four names, in any letter case, and raises ValueError otherwise; the
    model it returns has every array, and nothing else, converted, and computes the same flow and base
    distribution when the conversion is exact on its values. *)
Theorem C63_names : forall (N : Num) (round : dtype -> F -> F) (lv : list leaf) name,
  ((exists r, to_precision round lv name = Ok r) <-> exists t, In t ["float16"; "bfloat16"; "float32"; "float64"]%string /\ spelled name t) /\
  ((~ exists r, to_precision round lv name = Ok r) -> to_precision round lv name = Raise ValueError).
Proof. intros N round lv name. exact (conj (precision_names round lv name) (precision_raise round lv name)). Qed.
Theorem C63_arrays : forall (N : Num) (round : dtype -> F -> F) (lv lv' : list leaf) name, to_precision round lv name = Ok lv' ->
  length lv' = length lv /\
  exists t d, In (t, d) [("float16", DFloat16); ("bfloat16", DBFloat16); ("float32", DFloat32); ("float64", DFloat64)]%string /\ spelled name t /\
  forall i, lv_at lv' i = match lv_at lv i with LArr _ sh v => LArr d sh (map (round d) v) | l => l end.
Proof. exact @precision_leaves. Qed.
Theorem C63_same_model : forall (N : Num) (G : Rng) (round : dtype -> F -> F) chol (lv lv' : list leaf) name, to_precision round lv name = Ok lv' ->
  (forall d l x, In l lv -> In x (leaf_vals l) -> round d x = x) ->
  tree_base chol lv' = tree_base chol lv /\
  (forall L h, nvp_flow L h lv' = nvp_flow L h lv) /\ (forall L bins hidden, rqs_flow L bins hidden lv' = rqs_flow L bins hidden lv).
Proof.
  intros N G round chol lv lv' name E H. pose proof (precision_same round lv name lv' E H) as S0.
  exact (conj (sv_base chol lv lv' S0) (conj (fun L h => sv_nvp L h lv lv' S0) (fun L bins hidden => sv_rqs L bins hidden lv lv' S0))).
Qed.
(** But the spline model's masks are boolean arrays: to_precision, even to the precision the model already has,
    makes them floating-point parameters, and training then shrinks their entries 1 (compare C64_spline_masks). *)
Theorem C63_masks_become_parameters : forall (G : @Rng RNum) li (logp : list (@leaf RNum) -> list R -> R) (sample : list (@leaf RNum) -> key -> nat -> list (list R)) grad (round : dtype -> R -> R)
    n L bins hidden (lo hi : R) k name lv0 lv1 (lr momentum : R) ds lv s,
  rqs_tree li n L bins hidden lo hi k = Ok lv0 -> spelled name "float32"%string -> @to_precision RNum round lv0 name = Ok lv1 -> (forall x, round DFloat32 x = x) ->
  (0 < lr < 10000)%R -> @stopped RNum lv1 grad 9 ->
  @training_run RNum G (tree_ops logp sample grad) (@optimizer_new RNum lr momentum) lv1 (tree_optimizer_init lv1) ds lv s ->
  exists T, (lv = lv1 \/ 1 <= T) /\
  forall i j, i < L -> j < n -> @nth R j (row_at n (lv_at lv 9) i) 0%R = (@nth R j (@rqs_mask RNum n i) 0 * (1 - lr * (1 / 10000)) ^ T)%R.
Proof.
  intros G li logp sample grad round n L bins hidden lo hi k name lv0 lv1 lr momentum ds lv s H1 H2.
  exact (float32_masks li logp sample grad round n L bins hidden lo hi k name lv0 lv1 lr momentum ds lv s H1 (proj2 (lower_spelled name "float32" eq_refl) H2)).
Qed.

(* ==================================================================================== *)
(** C64.  The tree of leaves a constructor builds computes the flow of C54 ... *)
Theorem C64_realnvp_tree : forall (N : Num) (G : Rng) li, linear_law li -> bias_law li -> normal_shape -> forall n L h k lv,
  nvp_tree li n L h k = Ok lv -> realnvp_new li n L h k = Ok (nvp_flow L h lv).
Proof. exact @nvp_flow_new. Qed.
Theorem C64_rqspline_tree : forall (N : Num) (G : Rng) li, linear_law li -> bias_law li -> normal_shape -> forall n L bins hidden lo hi k lv,
  rqs_tree li n L bins hidden lo hi k = Ok lv -> rqs_new li n L bins hidden lo hi k = Ok (rqs_flow L bins hidden lv).
Proof. exact @rqs_flow_new. Qed.
(** ... and no history of training changes anything but the values of floating-point arrays: shapes, dtypes,
    boolean arrays, numbers of features and bins, spline intervals and minima are those of the constructor. *)
Theorem C64_realnvp_frame : forall (N : Num) (G : Rng) li logp sample grad n L h k lv0 tx s0 ds lv s,
  nvp_tree li n L h k = Ok lv0 -> @training_run N G (tree_ops logp sample grad) tx lv0 s0 ds lv s -> only_floats_differ lv0 lv.
Proof. intros N G li logp sample grad n L h k lv0 tx s0 ds lv s H. exact (run_ofd logp sample grad n tx lv0 s0 ds lv s (nvp_stats li n L h k lv0 H)). Qed.
Theorem C64_rqspline_frame : forall (N : Num) (G : Rng) li logp sample grad n L bins hidden lo hi k lv0 tx s0 ds lv s,
  rqs_tree li n L bins hidden lo hi k = Ok lv0 -> @training_run N G (tree_ops logp sample grad) tx lv0 s0 ds lv s -> only_floats_differ lv0 lv.
Proof. intros N G li logp sample grad n L bins hidden lo hi k lv0 tx s0 ds lv s H. exact (run_ofd logp sample grad n tx lv0 s0 ds lv s (rqs_stats li n L bins hidden lo hi k lv0 H)). Qed.
(** A new model's base distribution is marked as not learnable (its mean and covariance are read through stop_gradient, the
    condition [stopped] of these theorems), and no history of training changes that mark or the number of features. *)
Theorem C64_base_mark : forall (N : Num) (G : Rng) li logp sample grad n lv0 tx s0 ds lv s,
  (exists L h k, nvp_tree li n L h k = Ok lv0) \/ (exists L bins hidden lo hi k, rqs_tree li n L bins hidden lo hi k = Ok lv0) ->
  @training_run N G (tree_ops logp sample grad) tx lv0 s0 ds lv s -> lv_at lv 5 = LBool false /\ lv_at lv 0 = LInt (Z.of_nat n).
Proof.
  intros N G li logp sample grad n lv0 tx s0 ds lv s H R.
  assert (O : only_floats_differ lv0 lv).
  { destruct H as [(L & h & k & H)|(L & bins & hidden & lo & hi & k & H)].
    - exact (run_ofd logp sample grad n tx lv0 s0 ds lv s (nvp_stats li n L h k lv0 H) R).
    - exact (run_ofd logp sample grad n tx lv0 s0 ds lv s (rqs_stats li n L bins hidden lo hi k lv0 H) R). }
  assert (E : exists r, lv0 = header_leaves n ++ r).
  { destruct H as [(L & h & k & H)|(L & bins & hidden & lo & hi & k & H)]; unfold nvp_tree, rqs_tree in H; destruct (per_layer _ _ _); cbn [rbind] in H; try discriminate; injection H as <-; eexists; reflexivity. }
  destruct E as (r & ->). split; [exact (proj2 O 5)|exact (proj2 O 0)].
Qed.
(** The masks of a spline model survive training ... *)
Theorem C64_spline_masks : forall (N : Num) (G : Rng) li, linear_law li -> bias_law li -> normal_shape -> forall logp sample grad n L bins hidden lo hi k lv0 tx s0 ds lv s,
  rqs_tree li n L bins hidden lo hi k = Ok lv0 -> @training_run N G (tree_ops logp sample grad) tx lv0 s0 ds lv s ->
  forall i, i < L -> row_at n (lv_at lv 9) i = rqs_mask n i /\ row_at n (lv_at lv 6) i = repeat f0 n.
Proof. exact @masks_kept. Qed.
(** ... those of a RealNVP do not: after T steps the entries 1 are (1 - lr/10000)^T. *)
Theorem C64_realnvp_masks : forall (G : @Rng RNum) li n L h k lv0, nvp_tree li n L h k = Ok lv0 ->
  forall (logp : list (@leaf RNum) -> list R -> R) (sample : list (@leaf RNum) -> key -> nat -> list (list R)) grad (lr momentum : R) ds lv s,
  @training_run RNum G (tree_ops logp sample grad) (@optimizer_new RNum lr momentum) lv0 (tree_optimizer_init lv0) ds lv s ->
  @stopped RNum lv0 grad 6 ->
  exists T, (lv = lv0 \/ 1 <= T) /\
  forall i j, i < L -> j < n -> @nth R j (row_at n (lv_at lv 6) i) 0%R = (@nth R j (@realnvp_mask RNum n i) 0 * (1 - lr * (1 / 10000)) ^ T)%R.
Proof. exact @nvp_masks. Qed.
(** The data statistics of the returned model are those of one of the data sets it was trained on, shrunk
    (or those it had before, if no epoch reached a loss below 1e9). *)
Theorem C64_statistics : forall (G : @Rng RNum) li (logp : list (@leaf RNum) -> list R -> R) (sample : list (@leaf RNum) -> key -> nat -> list (list R)) grad
    lv0 n (lr momentum : R) ds lv s,
  (exists L h k, nvp_tree li n L h k = Ok lv0) \/ (exists L bins hidden (lo hi : R) k, rqs_tree li n L bins hidden lo hi k = Ok lv0) ->
  @training_run RNum G (tree_ops logp sample grad) (@optimizer_new RNum lr momentum) lv0 (tree_optimizer_init lv0) ds lv s ->
  @stopped RNum lv0 grad 1 -> @stopped RNum lv0 grad 2 ->
  (lv = lv0 \/ exists T data, 1 <= T /\ In data ds /\ lv_at lv 1 = LArr DFloat32 [n] (map (fun v => v * (1 - lr * (1 / 10000)) ^ T)%R (@data_mean RNum n data))) /\
  (lv = lv0 \/ exists T data, 1 <= T /\ In data ds /\ lv_at lv 2 = LArr DFloat32 [n; n] (map (fun v => v * (1 - lr * (1 / 10000)) ^ T)%R (concat (@data_cov RNum n data)))).
Proof. exact @stats_run. Qed.

(* ==================================================================================== *)
(** C65.  A spline model, after any history of training on data sets without constant coordinates, reports the
    log-determinant of its Jacobian at every point, and its log_prob is, up to the constant of C32, the logarithm
    of the density of points whose latent image follows its base distribution. *)
Theorem C65_log_prob : forall (G : @Rng RNum) li, linear_law li -> bias_law li -> normal_shape ->
  forall (chol : list (list R) -> list (list R)) n L bins hidden (lo hi : R) k lv0, rqs_tree li n L bins hidden lo hi k = Ok lv0 ->
  forall grad (lr momentum : R) ds lv s, (0 < lr < 10000)%R ->
  @training_run RNum G (tree_ops (rqs_tree_logp chol L bins hidden) (rqs_tree_sample chol L bins hidden) grad)
    (@optimizer_new RNum lr momentum) lv0 (tree_optimizer_init lv0) ds lv s ->
  forall x : list R, 0 < n -> 1 <= bins -> (INR bins / 10000 < hi - lo)%R ->
  @stopped RNum lv0 grad 2 -> (forall data, In data ds -> spread n data) -> length x = n ->
  let m := rqs_flow L bins hidden lv in
  reports_logdet n (flow_fwd (fl_layers m)) x /\
  exists d, (0 < d)%R /\ density_through n (latent m) (fun y => exp (ds_logp (@tree_base RNum G chol lv) y)) x d /\
    rqs_tree_logp chol L bins hidden lv x = (ln d + Rsum n (fun i => ln (sqrt (nth i (fl_var m) 0))))%R.
Proof. exact @spline_exact. Qed.
(** That base distribution is no longer the standard normal: its covariance has shrunk to (1 - lr/10000)^T times
    the identity, and samples are standard normal rows scaled accordingly, sent through the flow. *)
Theorem C65_base : forall (G : @Rng RNum), normal_shape -> forall (chol : list (list R) -> list (list R)), chol_law chol ->
  forall li n L bins hidden (lo hi : R) k lv0 grad (lr momentum : R) ds lv s,
  rqs_tree li n L bins hidden lo hi k = Ok lv0 -> (0 < lr < 10000)%R ->
  @training_run RNum G (tree_ops (rqs_tree_logp chol L bins hidden) (rqs_tree_sample chol L bins hidden) grad)
    (@optimizer_new RNum lr momentum) lv0 (tree_optimizer_init lv0) ds lv s ->
  @stopped RNum lv0 grad 3 -> @stopped RNum lv0 grad 4 ->
  exists T, (lv = lv0 \/ 1 <= T) /\
  (forall y : list R, length y = n ->
    ds_logp (@tree_base RNum G chol lv) y = ln (gauss_density n (fun _ => 0%R) (fun _ => sqrt ((1 - lr * (1 / 10000)) ^ T)) y)) /\
  (forall k ns, rqs_tree_sample chol L bins hidden lv k ns =
    flow_sample (rqs_flow L bins hidden lv) (map (map (Rmult (sqrt ((1 - lr * (1 / 10000)) ^ T)))) (reshape_rows ns n (normal k (ns * n))))).
Proof. exact @rqs_draws. Qed.
(** The same for a RealNVP, whose log_prob ignores the base distribution and uses the standard normal (C53). *)
Theorem C65_realnvp_base : forall (G : @Rng RNum), normal_shape -> forall (chol : list (list R) -> list (list R)), chol_law chol ->
  forall li n L h k lv0 grad (lr momentum : R) ds lv s,
  nvp_tree li n L h k = Ok lv0 -> (0 < lr < 10000)%R ->
  @training_run RNum G (tree_ops (nvp_logp L h) (nvp_sample chol L h) grad)
    (@optimizer_new RNum lr momentum) lv0 (tree_optimizer_init lv0) ds lv s ->
  @stopped RNum lv0 grad 3 -> @stopped RNum lv0 grad 4 ->
  exists T, (lv = lv0 \/ 1 <= T) /\
  (forall y : list R, length y = n ->
    ds_logp (@tree_base RNum G chol lv) y = ln (gauss_density n (fun _ => 0%R) (fun _ => sqrt ((1 - lr * (1 / 10000)) ^ T)) y)) /\
  (forall k ns, nvp_sample chol L h lv k ns =
    flow_sample (nvp_flow L h lv) (map (map (Rmult (sqrt ((1 - lr * (1 / 10000)) ^ T)))) (reshape_rows ns n (normal k (ns * n))))).
Proof. exact @nvp_draws. Qed.

(* ==================================================================================== *)
(** Concrete cases. *)
Definition zero_grad (lv : list (@leaf RNum)) (xs : list (list R)) : list R := repeat 0%R (length (ravel lv)).
Example C65_hypotheses : @bias_law RNum RRng toy_linear /\ (forall lv0 i, @stopped RNum lv0 zero_grad i) /\
  spread 2 ([[0; 1]; [2; 5]])%R /\ (INR 8 / 10000 < 10 - -10)%R /\
  exists lv0, rqs_tree toy_linear 2 3 8 [4] (-10)%R 10%R true = Ok lv0 /\
  forall (logp : list (@leaf RNum) -> list R -> R) (sample : list (@leaf RNum) -> @key RNum RRng -> nat -> list (list R)),
  exists lv s, @training_run RNum RRng (tree_ops logp sample zero_grad) (@optimizer_new RNum (1 / 1000)%R (9 / 10)%R) lv0 (tree_optimizer_init lv0) [([[0; 1]; [2; 5]])%R] lv s.
Proof.
  split; [intros a b k; eexists; reflexivity|]. split; [intros lv0 i lv xs j _ _; exact (zeros_nth _ j)|]. split; [|split].
  - split; [cbn; lia|]. intros j Hj. exists 0, 1. split; [cbn; lia|split; [cbn; lia|]]. destruct j as [|[|j]]; cbn; [lra|lra|lia].
  - cbn. lra.
  - destruct (rqs_tree_ok toy_linear 2 3 8 [4] (-10)%R 10%R true) as [lv0 E]. exists lv0. split; [exact E|]. intros logp sample.
    destruct (@train_total RNum RRng (tree_ops logp sample zero_grad) lv0 true ([[0; 1]; [2; 5]])%R (@optimizer_new RNum (1 / 1000)%R (9 / 10)%R) (tree_optimizer_init lv0) 3 2) as (kf & m & s & ls & T); [lia|].
    exists m, s. exact (run_more _ _ _ [] _ _ _ _ _ _ _ _ _ _ (run_none _ _ _) T).
Qed.
(** C65_base applies to that training call: the base covariance decays. *)
Example C65_base_case : exists chol lv0, chol_law chol /\ rqs_tree toy_linear 2 3 8 [4] (-10)%R 10%R true = Ok lv0 /\
  exists lv s T, @training_run RNum RRng (tree_ops (@rqs_tree_logp RNum RRng chol 3 8 [4]) (@rqs_tree_sample RNum RRng chol 3 8 [4]) zero_grad) (@optimizer_new RNum (1 / 1000)%R (9 / 10)%R) lv0 (tree_optimizer_init lv0) [([[0; 1]; [2; 5]])%R] lv s /\
  forall y : list R, length y = 2 -> ds_logp (@tree_base RNum RRng chol lv) y = ln (gauss_density 2 (fun _ => 0%R) (fun _ => sqrt ((1 - 1 / 1000 * (1 / 10000)) ^ T)) y).
Proof.
  destruct chol_exists as [chol Hc]. destruct C65_hypotheses as (_ & Hs & _ & _ & lv0 & E & H).
  destruct (H (@rqs_tree_logp RNum RRng chol 3 8 [4]) (@rqs_tree_sample RNum RRng chol 3 8 [4])) as (lv & s & Hr). exists chol, lv0. split; [exact Hc|]. split; [exact E|].
  destruct (C65_base RRng (proj2 (proj2 C54_laws)) chol Hc toy_linear 2 3 8 [4] (-10)%R 10%R true lv0 zero_grad (1 / 1000)%R (9 / 10)%R _ lv s E ltac:(lra) Hr (Hs lv0 3) (Hs lv0 4)) as (T & _ & B & _).
  exists lv, s, T. split; [exact Hr|exact B].
Qed.
(** A training call that does change the masks. *)
Example C64_masks_case : exists lv0, nvp_tree toy_linear 2 2 1 true = Ok lv0 /\ exists lv s,
  @training_run RNum RRng (tree_ops (fun _ _ => 0%R) (fun _ (_ : @key RNum RRng) _ => []) zero_grad) (@optimizer_new RNum (1 / 1000)%R (9 / 10)%R) lv0 (tree_optimizer_init lv0) [([[0; 1]; [2; 5]])%R] lv s /\
  (@nth R 0 (row_at 2 (lv_at lv 6) 0) 0 < 1)%R /\ @nth R 0 (@realnvp_mask RNum 2 0) 0%R = 1%R.
Proof. exact (masks_case toy_linear zero_grad (fun lv0 i lv xs j _ _ => zeros_nth _ j)). Qed.
(** A spline file with one more hidden layer, of the width of the receiver's output layer, is accepted. *)
Example C62_cut : exists like lv, rqs_tree toy_linear 1 1 2 [3] (-10)%R 10%R true = Ok like /\ rqs_tree toy_linear 1 1 5 [3; 7] (-10)%R 10%R true = Ok lv /\
  exists r, load_model (save_model [] "m" lv) "m" like = Ok r.
Proof.
  destruct (rqs_tree_ok toy_linear 1 1 2 [3] (-10)%R 10%R true) as [like E1]. destruct (rqs_tree_ok toy_linear 1 1 5 [3; 7] (-10)%R 10%R true) as [lv E2].
  exists like, lv. split; [exact E1|split; [exact E2|]].
  apply (C62_rqspline_sizes RNum RRng toy_linear (fun _ _ => 0%R) (fun _ _ _ => []) zero_grad 1 1 5 [3; 7] (-10)%R 10%R true lv 1 1 2 [3] (-10)%R 10%R true like (@optimizer_new RNum 1%R 1%R) (tree_optimizer_init lv) [] lv (tree_optimizer_init lv) [] "m" E1 E2).
  - apply run_none.
  - repeat split. exists [16]. reflexivity.
Qed.
Example C63_case : exists lv lv', nvp_tree toy_linear 2 1 1 true = Ok lv /\ @to_precision RNum (fun _ x => x) lv "BFloat16" = Ok lv' /\ lv_at lv' 1 = LArr DBFloat16 [2] ([0; 0])%R /\
  @to_precision RNum (fun _ x => x) lv "int8" = Raise ValueError.
Proof.
  destruct (nvp_tree_ok toy_linear 2 1 1 true) as [lv E]. exists lv. unfold nvp_tree in E. cbn in E. injection E as E. subst lv. eexists. repeat split; reflexivity.
Qed.
Print Assumptions C62_realnvp_round_trip.
Print Assumptions C62_rqspline_round_trip.
Print Assumptions C62_realnvp_sizes.
Print Assumptions C62_rqspline_sizes.
Print Assumptions C62_classes.
Print Assumptions C62_missing.
Print Assumptions C63_names.
Print Assumptions C63_arrays.
Print Assumptions C63_same_model.
Print Assumptions C63_masks_become_parameters.
Print Assumptions C64_realnvp_tree.
Print Assumptions C64_rqspline_tree.
Print Assumptions C64_realnvp_frame.
Print Assumptions C64_rqspline_frame.
Print Assumptions C64_spline_masks.
Print Assumptions C64_realnvp_masks.
Print Assumptions C64_statistics.
Print Assumptions C65_log_prob.
Print Assumptions C65_base.
Print Assumptions C65_realnvp_base.
Print Assumptions C64_base_mark.
