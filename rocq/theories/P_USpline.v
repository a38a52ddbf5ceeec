(** The spline flow in other units. *)
From Coq Require Import Reals Psatz.
From Verif Require Import Prelude Num M_Core M_Kernels M_Strategies M_PT M_Bundle M_Flow M_Net M_Model M_Tree M_Spline P_Lists RNum
  Spec Spec_Core Spec_Sampler Spec_Steps Spec_Train Spec_PT Spec_Bundle Spec_Kernels Spec_Prog Spec_Real Spec_HMC Spec_Net Spec_Tree Spec_Run P_Real1 P_Tree1 P_Tree2 P_Tree3 P_Run1 P_Run2 P_Decay Spec_Units P_Units1 P_Units2 Spec_URun P_URun1 Spec_USpline.
Open Scope nat_scope.

(* ------------------------------------------------------------------ the optimiser step *)
Lemma step_state (a : @adamw RNum) (g p p' : list R) s : length p' = length p -> snd (adamw_step a g p' s) = snd (adamw_step a g p s).
Proof. intros E. unfold adamw_step. cbn [snd]. rnorm. rewrite E, !map_map. reflexivity. Qed.
Lemma step_nth (a : @adamw RNum) (g p : list R) s j : j < length p ->
  @nth R j (fst (adamw_step a g p s)) 0%R = fst (fst (adamw_coord a (S (as_count s)) (@nth R j (clip_norm g) 0%R) (nth j p 0%R) (@nth R j (as_mu s) 0%R) (@nth R j (as_nu s) 0%R))).
Proof.
  intros Hj. unfold adamw_step. cbn [fst]. rewrite map_map.
  exact (nth_map_seq (fun i => fst (fst (adamw_coord a (S (as_count s)) (@nth R i (clip_norm g) 0%R) (nth i p 0%R) (@nth R i (as_mu s) 0%R) (@nth R i (as_nu s) 0%R)))) (length p) j 0%R Hj).
Qed.
Lemma step_same (a : @adamw RNum) (g p p' : list R) s j : length p' = length p -> nth j p' 0%R = nth j p 0%R ->
  @nth R j (fst (adamw_step a g p' s)) 0%R = @nth R j (fst (adamw_step a g p s)) 0%R.
Proof.
  intros L E. destruct (le_lt_dec (length p) j) as [Hj|Hj].
  - rewrite !nth_overflow; auto; pose proof (adamw_step_len a g p s); pose proof (adamw_step_len a g p' s); rnorm; lia.
  - rewrite !step_nth by (rnorm; lia). rnorm. now rewrite E.
Qed.
Lemma firstn_nth {A} (l : list A) d : forall k i, i < k -> nth i (firstn k l) d = nth i l d.
Proof. induction l as [|x l IH]; intros [|k] [|i] H; cbn; auto; try lia. apply IH. lia. Qed.
Lemma skipn_nth {A} (l : list A) d : forall k i, nth i (skipn k l) d = nth (k + i) l d.
Proof. induction l as [|x l IH]; intros [|k] i; cbn; auto. destruct i; reflexivity. Qed.

Section USpline.
Context {G : @Rng RNum}.
Variable li : nat -> nat -> key -> bool -> @linear RNum.
Variable chol : list (list R) -> list (list R).
Variable grad : list (@leaf RNum) -> list (list R) -> list R.
Variable a : @args RNum G.
Variable sc : nat -> R.
Variable lv0 : list (@leaf RNum).
Notation n := (a_n_dims a).
Notation iu := (in_units n sc (fun _ => 0%R)).
Notation fl := (rqs_flow (a_layers a) (a_bins a) (a_hidden a)).
Notation NFO := (@spline_ops RNum G chol grad a).
Hypothesis Hsc : forall i, i < n -> (0 < sc i)%R.
Hypothesis HG : gradient_through_whitening n fl grad.
Hypothesis HC : @chol_shape RNum chol.
Hypothesis HN : @normal_shape RNum G.
Hypothesis H0 : rqs_tree li n (a_layers a) (a_bins a) (a_hidden a) (fofZ (-10)) (fofZ 10) (split (a_key a) 2 1) = Ok lv0.

Definition pre (lv lv' : list (@leaf RNum)) : Prop := same_but_stats n lv lv' /\ only_floats_differ lv0 lv /\ only_floats_differ lv0 lv'.
Definition conv (lv lv' : list (@leaf RNum)) : Prop := stats_in_units n sc lv lv' /\ only_floats_differ lv0 lv /\ only_floats_differ lv0 lv'.
Definition okst (st : @adamw_state RNum) : Prop := forall j, j < n + n * n -> @nth R j (as_mu st) 0%R = 0%R /\ @nth R j (as_nu st) 0%R = 0%R.

Lemma sbs_flow lv lv' : same_but_stats n lv lv' ->
  fl_layers (fl lv') = fl_layers (fl lv) /\ tree_base chol lv' = tree_base chol lv /\ tree_n lv = n /\ tree_n lv' = n.
Proof. intros (z & rest & m & v & m' & v' & Hz & _ & _ & _ & _ & -> & ->). repeat split; try reflexivity; exact Hz. Qed.

Lemma var_nth (v : list R) i : i < n -> length v = n * n -> @nth R i (diag (@matrix_of RNum n (LArr DFloat32 [n; n] v))) 0%R = nth (i * n + i) v 0%R.
Proof.
  intros Hi L. unfold diag, matrix_of. cbn [leaf_vals].
  assert (LR : length (@reshape_rows R n n v) = n) by (unfold reshape_rows; now rewrite map_length, seq_length).
  etransitivity; [refine (nth_map_seq (fun i => @nth R i (nth i (@reshape_rows R n n v) []) 0%R) _ i 0%R _); rnorm; rewrite LR; exact Hi|].
  rewrite nth_reshape_rows by exact Hi. unfold slice. replace (i * n + n - i * n) with n by lia.
  rewrite firstn_nth by exact Hi. apply skipn_nth.
Qed.
Lemma flow_parts z (m v : list R) rest : Z.to_nat z = n ->
  fl_mean (fl (LInt z :: @LArr RNum DFloat32 [n] m :: @LArr RNum DFloat32 [n; n] v :: rest)) = m /\
  fl_var (fl (LInt z :: @LArr RNum DFloat32 [n] m :: @LArr RNum DFloat32 [n; n] v :: rest)) = diag (@matrix_of RNum n (LArr DFloat32 [n; n] v)).
Proof. intros E. split; [reflexivity|]. change (diag (@matrix_of RNum (Z.to_nat z) (LArr DFloat32 [n; n] v)) = diag (@matrix_of RNum n (LArr DFloat32 [n; n] v))). now rewrite E. Qed.
Lemma diag_len (v : list R) : length (diag (@matrix_of RNum n (LArr DFloat32 [n; n] v))) = n.
Proof. unfold diag, matrix_of, reshape_rows. now rewrite map_length, seq_length, map_length, seq_length. Qed.

(* what the statistics are *)
Lemma stats_parts lv lv' : stats_in_units n sc lv lv' ->
  length (fl_mean (fl lv)) = n /\ length (fl_mean (fl lv')) = n /\ length (fl_std (fl lv)) = n /\ length (fl_std (fl lv')) = n /\
  forall i, i < n -> @nth R i (fl_mean (fl lv')) 0%R = (sc i * @nth R i (fl_mean (fl lv)) 0)%R /\ @nth R i (fl_std (fl lv')) 0%R = (sc i * @nth R i (fl_std (fl lv)) 0)%R.
Proof.
  intros ((z & rest & m & v & m' & v' & Hz & Lm & Lm' & Lv & Lv' & -> & ->) & HM & HV). cbn [lv_at nth leaf_vals] in HM, HV.
  destruct (flow_parts z m v rest Hz) as [E1 E2], (flow_parts z m' v' rest Hz) as [E1' E2'].
  unfold fl_std. rewrite E1, E2, E1', E2'. rewrite !map_length, !diag_len. repeat (split; [assumption||reflexivity|]).
  intros i Hi. split; [exact (HM i Hi)|].
  rewrite !(mapR sqrt) by (rewrite diag_len; exact Hi). rewrite !var_nth by assumption. rnorm. rewrite (HV i i Hi Hi).
  pose proof (Hsc i Hi) as P. rewrite sqrt_mult_alt by nra. rewrite sqrt_square by lra. reflexivity.
Qed.
Lemma whiten_eq lv lv' x x' : stats_in_units n sc lv lv' -> iu x x' -> whiten (fl lv') x' = whiten (fl lv) x.
Proof.
  intros H (L & L' & X). destruct (stats_parts lv lv' H) as (A & A' & B & B' & E). unfold whiten, vsub. rnorm.
  apply (list_eq_nth 0%R); rnorm.
  - rewrite !map2_length. rnorm. lia.
  - intros i Hi. rewrite !map2_length in Hi. rnorm. assert (Hn : i < n) by lia. destruct (E i Hn) as [E1 E2]. pose proof (Hsc i Hn) as P.
    etransitivity; [refine (nth_map2 Rdiv _ _ i 0%R 0%R 0%R _ _); rewrite ?map2_length; rnorm; lia|].
    symmetry. etransitivity; [refine (nth_map2 Rdiv _ _ i 0%R 0%R 0%R _ _); rewrite ?map2_length; rnorm; lia|]. symmetry.
    assert (F1 : @nth R i (map2 (@fsub RNum) x' (fl_mean (fl lv'))) 0%R = (nth i x' 0 - @nth R i (fl_mean (fl lv')) 0)%R) by (refine (nth_map2 Rminus _ _ i 0%R 0%R 0%R _ _); rnorm; lia).
    assert (F2 : @nth R i (map2 (@fsub RNum) x (fl_mean (fl lv))) 0%R = (nth i x 0 - @nth R i (fl_mean (fl lv)) 0)%R) by (refine (nth_map2 Rminus _ _ i 0%R 0%R 0%R _ _); rnorm; lia).
    rnorm. rewrite F1, F2, E1, E2, (X i Hn).
    set (s := @nth R i (fl_std (fl lv)) 0%R). set (mu := @nth R i (fl_mean (fl lv)) 0%R). rnorm. fold s.
    unfold Rdiv. rewrite Rinv_mult, <- Rmult_assoc. f_equal. field. lra.
Qed.
Lemma logp_eq lv lv' x x' : stats_in_units n sc lv lv' -> iu x x' -> rqs_tree_logp chol (a_layers a) (a_bins a) (a_hidden a) lv' x' = rqs_tree_logp chol (a_layers a) (a_bins a) (a_hidden a) lv x.
Proof.
  intros H X. unfold rqs_tree_logp, rqs_log_prob. rewrite (whiten_eq lv lv' x x' H X). destruct (sbs_flow lv lv' (proj1 H)) as (-> & -> & _). reflexivity.
Qed.
Lemma loss_eq lv lv' xs xs' : stats_in_units n sc lv lv' -> Forall2 iu xs xs' ->
  nf_loss (rqs_tree_logp chol (a_layers a) (a_bins a) (a_hidden a) lv') xs' = nf_loss (rqs_tree_logp chol (a_layers a) (a_bins a) (a_hidden a) lv) xs.
Proof.
  intros H X. unfold nf_loss. f_equal. f_equal. induction X as [|x x' xs xs' X1 X IH]; [reflexivity|]. cbn [map]. now rewrite IH, (logp_eq lv lv' x x' H X1).
Qed.
Lemma unwhiten_units lv lv' z : stats_in_units n sc lv lv' -> length (unwhiten (fl lv) z) = n -> iu (unwhiten (fl lv) z) (unwhiten (fl lv') z).
Proof.
  intros H L. destruct (stats_parts lv lv' H) as (A & A' & B & B' & E). unfold unwhiten, vadd, vmul in * . rewrite !map2_length in L.
  split; [now rewrite !map2_length|]. split; [rewrite !map2_length; rnorm; lia|]. intros i Hi. destruct (E i Hi) as [E1 E2]. rnorm.
  assert (K : forall w : list (@leaf RNum), length (fl_mean (fl w)) = n -> length (fl_std (fl w)) = n ->
    @nth R i (map2 Rplus (map2 Rmult z (fl_std (fl w))) (fl_mean (fl w))) 0%R = (nth i z 0 * @nth R i (fl_std (fl w)) 0 + @nth R i (fl_mean (fl w)) 0)%R).
  { intros w W1 W2. etransitivity; [refine (nth_map2 Rplus _ _ i 0%R 0%R 0%R _ _); rewrite ?map2_length; rnorm; lia|]. f_equal. refine (nth_map2 Rmult _ _ i 0%R 0%R 0%R _ _); rnorm; lia. }
  etransitivity; [exact (K lv' A' B')|]. rnorm. rewrite E1, E2. change (map2 (@fadd RNum) (map2 (@fmul RNum) z (fl_std (fl lv))) (fl_mean (fl lv))) with (map2 Rplus (map2 Rmult z (fl_std (fl lv))) (fl_mean (fl lv))).
  rewrite (K lv A B). match goal with |- @eq _ ?u ?v => change (@eq R u v) end. ring.
Qed.

(* ------------------------------------------------------------------ the data statistics *)
Lemma fsum_scaled (V : list R -> list R -> Prop) (f g : list R -> R) q xs xs' : Forall2 V xs xs' -> (forall x x', V x x' -> g x' = (q * f x)%R) ->
  @fsum RNum (map g xs') = (q * @fsum RNum (map f xs))%R.
Proof.
  intros X H. induction X as [|x x' xs xs' X1 X IH]; [cbn; ring|]. cbn [map]. change (g x' + @fsum RNum (map g xs') = q * (f x + @fsum RNum (map f xs)))%R.
  rewrite IH, (H x x' X1). ring.
Qed.
Lemma mean_units (data data' : list (list R)) i : Forall2 iu data data' -> i < n -> @nth R i (@data_mean RNum n data') 0%R = (sc i * @nth R i (@data_mean RNum n data) 0)%R.
Proof.
  intros X Hi. pose proof (f2_len _ _ _ X) as L. unfold data_mean. rewrite !(nth_map_seq (fun j => @fmean RNum (column _ j))) by exact Hi.
  unfold fmean, column. rewrite !map_length. change (@fofZ RNum) with IZR. change (@fdiv RNum) with Rdiv. rnorm. rewrite <- L.
  change (@fsum RNum (map (fun r : list R => nth i r 0%R) data') / IZR (Z.of_nat (length data)) = sc i * (@fsum RNum (map (fun r : list R => nth i r 0%R) data) / IZR (Z.of_nat (length data))))%R.
  rewrite (fsum_scaled iu (fun r => nth i r 0%R) (fun r => nth i r 0%R) (sc i) data data' X).
  - unfold Rdiv. ring.
  - intros x x' (_ & _ & E). rewrite (E i Hi). ring.
Qed.
Lemma cov_len (data : list (list R)) : length (concat (@data_cov RNum n data)) = n * n.
Proof.
  rewrite (concat_length_uniform _ n); [unfold data_cov; now rewrite map_length, seq_length|].
  intros r Hr. unfold data_cov in Hr. apply in_map_iff in Hr as (i & <- & _). now rewrite map_length, seq_length.
Qed.
Lemma cov_nth (data : list (list R)) i j : i < n -> j < n -> @nth R (i * n + j) (concat (@data_cov RNum n data)) 0%R =
  (@fsum RNum (map (fun r => (nth i r 0 - @nth R i (@data_mean RNum n data) 0) * (nth j r 0 - @nth R j (@data_mean RNum n data) 0)) data) / IZR (Z.of_nat (length data) - 1))%R.
Proof.
  intros Hi Hj. rewrite (nth_concat_uniform _ n i j).
  - unfold data_cov. rewrite (nth_map_seq _ n i []) by exact Hi. rewrite (nth_map_seq _ n j) by exact Hj. reflexivity.
  - apply Forall_forall. intros r Hr. unfold data_cov in Hr. apply in_map_iff in Hr as (u & <- & _). now rewrite map_length, seq_length.
  - exact Hj.
  - unfold data_cov. now rewrite map_length, seq_length.
Qed.
Lemma cov_units (data data' : list (list R)) i j : Forall2 iu data data' -> i < n -> j < n ->
  @nth R (i * n + j) (concat (@data_cov RNum n data')) 0%R = (sc i * sc j * @nth R (i * n + j) (concat (@data_cov RNum n data)) 0)%R.
Proof.
  intros X Hi Hj. pose proof (f2_len _ _ _ X) as L. rewrite !cov_nth by assumption. rnorm. rewrite <- L.
  set (mi := @nth R i (@data_mean RNum n data) 0%R). set (mj := @nth R j (@data_mean RNum n data) 0%R).
  assert (Ei : @nth R i (@data_mean RNum n data') 0%R = (sc i * mi)%R) by exact (mean_units data data' i X Hi).
  assert (Ej : @nth R j (@data_mean RNum n data') 0%R = (sc j * mj)%R) by exact (mean_units data data' j X Hj). rewrite Ei, Ej.
  rewrite (fsum_scaled iu (fun r => (nth i r 0 - mi) * (nth j r 0 - mj))%R (fun r => (nth i r 0 - sc i * mi) * (nth j r 0 - sc j * mj))%R (sc i * sc j)%R data data' X).
  - unfold Rdiv. ring.
  - intros x x' (_ & _ & E). rewrite (E i Hi), (E j Hj). ring.
Qed.

Lemma cl_class : @model_class RNum G NFO (only_floats_differ lv0) n.
Proof. exact (spline_class li chol grad a lv0 _ HC HN H0). Qed.

Lemma conv_stats lv lv' data data' : pre lv lv' -> Forall2 iu data data' -> conv (tree_set_stats lv data) (tree_set_stats lv' data').
Proof.
  intros (S & O & O') X. destruct (sbs_flow lv lv' S) as (_ & _ & T & T').
  destruct cl_class as (_ & K & _). split; [|split; [exact (K lv data O)|exact (K lv' data' O')]].
  destruct S as (z & rest & m & v & m' & v' & Hz & Lm & Lm' & Lv & Lv' & -> & ->).
  unfold tree_set_stats. rewrite T, T'. cbn [set_nth].
  split; [|cbn [lv_at nth leaf_vals]; split].
  - exists z, rest, (data_mean n data), (concat (data_cov n data)), (data_mean n data'), (concat (data_cov n data')).
    split; [exact Hz|]. split; [unfold data_mean; now rewrite map_length, seq_length|]. split; [unfold data_mean; now rewrite map_length, seq_length|].
    split; [apply cov_len|]. split; [apply cov_len|]. split; reflexivity.
  - intros i Hi. exact (mean_units data data' i X Hi).
  - intros i j Hi Hj. exact (cov_units data data' i j X Hi Hj).
Qed.

Lemma conv_flow lv lv' : conv lv lv' -> @flow_in_units G NFO n sc (fun _ => 0%R) lv lv'.
Proof.
  intros (S & O & O'). destruct cl_class as (K & _). split.
  - intros k s. destruct (K lv O k s) as [L1 L2]. split; [exact L1|].
    change (@m_sample RNum G NFO) with (@rqs_tree_sample RNum G chol (a_layers a) (a_bins a) (a_hidden a)) in * .
    unfold rqs_tree_sample, flow_sample in * . destruct (sbs_flow lv lv' (proj1 S)) as (E1 & E2 & _). rewrite E1, E2.
    revert L2. generalize (ds_sample (tree_base chol lv) k s). clear L1. intros zs L2. induction zs as [|z zs IH]; [constructor|]. cbn [map] in * .
    constructor; [|apply IH; intros r Hr; apply L2; right; exact Hr].
    apply unwhiten_units; [exact S|]. apply L2. left. reflexivity.
  - exists 0%R. intros x y X. rewrite Rminus_0_r. exact (logp_eq lv lv' x y S X).
Qed.

Lemma ravel3 z (m v : list R) rest : ravel (LInt z :: @LArr RNum DFloat32 [n] m :: @LArr RNum DFloat32 [n; n] v :: rest) = m ++ v ++ ravel rest.
Proof. reflexivity. Qed.
Lemma unravel3 z (m v p : list R) rest : length m = n -> length v = n * n ->
  unravel (LInt z :: @LArr RNum DFloat32 [n] m :: @LArr RNum DFloat32 [n; n] v :: rest) p =
  LInt z :: @LArr RNum DFloat32 [n] (firstn n p) :: @LArr RNum DFloat32 [n; n] (firstn (n * n) (skipn n p)) :: unravel rest (skipn (n * n) (skipn n p)).
Proof. intros Lm Lv. cbn [unravel trainable]. rnorm. rewrite Lm, Lv. reflexivity. Qed.
Lemma split3 (m v t : list R) j : length m = n -> length v = n * n ->
  (j < n -> nth j (m ++ v ++ t) 0%R = nth j m 0%R) /\ (j < n * n -> nth (n + j) (m ++ v ++ t) 0%R = nth j v 0%R) /\ nth (n + (n * n + j)) (m ++ v ++ t) 0%R = nth j t 0%R.
Proof.
  intros Lm Lv. split; [|split].
  - intros Hj. apply app_nth1. lia.
  - intros Hj. rewrite app_nth2 by lia. rewrite app_nth1 by lia. f_equal. lia.
  - rewrite app_nth2 by lia. rewrite app_nth2 by lia. f_equal. lia.
Qed.

Lemma conv_step lv lv' batch batch' tx st : conv lv lv' -> okst st -> Forall2 iu batch batch' ->
  let r := @m_step RNum G NFO lv batch tx st in let r' := @m_step RNum G NFO lv' batch' tx st in
  fst (fst r') = fst (fst r) /\ conv (snd (fst r)) (snd (fst r')) /\ snd r' = snd r /\ okst (snd r).
Proof.
  intros (S & O & O') Hst X. cbv zeta. destruct cl_class as (_ & _ & K). pose proof (K lv batch tx st O) as OK1. pose proof (K lv' batch' tx st O') as OK2. clear K.
  change (@m_step RNum G NFO) with (tree_train_step (rqs_tree_logp chol (a_layers a) (a_bins a) (a_hidden a)) grad) in * . unfold tree_train_step in * .
  destruct HG as [HZ HW].
  assert (EG : grad lv' batch' = grad lv batch).
  { apply HW; [exact (proj1 S)|]. revert X. clear -S Hsc. induction 1 as [|x x' xs xs' X1 X IH]; constructor; auto. apply whiten_eq; assumption. }
  rewrite EG in * .
  pose proof (loss_eq lv lv' batch batch' S X) as EL.
  specialize (HZ lv batch). set (g := grad lv batch) in * . clearbody g.
  destruct S as ((z & rest & m & v & m' & v' & Hz & Lm & Lm' & Lv & Lv' & -> & ->) & HM & HV). cbn [lv_at nth leaf_vals] in HM, HV.
  rewrite !ravel3 in * . set (t := ravel rest) in * .
  assert (LP : length (m' ++ v' ++ t) = length (m ++ v ++ t)) by (rewrite !app_length; rnorm; lia).
  assert (LB : n + n * n <= length (m ++ v ++ t)) by (rewrite !app_length; rnorm; lia).
  pose proof (step_state tx g (m ++ v ++ t) (m' ++ v' ++ t) st LP) as ES.
  assert (Z1 : forall j, j < n + n * n -> let o := adamw_step tx g (m ++ v ++ t) st in
    @nth R j (fst o) 0%R = (nth j (m ++ v ++ t) 0 * (1 - aw_lr tx * aw_decay tx))%R /\ @nth R j (as_mu (snd o)) 0%R = 0%R /\ @nth R j (as_nu (snd o)) 0%R = 0%R).
  { intros j Hj. destruct (Hst j Hj) as [U1 U2]. apply step_zero; auto. rnorm. lia. }
  assert (Z2 : forall j, j < n + n * n -> @nth R j (fst (adamw_step tx g (m' ++ v' ++ t) st)) 0%R = (nth j (m' ++ v' ++ t) 0 * (1 - aw_lr tx * aw_decay tx))%R).
  { intros j Hj. destruct (Hst j Hj) as [U1 U2]. apply step_zero; auto. rnorm. lia. }
  assert (Z3 : forall j, @nth R (n + (n * n + j)) (fst (adamw_step tx g (m' ++ v' ++ t) st)) 0%R = @nth R (n + (n * n + j)) (fst (adamw_step tx g (m ++ v ++ t) st)) 0%R).
  { intros j. apply step_same; [exact LP|]. destruct (split3 m v t j Lm Lv) as (_ & _ & E1), (split3 m' v' t j Lm' Lv') as (_ & _ & E2). rnorm. now rewrite E1, E2. }
  pose proof (adamw_step_len tx g (m ++ v ++ t) st) as L1. pose proof (adamw_step_len tx g (m' ++ v' ++ t) st) as L2.
  destruct (adamw_step tx g (m ++ v ++ t) st) as [p s] eqn:Ep. destruct (adamw_step tx g (m' ++ v' ++ t) st) as [p' s'] eqn:Ep'. cbn [fst snd] in * . rnorm.
  split; [exact EL|]. split; [|split; [exact ES|]].
  - split; [|split; [exact OK1|exact OK2]].
    rewrite !unravel3 by assumption.
    assert (ER : skipn (n * n) (skipn n p') = skipn (n * n) (skipn n p)).
    { apply (list_eq_nth 0%R); [rewrite !skipn_length; rnorm; lia|]. intros j _. rewrite !skipn_nth. exact (Z3 j). }
    rewrite ER. split; [|cbn [lv_at nth leaf_vals]; split].
    + exists z, (unravel rest (skipn (n * n) (skipn n p))), (firstn n p), (firstn (n * n) (skipn n p)), (firstn n p'), (firstn (n * n) (skipn n p')).
      split; [exact Hz|]. rewrite !firstn_length, !skipn_length. rnorm. repeat (split; [lia|]). split; reflexivity.
    + intros i Hi. rewrite !firstn_nth by exact Hi. rewrite (Z2 i ltac:(lia)). destruct (Z1 i ltac:(lia)) as (-> & _).
      destruct (split3 m v t i Lm Lv) as (E1 & _), (split3 m' v' t i Lm' Lv') as (E2 & _). rnorm. rewrite (E1 Hi), (E2 Hi), (HM i Hi). ring.
    + intros i j Hi Hj. assert (Hij : i * n + j < n * n) by nia. rewrite !firstn_nth by exact Hij. rewrite !skipn_nth. rewrite (Z2 (n + (i * n + j)) ltac:(lia)). destruct (Z1 (n + (i * n + j)) ltac:(lia)) as (-> & _).
      destruct (split3 m v t (i * n + j) Lm Lv) as (_ & E1 & _), (split3 m' v' t (i * n + j) Lm' Lv') as (_ & E2 & _). rnorm. rewrite (E1 Hij), (E2 Hij), (HV i j Hi Hj). ring.
  - intros j Hj. destruct (Z1 j Hj) as (_ & U1 & U2). split; assumption.
Qed.

Lemma spline_converts tx max : @flows_convert G NFO n sc (fun _ => 0%R) tx max okst pre conv.
Proof.
  constructor.
  - intros m m' ((S & _) & O & O'). split; [exact S|]. split; assumption.
  - exact conv_flow.
  - intros m m' data data' P _ X. exact (conv_stats m m' data data' P X).
  - intros m m' batch batch' st C Hs X. exact (conv_step m m' batch batch' tx st C Hs X).
Qed.
Lemma init_okst (lv : list (@leaf RNum)) : okst (tree_optimizer_init lv).
Proof. intros j _. exact (init_zero (ravel lv) j). Qed.
Lemma init_pre : pre lv0 lv0.
Proof.
  split; [|split; apply ofd_refl]. pose proof (rqs_stats li _ _ _ _ _ _ _ _ H0) as (E0 & v1 & v2 & E1 & L1 & E2 & L2).
  destruct (rqs_masks_len li _ _ _ _ _ _ _ _ H0) as (_ & _ & _).
  destruct lv0 as [|l0 [|l1 [|l2 rest]]]; try discriminate. unfold lv_at in E1, E2. cbn [nth] in E1, E2. subst l1 l2.
  assert (EZ : exists z, l0 = LInt z).
  { clear - H0. unfold rqs_tree in H0. destruct (per_layer _ _ _); [|discriminate]. injection H0 as H0 _. eexists. symmetry. exact H0. }
  destruct EZ as [z ->]. exists z, rest, v1, v2, v1, v2. split; [exact E0|]. repeat (split; [assumption|]). split; reflexivity.
Qed.
End USpline.
