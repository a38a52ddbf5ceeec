(** The spline flow after training on data measured from another origin. *)
From Coq Require Import Reals Psatz.
From Verif Require Import Prelude Num M_Core M_Kernels M_Strategies M_PT M_Bundle M_Flow M_Net M_Model M_Tree M_Spline P_Lists RNum
  Spec Spec_Core Spec_Sampler Spec_Steps Spec_Train Spec_PT Spec_Bundle Spec_Kernels Spec_Prog Spec_Real Spec_HMC Spec_Net Spec_FM Spec_Tree Spec_Run P_Real1 P_Tree1 P_Tree2 P_Tree3 P_Run1 P_Run2 P_Decay P_FM3
  Spec_Units P_Units1 P_Units2 Spec_URun P_URun1 Spec_USpline P_USpline Spec_UShift.
Open Scope nat_scope.

Section UShift.
Context {G : @Rng RNum}.
Variable li : nat -> nat -> key -> bool -> @linear RNum.
Variable chol : list (list R) -> list (list R).
Variable grad : list (@leaf RNum) -> list (list R) -> list R.
Variable a : @args RNum G.
Variable lv0 : list (@leaf RNum).
Notation n := (a_n_dims a).
Notation fl := (rqs_flow (a_layers a) (a_bins a) (a_hidden a)).
Notation NFO := (@spline_ops RNum G chol grad a).
Notation keep := (1 - a_lr a * (1 / 10000))%R.
Hypothesis HZ : forall lv xs j, j < n + n * n -> @nth R j (grad lv xs) 0%R = 0%R.
Hypothesis H0 : rqs_tree li n (a_layers a) (a_bins a) (a_hidden a) (fofZ (-10)) (fofZ 10) (split (a_key a) 2 1) = Ok lv0.

(** The leaves 1 and 2 are the numbers [mu] and [c] times [q]. *)
Definition stats_are (mu c : list R) (q : R) (lv : list (@leaf RNum)) : Prop :=
  exists z rest (m v : list R), Z.to_nat z = n /\ length m = n /\ length v = n * n /\
    lv = LInt z :: @LArr RNum DFloat32 [n] m :: @LArr RNum DFloat32 [n; n] v :: rest /\
    (forall i, i < n -> nth i m 0%R = (nth i mu 0 * q)%R) /\ (forall i, i < n * n -> nth i v 0%R = (nth i c 0 * q)%R).
Notation okst := (fun st : @adamw_state RNum => forall j, j < n + n * n -> @nth R j (as_mu st) 0%R = 0%R /\ @nth R j (as_nu st) 0%R = 0%R).

Lemma lr_eq : aw_lr (@spline_tx RNum G a) = a_lr a /\ aw_decay (@spline_tx RNum G a) = (1 / 10000)%R.
Proof. split; reflexivity. Qed.

Lemma shift_step mu c q lv batch st : stats_are mu c q lv -> okst st ->
  let r := @m_step RNum G NFO lv batch (spline_tx a) st in stats_are mu c (q * keep) (snd (fst r)) /\ okst (snd r).
Proof.
  intros (z & rest & m & v & Hz & Lm & Lv & -> & HM & HV) Hst. cbv zeta.
  change (@m_step RNum G NFO) with (tree_train_step (rqs_tree_logp chol (a_layers a) (a_bins a) (a_hidden a)) grad). unfold tree_train_step.
  set (lv := LInt z :: _). specialize (HZ lv batch). set (g := grad lv batch) in * . clearbody g. unfold lv. clear lv. rewrite (ravel3 a). set (t := ravel rest).
  assert (LB : n + n * n <= length (m ++ v ++ t)) by (rewrite !app_length; rnorm; lia).
  assert (Z1 : forall j, j < n + n * n -> let o := adamw_step (@spline_tx RNum G a) g (m ++ v ++ t) st in
    @nth R j (fst o) 0%R = (nth j (m ++ v ++ t) 0 * keep)%R /\ @nth R j (as_mu (snd o)) 0%R = 0%R /\ @nth R j (as_nu (snd o)) 0%R = 0%R).
  { intros j Hj. destruct (Hst j Hj) as [U1 U2]. apply (step_zero (@spline_tx RNum G a)); auto. rnorm. lia. }
  pose proof (adamw_step_len (@spline_tx RNum G a) g (m ++ v ++ t) st) as L1.
  destruct (adamw_step (@spline_tx RNum G a) g (m ++ v ++ t) st) as [p s] eqn:Ep. cbn [fst snd] in * . rnorm.
  split.
  - rewrite (unravel3 a) by assumption.
    exists z, (unravel rest (skipn (n * n) (skipn n p))), (firstn n p), (firstn (n * n) (skipn n p)).
    split; [exact Hz|]. rewrite !firstn_length, !skipn_length. rnorm. split; [lia|]. split; [lia|]. split; [reflexivity|]. split.
    + intros i Hi. rewrite !firstn_nth by exact Hi. destruct (Z1 i ltac:(lia)) as (-> & _).
      destruct (split3 a m v t i Lm Lv) as (E1 & _). rnorm. rewrite (E1 Hi), (HM i Hi). ring.
    + intros i Hi. rewrite !firstn_nth by exact Hi. rewrite !skipn_nth. destruct (Z1 (n + i) ltac:(lia)) as (-> & _).
      destruct (split3 a m v t i Lm Lv) as (_ & E1 & _). rnorm. rewrite (E1 Hi), (HV i Hi). ring.
  - intros j Hj. destruct (Z1 j Hj) as (_ & U1 & U2). split; assumption.
Qed.

Notation trained := (@spline_trained G chol grad a lv0).

Lemma stats_start data : stats_are (@data_mean RNum n data) (concat (@data_cov RNum n data)) 1 (tree_set_stats lv0 data).
Proof.
  destruct (rqs_stats li _ _ _ _ _ _ _ _ H0) as (E0 & v1 & v2 & E1 & L1 & E2 & L2).
  destruct lv0 as [|l0 [|l1 [|l2 rest]]]; try discriminate. unfold lv_at in E1, E2. cbn [nth] in E1, E2. subst l1 l2.
  assert (EZ : exists z, l0 = LInt z).
  { clear - H0. unfold rqs_tree in H0. destruct (per_layer _ _ _); [|discriminate]. injection H0 as H0 _. eexists. symmetry. exact H0. }
  destruct EZ as [z ->]. change (Z.to_nat z = n) in E0.
  unfold tree_set_stats. change (tree_n _) with (Z.to_nat z). rewrite E0. cbn [set_nth].
  exists z, rest, (@data_mean RNum n data), (concat (@data_cov RNum n data)). split; [exact E0|].
  split; [unfold data_mean; now rewrite map_length, seq_length|]. split; [apply cov_len|]. split; [reflexivity|].
  split; intros; ring.
Qed.
Lemma trained_stats data batches : stats_are (@data_mean RNum n data) (concat (@data_cov RNum n data)) (keep ^ length batches) (trained data batches).
Proof.
  unfold spline_trained. change (@m_stats RNum G NFO) with (@tree_set_stats RNum).
  assert (I : okst (tree_optimizer_init lv0)) by (intros j _; exact (init_zero (ravel lv0) j)).
  assert (Q : forall bs st lv q, okst st -> stats_are (@data_mean RNum n data) (concat (@data_cov RNum n data)) q lv ->
    stats_are (@data_mean RNum n data) (concat (@data_cov RNum n data)) (q * keep ^ length bs)
      (fst (fold_left (fun p xs => let r := @m_step RNum G NFO (fst p) xs (spline_tx a) (snd p) in (snd (fst r), snd r)) bs (lv, st)))).
  { induction bs as [|b bs IH]; intros st lv q Ho HS.
    - cbn [fold_left length pow fst]. replace (q * 1)%R with q by ring. exact HS.
    - cbn [fold_left length]. destruct (shift_step _ _ q lv b st HS Ho) as [HS' Ho']. cbn [fst snd].
      specialize (IH _ _ _ Ho' HS'). replace (q * keep ^ S (length bs))%R with (q * keep * keep ^ length bs)%R by (cbn [pow]; ring). exact IH. }
  specialize (Q batches _ _ _ I (stats_start data)). replace (keep ^ length batches)%R with (1 * keep ^ length batches)%R by ring. exact Q.
Qed.

Lemma var_shift (b : nat -> R) data data' i : Forall2 (in_units n (fun _ => 1%R) b) data data' -> data <> [] -> i < n ->
  @nth R i (@data_mean RNum n data') 0%R = (@nth R i (@data_mean RNum n data) 0 + b i)%R /\
  @nth R (i * n + i) (concat (@data_cov RNum n data')) 0%R = @nth R (i * n + i) (concat (@data_cov RNum n data)) 0%R.
Proof.
  intros X Hne Hi. pose proof (f2_len _ _ _ X) as L.
  assert (E : @nth R i (@data_mean RNum n data') 0%R = (@nth R i (@data_mean RNum n data) 0 + b i)%R).
  { unfold data_mean. rewrite !(nth_map_seq (fun j => @fmean RNum (column _ j))) by exact Hi.
    unfold fmean, column. rewrite !map_length. change (@fofZ RNum) with IZR. change (@fdiv RNum) with Rdiv. rnorm. rewrite <- L.
    change (@fsum RNum (map (fun r : list R => nth i r 0%R) data') / IZR (Z.of_nat (length data)) = @fsum RNum (map (fun r : list R => nth i r 0%R) data) / IZR (Z.of_nat (length data)) + b i)%R.
    assert (S : @fsum RNum (map (fun r : list R => nth i r 0%R) data') = (@fsum RNum (map (fun r : list R => nth i r 0%R) data) + IZR (Z.of_nat (length data)) * b i)%R).
    { clear - X Hi. induction X as [|x x' xs xs' X1 X IH]; [cbn; ring|]. cbn [map length]. destruct X1 as (_ & _ & E).
      change (nth i x' 0 + @fsum RNum (map (fun r : list R => nth i r 0%R) xs') = nth i x 0 + @fsum RNum (map (fun r : list R => nth i r 0%R) xs) + IZR (Z.of_nat (S (length xs))) * b i)%R.
      rewrite IH, (E i Hi), Nat2Z.inj_succ, succ_IZR. ring. }
    rewrite S. assert (IZR (Z.of_nat (length data)) <> 0)%R by (apply not_0_IZR; destruct data; [congruence|cbn; lia]). field. assumption. }
  split; [exact E|]. rewrite !(cov_nth a) by assumption. rnorm. rewrite E. rewrite <- L. f_equal.
  set (mi := @nth R i (@data_mean RNum n data) 0%R). clearbody mi. clear - X Hi.
  induction X as [|x x' xs xs' X1 X IH]; [reflexivity|]. cbn [map]. destruct X1 as (_ & _ & E).
  set (f := fun r : list R => ((nth i r 0 - mi) * (nth i r 0 - mi))%R) in * . set (g := fun r : list R => ((nth i r 0 - (mi + b i)) * (nth i r 0 - (mi + b i)))%R) in * .
  change (g x' + @fsum RNum (map g xs') = f x + @fsum RNum (map f xs))%R. rewrite IH. f_equal. unfold g, f. rewrite (E i Hi). ring.
Qed.

Lemma stats_whiten mu c q lv (x : list R) i : stats_are mu c q lv -> length x = n -> i < n ->
  @nth R i (whiten (fl lv) x) 0%R = ((nth i x 0 - nth i mu 0 * q) / sqrt (nth (i * n + i) c 0 * q))%R.
Proof.
  intros (z & rest & m & v & Hz & Lm & Lv & -> & HM & HV) Lx Hi.
  destruct (flow_parts a z m v rest Hz) as [E1 E2]. unfold whiten, vsub, fl_std. rewrite E1, E2. rnorm.
  pose proof (diag_len a v) as LD.
  assert (Hii : i * n + i < n * n) by nia.
  etransitivity; [refine (nth_map2 Rdiv _ _ i 0%R 0%R 0%R _ _); rewrite ?map2_length, ?map_length; rnorm; lia|].
  assert (F1 : @nth R i (map2 (@fsub RNum) x m) 0%R = (nth i x 0 - nth i m 0)%R) by (refine (nth_map2 Rminus _ _ i 0%R 0%R 0%R _ _); rnorm; lia).
  rnorm. rewrite F1, (HM i Hi). f_equal. f_equal.
  etransitivity; [exact (mapR sqrt (diag (@matrix_of RNum n (LArr DFloat32 [n; n] v))) i ltac:(rnorm; lia))|].
  f_equal. rewrite (var_nth a v i Hi Lv). exact (HV _ Hii).
Qed.

Lemma shift_whiten (b : nat -> R) data data' bs bs' (x x' : list R) i :
  (0 < a_lr a < 10000)%R -> Forall2 (in_units n (fun _ => 1%R) b) data data' -> data <> [] -> length bs' = length bs -> bs <> [] ->
  in_units n (fun _ => 1%R) b x x' -> i < n -> (0 < @nth R (i * n + i) (concat (@data_cov RNum n data)) 0)%R ->
  let r := (keep ^ length bs)%R in
  (0 < r < 1)%R /\
  @nth R i (whiten (fl (trained data' bs')) x') 0%R =
    (@nth R i (whiten (fl (trained data bs)) x) 0 + (1 - r) * b i / sqrt (@nth R (i * n + i) (concat (@data_cov RNum n data)) 0 * r))%R.
Proof.
  intros Hlr X Hne Lb Hb (Lx & Lx' & Hx) Hi Hv. cbv zeta.
  pose proof (stats_whiten _ _ _ _ x i (trained_stats data bs) Lx Hi) as W. pose proof (stats_whiten _ _ _ _ x' i (trained_stats data' bs') Lx' Hi) as W'.
  rewrite Lb in W'. destruct (var_shift b data data' i X Hne Hi) as [E1 E2].
  assert (K : (0 < keep < 1)%R) by lra.
  assert (PW : forall w k, (0 < w < 1)%R -> (0 < w ^ S k < 1)%R).
  { intros w k [W1 W2]. split; [apply pow_lt; exact W1|]. cbn [pow]. assert (P : (0 < w ^ k <= 1)%R) by (split; [apply pow_lt; exact W1|]; rewrite <- (pow1 k); apply pow_incr; split; apply Rlt_le; assumption). destruct P as [P1 P2].
    pose proof (Rmult_lt_compat_r _ _ _ P1 W2) as P3. lra. }
  split; [destruct bs as [|b0 bs]; [congruence|]; exact (PW keep (length bs) K)|].
  rewrite W, W', E1, E2, (Hx i Hi).
  assert (S : (0 < sqrt (@nth R (i * n + i) (concat (@data_cov RNum n data)) 0 * keep ^ length bs))%R) by (apply sqrt_lt_R0, Rmult_lt_0_compat; [exact Hv|apply pow_lt; lra]).
  rnorm. field. lra.
Qed.

Lemma cov_var (data : list (list R)) i : i < n -> @nth R (i * n + i) (concat (@data_cov RNum n data)) 0%R = var_of (length data) (fun k => @nth R i (nth k data []) 0%R).
Proof.
  intros Hi. pose proof (data_var_nth n data i Hi) as E. cbv zeta in E. etransitivity; [|exact E].
  rewrite (nth_concat_uniform _ n i i).
  - unfold diag. assert (L : length (@data_cov RNum n data) = n) by (unfold data_cov; now rewrite map_length, seq_length). rewrite L.
    symmetry. exact (nth_map_seq (fun i => nth i (nth i (@data_cov RNum n data) []) f0) n i 0%R Hi).
  - apply Forall_forall. intros r Hr. unfold data_cov in Hr. apply in_map_iff in Hr as (u & <- & _). now rewrite map_length, seq_length.
  - exact Hi.
  - unfold data_cov. now rewrite map_length, seq_length.
Qed.
Lemma shift_whiten' (b : nat -> R) data data' bs bs' (x x' : list R) i :
  (0 < a_lr a < 10000)%R -> Forall2 (in_units n (fun _ => 1%R) b) data data' -> data <> [] -> length bs' = length bs -> bs <> [] ->
  in_units n (fun _ => 1%R) b x x' -> i < n ->
  let v := var_of (length data) (fun k => @nth R i (nth k data []) 0%R) in let r := (keep ^ length bs)%R in
  (0 < v)%R -> (0 < r < 1)%R /\
  @nth R i (whiten (fl (trained data' bs')) x') 0%R = (@nth R i (whiten (fl (trained data bs)) x) 0 + (1 - r) * b i / sqrt (v * r))%R.
Proof. intros A1 A2 A3 A4 A5 A6 A7 v r Hv. unfold v in * . rewrite <- (cov_var data i A7) in * . exact (shift_whiten b data data' bs bs' x x' i A1 A2 A3 A4 A5 A6 A7 Hv). Qed.
End UShift.
