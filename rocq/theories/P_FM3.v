(** Proofs of C56 and C57 in exact real arithmetic: training examples, the loss, data statistics. *)
From Coq Require Import Reals Psatz.
From Coquelicot Require Import Coquelicot.
From Verif Require Import Prelude Num M_Core M_Kernels M_Strategies M_Flow M_Net M_FM P_Lists RNum MxR Spec_Jac P_Jac Spec_Real Spec_Flow P_Real1 P_Flow4 Spec_FM P_FM.
Open Scope R_scope.

(* ------------------------------------------------------------------ statistics *)
Section Stats.
Variables (d : nat) (data : list (list R)).
Let n := length data.
Let col j i := nth j (nth i data []) 0.
Lemma col_len j : length (@column RNum data j) = n. Proof. unfold column. now rewrite map_length. Qed.
Lemma nth_col j i : (i < n)%nat -> @nth R i (@column RNum data j) 0 = col j i.
Proof. intros Hi. unfold column, col. exact (nth_map' (fun row : list R => nth j row 0) data i [] 0 Hi). Qed.
Lemma data_mean_len : length (@data_mean RNum d data) = d.
Proof. unfold data_mean. now rewrite map_length, seq_length. Qed.
Lemma data_mean_nth j : (j < d)%nat -> @nth R j (@data_mean RNum d data) 0 = mean_of n (col j).
Proof.
  intros Hj. unfold data_mean. etransitivity; [exact (nth_map_seq (fun j => @fmean RNum (column data j)) d j 0 Hj)|].
  unfold fmean, mean_of. rewrite fsumR. pose proof (col_len j) as Lc. rnorm. rewrite Lc. change (@fofZ RNum (Z.of_nat n)) with (IZR (Z.of_nat n)). rewrite <- INR_IZR_INZ.
  change (@fdiv RNum) with Rdiv. apply (f_equal2 Rdiv); [|reflexivity]. apply Rsum_ext. intros i Hi. now apply nth_col.
Qed.
Lemma data_var_len : length (diag (@data_cov RNum d data)) = d.
Proof. unfold diag, data_cov. now rewrite !map_length, !seq_length. Qed.
Lemma data_var_nth j : (j < d)%nat -> @nth R j (diag (@data_cov RNum d data)) 0 = var_of n (col j).
Proof.
  intros Hj. unfold diag. assert (L : length (@data_cov RNum d data) = d) by (unfold data_cov; now rewrite map_length, seq_length).
  rewrite L. etransitivity; [exact (nth_map_seq (fun i => nth i (nth i (@data_cov RNum d data) []) f0) d j 0 Hj)|].
  unfold data_cov. cbv zeta. rewrite nth_map_seq by auto. etransitivity; [apply nth_map_seq; exact Hj|].
  unfold var_of. rewrite fsumR. rewrite map_length. fold n. change (@fdiv RNum) with Rdiv.
  change (@fofZ RNum (Z.of_nat n - 1)) with (IZR (Z.of_nat n - 1)). rewrite minus_IZR, <- INR_IZR_INZ. apply (f_equal2 Rdiv); [|reflexivity].
  apply Rsum_ext. intros i Hi.
  etransitivity; [exact (nth_map' (fun r : list R => (nth j r 0 - @nth R j (@data_mean RNum d data) 0) * (nth j r 0 - @nth R j (@data_mean RNum d data) 0)) data i [] 0 Hi)|].
  rewrite data_mean_nth by auto. unfold col. ring.
Qed.
End Stats.

Lemma var_pos n (f : nat -> R) : (2 <= n)%nat -> (exists i j, (i < n)%nat /\ (j < n)%nat /\ f i <> f j) <-> 0 < var_of n f.
Proof.
  intros Hn. assert (Hn1 : 0 < INR n - 1) by (apply le_INR in Hn; simpl in Hn; lra). split.
  - intros (i & j & Hi & Hj & H). unfold var_of. apply Rdiv_lt_0_compat; auto. set (mu := mean_of n f).
    assert (Hk : exists k, (k < n)%nat /\ f k <> mu).
    { destruct (Req_dec (f i) mu) as [E|]; [|exists i; auto]. exists j. split; auto. congruence. }
    destruct Hk as (k & Hk & Hne). apply Rlt_le_trans with ((f k - mu) ^ 2); [apply pow2_gt_0; lra|].
    apply (Rsum_term n (fun i => (f i - mu) ^ 2) k); auto. intros. apply pow2_ge_0.
  - intros H. destruct (Classical_Prop.classic (exists i j, (i < n)%nat /\ (j < n)%nat /\ f i <> f j)) as [|Hno]; auto. exfalso.
    assert (Hc : forall i, (i < n)%nat -> f i = f 0%nat).
    { intros i Hi. destruct (Req_dec (f i) (f 0%nat)); auto. exfalso. apply Hno. exists i, 0%nat. repeat split; auto; lia. }
    assert (Hm : mean_of n f = f 0%nat).
    { unfold mean_of. rewrite (Rsum_ext n f (fun _ => f 0%nat)) by auto. rewrite Rsum_const. field. lra. }
    unfold var_of in H. rewrite (Rsum_0 n) in H; [unfold Rdiv in H; rewrite Rmult_0_l in H; lra|].
    intros i Hi. rewrite Hm, Hc by auto. ring.
Qed.
(** Standardising a column gives mean 0 and variance 1. *)
Lemma standardised n (f g : nat -> R) : (2 <= n)%nat -> 0 < var_of n f ->
  (forall i, (i < n)%nat -> g i = (f i - mean_of n f) / sqrt (var_of n f)) -> mean_of n g = 0 /\ var_of n g = 1.
Proof.
  intros Hn Hv Hg. assert (Hn1 : 0 < INR n - 1) by (apply le_INR in Hn; simpl in Hn; lra).
  set (s := sqrt (var_of n f)) in * . assert (Hs : 0 < s) by (now apply sqrt_lt_R0).
  assert (Hss : s * s = var_of n f) by (apply sqrt_sqrt; lra).
  assert (Hm : mean_of n g = 0).
  { unfold mean_of. rewrite (Rsum_ext n g (fun i => / s * (f i - mean_of n f))) by (intros; rewrite Hg by auto; field; lra).
    rewrite Rsum_scal, Rsum_minus, Rsum_const. unfold mean_of. field. split; lra. }
  split; auto. unfold var_of. rewrite Hm.
  rewrite (Rsum_ext n _ (fun i => / (s * s) * (f i - mean_of n f) ^ 2)) by (intros; rewrite Hg by auto; field; lra).
  rewrite Rsum_scal, Hss. unfold var_of at 1.
  assert (Hq : Rsum n (fun i => (f i - mean_of n f) ^ 2) <> 0).
  { intros E. unfold var_of in Hv. rewrite E in Hv. unfold Rdiv in Hv. rewrite Rmult_0_l in Hv. lra. }
  field. split; lra.
Qed.
Section Whiten.
Variables (d : nat) (data : list (list R)) (ls : list (@layer RNum)) (mu0 v0 : list R).
Hypothesis Hw : forall r, In r data -> length r = d.
Hypothesis Hn : (2 <= length data)%nat.
Let col j i := nth j (nth i data []) 0.
Hypothesis Hvar : forall j, (j < d)%nat -> exists i i', (i < length data)%nat /\ (i' < length data)%nat /\ col j i <> col j i'.
Let m := set_stats (mkFlow d ls mu0 v0) data.
Lemma set_stats_good : good_stats m.
Proof.
  split; [|split]; cbn [m set_stats fl_n fl_mean fl_var].
  - apply data_mean_len.
  - apply data_var_len.
  - intros i Hi. rewrite data_var_nth by auto. apply (proj1 (var_pos _ _ Hn)). exact (Hvar i Hi).
Qed.
Lemma whitened_data j : (j < d)%nat ->
  mean_of (length data) (fun i => @nth R j (whiten m (nth i data [])) 0) = 0 /\
  var_of (length data) (fun i => @nth R j (whiten m (nth i data [])) 0) = 1.
Proof.
  intros Hj. apply (standardised _ (col j)); auto.
  - apply (proj1 (var_pos _ _ Hn)). exact (Hvar j Hj).
  - intros i Hi. rewrite (whiten_nth m set_stats_good) by (auto; apply Hw, nth_In; auto).
    cbn [m set_stats fl_n fl_mean fl_var]. rewrite data_var_nth, data_mean_nth by auto. reflexivity.
Qed.
End Whiten.
(** A constant column has variance 0, so whitening divides by 0. *)
Lemma constant_column d (data : list (list R)) j : (2 <= length data)%nat -> (j < d)%nat ->
  (forall i i', (i < length data)%nat -> (i' < length data)%nat -> nth j (nth i data []) 0 = nth j (nth i' data []) 0) ->
  @nth R j (diag (@data_cov RNum d data)) 0 = 0.
Proof.
  intros Hn Hj Hc. rewrite data_var_nth by auto. assert (Hn1 : 0 < INR (length data) - 1) by (apply le_INR in Hn; simpl in Hn; lra).
  set (n := length data) in * . set (f := fun i => nth j (nth i data []) 0).
  assert (Hm : mean_of n f = f 0%nat).
  { unfold mean_of. rewrite (Rsum_ext n f (fun _ => f 0%nat)) by (intros; apply Hc; lia). rewrite Rsum_const. field. lra. }
  unfold var_of. rewrite Hm. rewrite Rsum_0; [unfold Rdiv; ring|]. intros i Hi. unfold f. rewrite (Hc i 0%nat) by lia. ring.
Qed.

(* ------------------------------------------------------------------ examples and loss *)
Lemma fm_example_line n (m : @fmodel RNum) (x0s x1s : list (list R)) (ts : list R) i x t dx : good_fm n m -> fm_sched m = cond_ot ->
  length (nth i x0s []) = n -> length (nth i x1s []) = n -> fm_example m x0s x1s ts i = (x, t, dx) ->
  t = nth i ts 0 /\ length x = n /\ length dx = n /\
  forall j, (j < n)%nat ->
    let y := (nth j (nth i x1s []) 0 - nth j (fm_mean m) 0) / sd m j in
    nth j x 0 = (1 - t) * nth j (nth i x0s []) 0 + t * y /\ nth j dx 0 = y - nth j (nth i x0s []) 0.
Proof.
  intros Hg Hs L0 L1 H. unfold fm_example in H. rewrite Hs in H.
  set (w := fm_whiten m (nth i x1s [])) in * . assert (Lw : length w = n) by (apply (fmw_len n m Hg); auto).
  assert (L : length (nth i x0s []) = length w) by congruence.
  unfold path_sample, cond_ot in H. injection H as Hx Ht Hdx.
  assert (Ex : fst (path_sample cond_ot (nth i x0s []) w (nth i ts f0)) = x) by exact Hx.
  assert (Ed : snd (path_sample cond_ot (nth i x0s []) w (nth i ts f0)) = dx) by exact Hdx.
  assert (Et : t = nth i ts 0) by (symmetry; exact Ht).
  clear Hx Hdx Ht. subst t.
  destruct (path_len (nth i x0s []) w (nth i ts 0) L) as [P1 P2].
  assert (Lx : length x = n) by (rewrite <- Ex; etransitivity; [exact P1|exact L0]).
  assert (Ld : length dx = n) by (rewrite <- Ed; etransitivity; [exact P2|exact L0]).
  split; [reflexivity|]. split; [exact Lx|]. split; [exact Ld|]. intros j Hj. cbv zeta.
  destruct (path_nth (nth i x0s []) w (nth i ts 0) j L ltac:(lia)) as [Q1 Q2].
  pose proof (fmw_nth n m Hg (nth i x1s []) j L1 Hj) as W. fold w in W.
  split.
  - transitivity (line (nth i x0s []) w (nth i ts 0) j); [rewrite <- Ex; exact Q1|]. unfold line. rewrite W.
    change (@nth (@F RNum) i ts f0) with (nth i ts 0). match goal with |- ?a = ?b => change (@eq R a b) end. ring.
  - rewrite <- Ed. etransitivity; [exact Q2|]. rewrite W. reflexivity.
Qed.
Lemma concat_len_uniform {A} n (ls : list (list A)) : (forall l, In l ls -> length l = n) -> length (concat ls) = (length ls * n)%nat.
Proof. induction ls as [|l ls IH]; intros H; cbn; auto. rewrite app_length, IH, H; auto; [now left|intros; apply H; now right]. Qed.
Lemma fsum_app (a b : list R) : @fsum RNum (a ++ b) = @fsum RNum a + @fsum RNum b.
Proof.
  induction a as [|x a IH].
  - symmetry. exact (Rplus_0_l (@fsum RNum b)).
  - change (@eq R (x + @fsum RNum (a ++ b)) (x + @fsum RNum a + @fsum RNum b)). rewrite IH. symmetry. apply Rplus_assoc.
Qed.
Lemma fsum_concat (ls : list (list R)) : @fsum RNum (concat ls) = Rsum (length ls) (fun i => @fsum RNum (nth i ls [])).
Proof.
  induction ls as [|l ls IH]; [reflexivity|]. cbn [concat length]. rewrite fsum_app, Rsum_S, IH. reflexivity.
Qed.
Lemma fm_loss_value n (m : @fmodel RNum) (batch : list (list R * R * list R)) : good_fm n m ->
  (forall x t dx, In (x, t, dx) batch -> length x = n /\ length dx = n) ->
  fm_loss m batch = Rsum (length batch) (fun b => Rsum n (fun j =>
     let '(x, t, dx) := nth b batch ([], 0, []) in (nth j (nt_call (sv_net (fm_solver m)) (x ++ [t])) 0 - nth j dx 0) ^ 2))
     / (INR (length batch) * INR n).
Proof.
  intros Hg Hb. unfold fm_loss, fmean.
  pose (rows := map (fun b : list R * R * list R => let '(x, t, dx) := b in map fsq (vsub (nt_call (sv_net (fm_solver m)) (x ++ [t])) dx)) batch : list (list R)).
  assert (Lr : forall l, In l rows -> length l = n).
  { intros l Hl. apply in_map_iff in Hl as ([[x t] dx] & <- & Hin). destruct (Hb _ _ _ Hin) as [H1 H2].
    rewrite map_length. assert (length (nt_call (sv_net (fm_solver m)) (x ++ [t])) = n) by (apply (gn_len _ _ (gf_net _ _ Hg)); rewrite app_length; cbn; rnorm; lia).
    rlen. lia. }
  assert (Lb : length rows = length batch) by (unfold rows; now rewrite map_length).
  match goal with |- _ = ?r => change (@eq R (@fsum RNum (concat rows) / IZR (Z.of_nat (length (concat rows)))) r) end.
  rewrite (concat_len_uniform n rows Lr), Lb. rewrite <- INR_IZR_INZ, mult_INR.
  apply (f_equal2 Rdiv); [|reflexivity]. rewrite fsum_concat, Lb. apply Rsum_ext. intros b Hbl.
  assert (Hin : In (nth b batch ([], 0, [])) batch) by now apply nth_In.
  assert (Eb : nth b rows [] = (let '(x, t, dx) := nth b batch ([], 0, []) in map fsq (vsub (nt_call (sv_net (fm_solver m)) (x ++ [t])) dx))).
  { unfold rows. exact (nth_map' (fun b : list R * R * list R => let '(x, t, dx) := b in map fsq (vsub (nt_call (sv_net (fm_solver m)) (x ++ [t])) dx)) batch b ([], 0, []) [] Hbl). }
  rewrite fsumR. rewrite (Lr (nth b rows [])) by (apply nth_In; rewrite Lb; auto). apply Rsum_ext. intros j Hj. rewrite Eb.
  destruct (nth b batch ([], 0, [])) as [[x t] dx]. destruct (Hb _ _ _ Hin) as [H1 H2].
  assert (Lc : length (nt_call (sv_net (fm_solver m)) (x ++ [t])) = n) by (apply (gn_len _ _ (gf_net _ _ Hg)); rewrite app_length; cbn; rnorm; lia).
  etransitivity; [exact (mapR (@fsq RNum) (vsub (nt_call (sv_net (fm_solver m)) (x ++ [t])) dx) j ltac:(rlen; lia))|].
  rewrite vsubR by (rnorm; lia). unfold fsq. cbn [fmul RNum]. match goal with |- ?a = ?b => change (@eq R a b) end.
  change (@F RNum) with R. ring.
Qed.
(** The flow-matching model takes the same statistics. *)
Lemma fm_stats_proof d (m : @fmodel RNum) (data : list (list R)) : nt_in (sv_net (fm_solver m)) = S d -> (forall r, In r data -> length r = d) -> (2 <= length data)%nat ->
  (forall j, (j < d)%nat -> exists i i', (i < length data)%nat /\ (i' < length data)%nat /\ nth j (nth i data []) 0 <> nth j (nth i' data []) 0) ->
  let m' := fm_set_stats m data in
  fm_solver m' = fm_solver m /\ fm_sched m' = fm_sched m /\
  length (fm_mean m') = d /\ length (fm_var m') = d /\
  forall j, (j < d)%nat ->
  0 < @nth R j (fm_var m') 0 /\
  mean_of (length data) (fun i => @nth R j (fm_whiten m' (nth i data [])) 0) = 0 /\
  var_of (length data) (fun i => @nth R j (fm_whiten m' (nth i data [])) 0) = 1.
Proof.
  intros Hd Hw Hn Hv. assert (Hf : fm_features m = d) by (unfold fm_features; rewrite Hd; cbn; lia). subst d.
  destruct (set_stats_good (fm_features m) data [] [] [] Hn Hv) as (L1 & L2 & P).
  cbv zeta. split; [reflexivity|split; [reflexivity|]]. split; [exact L1|]. split; [exact L2|]. intros j Hj. split.
  - exact (P j Hj).
  - exact (whitened_data (fm_features m) data [] [] [] Hw Hn Hv j Hj).
Qed.
