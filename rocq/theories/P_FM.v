(** Proofs of C51 and C52: flow matching, in exact real arithmetic. *)
From Coq Require Import Reals Psatz.
From Coquelicot Require Import Coquelicot.
From Verif Require Import Prelude Num M_Core M_Kernels M_Strategies M_Flow M_Net M_FM P_Lists RNum MxR Spec_Jac P_Jac Spec_Real Spec_Flow P_Real1 P_Flow P_Flow2 P_Flow4 Spec_FM.
Open Scope R_scope.
Ltac rring := match goal with |- ?a = ?b => change (@eq R a b) end; ring.

(* ------------------------------------------------------------------ paths *)
Lemma path_nth (x0 x1 : list R) (t : R) i : length x0 = length x1 -> (i < length x0)%nat ->
  @nth R i (fst (path_sample (@cond_ot RNum) x0 x1 t)) 0 = line x0 x1 t i /\
  @nth R i (snd (path_sample (@cond_ot RNum) x0 x1 t)) 0 = nth i x1 0 - nth i x0 0.
Proof.
  intros L Hi. unfold path_sample, cond_ot, line. cbn [fst snd].
  rewrite !vaddR by (rlen; lia). rewrite !vscaleR by (rnorm; lia).
  unfold f1. cbn [fofZ RNum fsub fneg]. split; ring.
Qed.
Lemma path_len (x0 x1 : list R) (t : R) : length x0 = length x1 ->
  @length R (fst (path_sample (@cond_ot RNum) x0 x1 t)) = length x0 /\ @length R (snd (path_sample (@cond_ot RNum) x0 x1 t)) = length x0.
Proof. intros L. unfold path_sample, cond_ot. cbn [fst snd]. rlen. lia. Qed.
Lemma path_ends (x0 x1 : list R) : length x0 = length x1 ->
  fst (path_sample (@cond_ot RNum) x0 x1 0) = x0 /\ fst (path_sample (@cond_ot RNum) x0 x1 1) = x1.
Proof.
  intros L. split; apply (list_eq_nth (0 : R)); rnorm.
  - now apply path_len.
  - intros i Hi. pose proof (proj1 (path_len x0 x1 0 L)) as P. rnorm. rewrite P in Hi. pose proof (proj1 (path_nth x0 x1 0 i L Hi)) as Q. rnorm. rewrite Q. unfold line. ring.
  - rewrite <- L. now apply path_len.
  - intros i Hi. pose proof (proj1 (path_len x0 x1 1 L)) as P. rnorm. rewrite P in Hi. pose proof (proj1 (path_nth x0 x1 1 i L Hi)) as Q. rnorm. rewrite Q. unfold line. ring.
Qed.
Lemma path_velocity (x0 x1 : list R) (t : R) i : length x0 = length x1 -> (i < length x0)%nat ->
  is_derive (fun s : R => @nth R i (fst (path_sample (@cond_ot RNum) x0 x1 s)) 0) t (@nth R i (snd (path_sample (@cond_ot RNum) x0 x1 t)) 0).
Proof.
  intros L Hi. rewrite (proj2 (path_nth x0 x1 t i L Hi)).
  apply is_derive_ext with (fun s => line x0 x1 s i).
  - intros s. symmetry. exact (proj1 (path_nth x0 x1 s i L Hi)).
  - unfold line. auto_derive; auto. ring.
Qed.

(* ------------------------------------------------------------------ Runge-Kutta on constant fields *)
Lemma fsum_weights (a : list R) (c : list R) j :
  @fsum RNum (map2 (fun ai k => ai *. nth j k f0) a (repeat c (length a))) = Rsum (length a) (fun i => nth i a 0) * nth j c 0.
Proof.
  rewrite <- fsumR. induction a as [|x a IH].
  - change (0 = 0 * nth j c 0). ring.
  - set (rest := @fsum RNum (map2 (fun (ai : @F RNum) (k : list (@F RNum)) => ai *. nth j k f0) a (repeat c (length a)))) in * .
    change (x * nth j c 0 + rest = (x + @fsum RNum a) * nth j c 0). rewrite IH. ring.
Qed.
Lemma lincomb_const n (a c : list R) : length c = n -> Rsum (length a) (fun i => nth i a 0) = 1 ->
  @lincomb RNum n a (repeat c (length a)) = c.
Proof.
  intros Hc Ha. unfold lincomb. apply (list_eq_nth (0 : R)); rnorm; [rewrite map_length, seq_length; auto|].
  intros i Hi. rewrite map_length, seq_length in Hi.
  erewrite nth_map_seq by auto. rewrite fsum_weights, Ha. ring.
Qed.
Lemma stages_const tab (field : R -> list R -> list R) (dir t h : R) (y c : list R) :
  (forall s z, length z = length y -> field s z = c) ->
  @rk_stages RNum tab field dir t h y = repeat c (length (tb_stages tab)).
Proof.
  intros Hf. unfold rk_stages.
  assert (H : forall sts ks, fold_left (fun ks st => ks ++ [field (dir *. (t +. fst st *. h)) (vadd y (vscale (dir *. h) (lincomb (length y) (snd st) ks)))]) sts ks = ks ++ repeat c (length sts)).
  { induction sts as [|st sts IH]; intros ks; cbn [fold_left length repeat]; [now rewrite app_nil_r|].
    rewrite IH. rewrite Hf. { rewrite <- app_assoc. reflexivity. }
    rlen. unfold lincomb. rewrite map_length, seq_length. rnorm. lia. }
  exact (H _ []).
Qed.
Lemma rk_step_const tab (field : R -> list R -> list R) (dir t h : R) (y c : list R) :
  consistent tab -> length c = length y -> (forall s z, length z = length y -> field s z = c) ->
  @rk_step RNum tab field dir t h y = vadd y (vscale (dir * h) c).
Proof.
  intros [HL HS] Hc Hf. unfold rk_step. rewrite (stages_const _ _ _ _ _ _ c Hf). rewrite <- HL. rnorm.
  rewrite lincomb_const by auto. reflexivity.
Qed.
Lemma vadd_twice (y c : list R) (a b : R) : length c = length y ->
  vadd (vadd y (vscale a c)) (vscale b c) = @vadd RNum y (vscale (a + b) c).
Proof.
  intros Hc. apply (list_eq_nth (0 : R)); rnorm; [rlen; lia|]. intros i Hi. revert Hi. rlen. intros Hi.
  rewrite !vaddR, !vscaleR by (rlen; lia). ring.
Qed.
Lemma vadd_zero (y c : list R) : length c = length y -> @vadd RNum y (vscale 0 c) = y.
Proof.
  intros Hc. apply (list_eq_nth (0 : R)); rnorm; [rlen; lia|]. intros i Hi. revert Hi. rlen. intros Hi.
  rewrite vaddR, vscaleR by (rlen; lia). ring.
Qed.
Lemma rk_loop_const tab (field : R -> list R -> list R) (dir t1 dt : R) (c : list R) : consistent tab -> 0 < dt ->
  forall fuel t y, length c = length y -> (forall s z, length z = length y -> field s z = c) ->
  t <= t1 -> t1 - t <= INR fuel * dt ->
  @rk_loop RNum fuel tab field dir t t1 dt y = Ok (vadd y (vscale (dir * (t1 - t)) c)).
Proof.
  intros Hcons Hdt. induction fuel as [|fuel IH]; intros t y Hc Hf Ht Hfuel; cbn [rk_loop].
  - change (@flt RNum t t1) with (Rltb t t1). simpl INR in Hfuel. rewrite Rltb_false by lra. replace (dir * (t1 - t)) with 0 by (replace t with t1 by lra; ring).
    f_equal. symmetry. apply vadd_zero. auto.
  - change (@flt RNum t t1) with (Rltb t t1). destruct (Rlt_dec t t1) as [Hlt|Hge].
    + rewrite Rltb_true by auto.
      cbv zeta. change (@F RNum) with R in * . set (tn := if (t1 -. f1 /. fofZ 1000000) <.? (t +. dt) then t1 else t +. dt).
      assert (Htn : tn <= t1 /\ t1 - tn <= INR fuel * dt).
      { unfold tn. rewrite S_INR in Hfuel. change (@flt RNum (t1 -. f1 /. fofZ 1000000) (t +. dt)) with (Rltb (t1 - 1 / 1000000) (t + dt)).
        assert (0 <= INR fuel * dt) by (apply Rmult_le_pos; [apply pos_INR|lra]).
        destruct (Rlt_dec (t1 - 1 / 1000000) (t + dt)) as [H1|H1]; [rewrite Rltb_true by auto; lra|].
        rewrite Rltb_false by lra. change (t +. dt) with (t + dt). lra. }
      change (@fsub RNum tn t) with (tn - t). clearbody tn.
      rewrite (rk_step_const tab field dir t (tn - t) y c Hcons Hc Hf).
      assert (Ly : @length R (vadd y (vscale (dir * (tn - t)) c)) = length y) by (rlen; lia).
      rewrite IH.
      * f_equal. rewrite vadd_twice by auto. f_equal. f_equal. ring.
      * rnorm. lia.
      * intros s z Hz. apply Hf. rnorm. lia.
      * apply Htn.
      * apply Htn.
    + rewrite Rltb_false by lra. replace (dir * (t1 - t)) with 0 by (replace t with t1 by lra; ring).
      f_equal. symmetry. apply vadd_zero. auto.
Qed.
Lemma max_steps_R : INR max_steps = 4096.
Proof. unfold max_steps. rewrite INR_IZR_INZ, Z2Nat.id by lia. reflexivity. Qed.
Lemma solve_fwd_const tab (field : R -> list R -> list R) (dt : R) (y c : list R) : consistent tab -> 1 / 4096 <= dt ->
  length c = length y -> (forall s z, length z = length y -> field s z = c) ->
  @diffeqsolve RNum tab field 0 1 dt y = Ok (vadd y c).
Proof.
  intros Hcons Hdt Hc Hf. unfold diffeqsolve. change (@flt RNum 0 1) with (Rltb 0 1). rewrite Rltb_true by lra.
  rewrite (rk_loop_const tab field _ _ _ c Hcons); auto; unfold f1; cbn [fofZ RNum fmul]; try lra.
  - f_equal. apply (list_eq_nth (0 : R)); rnorm; [rlen; lia|]. intros i Hi. revert Hi. rlen. intros Hi.
    rewrite !vaddR, vscaleR by (rlen; lia). ring.
  - rewrite max_steps_R. lra.
Qed.
Lemma solve_bwd_const tab (field : R -> list R -> list R) (dt : R) (y c : list R) : consistent tab -> 1 / 4096 <= dt ->
  length c = length y -> (forall s z, length z = length y -> field s z = c) ->
  @diffeqsolve RNum tab field 1 0 (- dt) y = Ok (vsub y c).
Proof.
  intros Hcons Hdt Hc Hf. unfold diffeqsolve. change (@flt RNum 1 0) with (Rltb 1 0). rewrite Rltb_false by lra.
  rewrite (rk_loop_const tab field _ _ _ c Hcons); auto; unfold f1; cbn [fofZ RNum fmul fneg]; try lra.
  - f_equal. apply (list_eq_nth (0 : R)); rnorm; [rlen; lia|]. intros i Hi. revert Hi. rlen. intros Hi.
    rewrite vaddR, vsubR, vscaleR by (rlen; lia). ring.
  - rewrite max_steps_R. lra.
Qed.
Lemma dopri5_consistent : consistent (@dopri5 RNum).
Proof.
  split; [reflexivity|]. cbn [dopri5 tb_weights length Rsum nth]. unfold frac, f0. cbn [fofZ RNum fdiv]. field.
Qed.

(* ------------------------------------------------------------------ log_prob *)
Section FMR.
Context {G : @Rng RNum}.
Variables (n : nat) (m : @fmodel RNum).
Hypothesis Hg : good_fm n m.
Let fl : @flow RNum := mkFlow n [] (fm_mean m) (fm_var m).
Lemma fl_good : good_stats fl.
Proof. destruct Hg. split; [|split]; auto. Qed.
Lemma fmw_eq x : fm_whiten m x = whiten fl x. Proof. reflexivity. Qed.
Lemma fmu_eq x : fm_unwhiten m x = unwhiten fl x. Proof. reflexivity. Qed.
Lemma fmw_len (x : list R) : length x = n -> length (fm_whiten m x) = n.
Proof. exact (whiten_len fl fl_good x). Qed.
Lemma fmw_nth (x : list R) i : length x = n -> (i < n)%nat -> @nth R i (fm_whiten m x) 0 = (nth i x 0 - nth i (fm_mean m) 0) / sd m i.
Proof. exact (whiten_nth fl fl_good x i). Qed.
Lemma fmu_len (x : list R) : length x = n -> length (fm_unwhiten m x) = n.
Proof. exact (unwhiten_len fl fl_good x). Qed.
Lemma sdm_pos i : (i < n)%nat -> 0 < sd m i.
Proof. exact (sd_pos fl fl_good i). Qed.
Lemma fmw_u (x : list R) : length x = n -> fm_whiten m (fm_unwhiten m x) = x.
Proof. exact (whiten_unwhiten fl fl_good x). Qed.
Lemma fmu_nth (x : list R) i : length x = n -> (i < n)%nat -> @nth R i (fm_unwhiten m x) 0 = nth i x 0 * sd m i + nth i (fm_mean m) 0.
Proof.
  intros Hx Hi. pose proof (std_len fl fl_good) as Ls. pose proof (std_nth fl fl_good i Hi) as Es. destruct Hg.
  unfold fm_unwhiten. change (fm_std m) with (fl_std fl). change (fl_n fl) with n in Ls. rnorm. rewrite vaddR, vmulR by (rlen; lia). rewrite Es. reflexivity.
Qed.
Lemma fmu_w (x : list R) : length x = n -> fm_unwhiten m (fm_whiten m x) = x.
Proof.
  intros Hx. pose proof (fmw_len x Hx) as Lw. apply (list_eq_nth (0 : R)); rnorm; rewrite fmu_len by auto; auto.
  intros i Hi. rewrite fmu_nth, fmw_nth by auto. pose proof (sdm_pos i Hi). field. lra.
Qed.
Lemma fm_logstd : @fsum RNum (map fln (fm_std m)) = Rsum n (fun i => ln (sd m i)).
Proof.
  pose proof (std_len fl fl_good) as Ls. rewrite fsumR. rewrite map_length. change (fm_std m) with (fl_std fl). rnorm. rewrite Ls.
  apply Rsum_ext. intros i Hi. change (fl_n fl) with n in Hi. rewrite (mapR ln) by (rnorm; rewrite Ls; auto). rewrite (std_nth fl fl_good) by auto. reflexivity.
Qed.
Lemma solver_logpdf (x : list R) : length x = n ->
  mvn_logpdf x (vscale (fofZ (Z.of_nat n)) (repeat f0 n)) (SDiag (repeat f1 n)) = Ok (ln (std_density n x)).
Proof.
  intros Hx. replace (@vscale RNum (fofZ (Z.of_nat n)) (repeat f0 n)) with (repeat (@f0 RNum) n).
  - pose proof (std_normal_R n x Hx) as H. unfold std_normal_logpdf in H. unfold mvn_logpdf in * . rewrite !repeat_length in * . rewrite Nat.eqb_refl in * .
    rewrite H. reflexivity.
  - apply (list_eq_nth (0 : R)); rnorm; [rlen; reflexivity|]. intros i Hi. rewrite repeat_length in Hi.
    rewrite vscaleR by (rewrite repeat_length; auto). rewrite !nth_repeat_lt by auto. unfold f0. cbn. ring.
Qed.
(** The value log_prob returns. *)
Lemma fm_log_prob_value (x : list R) : length x = n ->
  fm_log_prob m x = match solver_back (fm_solver m) (1 / 10) (fm_whiten m x) with
    | Ok (x0, l) => Ok [ln (std_density n (fm_whiten m x)) + l - Rsum n (fun i => ln (sd m i))]
    | Raise e => Raise e end.
Proof.
  intros Hx. unfold fm_log_prob, solver_log_prob. rewrite (gn_out _ _ (gf_net _ _ Hg)).
  change (@frac RNum 1 10) with (1 / 10).
  destruct (solver_back (fm_solver m) (1 / 10) (fm_whiten m x)) as [[x0 l]|e]; [|reflexivity]. cbn [rbind].
  rewrite solver_logpdf by now apply fmw_len. cbn [rbind map]. rewrite fm_logstd. reflexivity.
Qed.
Lemma ln_std_density (x : list R) : ln (std_density n x) = - sq_norm n x / 2 - INR n * (ln (2 * PI) / 2).
Proof.
  rewrite std_density_gauss, ln_gauss by (intros; lra).
  rewrite (Rsum_ext n _ (fun i => (- / 2) * nth i x 0 ^ 2 + - (ln (2 * PI) / 2))).
  - rewrite Rsum_plus, Rsum_scal, Rsum_const. unfold sq_norm. lra.
  - intros i Hi. rewrite Rabs_R1, ln_1. field.
Qed.
Lemma fm_right_iff (x x0 : list R) (l : R) : length x = n ->
  solver_back (fm_solver m) (1 / 10) (fm_whiten m x) = Ok (x0, l) ->
  (fm_log_prob m x = Ok [ln (std_density n x0) + l - Rsum n (fun i => ln (sd m i))] <->
   sq_norm n x0 = sq_norm n (fm_whiten m x)).
Proof.
  intros Hx H. rewrite fm_log_prob_value, H by auto. rewrite !ln_std_density. split.
  - intros E. injection E as E. change (@eq R (- sq_norm n (fm_whiten m x) / 2 - INR n * (ln (2 * PI) / 2) + l - Rsum n (fun i => ln (sd m i))) (- sq_norm n x0 / 2 - INR n * (ln (2 * PI) / 2) + l - Rsum n (fun i => ln (sd m i)))) in E. lra.
  - intros ->. reflexivity.
Qed.

(* ---------------------------------------------------------------- constant fields *)
Section Const.
Variable c : list R.
Hypothesis Hc : constant_field n m c.
Lemma const_trace (t : R) (x : list R) : length x = n -> fm_trace (sv_net (fm_solver m)) t x = 0.
Proof.
  intros Hx. destruct Hc as [Lc Hcf]. pose proof (gf_net _ _ Hg) as [Gi Go Gl Gj].
  assert (Lv : length (x ++ [t]) = S n) by (rewrite app_length; cbn; lia).
  unfold fm_trace. rewrite fsumR. apply Rsum_0. intros i Hi. rewrite map_length, seq_length, Gi, Go in Hi.
  rewrite Gi, Go. assert (Hi' : (i < n)%nat) by lia.
  erewrite nth_map_seq by lia.
  apply (is_dif_partial_val (S n) (fun y => nth i (nt_call (sv_net (fm_solver m)) y) 0) (x ++ [t]) (fun j => nth j (nth i (nt_jac (sv_net (fm_solver m)) (x ++ [t])) []) 0) i 0); auto; try lia.
  { exact (Gj _ Lv i Hi'). }
  apply is_derive_ext with (fun _ : R => @nth R i c 0).
  - intros s. rewrite Hcf; [reflexivity|]. now rewrite set_nth_length.
  - auto_derive; auto.
Qed.
Lemma const_carry (dt : R) (z : list R) : 1 / 4096 <= dt -> length z = n -> solver_carry (fm_solver m) dt z = Ok (vadd z c).
Proof.
  intros Hdt Hz. destruct Hc as [Lc Hcf]. unfold solver_carry. apply (solve_fwd_const (sv_method (fm_solver m)) (fm_field (sv_net (fm_solver m))) dt z c).
  - apply Hg.
  - auto.
  - rnorm. lia.
  - intros s y Hy. unfold fm_field. apply Hcf. rewrite app_length. cbn. rnorm. lia.
Qed.
Lemma const_back (dt : R) (x : list R) : 1 / 4096 <= dt -> length x = n -> solver_back (fm_solver m) dt x = Ok (vsub x c, 0).
Proof.
  intros Hdt Hx. destruct Hc as [Lc Hcf]. unfold solver_back. change (@fneg RNum dt) with (- dt).
  assert (Lx0 : length (x ++ [0]) = S n) by (rewrite app_length; cbn; lia).
  assert (H : @diffeqsolve RNum (sv_method (fm_solver m)) (fm_back_field (sv_net (fm_solver m)) (length x)) 1 0 (- dt) (x ++ [0]) = Ok (vsub (x ++ [0]) (c ++ [0]))).
  { apply (solve_bwd_const (sv_method (fm_solver m)) (fm_back_field (sv_net (fm_solver m)) (length x)) dt (x ++ [0]) (c ++ [0])); auto.
    - apply Hg.
    - rewrite !app_length. cbn. rnorm. lia.
    - intros s z Hz. unfold fm_back_field. assert (Lf : length (firstn (length x) z) = n) by (rewrite firstn_length; rnorm; lia).
      pose proof (const_trace s _ Lf) as T. rnorm. rewrite T. rewrite Hcf; [reflexivity|]. rewrite app_length. cbn. rnorm. lia. }
  etransitivity; [exact (f_equal (fun r => rbind r (fun y => Ok (firstn (length x) y, nth (length x) y f0))) H)|]. cbn [rbind]. change (@f0 RNum) with 0.
  assert (E : @vsub RNum (x ++ [0]) (c ++ [0]) = vsub x c ++ [0]).
  { apply (list_eq_nth (0 : R)); rnorm; [rlen; rewrite !app_length; rlen; cbn; lia|]. intros i Hi. revert Hi. rlen. rewrite !app_length. cbn [length]. intros Hi.
    rewrite vsubR by (rewrite app_length; cbn; lia). destruct (Nat.eq_dec i n) as [->|].
    - rewrite !app_nth2 by (rlen; lia). rlen. rewrite Lc, Hx, Nat.min_id, Nat.sub_diag. cbn. ring.
    - rewrite !app_nth1 by (rlen; lia). rewrite vsubR by lia. reflexivity. }
  rewrite E. f_equal. f_equal.
  - rewrite firstn_app. assert (Lv : @length R (vsub x c) = length x) by (rlen; lia). rnorm. rewrite Lv, Nat.sub_diag, firstn_O, app_nil_r, <- Lv. apply firstn_all.
  - assert (Lv : @length R (vsub x c) = length x) by (rlen; lia). rnorm. rewrite app_nth2 by lia. rewrite Lv, Nat.sub_diag. reflexivity.
Qed.
Lemma const_shifts : shifts n m c.
Proof. split; [apply Hc|]. split; intros; [now apply const_carry|now apply const_back]. Qed.
End Const.
Variable c : list R.
Hypothesis Hc : shifts n m c.
Local Notation noise_of := (Spec_FM.noise_of m c).
Lemma noise_len (x : list R) : length x = n -> length (noise_of x) = n.
Proof. intros Hx. pose proof (fmw_len x Hx). destruct Hc. unfold Spec_FM.noise_of. rlen. lia. Qed.
Lemma noise_sample (z : list R) : length z = n -> noise_of (fm_unwhiten m (vadd z c)) = z.
Proof.
  intros Hz. destruct Hc as [Lc _]. unfold Spec_FM.noise_of. rewrite fmw_u by (rlen; lia).
  apply (list_eq_nth (0 : R)); rnorm; [rlen; lia|]. intros i Hi. revert Hi. rlen. intros Hi.
  rewrite vsubR, vaddR by (rlen; lia). ring.
Qed.
Lemma sample_noise (x : list R) : length x = n -> fm_unwhiten m (vadd (noise_of x) c) = x.
Proof.
  intros Hx. destruct Hc as [Lc _]. pose proof (fmw_len x Hx) as Lw. rewrite <- (fmu_w x Hx) at 2. f_equal. unfold Spec_FM.noise_of.
  apply (list_eq_nth (0 : R)); rnorm; [rlen; lia|]. intros i Hi. revert Hi. rlen. intros Hi.
  rewrite vaddR, vsubR by (rlen; lia). ring.
Qed.
Lemma noise_jac (x : list R) (J : nat -> nat -> R) : length x = n -> is_jac n n noise_of x J ->
  Rabs (mdet n J) = exp (- Rsum n (fun i => ln (sd m i))).
Proof.
  intros Hx HJ. destruct Hc as [Lc _].
  assert (HN : forall y i, length y = n -> (i < n)%nat -> @nth R i (noise_of y) 0 = (nth i y 0 - nth i (fm_mean m) 0) / sd m i - nth i c 0).
  { intros y i Hy Hi. unfold Spec_FM.noise_of. pose proof (fmw_len y Hy). rewrite vsubR by (rnorm; lia). now rewrite fmw_nth. }
  rewrite (shear_det n noise_of x J (fun _ => false) (fun i => / sd m i) Hx HJ).
  - rewrite <- Rsum_opp, exp_Rsum. rewrite Rabs_pos_eq.
    + apply Rprod_ext. intros i Hi. pose proof (sdm_pos i Hi). rewrite exp_Ropp, exp_ln by auto. reflexivity.
    + left. apply Rprod_pos. intros. apply Rinv_0_lt_compat. now apply sdm_pos.
  - discriminate.
  - intros i j t Hi Hj Hij _ _. rewrite !HN by (rewrite ?set_nth_length; auto). rewrite nth_set_nth_neq by auto. reflexivity.
  - intros i Hi _. apply is_derive_ext with (fun t => (t - nth i (fm_mean m) 0) / sd m i - nth i c 0).
    + intros t. change (AbsRing.sort R_AbsRing) with R in * . rewrite HN by (rewrite ?set_nth_length; auto). rewrite nth_set_nth_eq by lia. reflexivity.
    + auto_derive; auto. field. pose proof (sdm_pos i Hi). lra.
Qed.
Lemma noise_jac_ex (x : list R) : length x = n -> exists J, is_jac n n noise_of x J.
Proof.
  intros Hx. destruct Hc as [Lc _]. exists (fun i j => / sd m i * mid i j).
  intros i Hi. apply (is_dif_ext n (fun y => / sd m i * nth i y 0 + - (nth i (fm_mean m) 0 / sd m i + nth i c 0))); auto.
  - intros y Hy. unfold Spec_FM.noise_of. pose proof (fmw_len y Hy). rewrite vsubR by (rnorm; lia). rewrite fmw_nth by auto. pose proof (sdm_pos i Hi). field. lra.
  - eapply is_dif_gext; [|apply is_dif_plus; [apply is_dif_scal; now apply is_dif_proj|apply is_dif_const]]. intros j Hj. cbn beta. ring.
Qed.
Lemma const_density (x : list R) (d : R) : length x = n -> density_through n noise_of (std_density n) x d ->
  ln d = ln (std_density n (vsub (fm_whiten m x) c)) - Rsum n (fun i => ln (sd m i)) /\ 0 < d.
Proof.
  intros Hx (J & HJ & ->). rewrite (noise_jac x J Hx HJ). pose proof (std_density_pos n (noise_of x)). split.
  - rewrite ln_mult, ln_exp by (auto using exp_pos). unfold Spec_FM.noise_of. ring.
  - apply Rmult_lt_0_compat; auto using exp_pos.
Qed.
Lemma const_log_prob (x : list R) : length x = n ->
  fm_log_prob m x = Ok [ln (std_density n (fm_whiten m x)) - Rsum n (fun i => ln (sd m i))].
Proof.
  intros Hx. rewrite fm_log_prob_value by auto. rewrite (proj2 (proj2 Hc)) by (try lra; now apply fmw_len). do 2 f_equal.
  match goal with |- ?a = ?b => change (@eq R a b) end. ring.
Qed.
Lemma sq_norm_sub (x : list R) : length x = n -> sq_norm n (vsub x c) = sq_norm n x - Rsum n (fun i => nth i c 0 * (2 * nth i x 0 - nth i c 0)).
Proof.
  intros Hx. destruct Hc as [Lc _]. unfold sq_norm. rewrite <- Rsum_minus. apply Rsum_ext. intros i Hi. rewrite vsubR by (rnorm; lia). ring.
Qed.
Lemma const_right_iff (x : list R) (d v : R) : length x = n -> density_through n noise_of (std_density n) x d -> fm_log_prob m x = Ok [v] -> 0 < d /\
  (v = ln d <-> Rsum n (fun i => nth i c 0 * (2 * @nth R i (fm_whiten m x) 0 - nth i c 0)) = 0).
Proof.
  intros Hx Hd Hv. split; [exact (proj2 (const_density x d Hx Hd))|]. rewrite const_log_prob in Hv by auto. injection Hv as Hv. change (ln (std_density n (fm_whiten m x)) - Rsum n (fun i => ln (sd m i)) = v) in Hv. subst v.
  rewrite (proj1 (const_density x d Hx Hd)), !ln_std_density, sq_norm_sub by now apply fmw_len. generalize (sq_norm n (fm_whiten m x)) (INR n * (ln (2 * PI) / 2)) (Rsum n (fun i => ln (sd m i))) (Rsum n (fun i => nth i c 0 * (2 * @nth R i (fm_whiten m x) 0 - nth i c 0))). intros p q r t. split; intros E; lra.
Qed.
(** At the whitened mean (x_w = 0) it is wrong unless c = 0. *)
Lemma const_wrong : (exists i, (i < n)%nat /\ nth i c 0 <> 0) -> exists x d v, length x = n /\ 0 < d /\
  density_through n noise_of (std_density n) x d /\ fm_log_prob m x = Ok [v] /\ v <> ln d.
Proof.
  intros (i & Hi & Hci). exists (fm_mean m : list R). pose proof (gf_mean _ _ Hg) as Lm.
  destruct (noise_jac_ex (fm_mean m) Lm) as [J HJ].
  exists (std_density n (noise_of (fm_mean m)) * Rabs (mdet n J)). eexists. split; [exact Lm|].
  assert (HD : density_through n noise_of (std_density n) (fm_mean m) (std_density n (noise_of (fm_mean m)) * Rabs (mdet n J))) by (exists J; split; [exact HJ|reflexivity]).
  split; [exact (proj2 (const_density _ _ Lm HD))|]. split; [exact HD|].
  split; [now apply const_log_prob|]. intros E. apply (const_right_iff (fm_mean m) _ _ Lm) in E.
  - rewrite (Rsum_ext n _ (fun i => - (nth i c 0 ^ 2))) in E.
    + rewrite Rsum_opp in E. assert (H : nth i c 0 ^ 2 <= Rsum n (fun i => nth i c 0 ^ 2)) by (apply (Rsum_term n (fun i => nth i c 0 ^ 2) i); auto; intros; apply pow2_ge_0).
      assert (0 < nth i c 0 ^ 2) by (apply pow2_gt_0; auto). lra.
    + intros j Hj. cbv beta. rewrite (fmw_nth _ j Lm Hj). pose proof (sdm_pos j Hj). rnorm.
      match goal with |- ?a = ?b => change (@eq R a b) end. generalize (nth j (fm_mean m : list R) 0). intros u. change (nth j c 0 * (2 * ((u - u) / sd m j) - nth j c 0) = - nth j c 0 ^ 2). field. lra.
  - exists J. split; [exact HJ|reflexivity].
  - now apply const_log_prob.
Qed.
(** Samples are the noise, shifted by c and un-whitened. *)
Lemma carry_rows (dt : R) (rows : list (list R)) : 1 / 4096 <= dt -> (forall r, In r rows -> length r = n) ->
  rmapM (solver_carry (fm_solver m) dt) rows = Ok (map (fun z => vadd z c) rows).
Proof.
  intros Hdt. induction rows as [|r rows IH]; intros Hr; [reflexivity|]. cbn [rmapM map].
  rewrite (proj1 (proj2 Hc)) by (auto; apply Hr; now left). cbn [rbind]. rewrite IH by (intros; apply Hr; now right). reflexivity.
Qed.
Lemma const_sample k (s : nat) (dt : R) : 1 / 4096 <= dt -> length (normal (split k 2 1) (s * n)) = (s * n)%nat ->
  exists xs, fm_sample m k s dt = Ok xs /\ length xs = s /\
    forall j, (j < s)%nat -> exists z : list R, z = firstn n (skipn (j * n) (normal (split k 2 1) (s * n))) /\ length z = n /\
      nth j xs [] = fm_unwhiten m (vadd z c) /\ noise_of (nth j xs []) = z.
Proof.
  intros Hdt Hn. unfold fm_sample, solver_sample. rewrite (gn_in _ _ (gf_net _ _ Hg)). replace (S n - 1)%nat with n by lia.
  set (rows := reshape_rows s n (normal (split k 2 1) (s * n))).
  assert (Lr : length rows = s) by apply reshape_rows_length.
  assert (Er : forall j, (j < s)%nat -> nth j rows [] = firstn n (skipn (j * n) (normal (split k 2 1) (s * n)))) by (intros; unfold rows; rewrite nth_reshape_rows by auto; unfold slice; do 2 f_equal; lia).
  assert (Hr : forall j, (j < s)%nat -> length (nth j rows []) = n).
  { intros j Hj. rewrite Er by auto. rewrite firstn_length, skipn_length, Hn. nia. }
  rewrite (carry_rows dt rows Hdt).
  2:{ intros r Hin. apply (In_nth _ _ []) in Hin as (j & Hj & <-). apply Hr. rnorm; lia. }
  cbn [rbind]. eexists. split; [reflexivity|]. split; [now rewrite !map_length|].
  intros j Hj. exists (nth j rows []). split; [now apply Er|]. split; [now apply Hr|].
  assert (E : nth j (map (fm_unwhiten m) (map (fun z => vadd z c) rows)) [] = fm_unwhiten m (vadd (nth j rows []) c)).
  { rewrite map_map. rewrite (nth_map' (fun z => fm_unwhiten m (vadd z c)) rows j [] []) by (rnorm; lia). reflexivity. }
  rewrite E. split; [reflexivity|]. apply noise_sample. now apply Hr.
Qed.
End FMR.
