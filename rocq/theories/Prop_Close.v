(** C93: a flow close to the target accepts, and a flow equal to the target forgets where the chains were. *)
From Coq Require Import Reals Psatz.
From Coquelicot Require Import Coquelicot.
From Verif Require Import Prelude Num M_Core M_Kernels M_Strategies P_Lists RNum Spec_Kernels Spec_Steps Spec_Real P_Kernels P_Real1 P_Real3 P_Prog1 Spec_Close P_Close P_CloseEx.
Open Scope R_scope.

(** C93.  If the log-density of the flow is, up to a constant, within e of the log-density of the target, then a chain of a
    global step moves to the point the flow drew at every step whose uniform number is below exp(-2e). *)
Theorem C93_step : forall (G : @Rng RNum) (NF : @NFOps RNum G) (p : @nfp RNum G NF) f d dim c e n k (x : list R) co,
  samples_shape (nfp_model p) dim -> (0 < nfp_bs p)%nat -> ignores_n_steps f -> near_target dim (nfp_model p) f d c e -> length x = dim ->
  group_sample p f d n k x = Ok co ->
  exists props, sample_flow p (split k 2 1) n = Ok (props, map (m_logp (nfp_model p)) props) /\ length props = n /\ length co = n /\
  forall i, (i < n)%nat -> 0 < step_uniform k i < exp (- (2 * e)) -> nth i co (x, lp_val f x d, false) = (nth i props [], lp_val f (nth i props []) d, true).
Proof. intros G NF p f d dim c e n k x co HS HB IG Ne Hx H. exact (close_step p f d dim HS HB IG c e n k x co Ne H Hx). Qed.
(** So the probability of accepting is at least exp(-2e), wherever the chain stands. *)
Theorem C93_probability : forall (G : @Rng RNum) (NF : @NFOps RNum G) (p : @nfp RNum G NF) f d dim c e k (x y : list R) a,
  samples_shape (nfp_model p) dim -> (0 < nfp_bs p)%nat -> ignores_n_steps f -> near_target dim (nfp_model p) f d c e -> length x = dim ->
  m_sample (nfp_model p) (split k 2 1) 1 = [y] -> accept_prob (flow_run p k f d x) a -> exp (- (2 * e)) <= a.
Proof.
  intros G NF p f d dim c e k x y a HS HB IG Ne Hx Hy A. destruct (C15_flow_proof p k f d x y HB IG Hy) as (_ & Ap & _). cbv zeta in Ap.
  rewrite (accept_unique _ _ _ A Ap). assert (Hl : length y = dim) by (apply (proj2 (HS (split k 2 1) 1%nat)); rewrite Hy; left; reflexivity).
  pose proof (near_diff p f d dim c e x y Ne Hx Hl) as D. unfold log_weight in D.
  assert (E0 : 0 <= e) by (eapply Rle_trans; [apply Rabs_pos|exact (Ne x Hx)]).
  assert (Al : forall a b u v : R, - (2 * e) <= a - u - (b - v) -> exp (- (2 * e)) <= Rmin 1 (exp (a - b - (u - v)))).
  { intros a0 b u v Q. apply Rmin_glb.
    - rewrite <- exp_0. destruct (Req_dec e 0) as [->|N0]; [right; f_equal; ring|left; apply exp_increasing; lra].
    - destruct (Req_dec (- (2 * e)) (a0 - b - (u - v))) as [->|N0]; [lra|left; apply exp_increasing; lra]. }
  exact (Al _ _ _ _ D).
Qed.
(** A flow equal to the target up to the constant: the chain is the flow's draws, every one accepted. *)
Theorem C93_exact : forall (G : @Rng RNum) (NF : @NFOps RNum G) (p : @nfp RNum G NF) f d dim c n k (x : list R),
  samples_shape (nfp_model p) dim -> (0 < nfp_bs p)%nat -> ignores_n_steps f -> near_target dim (nfp_model p) f d c 0 -> length x = dim ->
  (forall i, (i < n)%nat -> 0 < step_uniform k i < 1) ->
  exists props, sample_flow p (split k 2 1) n = Ok (props, map (m_logp (nfp_model p)) props) /\ length props = n /\
  group_sample p f d n k x = Ok (map (fun y => (y, lp_val f y d, true)) props).
Proof. intros G NF p f d dim c n k x HS HB IG Ne Hx U. exact (exact_group p f d dim HS HB IG c n k x Ne Hx U). Qed.
(** And the whole strategy (all the chains, what it stores and what it returns) is the same from any starting positions. *)
Theorem C93_forgets : forall (G : @Rng RNum) (NF : @NFOps RNum G) (p : @nfp RNum G NF) l d dim c ts k (xs xs' : list (list R)) w,
  samples_shape (nfp_model p) dim -> (0 < nfp_bs p)%nat -> ignores_n_steps (l_pdf l) -> near_target dim (nfp_model p) (l_pdf l) d c 0 ->
  dget (rdict w) (ts_kernel ts) = Some (RNFP p) -> dget (rdict w) (ts_logpdf ts) = Some (RLog l) ->
  length xs = length xs' -> (forall x, In x xs -> length x = dim) -> (forall x, In x xs' -> length x = dim) -> (forall q, 0 < uniform q < 1) ->
  take_group_steps ts k xs d w = take_group_steps ts k xs' d w.
Proof. intros G NF p l d dim c ts k xs xs' w HS HB IG. exact (exact_strategy p l d dim HS HB IG c ts k xs xs' w). Qed.
(** The other side: where the flow puts too little mass, chains stand still.  If the log-weight of the position exceeds that of
    every drawn point by b, all the steps whose uniform numbers are at least exp(-b) leave the chain where it is. *)
Theorem C93_stuck : forall (G : @Rng RNum) (NF : @NFOps RNum G) (p : @nfp RNum G NF) f d dim b n k (x : list R) co,
  samples_shape (nfp_model p) dim -> (0 < nfp_bs p)%nat -> ignores_n_steps f -> length x = dim -> group_sample p f d n k x = Ok co ->
  (forall props lps, sample_flow p (split k 2 1) n = Ok (props, lps) -> forall y, In y props -> log_weight (nfp_model p) f d y <= log_weight (nfp_model p) f d x - b) ->
  (forall i, (i < n)%nat -> exp (- b) <= step_uniform k i) -> co = repeat (x, lp_val f x d, false) n.
Proof. intros G NF p f d dim b n k x co HS HB IG Hx H. exact (stuck_steps p f d dim HS HB IG b n k x co H Hx). Qed.

(* ------------------------------------------------------------------ concrete cases *)
(** A Gaussian flow and a Gaussian target that differ by the constant 5. *)
Example C93_case_exact : @samples_shape RNum CRng CNF tt 1 /\ ignores_n_steps c_exact /\ @near_target CRng CNF 1 tt c_exact [] 5 0 /\ (forall k, 0 < @uniform RNum CRng k < 1).
Proof. split; [exact c_shape|]. split; [intros x d v; reflexivity|]. split; [exact c_exact_near|exact c_uniform]. Qed.
(** Three steps from 100: the draws 3, 4, 5. *)
Example C93_case_draws : @group_sample RNum CRng CNF (@mkNfp RNum CRng CNF tt 100) c_exact [] 3 1%nat [100] =
  Ok (map (fun y : list R => (y, @lp_val RNum c_exact y [], true)) [[INR 3]; [INR 4]; [INR 5]]).
Proof.
  destruct (C93_exact CRng CNF (@mkNfp RNum CRng CNF tt 100) c_exact [] 1 5 3 1%nat [100] c_shape ltac:(cbn; lia) ltac:(intros x d v; reflexivity) c_exact_near eq_refl (fun i _ => c_uniform _)) as (props & E & _ & H).
  refine (eq_trans H _). unfold sample_flow in E. cbn [nfp_bs nfp_model] in E. replace (100 <? 3)%nat with false in E by reflexivity. injection E as <-. reflexivity.
Qed.
(** The target with a ripple of height 1/8: probability at least exp(-1/4). *)
Example C93_case_close : @near_target CRng CNF 1 tt c_close [] 0 (1 / 8) /\ forall k x a, length x = 1%nat -> accept_prob (@flow_run CRng CNF (@mkNfp RNum CRng CNF tt 100) k c_close [] x) a -> exp (- (1 / 4)) <= a.
Proof.
  split; [exact c_close_near|]. intros k x a Hx A. replace (1 / 4) with (2 * (1 / 8)) by field.
  exact (C93_probability CRng CNF (@mkNfp RNum CRng CNF tt 100) c_close [] 1 0 (1 / 8) k x [INR (2 * k + 1 + 0)] a c_shape ltac:(cbn; lia) ltac:(intros y d v; reflexivity) c_close_near Hx eq_refl A).
Qed.
(** The flow exp(-x^2/2) on the wider target exp(-x^2/4): a chain at 10 stands still. *)
Example C93_case_stuck : @group_sample RNum CRng CNF (@mkNfp RNum CRng CNF tt 100) c_heavy [] 1 1%nat [10] = Ok [([10], @lp_val RNum c_heavy [10] [], false)].
Proof.
  destruct (@group_total RNum CRng CNF (@mkNfp RNum CRng CNF tt 100) c_heavy [] 1 1%nat [10] ltac:(cbn; lia)) as [co H].
  rewrite H. f_equal. apply (C93_stuck CRng CNF (@mkNfp RNum CRng CNF tt 100) c_heavy [] 1 2 1 1%nat [10] co c_shape ltac:(cbn; lia) ltac:(intros x d v; reflexivity) eq_refl H).
  - intros props lps E. apply (c_heavy_stuck _ _ _ _ E). cbn. lia.
  - intros i _. assert (Q : exp (Ropp 2) <= 1 / 4).
    { change (-2) with (Ropp 2). rewrite exp_Ropp. pose proof (exp_ineq1 1 ltac:(lra)) as E1. assert (E2 : exp 2 = exp 1 * exp 1) by (rewrite <- exp_plus; f_equal; ring).
      apply (Rmult_le_reg_l (exp 2)); [apply exp_pos|]. rewrite Rinv_r by (apply Rgt_not_eq, exp_pos). nra. }
    unfold step_uniform. cbn [uniform CRng]. destruct (Nat.even _); lra.
Qed.

Print Assumptions C93_step.
Print Assumptions C93_probability.
Print Assumptions C93_exact.
Print Assumptions C93_forgets.
Print Assumptions C93_stuck.
