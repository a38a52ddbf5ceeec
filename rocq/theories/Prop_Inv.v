(** C79: with ideal (finite) randomness the sampler's moves leave the target distribution invariant. *)
From Coq Require Import Reals Lra Lia.
From Verif Require Import Prelude Num M_Core M_Kernels M_Strategies M_Bundle Spec_Kernels Spec_Train Spec_Bundle Spec_Prog
  RNum Spec_Real Spec_HMC Spec_Inv P_Inv1 P_Inv2 P_Inv3 P_Inv4 P_Inv5 P_Inv6 P_Inv7 P_InvEx.
Open Scope R_scope.

(** C79: a chain of [m] random-walk Metropolis steps.  If the initial state is distributed over the states [X] with
    weights the target's density, so is the state recorded at every step: for every observable [g] the expectation
    is that of the start. *)
Theorem C79_random_walk {G : @Rng RNum} (n : nat) (X : list (list R)) (f : lpdf) (d : datad) (ss : stepsize) (m j : nat) (g : list R -> R) (E : expect key) :
  normal_shape -> states X n -> ok_grw ss n -> (forall i, (i < n)%nat -> step_of ss i <> 0) ->
  key_chain (step_source X n (fun k x z => grw_run ss k f d x z) (back (fun k x z => grw_run ss k f d x z))) m E -> (j < m)%nat ->
  expected_under X (density f d) (fun x => ex E (fun k => at_step j g (serial_sample (grw_kernel ss) f d m k x))) =
  expected_under X (density f d) g.
Proof.
  intros NS SX MO S0 KC Hj.
  exact (chain_inv n X f d (grw_kernel ss) (proj2 SX) (walk_consistent n f d NS ss MO S0) _ (walk_inv n X f d SX ss MO S0) m j g E Hj KC).
Qed.

(** C79: a chain of MALA steps. *)
Theorem C79_langevin {G : @Rng RNum} (n : nat) (X : list (list R)) (f : lpdf) (d : datad) (ss : stepsize) (m j : nat) (g : list R -> R) (E : expect key) :
  normal_shape -> states X n -> step_accepted ss n -> (forall i, (i < n)%nat -> step_of ss i <> 0) -> grad_shape f d n ->
  key_chain (step_source X n (fun k x z => mala_run ss k f d x z) (back (fun k x z => mala_run ss k f d x z))) m E -> (j < m)%nat ->
  expected_under X (density f d) (fun x => ex E (fun k => at_step j g (serial_sample (mala_kernel ss) f d m k x))) =
  expected_under X (density f d) g.
Proof.
  intros NS SX MO' S0 GS KC Hj. assert (MO : P_Kernels.mala_ok_step ss n) by (destruct ss; exact MO').
  exact (chain_inv n X f d (mala_kernel ss) (proj2 SX) (langevin_consistent n f d NS ss MO GS) _ (langevin_inv n X f d SX ss MO S0 GS) m j g E Hj KC).
Qed.

(** C79: a chain of HMC steps, for a diagonal mass matrix. *)
Theorem C79_hmc {G : @Rng RNum} (n : nat) (X : list (list R)) (f : lpdf) (d : datad) (h : hmc) (M : list (list R)) (m j : nat) (g : list R -> R) (E : expect key) :
  normal_shape -> states X n -> h_cond h = CMat M -> square_mat M n -> square_mat (h_chol h) n ->
  factors_inverse (h_chol h) M n -> diagonal_mat M n -> grad_shape f d n ->
  key_chain (step_source X n (fun k x z => hmc_run h k f d x z) (momentum_back h M f d)) m E -> (j < m)%nat ->
  expected_under X (density f d) (fun x => ex E (fun k => at_step j g (serial_sample (hmc_kernel h) f d m k x))) =
  expected_under X (density f d) g.
Proof.
  intros NS SX HM SM SC FI DM GS KC Hj.
  exact (chain_inv n X f d (hmc_kernel h) (proj2 SX) (ham_consistent n f d NS h M HM SM SC GS) _
    (ham_inv n X f d SX h M HM SM SC FI DM GS) m j g E Hj KC).
Qed.

(** C79: [n] global steps with flow proposals; the flow draws from [Y], which contains [X], with probabilities
    proportional to the exponential of its own log_prob. *)
Theorem C79_flow {G : @Rng RNum} {NF : @NFOps RNum G} (p : nfp) (X Y : list (list R)) (f : lpdf) (d : datad) (q : list R -> R) (a : R)
  (dim n j : nat) (g : list R -> R) (E Ea Ed : expect key) :
  samples_shape (nfp_model p) dim -> (0 < nfp_bs p)%nat -> ignores_n_steps f ->
  NoDup X -> NoDup Y -> (forall x, In x X -> In x Y) ->
  0 < a -> (forall y, q y = a * exp (m_logp (nfp_model p) y)) ->
  splits2 E Ea Ed -> key_chain (flow_tests X Y (density f d) q) n Ea -> flow_source (nfp_model p) Y q (nfp_bs p) n Ed -> (j < n)%nat ->
  expected_under X (density f d) (fun x => ex E (fun k => at_step j g (group_sample p f d n k x))) =
  expected_under X (density f d) g.
Proof.
  intros HS HB IG NX NY XY A0 HQ SP CA FD Hj.
  exact (flow_inv p X Y f d q a dim n j g E Ea Ed HS HB IG NX NY XY A0 HQ SP CA FD Hj).
Qed.


(** C79: the production phase of a bundle.  After any training that succeeded (from any start), with the global
    model [m] it produced: put chain [i] in a random state distributed over [X] with the target's density as weights,
    and let chain i's keys be ideal.  Then every recorded production position of chain i, local or global, has that
    same distribution. *)
Theorem C79_production {G : @Rng RNum} {NF : @NFOps RNum G} (c : config) (d : datad) (good : mdl -> Prop) (xs0 : list (list R)) h bd
  (X Y : list (list R)) (m : mdl) (q : list R -> R) (a : R) (i s : nat) (g : list R -> R) pre k0 k1 xs1 w1 (E : expect key) :
  run_ok c d xs0 good -> counts_ok c -> rqspline_mala_bundle c = Ok (h, bd) ->
  states X (c_n_dims c) -> NoDup Y -> (forall x, In x X -> In x Y) ->
  (forall j, (j < c_n_dims c)%nat -> step_of (c_step c) j <> 0) -> ignores_n_steps (c_logpdf c) ->
  bd_order bd = pre ++ repeat_phase (c_prod_loops c) production_phase ->
  run_order (bd_strategies bd) pre k0 xs0 d (mkWorld h (bd_resources bd)) = (Ok (k1, xs1), w1) ->
  content_of w1 "model" = CPlain (RModel m) ->
  0 < a -> (forall y, q y = a * exp (m_logp m y)) -> (i < c_n_chains c)%nat ->
  loops_source (c_n_chains c) i (local_source c d X) (global_source c d m X Y q) (c_prod_loops c) E ->
  (s < phase_slots c (c_prod_loops c))%nat ->
  expected_under X (density (c_logpdf c) d) (fun x => ex E (fun k =>
    let r := run_order (bd_strategies bd) (repeat_phase (c_prod_loops c) production_phase) k (set_nth i x xs1) d w1 in
    g (recorded_row (snd r) "positions_production" (c_n_dims c) i s))) =
  expected_under X (density (c_logpdf c) d) g.
Proof.
  intros OK HO Hb SX NY XY S0 IG Hpre TR HM A0 HQ HI LS Hs.
  destruct (bundle_is c h bd Hb) as (HTl & HTg & -> & Hres & Hord & Hst). rewrite Hord in Hpre. rewrite Hres, Hst in TR. rewrite Hst. pose proof (pre_is c pre Hpre) as ->.
  exact (production_inv c d good xs0 OK HTl HTg HO X Y m q a i SX NY XY A0 HQ S0 IG (good_is c d good xs0 OK HTl HTg k0 k1 xs1 w1 m TR HM) HI k0 k1 xs1 w1 TR HM E LS s g Hs).
Qed.

(** C79: and so has the position of chain i that the run returns. *)
Theorem C79_production_end {G : @Rng RNum} {NF : @NFOps RNum G} (c : config) (d : datad) (good : mdl -> Prop) (xs0 : list (list R)) h bd
  (X Y : list (list R)) (m : mdl) (q : list R -> R) (a : R) (i : nat) (g : list R -> R) pre k0 k1 xs1 w1 (E : expect key) :
  run_ok c d xs0 good -> counts_ok c -> rqspline_mala_bundle c = Ok (h, bd) ->
  states X (c_n_dims c) -> NoDup Y -> (forall x, In x X -> In x Y) ->
  (forall j, (j < c_n_dims c)%nat -> step_of (c_step c) j <> 0) -> ignores_n_steps (c_logpdf c) ->
  bd_order bd = pre ++ repeat_phase (c_prod_loops c) production_phase ->
  run_order (bd_strategies bd) pre k0 xs0 d (mkWorld h (bd_resources bd)) = (Ok (k1, xs1), w1) ->
  content_of w1 "model" = CPlain (RModel m) ->
  0 < a -> (forall y, q y = a * exp (m_logp m y)) -> (i < c_n_chains c)%nat ->
  loops_source (c_n_chains c) i (local_source c d X) (global_source c d m X Y q) (c_prod_loops c) E ->
  expected_under X (density (c_logpdf c) d) (fun x => ex E (fun k =>
    g (returned_row (run_order (bd_strategies bd) (repeat_phase (c_prod_loops c) production_phase) k (set_nth i x xs1) d w1) i))) =
  expected_under X (density (c_logpdf c) d) g.
Proof.
  intros OK HO Hb SX NY XY S0 IG Hpre TR HM A0 HQ HI LS.
  destruct (bundle_is c h bd Hb) as (HTl & HTg & -> & Hres & Hord & Hst). rewrite Hord in Hpre. rewrite Hres, Hst in TR. rewrite Hst. pose proof (pre_is c pre Hpre) as ->.
  exact (production_end_inv c d good xs0 OK HTl HTg HO X Y m q a i SX NY XY A0 HQ S0 IG (good_is c d good xs0 OK HTl HTg k0 k1 xs1 w1 m TR HM) HI k0 k1 xs1 w1 TR HM E LS g).
Qed.

(** The hypotheses hold for a concrete case: keys that are trees of finitely many weighted leaves, a target on the
    states 0, 1, 2 with weights 1, 2 sqrt(e), 1 (very small elsewhere, gradient pointing to 1), Gaussian draws
    -1, 0, 1, and chains of any length. *)
Example C79_walk_case m : exists E : expect (@key RNum TRng),
  @normal_shape RNum TRng /\ states Xs 1 /\ ok_grw one 1 /\ (forall i, (i < 1)%nat -> step_of one i <> 0) /\
  key_chain (step_source Xs 1 (fun k x z => grw_run one k tf [] x z) (back (fun k x z => grw_run one k tf [] x z))) m E.
Proof. destruct (has_chain _ m walk_has) as (l & H & K). exists (wexp l H). split; [exact t_normal|]. split; [exact xs_states|]. split; [exact I|]. split; [exact one_ne|exact K]. Qed.
Example C79_langevin_case m : exists E : expect (@key RNum TRng),
  @normal_shape RNum TRng /\ states Xs 1 /\ step_accepted one 1 /\ (forall i, (i < 1)%nat -> step_of one i <> 0) /\ grad_shape tf [] 1 /\
  key_chain (step_source Xs 1 (fun k x z => mala_run one k tf [] x z) (back (fun k x z => mala_run one k tf [] x z))) m E.
Proof. destruct (has_chain _ m lang_has) as (l & H & K). exists (wexp l H). split; [exact t_normal|]. split; [exact xs_states|]. split; [exact I|]. split; [exact one_ne|]. split; [exact tf_grad|exact K]. Qed.
Example C79_hmc_case m : exists E : expect (@key RNum TRng),
  @normal_shape RNum TRng /\ states Xs 1 /\ h_cond hm = CMat [[1]] /\ square_mat [[1]] 1 /\ square_mat (h_chol hm) 1 /\
  factors_inverse (h_chol hm) [[1]] 1 /\ diagonal_mat [[1]] 1 /\ grad_shape tf [] 1 /\
  key_chain (step_source Xs 1 (fun k x z => hmc_run hm k tf [] x z) (momentum_back hm [[1]] tf [])) m E.
Proof. destruct (has_chain _ m ham_has) as (l & H & K). exists (wexp l H). split; [exact t_normal|]. split; [exact xs_states|]. split; [reflexivity|]. split; [exact hm_sq|]. split; [exact hm_sq|]. split; [exact hm_fac|]. split; [exact hm_diag|]. split; [exact tf_grad|exact K]. Qed.
Example C79_flow_case n : exists E Ea Ed : expect (@key RNum TRng),
  @samples_shape RNum TRng TNF tt 1 /\ ignores_n_steps tf /\ NoDup Xs /\ NoDup Ys /\ (forall x, In x Xs -> In x Ys) /\
  0 < aq /\ (forall y, qq y = aq * exp (@m_logp RNum TRng TNF tt y)) /\
  splits2 E Ea Ed /\ key_chain (flow_tests Xs Ys (density tf []) qq) n Ea /\ @flow_source TRng TNF tt Ys qq 1 n Ed.
Proof.
  destruct (has_chain _ n tests_has) as (l & H & K), (flow_has n) as (l' & H' & K'). exists (wexp _ (prodw_norm l l' H H')), (wexp l H), (wexp l' H').
  split; [exact t_samples|]. split; [intros x d v; reflexivity|]. split; [apply xs_states|]. split; [exact ys_nodup|]. split; [exact xs_ys|]. split; [exact aq_pos|].
  split; [reflexivity|]. split; [apply prodw_splits|]. split; [exact K|exact K'].
Qed.
Example C79_production_case : exists (E : expect (@key RNum TRng)) h bd pre k0 k1 xs1 w1,
  @run_ok RNum TRng TNF tcfg [] [[0]] (fun _ => True) /\ counts_ok tcfg /\ rqspline_mala_bundle tcfg = Ok (h, bd) /\
  bd_order bd = pre ++ repeat_phase (c_prod_loops tcfg) production_phase /\
  run_order (bd_strategies bd) pre k0 [[0]] [] (mkWorld h (bd_resources bd)) = (Ok (k1, xs1), w1) /\
  content_of w1 "model" = CPlain (RModel (tt : @mdl RNum TRng TNF)) /\
  loops_source (c_n_chains tcfg) 0 (local_source tcfg [] Xs) (global_source tcfg [] tt Xs Ys qq) (c_prod_loops tcfg) E /\
  (0 < c_n_chains tcfg)%nat /\ phase_slots tcfg (c_prod_loops tcfg) = 8%nat.
Proof.
  destruct t_loops as (l & H & K). exists (wexp l H), (fst thb), (snd thb), ["reset_steppers"; "update_state"]%string, (Lf 0 0), (Lf 0 0), [[0]].
  eexists. split; [exact t_ok|]. split; [exact t_counts|]. split; [reflexivity|]. split; [reflexivity|]. split; [reflexivity|]. split; [reflexivity|]. split; [exact K|]. split; [cbn; lia|reflexivity].
Qed.

Print Assumptions C79_random_walk.
Print Assumptions C79_langevin.
Print Assumptions C79_hmc.
Print Assumptions C79_flow.
Print Assumptions C79_production.
Print Assumptions C79_production_end.
