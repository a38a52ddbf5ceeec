(** C97: the distance to the target never grows. *)
From Coq Require Import Reals Lra Lia.
From Verif Require Import Prelude Num M_Core M_Kernels M_Strategies M_Bundle Spec_Kernels Spec_Train Spec_Bundle Spec_Prog
  RNum Spec_Real Spec_HMC Spec_Inv Spec_InvPT P_Inv1 P_Inv2 P_Inv3 P_Inv4 P_Inv5 P_Inv6 P_Inv7 P_InvEx Spec_Erg P_Erg1 P_Erg4 Spec_Warm P_Warm P_Warm2.
Open Scope R_scope.

(** C97: local steps (random walk, MALA, HMC with a diagonal mass matrix).  The first position recorded by a call is no
    farther from the target than the start, and every position no farther than the one before. *)
Theorem C97_local {G : @Rng RNum} (X : list (list R)) (n : nat) (f : lpdf) (d : datad) (kern : skernel) (P : expect key -> Prop) (nu : list R -> R) (delta : R) (m : nat) (E : expect key) :
  normal_shape -> states X n -> X <> [] -> ideal_kernel X n f d kern P -> key_chain P m E -> distribution X nu ->
  let law j g := expected_under X nu (fun x => ex E (fun k => at_step j g (serial_sample kern f d m k x))) in
  ((0 < m)%nat -> off_by X (density f d) delta (expected_under X nu) -> off_by X (density f d) delta (law 0%nat)) /\
  (forall j, (S j < m)%nat -> off_by X (density f d) delta (law j) -> off_by X (density f d) delta (law (S j))).
Proof.
  intros NS SX NE K KC [_ N] law. split.
  - intros Hm O. exact (kernel_first X n f d kern P NS SX NE K nu delta m E N Hm KC O).
  - intros j Hj O. exact (kernel_next X n f d kern P NS SX K nu delta m j E N Hj KC O).
Qed.

(** C97: global steps.  Every step shrinks the distance by the factor 1 - 1/W, where no state is more than W times likelier
    under the target than under the flow. *)
Theorem C97_global {G : @Rng RNum} {NF : @NFOps RNum G} (p : nfp) (X Y : list (list R)) (f : lpdf) (d : datad) (q : list R -> R) (a W : R)
  (dim n : nat) (nu : list R -> R) (delta : R) (E Ea Ed : expect key) :
  samples_shape (nfp_model p) dim -> (0 < nfp_bs p)%nat -> ignores_n_steps f ->
  NoDup X -> NoDup Y -> (forall x, In x X -> In x Y) -> X <> [] ->
  0 < a -> (forall y, q y = a * exp (m_logp (nfp_model p) y)) ->
  splits2 E Ea Ed -> key_chain (flow_tests X Y (density f d) q) n Ea -> flow_source (nfp_model p) Y q (nfp_bs p) n Ed ->
  covers X (density f d) q W -> distribution X nu ->
  let law j g := expected_under X nu (fun x => ex E (fun k => at_step j g (group_sample p f d n k x))) in
  0 <= 1 - 1 / W < 1 /\
  ((0 < n)%nat -> off_by X (density f d) delta (expected_under X nu) -> off_by X (density f d) ((1 - 1 / W) * delta) (law 0%nat)) /\
  (forall j, (S j < n)%nat -> off_by X (density f d) delta (law j) -> off_by X (density f d) ((1 - 1 / W) * delta) (law (S j))).
Proof.
  intros HS HB IG NX NY XY NE A0 HQ SP CA FD CV [_ N] law. split; [|split].
  - pose proof (rho_nn p X Y f d q a W n Ed HB NX NY XY NE A0 HQ FD CV) as H1. pose proof (w1 p X Y f d q a W n Ed HB NX NY XY NE A0 HQ FD CV) as H2.
    split; [exact H1|]. assert (0 < 1 / W); [|lra]. apply Rdiv_lt_0_compat; lra.
  - intros Hn O. exact (flow_first p X Y f d q a W dim n E Ea Ed HS HB IG NX NY XY NE A0 HQ SP CA FD CV nu delta N Hn O).
  - intros j Hj O. exact (flow_next p X Y f d q a W dim n E Ea Ed HS HB IG NX NY XY NE A0 HQ SP CA FD CV nu delta j N Hj O).
Qed.

(** C97: the production phase of a bundle, after any training that succeeded, with the global model [m] it produced.  If
    chain i starts it with a distribution [nu] within [delta] of the target, the position in slot [s] is within
    (1 - 1/W)^g delta, with g the global steps behind that slot; and so is the position the run returns. *)
Theorem C97_production {G : @Rng RNum} {NF : @NFOps RNum G} (c : config) (d : datad) (good : mdl -> Prop) (xs0 : list (list R)) h bd
  (X Y : list (list R)) (m : mdl) (q : list R -> R) (a W : R) (i : nat) (nu : list R -> R) (delta : R) pre k0 k1 xs1 w1 (E : expect key) :
  run_ok c d xs0 good -> counts_ok c -> rqspline_mala_bundle c = Ok (h, bd) ->
  states X (c_n_dims c) -> X <> [] -> NoDup Y -> (forall x, In x X -> In x Y) ->
  (forall j, (j < c_n_dims c)%nat -> step_of (c_step c) j <> 0) -> ignores_n_steps (c_logpdf c) ->
  bd_order bd = pre ++ repeat_phase (c_prod_loops c) production_phase ->
  run_order (bd_strategies bd) pre k0 xs0 d (mkWorld h (bd_resources bd)) = (Ok (k1, xs1), w1) ->
  content_of w1 "model" = CPlain (RModel m) ->
  0 < a -> (forall y, q y = a * exp (m_logp m y)) -> (i < c_n_chains c)%nat ->
  loops_source (c_n_chains c) i (local_source c d X) (global_source c d m X Y q) (c_prod_loops c) E ->
  covers X (density (c_logpdf c) d) q W -> 1 <= W -> distribution X nu -> off_by X (density (c_logpdf c) d) delta (expected_under X nu) ->
  let out k x := run_order (bd_strategies bd) (repeat_phase (c_prod_loops c) production_phase) k (set_nth i x xs1) d w1 in
  (forall s, (s < phase_slots c (c_prod_loops c))%nat ->
    off_by X (density (c_logpdf c) d) ((1 - 1 / W) ^ slot_globals c s * delta)
      (fun g => expected_under X nu (fun x => ex E (fun k => g (recorded_row (snd (out k x)) "positions_production" (c_n_dims c) i s))))) /\
  off_by X (density (c_logpdf c) d) ((1 - 1 / W) ^ (c_prod_loops c * loop_globals c) * delta)
    (fun g => expected_under X nu (fun x => ex E (fun k => g (returned_row (out k x) i)))).
Proof.
  intros OK HO Hb SX NE NY XY S0 IG Hpre TR HM A0 HQ HI LS CV W1 [_ N] O out.
  destruct (bundle_is c h bd Hb) as (HTl & HTg & -> & Hres & Hord & Hst). rewrite Hord in Hpre. rewrite Hres, Hst in TR. subst out. rewrite Hst. pose proof (pre_is c pre Hpre) as ->.
  pose proof (good_is c d good xs0 OK HTl HTg k0 k1 xs1 w1 m TR HM) as GM. split.
  - intros s Hs. exact (production_warm c d good xs0 OK HTl HTg HO X Y m q a W i SX NE NY XY A0 HQ CV W1 S0 IG GM HI k0 k1 xs1 w1 TR HM E LS nu delta N O s Hs).
  - exact (production_end_warm c d good xs0 OK HTl HTg HO X Y m q a W i SX NE NY XY A0 HQ CV W1 S0 IG GM HI k0 k1 xs1 w1 TR HM E LS nu delta N O).
Qed.

(** The hypotheses about randomness are those of C79 (C79_walk_case, C79_flow_case, C79_production_case), the coverage that
    of C84 (C84_covers_case).  A start: all the mass at the state 2, within distance 1 of any target. *)
Example C97_start_case : distribution Xs (fun x => if in_dec veq_dec x [[2]] then 1 else 0) /\
  off_by Xs (density tf []) 1 (expected_under Xs (fun x => if in_dec veq_dec x [[2]] then 1 else 0)).
Proof.
  set (nu := fun x : list R => if in_dec veq_dec x [[2]] then 1 else 0).
  assert (N0 : nu [0] = 0) by (unfold nu; destruct (in_dec veq_dec [0] [[2]]) as [[H|[]]|]; [injection H; lra|reflexivity]).
  assert (N1 : nu [1] = 0) by (unfold nu; destruct (in_dec veq_dec [1] [[2]]) as [[H|[]]|]; [injection H; lra|reflexivity]).
  assert (N2 : nu [2] = 1) by (unfold nu; destruct (in_dec veq_dec [2] [[2]]) as [|H]; [reflexivity|exfalso; apply H; now left]).
  split; [split|].
  - intros x _. unfold nu. destruct (in_dec veq_dec x [[2]]); lra.
  - unfold Xs, total, fold_right. rewrite N0, N1, N2. ring.
  - intros g Hg. assert (M : 0 <= target_mean Xs (density tf []) g <= 1) by (apply mean_range; [discriminate|intros; apply exp_pos|exact Hg]).
    assert (L : expected_under Xs nu g = g [2]) by (unfold expected_under, Xs, total, fold_right; rewrite N0, N1, N2; ring).
    rewrite L. pose proof (Hg [2] (proj2 (proj2 case_covers))) as B. apply Rabs_le. lra.
Qed.

Print Assumptions C97_local.
Print Assumptions C97_global.
Print Assumptions C97_production.
