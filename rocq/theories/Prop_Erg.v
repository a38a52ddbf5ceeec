(** C84: convergence.  From every start the samples approach the target, at a geometric rate set by how well the flow
    covers it. *)
From Coq Require Import Reals Lra Lia.
From Verif Require Import Prelude Num M_Core M_Kernels M_Strategies M_Bundle Spec_Kernels Spec_Train Spec_Bundle Spec_Prog
  RNum Spec_Real Spec_Inv P_Inv1 P_Inv4 P_Inv7 P_InvEx Spec_Erg P_Erg1 P_Erg2 P_Erg3 P_Erg4.
Open Scope R_scope.

(** C84: global steps with flow proposals.  From any state [x], the expectation of the observable [g] at step [j] is within
    (1 - 1/W)^(j+1) times g's range of the target's mean, where no state is more than W times likelier under the
    target than under the flow; W is at least 1. *)
Theorem C84_flow {G : @Rng RNum} {NF : @NFOps RNum G} (p : nfp) (X Y : list (list R)) (f : lpdf) (d : datad) (q : list R -> R) (a W : R)
  (dim n j : nat) (g : list R -> R) (lo hi : R) (x : list R) (E Ea Ed : expect key) :
  samples_shape (nfp_model p) dim -> (0 < nfp_bs p)%nat -> ignores_n_steps f ->
  NoDup X -> NoDup Y -> (forall x, In x X -> In x Y) ->
  0 < a -> (forall y, q y = a * exp (m_logp (nfp_model p) y)) ->
  splits2 E Ea Ed -> key_chain (flow_tests X Y (density f d) q) n Ea -> flow_source (nfp_model p) Y q (nfp_bs p) n Ed -> (j < n)%nat ->
  covers X (density f d) q W -> ranges X g lo hi -> In x X ->
  1 <= W /\
  Rabs (ex E (fun k => at_step j g (group_sample p f d n k x)) - target_mean X (density f d) g) <= (1 - 1 / W) ^ (j + 1) * (hi - lo).
Proof.
  intros HS HB IG NX NY XY A0 HQ SP CA FD Hj CV RG Hx. assert (NE : X <> []) by (intros ->; exact Hx). assert (WP : forall x, In x X -> 0 < density f d x) by (intros; apply exp_pos).
  split.
  - apply (covers_one X Y (density f d) q W); auto; [|exact (source_one _ _ _ _ _ _ HB FD)]. intros y. rewrite HQ. apply Rmult_lt_0_compat; [exact A0|apply exp_pos].
  - exact (converge X (density f d) NE WP _ (fun g x => ex E (fun k => at_step j g (group_sample p f d n k x))) g lo hi
      (group_contracts p X Y f d q a W dim n j E Ea Ed HS HB IG NE NX NY XY A0 HQ CV SP CA FD Hj)
      (flow_inv p X Y f d q a dim n j g E Ea Ed HS HB IG NX NY XY A0 HQ SP CA FD Hj) RG x Hx).
Qed.

(** C84: so, on finitely many states, whatever the flow: after enough steps the expectation is as close to the target's mean
    as one likes, from every start and for every ideal source of randomness. *)
Theorem C84_limit {G : @Rng RNum} {NF : @NFOps RNum G} (p : nfp) (X Y : list (list R)) (f : lpdf) (d : datad) (q : list R -> R) (a : R)
  (dim : nat) (g : list R -> R) (eps : R) :
  samples_shape (nfp_model p) dim -> (0 < nfp_bs p)%nat -> ignores_n_steps f ->
  NoDup X -> NoDup Y -> (forall x, In x X -> In x Y) ->
  0 < a -> (forall y, q y = a * exp (m_logp (nfp_model p) y)) -> 0 < eps ->
  exists enough, forall (n j : nat) (x : list R) (E Ea Ed : expect key),
  splits2 E Ea Ed -> key_chain (flow_tests X Y (density f d) q) n Ea -> flow_source (nfp_model p) Y q (nfp_bs p) n Ed -> (enough <= j < n)%nat ->
  In x X ->
  Rabs (ex E (fun k => at_step j g (group_sample p f d n k x)) - target_mean X (density f d) g) < eps.
Proof.
  intros HS HB IG NX NY XY A0 HQ He. assert (QP : forall y, 0 < q y) by (intros y; rewrite HQ; apply Rmult_lt_0_compat; [exact A0|apply exp_pos]).
  exact (flow_limit p X Y f d q a dim g eps HS HB IG NX NY XY A0 HQ QP He).
Qed.

(** C84: the production phase of a bundle, after any training that succeeded, with the global model [m] it produced: chain i
    starts in any state [x] of X; its position in slot [s] is as close to the target as the global steps behind
    that slot make it. *)
Theorem C84_production {G : @Rng RNum} {NF : @NFOps RNum G} (c : config) (d : datad) (good : mdl -> Prop) (xs0 : list (list R)) h bd
  (X Y : list (list R)) (m : mdl) (q : list R -> R) (a W : R) (i s : nat) (g : list R -> R) (lo hi : R) (x : list R) pre k0 k1 xs1 w1 (E : expect key) :
  run_ok c d xs0 good -> counts_ok c -> rqspline_mala_bundle c = Ok (h, bd) ->
  states X (c_n_dims c) -> NoDup Y -> (forall x, In x X -> In x Y) ->
  (forall j, (j < c_n_dims c)%nat -> step_of (c_step c) j <> 0) -> ignores_n_steps (c_logpdf c) ->
  bd_order bd = pre ++ repeat_phase (c_prod_loops c) production_phase ->
  run_order (bd_strategies bd) pre k0 xs0 d (mkWorld h (bd_resources bd)) = (Ok (k1, xs1), w1) ->
  content_of w1 "model" = CPlain (RModel m) ->
  0 < a -> (forall y, q y = a * exp (m_logp m y)) -> (i < c_n_chains c)%nat ->
  loops_source (c_n_chains c) i (local_source c d X) (global_source c d m X Y q) (c_prod_loops c) E ->
  (s < phase_slots c (c_prod_loops c))%nat ->
  covers X (density (c_logpdf c) d) q W -> ranges X g lo hi -> In x X ->
  Rabs (ex E (fun k =>
    let r := run_order (bd_strategies bd) (repeat_phase (c_prod_loops c) production_phase) k (set_nth i x xs1) d w1 in
    g (recorded_row (snd r) "positions_production" (c_n_dims c) i s)) - target_mean X (density (c_logpdf c) d) g)
  <= (1 - 1 / W) ^ slot_globals c s * (hi - lo).
Proof.
  intros OK HO Hb SX NY XY S0 IG Hpre TR HM A0 HQ HI LS Hs CV RG Hx. assert (NE : X <> []) by (intros ->; exact Hx).
  destruct (bundle_is c h bd Hb) as (HTl & HTg & -> & Hres & Hord & Hst). rewrite Hord in Hpre. rewrite Hres, Hst in TR. rewrite Hst. pose proof (pre_is c pre Hpre) as ->.
  exact (production_con c d good xs0 OK HTl HTg HO X Y m q a W i SX NE NY XY A0 HQ CV S0 IG (good_is c d good xs0 OK HTl HTg k0 k1 xs1 w1 m TR HM) HI k0 k1 xs1 w1 TR HM E LS g lo hi RG s x Hs Hx).
Qed.

(** C84: and so is the position the run returns: every production loop contributes. *)
Theorem C84_production_end {G : @Rng RNum} {NF : @NFOps RNum G} (c : config) (d : datad) (good : mdl -> Prop) (xs0 : list (list R)) h bd
  (X Y : list (list R)) (m : mdl) (q : list R -> R) (a W : R) (i : nat) (g : list R -> R) (lo hi : R) (x : list R) pre k0 k1 xs1 w1 (E : expect key) :
  run_ok c d xs0 good -> counts_ok c -> rqspline_mala_bundle c = Ok (h, bd) ->
  states X (c_n_dims c) -> NoDup Y -> (forall x, In x X -> In x Y) ->
  (forall j, (j < c_n_dims c)%nat -> step_of (c_step c) j <> 0) -> ignores_n_steps (c_logpdf c) ->
  bd_order bd = pre ++ repeat_phase (c_prod_loops c) production_phase ->
  run_order (bd_strategies bd) pre k0 xs0 d (mkWorld h (bd_resources bd)) = (Ok (k1, xs1), w1) ->
  content_of w1 "model" = CPlain (RModel m) ->
  0 < a -> (forall y, q y = a * exp (m_logp m y)) -> (i < c_n_chains c)%nat ->
  loops_source (c_n_chains c) i (local_source c d X) (global_source c d m X Y q) (c_prod_loops c) E ->
  covers X (density (c_logpdf c) d) q W -> ranges X g lo hi -> In x X ->
  Rabs (ex E (fun k =>
    g (returned_row (run_order (bd_strategies bd) (repeat_phase (c_prod_loops c) production_phase) k (set_nth i x xs1) d w1) i)) - target_mean X (density (c_logpdf c) d) g)
  <= (1 - 1 / W) ^ (c_prod_loops c * loop_globals c) * (hi - lo).
Proof.
  intros OK HO Hb SX NY XY S0 IG Hpre TR HM A0 HQ HI LS CV RG Hx. assert (NE : X <> []) by (intros ->; exact Hx).
  destruct (bundle_is c h bd Hb) as (HTl & HTg & -> & Hres & Hord & Hst). rewrite Hord in Hpre. rewrite Hres, Hst in TR. rewrite Hst. pose proof (pre_is c pre Hpre) as ->.
  exact (production_end_con c d good xs0 OK HTl HTg HO X Y m q a W i SX NE NY XY A0 HQ CV S0 IG (good_is c d good xs0 OK HTl HTg k0 k1 xs1 w1 m TR HM) HI k0 k1 xs1 w1 TR HM E LS g lo hi RG x Hx).
Qed.

(** The hypotheses about randomness, states and flow are those of C79, which has concrete cases (C79_flow_case,
    C79_production_case); the flow of that case covers its target with factor 2, and the first coordinate ranges
    from 0 to 2. *)
Example C84_covers_case : covers Xs (density tf []) qq 2 /\ ranges Xs (fun x => nth 0 x 0) 0 2 /\ In [2] Xs.
Proof. exact case_covers. Qed.
(** Ten local steps keeping every 2nd, twelve global ones keeping every 3rd: a loop has 5 + 4 slots and 10 effective global
    steps; slot 15 (the second global slot of the second loop) has 14 behind it. *)
Example C84_counts_case {G : @Rng RNum} {NF : @NFOps RNum G} (c : config) :
  c_local c = 10%nat -> c_local_th c = 2%nat -> c_global c = 12%nat -> c_global_th c = 3%nat ->
  loop_globals c = 10%nat /\ slot_globals c 15 = 14%nat /\ slot_globals c 9 = 10%nat.
Proof. intros A B C D. unfold slot_globals, loop_globals. rewrite A, B, C, D. repeat split. Qed.

Print Assumptions C84_flow.
Print Assumptions C84_limit.
Print Assumptions C84_production.
Print Assumptions C84_production_end.
