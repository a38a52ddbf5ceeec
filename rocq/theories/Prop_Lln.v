(** C85: averages over the samples converge to the target's mean. *)
From Coq Require Import Reals Lra Lia.
From Verif Require Import Prelude Num M_Core M_Kernels M_Strategies M_Bundle Spec_Kernels Spec_Train Spec_Bundle Spec_Prog
  RNum Spec_Real Spec_Inv P_Inv1 P_Inv4 P_Inv7 P_InvEx Spec_Erg P_Erg1 P_Erg2 P_Erg3 P_Erg4 Spec_Lln P_Lln1 P_Lln2 P_Lln3 P_Lln4.
Open Scope R_scope.

(** C85: global steps with flow proposals.  Started in any state, the average of [g] over the [n] positions estimates the
    target's mean with mean square error at most (2 W - 1) (hi - lo)^2 / n, where no state is more than W times likelier
    under the target than under the flow; the probability of an error of [delta] or more is at most that over delta^2. *)
Theorem C85_flow {G : @Rng RNum} {NF : @NFOps RNum G} (p : nfp) (X Y : list (list R)) (f : lpdf) (d : datad) (q : list R -> R) (a W : R)
  (dim n : nat) (g : list R -> R) (lo hi : R) (x : list R) (E Ea Ed : expect key) :
  samples_shape (nfp_model p) dim -> (0 < nfp_bs p)%nat -> ignores_n_steps f ->
  NoDup X -> NoDup Y -> (forall x, In x X -> In x Y) ->
  0 < a -> (forall y, q y = a * exp (m_logp (nfp_model p) y)) ->
  splits2 E Ea Ed -> key_chain (flow_tests X Y (density f d) q) n Ea -> flow_source (nfp_model p) Y q (nfp_bs p) n Ed -> (0 < n)%nat ->
  covers X (density f d) q W -> ranges X g lo hi -> In x X ->
  let l := fun k => visited (group_sample p f d n k x) in
  let mu := target_mean X (density f d) g in
  mean_square_error E g l mu <= (2 * W - 1) * (hi - lo) ^ 2 / INR n /\
  forall delta, 0 < delta -> error_probability E g l mu delta <= (2 * W - 1) * (hi - lo) ^ 2 / INR n / delta ^ 2.
Proof.
  intros HS HB IG NX NY XY A0 HQ SP CA FD Hn CV RG Hx.
  exact (group_square p X Y f d q a W dim n g lo hi E Ea Ed x HS HB IG NX NY XY A0 HQ CV SP CA FD Hn RG Hx).
Qed.

(** C85: the production record of a bundle, after any training that succeeded, with the global model [m] it produced: chain i
    starts production in any state [x] of X.  The average of [g] over everything chain i records in production has bias
    at most W (hi - lo) / loops and mean square error at most (2 W + 1) (hi - lo)^2 / loops. *)
Theorem C85_production {G : @Rng RNum} {NF : @NFOps RNum G} (c : config) (d : datad) (good : mdl -> Prop) (xs0 : list (list R)) h bd
  (X Y : list (list R)) (m : mdl) (q : list R -> R) (a W : R) (i : nat) (g : list R -> R) (lo hi : R) (x : list R) pre k0 k1 xs1 w1 (E : expect key) :
  run_ok c d xs0 good -> counts_ok c -> rqspline_mala_bundle c = Ok (h, bd) ->
  states X (c_n_dims c) -> NoDup Y -> (forall x, In x X -> In x Y) ->
  (forall j, (j < c_n_dims c)%nat -> step_of (c_step c) j <> 0) -> ignores_n_steps (c_logpdf c) ->
  bd_order bd = pre ++ repeat_phase (c_prod_loops c) production_phase ->
  run_order (bd_strategies bd) pre k0 xs0 d (mkWorld h (bd_resources bd)) = (Ok (k1, xs1), w1) ->
  content_of w1 "model" = CPlain (RModel m) ->
  0 < a -> (forall y, q y = a * exp (m_logp m y)) -> (i < c_n_chains c)%nat ->
  loops_source (c_n_chains c) i (local_source c d X) (global_source c d m X Y q) (c_prod_loops c) E ->
  (0 < phase_slots c (c_prod_loops c))%nat ->
  covers X (density (c_logpdf c) d) q W -> ranges X g lo hi -> In x X ->
  let l := fun k =>
    let r := run_order (bd_strategies bd) (repeat_phase (c_prod_loops c) production_phase) k (set_nth i x xs1) d w1 in
    recorded_rows (snd r) "positions_production" (c_n_dims c) i (phase_slots c (c_prod_loops c)) in
  let mu := target_mean X (density (c_logpdf c) d) g in
  Rabs (ex E (fun k => average g (l k)) - mu) <= W * (hi - lo) / INR (c_prod_loops c) /\
  mean_square_error E g l mu <= (2 * W + 1) * (hi - lo) ^ 2 / INR (c_prod_loops c) /\
  forall delta, 0 < delta -> error_probability E g l mu delta <= (2 * W + 1) * (hi - lo) ^ 2 / INR (c_prod_loops c) / delta ^ 2.
Proof.
  intros OK HO Hb SX NY XY S0 IG Hpre TR HM A0 HQ HI LS Hs CV RG Hx. assert (NE : X <> []) by (intros ->; exact Hx).
  destruct (bundle_is c h bd Hb) as (HTl & HTg & -> & Hres & Hord & Hst). rewrite Hord in Hpre. rewrite Hres, Hst in TR. rewrite Hst. pose proof (pre_is c pre Hpre) as ->.
  exact (production_lln c d good xs0 OK HTl HTg HO X Y m q a W i SX NE NY XY A0 HQ CV S0 IG (good_is c d good xs0 OK HTl HTg k0 k1 xs1 w1 m TR HM) HI k0 k1 xs1 w1 TR HM E LS g lo hi x RG Hx Hs).
Qed.

(** A concrete case: the target and flow of C79_flow_case, covered with W = 2 (C84_covers_case), the first coordinate as
    observable, started in state 2: after n global steps the average is off by 1/2 or more with probability at most 48 / n. *)
Example C85_flow_case n : (0 < n)%nat -> exists E : expect (@key RNum TRng),
  error_probability E (fun x => nth 0 x 0) (fun k => visited (@group_sample RNum TRng TNF (@mkNfp RNum TRng TNF tt 1) tf [] n k [2]))
    (target_mean Xs (density tf []) (fun x => nth 0 x 0)) (1/2) <= 48 / INR n.
Proof.
  intros Hn. destruct (has_chain _ n tests_has) as (l & H & K), (flow_has n) as (l' & H' & K'). exists (wexp _ (prodw_norm l l' H H')).
  destruct case_covers as (CV & RG & H2).
  destruct (C85_flow (@mkNfp RNum TRng TNF tt 1) Xs Ys tf [] qq aq 2 1 n (fun x => nth 0 x 0) 0 2 [2] (wexp _ (prodw_norm l l' H H')) (wexp l H) (wexp l' H')) as [_ Q];
    [exact t_samples|cbn; lia|intros x d v; reflexivity|apply xs_states|exact ys_nodup|exact xs_ys|exact aq_pos|reflexivity|apply prodw_splits|exact K|exact K'|exact Hn|exact CV|exact RG|exact H2|].
  eapply Rle_trans; [apply (Q (1/2)); lra|]. apply Req_le. assert (0 < INR n) by (apply lt_0_INR; exact Hn). field. lra.
Qed.
(** And the production phase of C79_production_case satisfies the hypotheses of C85_production with the same W. *)
Example C85_production_case : exists E : expect (@key RNum TRng),
  loops_source (c_n_chains tcfg) 0 (local_source tcfg [] Xs) (global_source tcfg [] tt Xs Ys qq) (c_prod_loops tcfg) E /\
  c_logpdf tcfg = tf /\ covers Xs (density tf []) qq 2 /\ (0 < phase_slots tcfg (c_prod_loops tcfg))%nat.
Proof.
  destruct t_loops as (l & H & K). exists (wexp l H). split; [exact K|]. split; [reflexivity|]. split; [exact (proj1 case_covers)|]. change (0 < 8)%nat. lia.
Qed.

Print Assumptions C85_flow.
Print Assumptions C85_production.
