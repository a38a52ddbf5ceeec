(** C87: production chains are independent, and more of them means a better estimate. *)
From Coq Require Import Reals Lra Lia.
From Verif Require Import Prelude Num M_Core M_Kernels M_Strategies M_Bundle Spec_Kernels Spec_Train Spec_Bundle Spec_Prog
  RNum Spec_Real Spec_Inv P_Inv1 P_Inv4 P_Inv7 P_InvEx Spec_Erg P_Erg1 P_Erg2 P_Erg3 P_Erg4 Spec_Lln P_Lln1 P_Lln2 P_Lln3 P_Lln4 Spec_Par P_Par1 P_Par2 P_ParEx.
Open Scope R_scope.

(** C87: after any training that succeeded, production started from any positions [xs], one per chain.  If in every loop
    jax.random.split gives the chains independent keys, then what the chains leave behind - everything chain i records in
    production, and the position it ends in - is mutually independent across the chains: no chain's samples carry
    information about another's.  Nothing is assumed about the kernels, the target or the model. *)
Theorem C87_independent {G : @Rng RNum} {NF : @NFOps RNum G} (c : config) (d : datad) (good : mdl -> Prop) (xs0 xs : list (list R)) h bd
  (P Q : expect key -> Prop) (m : mdl) pre k0 k1 xs1 w1 (E : expect key) :
  run_ok c d xs0 good -> counts_ok c -> rqspline_mala_bundle c = Ok (h, bd) ->
  bd_order bd = pre ++ repeat_phase (c_prod_loops c) production_phase ->
  run_order (bd_strategies bd) pre k0 xs0 d (mkWorld h (bd_resources bd)) = (Ok (k1, xs1), w1) ->
  content_of w1 "model" = CPlain (RModel m) ->
  length xs = c_n_chains c -> (forall x, In x xs -> length x = c_n_dims c) ->
  loops_sources (c_n_chains c) P Q (c_prod_loops c) E ->
  independent E (c_n_chains c) (fun i k =>
    chain_result (run_order (bd_strategies bd) (repeat_phase (c_prod_loops c) production_phase) k xs d w1)
      "positions_production" (c_n_dims c) (phase_slots c (c_prod_loops c)) i).
Proof.
  intros OK HO Hb Hpre TR HM HL HD LS.
  destruct (bundle_is c h bd Hb) as (HTl & HTg & -> & Hres & Hord & Hst). rewrite Hord in Hpre. rewrite Hres, Hst in TR. rewrite Hst. pose proof (pre_is c pre Hpre) as ->.
  exact (production_independent c d good xs0 OK HTl HTg HO k0 k1 xs1 xs w1 m TR HM (conj HL HD) P Q E LS).
Qed.

(** C87: the average of [g] over the production records of all chains together, every chain started in some state of X.  Its
    mean square error is at most (2 W + 1) (hi - lo)^2 / (loops * chains) plus the square of the bias bound
    W (hi - lo) / loops of a single chain: the statistical error falls with the number of chains, the bias with the
    number of loops only. *)
Theorem C87_pooled {G : @Rng RNum} {NF : @NFOps RNum G} (c : config) (d : datad) (good : mdl -> Prop) (xs0 xs : list (list R)) h bd
  (X Y : list (list R)) (m : mdl) (q : list R -> R) (a W : R) (g : list R -> R) (lo hi : R) pre k0 k1 xs1 w1 (E : expect key) :
  run_ok c d xs0 good -> counts_ok c -> rqspline_mala_bundle c = Ok (h, bd) ->
  states X (c_n_dims c) -> NoDup Y -> (forall x, In x X -> In x Y) ->
  (forall j, (j < c_n_dims c)%nat -> step_of (c_step c) j <> 0) -> ignores_n_steps (c_logpdf c) ->
  bd_order bd = pre ++ repeat_phase (c_prod_loops c) production_phase ->
  run_order (bd_strategies bd) pre k0 xs0 d (mkWorld h (bd_resources bd)) = (Ok (k1, xs1), w1) ->
  content_of w1 "model" = CPlain (RModel m) ->
  0 < a -> (forall y, q y = a * exp (m_logp m y)) -> (0 < c_n_chains c)%nat ->
  loops_sources (c_n_chains c) (local_source c d X) (global_source c d m X Y q) (c_prod_loops c) E ->
  (0 < phase_slots c (c_prod_loops c))%nat ->
  covers X (density (c_logpdf c) d) q W -> ranges X g lo hi ->
  length xs = c_n_chains c -> (forall x, In x xs -> In x X) ->
  let l := fun k =>
    let r := run_order (bd_strategies bd) (repeat_phase (c_prod_loops c) production_phase) k xs d w1 in
    pooled_rows (snd r) "positions_production" (c_n_dims c) (c_n_chains c) (phase_slots c (c_prod_loops c)) in
  let mu := target_mean X (density (c_logpdf c) d) g in
  let B := (2 * W + 1) * (hi - lo) ^ 2 / (INR (c_prod_loops c) * INR (c_n_chains c)) + (W * (hi - lo) / INR (c_prod_loops c)) ^ 2 in
  mean_square_error E g l mu <= B /\
  (monotone E -> forall delta, 0 < delta -> error_probability E g l mu delta <= B / delta ^ 2).
Proof.
  intros OK HO Hb SX NY XY S0 IG Hpre TR HM A0 HQ NC LS Hs CV RG HL HX.
  assert (HD : forall x, In x xs -> length x = c_n_dims c) by (intros x Hx; apply (proj2 SX), HX, Hx).
  assert (NE : X <> []). { intros ->. destruct xs as [|x xs]; [cbn in HL; lia|]. exact (HX x (or_introl eq_refl)). }
  destruct (bundle_is c h bd Hb) as (HTl & HTg & -> & Hres & Hord & Hst). rewrite Hord in Hpre. rewrite Hres, Hst in TR. rewrite Hst. pose proof (pre_is c pre Hpre) as ->.
  exact (production_pooled c d good xs0 OK HTl HTg HO k0 k1 xs1 xs w1 m TR HM (conj HL HD) X Y q a W SX NE NY XY A0 HQ CV S0 IG
    (good_is c d good xs0 OK HTl HTg k0 k1 xs1 w1 m TR HM) HX NC E LS g lo hi RG Hs).
Qed.

(** A concrete case: the three-state target and the flow of C79_production_case with two chains, started in states 0 and 2,
    and any number L > 0 of production loops: the hypotheses of both theorems hold for a monotone E, and the pooled average
    of the first coordinate has mean square error at most 10 / L + 16 / L^2. *)
Example C87_case L : (0 < L)%nat -> exists (E : expect (@key RNum TRng)) h bd pre k0 k1 w1,
  monotone E /\ rqspline_mala_bundle (tcfg2 L) = Ok (h, bd) /\
  bd_order bd = pre ++ repeat_phase L production_phase /\
  run_order (bd_strategies bd) pre k0 [[0]; [2]] [] (mkWorld h (bd_resources bd)) = (Ok (k1, [[0]; [2]]), w1) /\
  content_of w1 "model" = CPlain (RModel (tt : @mdl RNum TRng TNF)) /\
  loops_sources 2 (local_source (tcfg2 L) [] Xs) (global_source (tcfg2 L) [] tt Xs Ys qq) L E /\
  let l := fun k => pooled_rows (snd (run_order (bd_strategies bd) (repeat_phase L production_phase) k [[0]; [2]] [] w1)) "positions_production" 1 2 (phase_slots (tcfg2 L) L) in
  mean_square_error E (fun x => nth 0 x 0) l (target_mean Xs (density tf []) (fun x => nth 0 x 0)) <= 10 / INR L + 16 / INR L ^ 2.
Proof.
  intros HL. destruct (t2_loops L) as (l & H & N & K). exists (wexp l H), (fst (thb2 L)), (snd (thb2 L)), ["reset_steppers"; "update_state"]%string, (Lf 0 0), (Lf 0 0).
  destruct case_covers as (CV & RG & _).
  eexists. split; [apply wexp_monotone, N|]. split; [reflexivity|]. split; [reflexivity|]. split; [reflexivity|]. split; [reflexivity|]. split; [exact K|]. cbv zeta.
  assert (N0 : 0 < INR L) by (apply lt_0_INR; exact HL).
  match goal with |- mean_square_error _ _ (fun k => pooled_rows (snd (run_order _ _ k _ _ ?w)) _ _ _ _) _ <= _ =>
    pose proof (C87_pooled (tcfg2 L) [] (fun _ => True) [[0]; [2]] [[0]; [2]] (fst (thb2 L)) (snd (thb2 L)) Xs Ys tt qq aq 2 (fun x => nth 0 x 0) 0 2
      ["reset_steppers"; "update_state"]%string (Lf 0 0) (Lf 0 0) [[0]; [2]] w (wexp l H)) as Q end.
  cbv zeta in Q. change (c_prod_loops (tcfg2 L)) with L in Q. change (c_n_chains (tcfg2 L)) with 2%nat in Q.
  destruct Q as [Q _]; [exact (t2_ok L)|exact (t2_counts L)|reflexivity|exact xs_states|exact ys_nodup|exact xs_ys|exact one_ne|intros x d v; reflexivity|reflexivity|reflexivity|reflexivity|
    exact aq_pos|reflexivity|lia|exact K|change (0 < 2 * L + 2 * L)%nat; lia|exact CV|exact RG|reflexivity|intros x [<-|[<-|[]]]; [exact in0|exact in2]|].
  eapply Rle_trans; [exact Q|]. apply Req_le. change (INR 2) with (1 + 1). field. lra.
Qed.

Print Assumptions C87_independent.
Print Assumptions C87_pooled.
