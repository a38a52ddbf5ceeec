(** C80: with ideal (finite) randomness parallel tempering leaves the product of the tempered densities invariant. *)
From Coq Require Import Reals Lra Lia.
From Verif Require Import Prelude Num M_Core M_Kernels M_Strategies M_PT M_Bundle Spec_Kernels Spec_Train Spec_PT Spec_Bundle Spec_Prog
  RNum Spec_Real Spec_HMC Spec_Inv Spec_InvPT P_InvPT P_InvPT2 P_InvEx P_InvPTEx.
Open Scope R_scope.

(** C80: a training call.  If the walkers of chain [c] are distributed with the product of the tempered densities, walker j
    at temps[j], so they are after the call (the returned position and the stored walkers), for every observable [h] of the
    whole ensemble.  The other chains are arbitrary. *)
Theorem C80_training {G : @Rng RNum} {NF : @NFOps RNum G} (pt : ptemp) (kern : skernel) (t : tempered) (d : datad) (X : list (list R)) (n chains c : nat)
  (temps : list R) (pl tl : loc) (w : list (list R) -> world) (xs : list (list R) -> list (list R)) (E : expect key) (h : list (list R) -> R) :
  normal_shape -> states X n -> grad_shape (l_pdf (t_base t)) d n -> grad_shape (t_prior t) d n -> (0 < length temps)%nat -> (c < chains)%nat ->
  tempering_source chains c X n t d kern (pt_n_steps pt) temps E ->
  chain_in_state pt kern t d pl tl true temps n chains c X w xs ->
  expected_under (ensembles X (length temps)) (ensemble_density t d temps) (fun e => ex E (fun k =>
    h (ensemble_after pl (parallel_tempering pt k (xs e) d (w e)) c))) =
  expected_under (ensembles X (length temps)) (ensemble_density t d temps) h.
Proof. intros NS SX G1 G2 T0 HC HT CS. exact (call_joint t d X n kern temps pt chains c NS SX G1 G2 T0 HC pl tl w xs E h HT CS). Qed.

(** C80: in training and in production, with temps[0] = 1, the returned position of chain [c] has the density
    exp (logpdf + log_prior): the expectation of every observable is, up to the constant [z] that does not depend on it, the
    one of that density. *)
Theorem C80_returned {G : @Rng RNum} {NF : @NFOps RNum G} (pt : ptemp) (kern : skernel) (t : tempered) (d : datad) (X : list (list R)) (n chains c : nat)
  (temps : list R) (pl tl : loc) (training : bool) (w : list (list R) -> world) (xs : list (list R) -> list (list R)) (E : expect key) :
  normal_shape -> states X n -> X <> [] -> grad_shape (l_pdf (t_base t)) d n -> grad_shape (t_prior t) d n -> nth 0 temps 0 = 1 -> (c < chains)%nat ->
  tempering_source chains c X n t d kern (pt_n_steps pt) temps E ->
  chain_in_state pt kern t d pl tl training temps n chains c X w xs ->
  exists z, 0 < z /\ forall h,
  expected_under (ensembles X (length temps)) (ensemble_density t d temps) (fun e => ex E (fun k =>
    h (returned_row (parallel_tempering pt k (xs e) d (w e)) c))) =
  z * expected_under X (fun x => exp (lp_val (l_pdf (t_base t)) x d + lp_val (t_prior t) x d)) h.
Proof.
  intros NS SX NE G1 G2 T1 HC HT CS. destruct temps as [|T ts]; [cbn in T1; lra|]. cbn [nth] in T1. subst T.
  destruct (cold_marginal t d X 1 ts NE) as (z & Z & H). exists z. split; [exact Z|]. intros h.
  refine (eq_trans (call_cold t d X n kern (1 :: ts) pt chains c NS SX G1 G2 (Nat.lt_0_succ _) HC pl tl training w xs E h HT CS) _).
  refine (eq_trans (H h) _). f_equal. unfold expected_under. apply P_Inv1.total_ext. intros x _. f_equal. unfold density. f_equal.
  change (1 / 1 * lp_val (l_pdf (t_base t)) x d + lp_val (t_prior t) x d = lp_val (l_pdf (t_base t)) x d + lp_val (t_prior t) x d). field.
Qed.

(** The hypotheses hold for a concrete case: the parallel-tempering call of a bundle with one chain, temperatures 1 and 4, three
    Langevin steps per call, states 0, 1, 2, likelihood sqrt(e) at 1 and 1 elsewhere, prior exp(-(x-1)^2). *)
Example C80_case training : exists E : expect (@key RNum TRng),
  @normal_shape RNum TRng /\ states Xs 1 /\ Xs <> [] /\ grad_shape (l_pdf (t_base ptm)) [] 1 /\ grad_shape (t_prior ptm) [] 1 /\
  pt_n_steps (pt_strat ppc) = 3%nat /\
  tempering_source 1 0 Xs 1 ptm [] (mala_kernel one) 3 [1; 4] E /\
  @chain_in_state TRng TNF (pt_strat ppc) (mala_kernel one) ptm [] L_tpos L_temp training [1; 4] 1 1 0 Xs (pw_of training) (fun e => [nth 0 e []]).
Proof.
  destruct pt_has as (l & H & K). exists (wexp l H). split; [exact t_normal|]. split; [exact xs_states|]. split; [discriminate|].
  split; [intros x _; reflexivity|]. split; [intros x _; reflexivity|]. split; [reflexivity|]. split; [exact K|exact (pt_in_state training)].
Qed.

Print Assumptions C80_training.
Print Assumptions C80_returned.
