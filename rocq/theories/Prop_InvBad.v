(** C81: in production, parallel tempering called repeatedly does not leave the target invariant. *)
From Coq Require Import Reals Lra Lia.
From Verif Require Import Prelude Num M_Core M_Kernels M_Strategies M_PT M_Bundle Spec_Kernels Spec_Train Spec_PT Spec_Bundle Spec_Prog
  RNum Spec_Real Spec_HMC Spec_Inv Spec_InvPT P_InvPT P_InvPT2 P_InvEx P_InvPTEx P_InvBad.
Open Scope R_scope.

(** C81: a production configuration that meets every hypothesis of C80 (ideal independent keys, walkers distributed with the
    product of the tempered densities, ladder starting at 1), where the position returned by the first call has the density
    exp (logpdf + log_prior) for every observable, but the position returned by a second call (a fresh independent key, the
    positions and memory the first call left) has not: an observable has another expectation. *)
Theorem C81_production_twice : exists (G : @Rng RNum) (NF : @NFOps RNum G) (pt : ptemp) (kern : skernel) (t : tempered) (d : datad) (X : list (list R)) (n : nat)
  (temps : list R) (pl tl : loc) (w : list (list R) -> world) (xs : list (list R) -> list (list R)) (E : expect key) (z : R),
  (normal_shape /\ states X n /\ X <> [] /\ grad_shape (l_pdf (t_base t)) d n /\ grad_shape (t_prior t) d n /\ nth 0 temps 0 = 1 /\
   (0 < pt_n_steps pt)%nat /\
   tempering_source 1 0 X n t d kern (pt_n_steps pt) temps E /\
   chain_in_state pt kern t d pl tl false temps n 1 0 X w xs) /\
  0 < z /\
  let target (h : list R -> R) := z * expected_under X (fun x => exp (lp_val (l_pdf (t_base t)) x d + lp_val (t_prior t) x d)) h in
  let average (r : list (list R) -> R) := expected_under (ensembles X (length temps)) (ensemble_density t d temps) r in
  let call k e := parallel_tempering pt k (xs e) d (w e) in
  (forall h, average (fun e => h (nth 0 e [])) = target h) /\
  (forall h, average (fun e => ex E (fun k => h (returned_row (call k e) 0))) = target h) /\
  exists h, average (fun e => ex E (fun k => ex E (fun k2 => h (returned_row (call_again pt d k2 (call k e)) 0)))) <> target h.
Proof.
  destruct (cold_marginal btm [] X2 1 [2] ltac:(discriminate)) as (z & Z & H).
  assert (T : forall h, z * expected_under X2 (density (tempered_lpdf btm 1) []) h =
    z * expected_under X2 (fun x => exp (lp_val (l_pdf (t_base btm)) x [] + lp_val (t_prior btm) x [])) h).
  { intros h. f_equal. unfold expected_under. apply P_Inv1.total_ext. intros x _. f_equal. unfold density. f_equal.
    change (1 / 1 * lp_val (l_pdf (t_base btm)) x [] + lp_val (t_prior btm) x [] = lp_val (l_pdf (t_base btm)) x [] + lp_val (t_prior btm) x []). field. }
  assert (ONE : forall h, expected_under (ensembles X2 2) (ensemble_density btm [] [1; 2]) (fun e => ex Ebad (fun k =>
      h (returned_row (parallel_tempering (pt_strat bpc) k [nth 0 e []] [] (bw e)) 0))) =
    z * expected_under X2 (fun x => exp (lp_val (l_pdf (t_base btm)) x [] + lp_val (t_prior btm) x [])) h).
  { intros h. refine (eq_trans (call_cold btm [] X2 1 (mala_kernel one) [1; 2] (pt_strat bpc) 1 0 t_normal x2_states (fun x _ => eq_refl) (fun x _ => eq_refl)
      (Nat.lt_0_succ _) (Nat.lt_0_succ _) L_tpos L_temp false bw (fun e => [nth 0 e []]) Ebad h b_source b_in_state) _). exact (eq_trans (H h) (T h)). }
  exists TRng, TNF, (pt_strat bpc), (mala_kernel one), btm, [], X2, 1%nat, [1; 2], L_tpos, L_temp, bw, (fun e => [nth 0 e []]), Ebad, z.
  split; [|split; [exact Z|]].
  { split; [exact t_normal|]. split; [exact x2_states|]. split; [discriminate|]. split; [intros x _; reflexivity|]. split; [intros x _; reflexivity|].
    split; [reflexivity|]. split; [cbn; lia|]. split; [exact b_source|exact b_in_state]. }
  cbv zeta. split; [|split].
  - intros h. refine (eq_trans _ (eq_trans (H h) (T h))). unfold expected_under. apply P_Inv1.total_ext. intros e _. f_equal. destruct e; reflexivity.
  - exact ONE.
  - exists at0. intros Q. pose proof (eq_trans (eq_sym (b_twice at0)) Q) as Q1. pose proof (eq_trans (eq_sym (b_once at0)) (ONE at0)) as Q2.
    pose proof (eq_trans (eq_sym once) Q2) as Q3. pose proof (eq_trans (eq_sym twice) Q1) as Q4. pose proof (eq_trans Q3 (eq_sym Q4)). lra.
Qed.

Print Assumptions C81_production_twice.
