(** C90: small enough steps are accepted. *)
From Coq Require Import Reals Psatz.
From Verif Require Import Prelude Num M_Core M_Kernels M_Strategies M_PT M_Net M_Mala P_Lists RNum MxR Spec_Kernels Spec_Prog Spec_Real Spec_HMC
  Spec_Net Spec_TreeR Spec_Mala Spec_Small P_Small1 P_Small2 P_Small3.
Open Scope R_scope.

(** C90.  Shrinking the step size makes every kernel accept: for a target with a continuous log-density and bounded gradient
    near x, any key (any Gaussian draw, any uniform draw in (0, 1)) and any scale, there is a threshold below which the step
    from x is accepted, lands as near x as wanted and records the target's log-density there.  (At a given momentum or draw
    the log-ratio tends to 0 with the step: drift, proposal densities and energies are consistent with one another.) *)
Theorem C90_step : forall (G : @Rng RNum) n (K : R -> @skernel RNum G) f d (x : list R) k, normal_shape -> scaled_kernel n K -> grad_shape f d n ->
  length x = n -> tame n f d x -> 0 < uniform (split k 2 1) < 1 ->
  forall e, 0 < e -> exists t, 0 < t /\ forall s, 0 < s < t ->
  exists o, K s k x (lp_val f x d) f d = Ok o /\ small_accepted n e f d x o.
Proof. intros G n K f d x k NS HK GS. exact (step_small_proof NS n K f d HK GS x k). Qed.
(** A chain of any number of steps: one threshold below which all of them are accepted. *)
Theorem C90_chain : forall (G : @Rng RNum) n (K : R -> @skernel RNum G) f d (x : list R) steps k, normal_shape -> scaled_kernel n K -> grad_shape f d n ->
  length x = n -> tame n f d x -> (forall i, (i < steps)%nat -> 0 < uniform (split (scan_key k i) 2 1) < 1) ->
  forall e, 0 < e -> exists t, 0 < t /\ forall s, 0 < s < t ->
  exists co, serial_sample (K s) f d steps k x = Ok co /\ length co = steps /\ Forall (small_accepted n e f d x) co.
Proof. intros G n K f d x steps k NS HK GS. exact (chain_small_proof NS n K f d HK GS x steps k). Qed.
(** All chains of TakeSerialSteps, whatever the chain batch size: the acceptance rate is 1. *)
Theorem C90_all_chains : forall (G : @Rng RNum) n (K : R -> @skernel RNum G) f d steps batch keys (xs : list (list R)), normal_shape -> scaled_kernel n K -> grad_shape f d n ->
  length keys = length xs -> Forall (fun x => length x = n /\ tame n f d x) xs ->
  (forall k i, In k keys -> (i < steps)%nat -> 0 < uniform (split (scan_key k i) 2 1) < 1) ->
  forall e, 0 < e -> exists t, 0 < t /\ forall s, 0 < s < t ->
  exists out, run_chains (serial_sample (K s) f d steps) batch keys xs = Ok out /\
    Forall2 (fun x co => length co = steps /\ Forall (small_accepted n e f d x) co) xs out.
Proof. intros G n K f d steps batch keys xs NS HK GS. exact (chains_small_proof NS n K f d HK GS steps batch keys xs). Qed.

(* ------------------------------------------------------------------ a concrete case *)
(** The standard normal log-density in any dimension is tame everywhere. *)
Example C90_case_target : forall n d (x : list R), tame n (gauss_target n) d x /\ @grad_shape RNum (gauss_target n) d n.
Proof. exact gauss_tame. Qed.
(** All four kernels in two dimensions. *)
Example C90_case_kernels (G : @Rng RNum) :
  scaled_kernel 2 (fun s => grw_kernel (times s (@SVec RNum [1; 3]))) /\
  scaled_kernel 2 (fun s => mala_kernel (times s (@SScalar RNum 2))) /\
  (forall chol, chol_law chol -> scaled_kernel 2 (fun s => mat_mala_kernel chol (map (map (Rmult s)) [[1; 0]; [0; 2]]))) /\
  scaled_kernel 2 (fun s => hmc_kernel (@mkHmc RNum (CMat [[2; 1]; [1; 2]]) (s * (1 / 10)) 5 [[1; 0]; [1; 1]])).
Proof.
  assert (SQ : forall p q r s : R, square_mat [[p; q]; [r; s]] 2) by (intros; split; [reflexivity|]; intros w [<-|[<-|[]]]; reflexivity).
  split; [|split; [|split]].
  - apply sk_walk. reflexivity.
  - apply sk_langevin; [exact I|]. intros i Hi. cbn. lra.
  - intros chol CL. apply sk_matrix; [exact CL|split; [reflexivity|intros w [<-|[<-|[]]]; reflexivity]|].
    exists [[1; 0]; [0; 2]]. split.
    + split; [split; [reflexivity|intros w [<-|[<-|[]]]; reflexivity]|]. split.
      * intros i j Hij. assert (i = 0%nat /\ j = 1%nat) as [-> ->] by lia. reflexivity.
      * intros [|[|i]] Hi; [cbn; lra|cbn; lra|lia].
    + intros [|[|i]] [|[|j]] Hi Hj; try lia; cbn; lra.
  - apply sk_hamiltonian; apply SQ.
Qed.
(** A generator meeting the hypotheses on the draws. *)
Definition small_rng : @Rng RNum := @mkRng RNum nat (fun k n i => (k * n + i)%nat) (fun k n => map (fun i => INR k - INR i) (seq 0 n)) INR
  (fun k => / (INR k + 2)) (fun _ n => seq 0 n) (fun _ n k => repeat 0%nat k).
Example C90_case_draws : @normal_shape RNum small_rng /\ forall k : @key RNum small_rng, 0 < @uniform RNum small_rng k < 1.
Proof.
  split; [intros k n; cbn; now rewrite map_length, seq_length|]. intros k. cbn. pose proof (pos_INR k). split; [apply Rinv_0_lt_compat; lra|].
  rewrite <- Rinv_1. apply Rinv_lt_contravar; lra.
Qed.

Print Assumptions C90_step.
Print Assumptions C90_chain.
Print Assumptions C90_all_chains.
