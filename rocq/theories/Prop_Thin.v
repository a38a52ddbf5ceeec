(** C100: thinning never pays. *)
From Coq Require Import Reals Lra Lia.
From Verif Require Import Prelude Num M_Core M_Kernels M_Strategies Spec_Kernels Spec_Train Spec_Bundle
  RNum Spec_Real Spec_HMC Spec_Inv Spec_InvPT Spec_Erg Spec_Lln Spec_Rate Spec_Cov Spec_Rev Spec_Thin P_Inv1 P_InvEx P_Thin.
Open Scope R_scope.

(** C100: what a stepping strategy keeps of the positions its scan visits is every t-th of them, t being its thinning. *)
Theorem C100_kept {A} (t : nat) (l : list A) : (0 < t)%nat -> stride t l = every t l.
Proof. intros H. symmetry. exact (every_stride t l H). Qed.

(** C100: a call of c t local steps (random walk, MALA, HMC with a diagonal mass matrix) of a chain that has reached the target:
    the average over all positions is at least as accurate as the average over every t-th. *)
Theorem C100_local {G : @Rng RNum} (X : list (list R)) (n : nat) (f : lpdf) (d : datad) (kern : skernel) (P : expect key -> Prop) (E1 E : expect key)
  (t c : nat) (g : list R -> R) :
  normal_shape -> states X n -> X <> [] -> ideal_kernel X n f d kern P -> P E1 -> (0 < t)%nat -> (0 < c)%nat -> key_chain (same_law E1) (c * t) E ->
  local_thinned_error X kern f d (c * t) 1 g E <= local_thinned_error X kern f d (c * t) t g E.
Proof. intros NS SX NE K PE T0 C0 C. exact (local_thin X n f d kern P E1 E g t c NS SX K PE NE T0 C0 C). Qed.

(** C100: so an average over the positions of a call is at least as accurate as one independent draw from the target. *)
Theorem C100_one {G : @Rng RNum} (X : list (list R)) (n : nat) (f : lpdf) (d : datad) (kern : skernel) (P : expect key -> Prop) (E1 E : expect key)
  (m : nat) (g : list R -> R) :
  normal_shape -> states X n -> X <> [] -> ideal_kernel X n f d kern P -> P E1 -> (0 < m)%nat -> key_chain (same_law E1) m E ->
  local_thinned_error X kern f d m 1 g E <= variance X f d g.
Proof.
  intros NS SX NE K PE M0 C. rewrite <- (local_one X n f d kern P E1 E g m 1 NS SX K PE NE M0 Nat.lt_0_1 ltac:(now rewrite Nat.mul_1_l) eq_refl). rewrite <- (Nat.mul_1_l m) at 1.
  exact (local_thin X n f d kern P E1 E g m 1 NS SX K PE NE M0 Nat.lt_0_1 ltac:(now rewrite Nat.mul_1_l)).
Qed.

(** C100: thinning global steps does not pay either, and thinning by t costs at most the factor t. *)
Theorem C100_global {G : @Rng RNum} {NF : @NFOps RNum G} (p : nfp) (X Y : list (list R)) (f : lpdf) (d : datad) (q : list R -> R) (a : R)
  (dim t c : nat) (g : list R -> R) (E Ea Ed : expect key) :
  samples_shape (nfp_model p) dim -> (0 < nfp_bs p)%nat -> ignores_n_steps f ->
  NoDup X -> NoDup Y -> (forall x, In x X -> In x Y) -> X <> [] ->
  0 < a -> (forall y, q y = a * exp (m_logp (nfp_model p) y)) -> (0 < t)%nat -> (0 < c)%nat ->
  splits2 E Ea Ed -> key_chain (flow_tests X Y (density f d) q) (c * t) Ea -> flow_source (nfp_model p) Y q (nfp_bs p) (c * t) Ed ->
  global_thinned_error X p f d (c * t) 1 g E <= global_thinned_error X p f d (c * t) t g E <= INR t * global_thinned_error X p f d (c * t) 1 g E.
Proof. intros HS HB IG NX NY XY NE A0 HQ T0 C0 SP CA FD. exact (global_thin p X Y f d q a dim t c g E Ea Ed HS HB IG NX NY XY NE A0 HQ T0 C0 SP CA FD). Qed.

(** Six positions thinned by two. *)
Example C100_three : every 2 [10; 20; 30; 40; 50; 60]%nat = [10; 30; 50]%nat.
Proof. reflexivity. Qed.
(** The hypotheses hold for the toy target of C79 and a random walk (the global ones: C96_case). *)
Example C100_case t c : exists (E1 E : expect (@key RNum TRng)) P,
  @normal_shape RNum TRng /\ states Xs 1 /\ Xs <> [] /\ @ideal_kernel TRng Xs 1 tf [] (@grw_kernel RNum TRng one) P /\ P E1 /\ key_chain (same_law E1) (c * t) E.
Proof.
  destruct walk_has as (l & H & W). destruct (has_chain (same_law (wexp l H)) (c * t) (ex_intro _ l (ex_intro _ H (fun h => eq_refl)))) as (l' & H' & C).
  exists (wexp l H), (wexp l' H'), (@step_source TRng Xs 1 (fun k x z => @grw_run TRng one k tf [] x z) (@back TRng (fun k x z => @grw_run TRng one k tf [] x z))).
  split; [exact t_normal|]. split; [exact xs_states|]. split; [discriminate|]. split; [apply ik_walk; [exact I|exact one_ne]|]. split; [exact W|exact C].
Qed.

Print Assumptions C100_kept.
Print Assumptions C100_local.
Print Assumptions C100_one.
Print Assumptions C100_global.
