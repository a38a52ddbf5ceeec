(** C98: the samplers are reversible. *)
From Coq Require Import Reals Lra Lia.
From Verif Require Import Prelude Num M_Core M_Kernels M_Strategies Spec_Kernels Spec_Train Spec_Bundle Spec_Prog
  RNum Spec_Real Spec_HMC Spec_Inv Spec_InvPT P_Inv1 P_InvEx Spec_Erg Spec_Lln Spec_Rate Spec_Rev P_Rev3.
Open Scope R_scope.

(** C98: local steps (random walk, MALA, HMC with a diagonal mass matrix) with keys of one and the same law.  For a chain
    distributed as the target, whatever is observed of the start and the m recorded positions has the same expectation
    when they are read backwards. *)
Theorem C98_local {G : @Rng RNum} (X : list (list R)) (n : nat) (f : lpdf) (d : datad) (kern : skernel) (P : expect key -> Prop) (E1 E : expect key) (m : nat)
  (F : list (list R) -> R) :
  normal_shape -> states X n -> ideal_kernel X n f d kern P -> P E1 -> key_chain (same_law E1) m E ->
  expected_under X (density f d) (fun x => ex E (fun k => F (x :: visited (serial_sample kern f d m k x)))) =
  expected_under X (density f d) (fun x => ex E (fun k => F (rev (x :: visited (serial_sample kern f d m k x))))).
Proof. intros NS SX K PE C. exact (local_backward X n f d kern P E1 NS SX K PE m F E C). Qed.

(** C98: global steps, whatever the size of the batches in which proposals are made. *)
Theorem C98_global {G : @Rng RNum} {NF : @NFOps RNum G} (p : nfp) (X Y : list (list R)) (f : lpdf) (d : datad) (q : list R -> R) (a : R)
  (dim n : nat) (E Ea Ed : expect key) (F : list (list R) -> R) :
  samples_shape (nfp_model p) dim -> (0 < nfp_bs p)%nat -> ignores_n_steps f ->
  NoDup X -> NoDup Y -> (forall x, In x X -> In x Y) -> X <> [] ->
  0 < a -> (forall y, q y = a * exp (m_logp (nfp_model p) y)) ->
  splits2 E Ea Ed -> key_chain (flow_tests X Y (density f d) q) n Ea -> flow_source (nfp_model p) Y q (nfp_bs p) n Ed ->
  expected_under X (density f d) (fun x => ex E (fun k => F (x :: visited (group_sample p f d n k x)))) =
  expected_under X (density f d) (fun x => ex E (fun k => F (rev (x :: visited (group_sample p f d n k x))))).
Proof. intros HS HB IG NX NY XY NE A0 HQ SP CA FD. exact (global_backward p X Y f d q a dim n E Ea Ed HS HB IG NX NY XY NE A0 HQ SP CA FD F). Qed.

(** C98: so recorded positions of a local call an even number of steps apart are never negatively correlated, and less
    correlated the farther apart. *)
Theorem C98_even {G : @Rng RNum} (X : list (list R)) (n : nat) (f : lpdf) (d : datad) (kern : skernel) (P : expect key -> Prop) (E1 E : expect key)
  (m i k : nat) (g : list R -> R) :
  normal_shape -> states X n -> X <> [] -> ideal_kernel X n f d kern P -> P E1 -> key_chain (same_law E1) m E ->
  ((i + 2 * k < m)%nat -> 0 <= local_autocov X kern f d m i (i + 2 * k) g E) /\
  ((i + 2 * (k + 1) < m)%nat -> local_autocov X kern f d m i (i + 2 * (k + 1)) g E <= local_autocov X kern f d m i (i + 2 * k) g E).
Proof.
  intros NS SX NE K PE C. replace (2 * k)%nat with (k + k)%nat by lia. replace (2 * (k + 1))%nat with (S k + S k)%nat by lia. split; intros H.
  - exact (local_even X n f d kern P E1 NS SX K PE NE m i k g E H C).
  - exact (local_even_down X n f d kern P E1 NS SX K PE NE m i k g E H C).
Qed.
(** C98: and the covariance depends on the distance only. *)
Theorem C98_stationary {G : @Rng RNum} (X : list (list R)) (n : nat) (f : lpdf) (d : datad) (kern : skernel) (P : expect key -> Prop) (E1 E : expect key)
  (m i j i' j' : nat) (g : list R -> R) :
  normal_shape -> states X n -> X <> [] -> ideal_kernel X n f d kern P -> P E1 -> key_chain (same_law E1) m E ->
  (i <= j)%nat -> (j < m)%nat -> (i' <= j')%nat -> (j' < m)%nat -> (j - i = j' - i')%nat ->
  local_autocov X kern f d m i j g E = local_autocov X kern f d m i' j' g E.
Proof.
  intros NS SX NE K PE C H1 H2 H3 H4 D. rewrite (local_cov X n f d kern P E1 NS SX K PE m i j g E H1 H2 C), (local_cov X n f d kern P E1 NS SX K PE m i' j' g E H3 H4 C), D. reflexivity.
Qed.

(** The hypotheses hold for the toy target of C79 and a random walk (the global ones: C96_case). *)
Example C98_case m : exists (E1 E : expect (@key RNum TRng)) P,
  @normal_shape RNum TRng /\ states Xs 1 /\ Xs <> [] /\ @ideal_kernel TRng Xs 1 tf [] (@grw_kernel RNum TRng one) P /\ P E1 /\ key_chain (same_law E1) m E.
Proof.
  destruct walk_has as (l & H & W). destruct (has_chain (same_law (wexp l H)) m (ex_intro _ l (ex_intro _ H (fun h => eq_refl)))) as (l' & H' & C).
  exists (wexp l H), (wexp l' H'), (@step_source TRng Xs 1 (fun k x z => @grw_run TRng one k tf [] x z) (@back TRng (fun k x z => @grw_run TRng one k tf [] x z))).
  split; [exact t_normal|]. split; [exact xs_states|]. split; [discriminate|]. split; [apply ik_walk; [exact I|exact one_ne]|]. split; [exact W|exact C].
Qed.

Print Assumptions C98_local.
Print Assumptions C98_global.
Print Assumptions C98_even.
