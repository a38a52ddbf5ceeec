(** C95: the global acceptance rate measures how close the flow is to the target. *)
From Coq Require Import Reals Lra Lia.
From Verif Require Import Prelude Num M_Core M_Kernels M_Strategies Spec_Kernels Spec_Train Spec_Bundle
  RNum Spec_Real Spec_Inv Spec_Rate P_Inv1 P_Inv2 P_Inv3 P_Inv4 P_Inv5 P_Inv6 P_Inv7 P_InvEx P_Rate.
Open Scope R_scope.

(** C95: at stationarity, the expected acceptance of every step of a global call lies between the square of the
    overlap of target and flow and the overlap itself; the step's index makes no difference. *)
Theorem C95_rate {G : @Rng RNum} {NF : @NFOps RNum G} (p : nfp) (X Y : list (list R)) (f : lpdf) (d : datad) (q : list R -> R) (a : R)
  (dim n j : nat) (E Ea Ed : expect key) :
  samples_shape (nfp_model p) dim -> (0 < nfp_bs p)%nat -> ignores_n_steps f ->
  NoDup X -> NoDup Y -> (forall x, In x X -> In x Y) -> X <> [] ->
  0 < a -> (forall y, q y = a * exp (m_logp (nfp_model p) y)) ->
  splits2 E Ea Ed -> key_chain (flow_tests X Y (density f d) q) n Ea -> flow_source (nfp_model p) Y q (nfp_bs p) n Ed -> (j < n)%nat ->
  global_rate X p f d n j E = total X (fun x => total X (fun y => Rmin (target_prob X f d x * q y) (target_prob X f d y * q x))) /\
  overlap X f d q ^ 2 <= global_rate X p f d n j E <= overlap X f d q.
Proof.
  intros HS HB IG NX NY XY NE A0 HQ SP CA FD Hj. split.
  - exact (rate_is p X Y f d q a dim n j E Ea Ed HS HB IG NX NY XY NE A0 HQ SP CA FD Hj).
  - exact (rate_bounds p X Y f d q a dim n j E Ea Ed HS HB IG NX NY XY NE A0 HQ SP CA FD Hj).
Qed.

(** C95: so a high rate certifies the flow: no probability (no [0,1]-valued expectation) under the flow differs from
    the target's by more than the rejection rate. *)
Theorem C95_bias {G : @Rng RNum} {NF : @NFOps RNum G} (p : nfp) (X Y : list (list R)) (f : lpdf) (d : datad) (q : list R -> R) (a : R)
  (dim n j : nat) (g : list R -> R) (E Ea Ed : expect key) :
  samples_shape (nfp_model p) dim -> (0 < nfp_bs p)%nat -> ignores_n_steps f ->
  NoDup X -> NoDup Y -> (forall x, In x X -> In x Y) -> X <> [] ->
  0 < a -> (forall y, q y = a * exp (m_logp (nfp_model p) y)) ->
  splits2 E Ea Ed -> key_chain (flow_tests X Y (density f d) q) n Ea -> flow_source (nfp_model p) Y q (nfp_bs p) n Ed -> (j < n)%nat ->
  (forall y, In y Y -> 0 <= g y <= 1) ->
  Rabs (expected_under X (target_prob X f d) g - expected_under Y q g) <= 1 - global_rate X p f d n j E.
Proof.
  intros HS HB IG NX NY XY NE A0 HQ SP CA FD Hj. exact (rate_bias p X Y f d q a dim n j E Ea Ed HS HB IG NX NY XY NE A0 HQ SP CA FD Hj g).
Qed.

(** C95: and the rate is 1 only for a flow that is the target. *)
Theorem C95_perfect {G : @Rng RNum} {NF : @NFOps RNum G} (p : nfp) (X Y : list (list R)) (f : lpdf) (d : datad) (q : list R -> R) (a : R)
  (dim n j : nat) (E Ea Ed : expect key) :
  samples_shape (nfp_model p) dim -> (0 < nfp_bs p)%nat -> ignores_n_steps f ->
  NoDup X -> NoDup Y -> (forall x, In x X -> In x Y) -> X <> [] ->
  0 < a -> (forall y, q y = a * exp (m_logp (nfp_model p) y)) ->
  splits2 E Ea Ed -> key_chain (flow_tests X Y (density f d) q) n Ea -> flow_source (nfp_model p) Y q (nfp_bs p) n Ed -> (j < n)%nat ->
  (global_rate X p f d n j E = 1 <-> forall x, In x X -> target_prob X f d x = q x).
Proof.
  intros HS HB IG NX NY XY NE A0 HQ SP CA FD Hj. split.
  - exact (rate_one p X Y f d q a dim n j E Ea Ed HS HB IG NX NY XY NE A0 HQ SP CA FD Hj).
  - exact (one_rate p X Y f d q a dim n j E Ea Ed HS HB IG NX NY XY NE A0 HQ SP CA FD Hj).
Qed.

(** The hypotheses hold for the toy flow of C79, with four proposable points of which three carry the target. *)
Example C95_case n : exists E Ea Ed : expect (@key RNum TRng),
  @samples_shape RNum TRng TNF tt 1 /\ ignores_n_steps tf /\ NoDup Xs /\ NoDup Ys /\ (forall x, In x Xs -> In x Ys) /\ Xs <> [] /\
  0 < aq /\ (forall y, qq y = aq * exp (@m_logp RNum TRng TNF tt y)) /\
  splits2 E Ea Ed /\ key_chain (flow_tests Xs Ys (density tf []) qq) n Ea /\ @flow_source TRng TNF tt Ys qq 1 n Ed.
Proof.
  destruct (has_chain _ n tests_has) as (l & H & K), (flow_has n) as (l' & H' & K'). exists (wexp _ (prodw_norm l l' H H')), (wexp l H), (wexp l' H').
  split; [exact t_samples|]. split; [intros x d v; reflexivity|]. split; [apply xs_states|]. split; [exact ys_nodup|]. split; [exact xs_ys|]. split; [discriminate|]. split; [exact aq_pos|].
  split; [reflexivity|]. split; [apply prodw_splits|]. split; [exact K|exact K'].
Qed.

Print Assumptions C95_rate.
Print Assumptions C95_bias.
Print Assumptions C95_perfect.
