(** C96: what the samples of the flow are worth. *)
From Coq Require Import Reals Lra Lia.
From Verif Require Import Prelude Num M_Core M_Kernels M_Strategies Spec_Kernels Spec_Train Spec_Bundle
  RNum Spec_Real Spec_Inv Spec_Erg Spec_Lln Spec_Rate Spec_Cov P_Inv1 P_Inv2 P_Inv3 P_Inv4 P_Inv5 P_Inv6 P_Inv7 P_InvEx P_Erg4 P_Cov3.
Open Scope R_scope.

(** C96: positions recorded by a global call are never negatively correlated, and their correlation decays at least
    geometrically in their distance, at a rate set by the flow's coverage of the target. *)
Theorem C96_correlation {G : @Rng RNum} {NF : @NFOps RNum G} (p : nfp) (X Y : list (list R)) (f : lpdf) (d : datad) (q : list R -> R) (a W : R)
  (dim n i j : nat) (g : list R -> R) (E Ea Ed : expect key) :
  samples_shape (nfp_model p) dim -> (0 < nfp_bs p)%nat -> ignores_n_steps f ->
  NoDup X -> NoDup Y -> (forall x, In x X -> In x Y) -> X <> [] ->
  0 < a -> (forall y, q y = a * exp (m_logp (nfp_model p) y)) ->
  splits2 E Ea Ed -> key_chain (flow_tests X Y (density f d) q) n Ea -> flow_source (nfp_model p) Y q (nfp_bs p) n Ed ->
  covers X (density f d) q W ->
  (i <= j)%nat -> (j < n)%nat ->
  0 <= autocov X p f d n i j g E <= (1 - 1 / W) ^ (j - i) * variance X f d g.
Proof. intros HS HB IG NX NY XY NE A0 HQ SP CA FD CV. exact (cov_bounds p X Y f d q a W dim n g E Ea Ed HS HB IG NX NY XY NE A0 HQ SP CA FD CV i j). Qed.

(** C96: one more step between them lowers it by the factor 1 - 1/W or more. *)
Theorem C96_decay {G : @Rng RNum} {NF : @NFOps RNum G} (p : nfp) (X Y : list (list R)) (f : lpdf) (d : datad) (q : list R -> R) (a W : R)
  (dim n i j : nat) (g : list R -> R) (E Ea Ed : expect key) :
  samples_shape (nfp_model p) dim -> (0 < nfp_bs p)%nat -> ignores_n_steps f ->
  NoDup X -> NoDup Y -> (forall x, In x X -> In x Y) -> X <> [] ->
  0 < a -> (forall y, q y = a * exp (m_logp (nfp_model p) y)) ->
  splits2 E Ea Ed -> key_chain (flow_tests X Y (density f d) q) n Ea -> flow_source (nfp_model p) Y q (nfp_bs p) n Ed ->
  covers X (density f d) q W ->
  (i <= j)%nat -> (S j < n)%nat ->
  autocov X p f d n i (S j) g E <= (1 - 1 / W) * autocov X p f d n i j g E.
Proof. intros HS HB IG NX NY XY NE A0 HQ SP CA FD CV. exact (cov_step p X Y f d q a W dim n g E Ea Ed HS HB IG NX NY XY NE A0 HQ SP CA FD CV i j). Qed.

(** C96: it depends on the distance only. *)
Theorem C96_stationary {G : @Rng RNum} {NF : @NFOps RNum G} (p : nfp) (X Y : list (list R)) (f : lpdf) (d : datad) (q : list R -> R) (a : R)
  (dim n i j i' j' : nat) (g : list R -> R) (E Ea Ed : expect key) :
  samples_shape (nfp_model p) dim -> (0 < nfp_bs p)%nat -> ignores_n_steps f ->
  NoDup X -> NoDup Y -> (forall x, In x X -> In x Y) -> X <> [] ->
  0 < a -> (forall y, q y = a * exp (m_logp (nfp_model p) y)) ->
  splits2 E Ea Ed -> key_chain (flow_tests X Y (density f d) q) n Ea -> flow_source (nfp_model p) Y q (nfp_bs p) n Ed ->
  (i <= j)%nat -> (j < n)%nat -> (i' <= j')%nat -> (j' < n)%nat -> (j - i = j' - i')%nat ->
  autocov X p f d n i j g E = autocov X p f d n i' j' g E.
Proof. intros HS HB IG NX NY XY NE A0 HQ SP CA FD. exact (cov_shift p X Y f d q a dim n g E Ea Ed HS HB IG NX NY XY NE A0 HQ SP CA FD i j i' j'). Qed.

(** C96: so [n] global steps are worth at most [n] and at least n / (2 W - 1) independent samples of the target: the
    mean square error of the average of [g] over the recorded positions lies between that of n and that of
    n / (2 W - 1) of those. *)
Theorem C96_worth {G : @Rng RNum} {NF : @NFOps RNum G} (p : nfp) (X Y : list (list R)) (f : lpdf) (d : datad) (q : list R -> R) (a W : R)
  (dim n : nat) (g : list R -> R) (E Ea Ed : expect key) :
  samples_shape (nfp_model p) dim -> (0 < nfp_bs p)%nat -> ignores_n_steps f ->
  NoDup X -> NoDup Y -> (forall x, In x X -> In x Y) -> X <> [] ->
  0 < a -> (forall y, q y = a * exp (m_logp (nfp_model p) y)) ->
  splits2 E Ea Ed -> key_chain (flow_tests X Y (density f d) q) n Ea -> flow_source (nfp_model p) Y q (nfp_bs p) n Ed ->
  covers X (density f d) q W ->
  (0 < n)%nat ->
  variance X f d g / INR n <= call_error X p f d n g E <= (2 * W - 1) * (variance X f d g / INR n).
Proof. intros HS HB IG NX NY XY NE A0 HQ SP CA FD CV. exact (error_bounds p X Y f d q a W dim n g E Ea Ed HS HB IG NX NY XY NE A0 HQ SP CA FD CV). Qed.

(** C96: in particular a flow that is the target gives independent samples. *)
Theorem C96_exact {G : @Rng RNum} {NF : @NFOps RNum G} (p : nfp) (X Y : list (list R)) (f : lpdf) (d : datad) (q : list R -> R) (a : R)
  (dim n : nat) (g : list R -> R) (E Ea Ed : expect key) :
  samples_shape (nfp_model p) dim -> (0 < nfp_bs p)%nat -> ignores_n_steps f ->
  NoDup X -> NoDup Y -> (forall x, In x X -> In x Y) -> X <> [] ->
  0 < a -> (forall y, q y = a * exp (m_logp (nfp_model p) y)) ->
  splits2 E Ea Ed -> key_chain (flow_tests X Y (density f d) q) n Ea -> flow_source (nfp_model p) Y q (nfp_bs p) n Ed ->
  (forall x, In x X -> q x = target_prob X f d x) ->
  (0 < n)%nat ->
  call_error X p f d n g E = variance X f d g / INR n.
Proof.
  intros HS HB IG NX NY XY NE A0 HQ SP CA FD PF Hn. assert (CV : covers X (density f d) q 1).
  { intros x Hx. rewrite (PF x Hx), Rmult_1_l. apply Rle_refl. }
  pose proof (error_bounds p X Y f d q a 1 dim n g E Ea Ed HS HB IG NX NY XY NE A0 HQ SP CA FD CV Hn) as H. lra.
Qed.

(** The hypotheses hold for the toy flow of C79. *)
Example C96_case n : exists E Ea Ed : expect (@key RNum TRng),
  @samples_shape RNum TRng TNF tt 1 /\ ignores_n_steps tf /\ NoDup Xs /\ NoDup Ys /\ (forall x, In x Xs -> In x Ys) /\ Xs <> [] /\
  0 < aq /\ (forall y, qq y = aq * exp (@m_logp RNum TRng TNF tt y)) /\
  splits2 E Ea Ed /\ key_chain (flow_tests Xs Ys (density tf []) qq) n Ea /\ @flow_source TRng TNF tt Ys qq 1 n Ed /\
  covers Xs (density tf []) qq 2.
Proof.
  destruct (has_chain _ n tests_has) as (l & H & K), (flow_has n) as (l' & H' & K'). exists (wexp _ (prodw_norm l l' H H')), (wexp l H), (wexp l' H').
  split; [exact t_samples|]. split; [intros x d v; reflexivity|]. split; [apply xs_states|]. split; [exact ys_nodup|]. split; [exact xs_ys|]. split; [discriminate|]. split; [exact aq_pos|].
  split; [reflexivity|]. split; [apply prodw_splits|]. split; [exact K|]. split; [exact K'|exact (proj1 P_Erg4.case_covers)].
Qed.

Print Assumptions C96_correlation.
Print Assumptions C96_decay.
Print Assumptions C96_stationary.
Print Assumptions C96_worth.
Print Assumptions C96_exact.
