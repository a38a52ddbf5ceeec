(** Specification vocabulary: the units in which the parameters are measured. *)
From Coq Require Import Reals.
From Verif Require Import Prelude Num M_Core M_Kernels M_Strategies M_PT M_Net M_Mala RNum Spec_Kernels Spec_Prog Spec_Real Spec_HMC Spec_Net Spec_TreeR Spec_Mala.

(** Coordinate i of [y] is coordinate i of [x] in another unit and from another origin: y_i = a_i x_i + b_i. *)
Definition in_units (n : nat) (a b : nat -> R) (x y : list R) : Prop :=
  length x = n /\ length y = n /\ forall i, (i < n)%nat -> nth i y 0 = a i * nth i x 0 + b i.

(** [g] is the log-density [f] as a function of the parameters in the new units; its gradient is per new unit. *)
Definition target_in_units (n : nat) (a b : nat -> R) (f g : @lpdf RNum) : Prop :=
  forall x y d, in_units n a b x y -> lp_val g y d = lp_val f x d /\
    length (lp_grad f x d) = n /\ length (lp_grad g y d) = n /\
    forall i, (i < n)%nat -> nth i (lp_grad g y d) 0 = nth i (lp_grad f x d) 0 / a i.

Section Kernels.
Context {G : @Rng RNum}.
(** The same kernel with its scales converted: steps are lengths.  A scalar step becomes a vector (or a diagonal matrix)
    when the units differ. *)
Definition steps_in_units (n : nat) (a : nat -> R) (ss ss' : @stepsize RNum) : Prop :=
  forall i, (i < n)%nat -> step_of ss' i = a i * step_of ss i.
(** HMC: the leapfrog's step and number are unchanged; the condition matrix multiplies squared momenta, which are inverse
    lengths, and its factor generates them.  Where the matrix couples two coordinates they must have the same unit (the code
    reads the matrix through its column sums); nothing is assumed for a diagonal one. *)
Definition hmc_in_units (n : nat) (a : nat -> R) (h h' : @hmc RNum) : Prop :=
  h_step h' = h_step h /\ h_leap h' = h_leap h /\
  exists M M', h_cond h = CMat M /\ h_cond h' = CMat M' /\ square_mat M n /\ square_mat M' n /\
    square_mat (h_chol h) n /\ square_mat (h_chol h') n /\
    forall i j, (i < n)%nat -> (j < n)%nat ->
      (entry M i j = 0 \/ a i = a j) /\ entry M' i j = a i * a j * entry M i j /\ entry (h_chol h') i j = entry (h_chol h) i j / a i.

(** MALA with a matrix as step size, under the same restriction (the code squares the matrix entry by entry). *)
Definition matrix_in_units (n : nat) (a : nat -> R) (dt dt' : list (list R)) : Prop :=
  Spec_Net.square n dt /\ Spec_Net.square n dt' /\ forall i j, (i < n)%nat -> (j < n)%nat ->
    (ent dt i j = 0 \/ a i = a j) /\ ent dt' i j = a i * ent dt i j.

(** A kernel and its conversion. *)
Inductive kernel_in_units (n : nat) (a : nat -> R) : @skernel RNum G -> @skernel RNum G -> Prop :=
| ku_walk ss ss' : ok_grw ss n -> ok_grw ss' n -> steps_in_units n a ss ss' -> kernel_in_units n a (grw_kernel ss) (grw_kernel ss')
| ku_langevin ss ss' : step_accepted ss n -> step_accepted ss' n -> (forall i, (i < n)%nat -> step_of ss i <> 0) -> steps_in_units n a ss ss' ->
    kernel_in_units n a (mala_kernel ss) (mala_kernel ss')
| ku_matrix chol dt dt' : chol_law chol -> squares_factor n dt -> matrix_in_units n a dt dt' ->
    kernel_in_units n a (mat_mala_kernel chol dt) (mat_mala_kernel chol dt')
| ku_hamiltonian h h' : hmc_in_units n a h h' -> kernel_in_units n a (hmc_kernel h) (hmc_kernel h').

(** One recorded step, and the steps of a chain: position in the new units, same log-probability, same flag. *)
Definition step_in_units (n : nat) (a b : nat -> R) (o o' : list R * R * bool) : Prop :=
  in_units n a b (fst (fst o)) (fst (fst o')) /\ snd (fst o') = snd (fst o) /\ snd o' = snd o.
(** Both calls return, and their results correspond. *)
Definition both {A B} (V : A -> B -> Prop) (r : res A) (r' : res B) : Prop := exists u v, r = Ok u /\ r' = Ok v /\ V u v.

Context {NF : @NFOps RNum G}.
(** A flow and its conversion: it draws the converted samples from the same key, and its log-density is the same up to a
    constant: - sum_i ln |a_i| for a density per new unit, 0 for flows that leave the Jacobian of the units out. *)
Definition flow_in_units (n : nat) (a b : nat -> R) (m m' : mdl) : Prop :=
  (forall k s, length (m_sample m k s) = s /\ Forall2 (in_units n a b) (m_sample m k s) (m_sample m' k s)) /\
  exists c : R, forall x y, in_units n a b x y -> m_logp m' y = m_logp m x - c.
(** Target and prior of a tempered density. *)
Definition tempered_in_units (n : nat) (a b : nat -> R) (t t' : tempered) : Prop :=
  target_in_units n a b (l_pdf (t_base t)) (l_pdf (t_base t')) /\ target_in_units n a b (t_prior t) (t_prior t').
End Kernels.
