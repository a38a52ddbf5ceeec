(** Specification vocabulary for the base distributions and networks. *)
From Coq Require Import Reals List.
From Verif Require Import Prelude Num M_Core M_Kernels M_Flow M_Net RNum MxR Spec_Jac Spec_Real Spec_Flow.
Open Scope R_scope.

(** Entry (i, j) of a matrix given as a list of rows. *)
Definition ent (l : list (list R)) (i j : nat) : R := nth j (nth i l []) 0.
(** An n x n matrix. *)
Definition square (n : nat) (l : list (list R)) : Prop := length l = n /\ forall row, In row l -> length row = n.
(** What cholesky returns: a lower triangular square matrix with positive diagonal. *)
Definition cholesky_shape (n : nat) (l : list (list R)) : Prop :=
  square n l /\ (forall i j, (i < j < n)%nat -> ent l i j = 0) /\ (forall i, (i < n)%nat -> 0 < ent l i i).
(** l is a Cholesky factor of cov: cov = l * transpose l. *)
Definition factor_of (n : nat) (l cov : list (list R)) : Prop :=
  forall i j, (i < n)%nat -> (j < n)%nat -> ent cov i j = Rsum n (fun k => ent l i k * ent l j k).
(** The index ranges cut 0 .. n into consecutive pieces. *)
Fixpoint consecutive (from : nat) (rs : list (nat * nat)) (n : nat) : Prop :=
  match rs with
  | [] => from = n
  | (a, b) :: r => a = from /\ (a <= b)%nat /\ consecutive b r n
  end.

(** A linear layer from a numbers to b numbers. *)
Definition linear_shape {N : Num} (a b : nat) (l : linear) : Prop :=
  length (ln_w l) = b /\ (forall row, In row (ln_w l) -> length row = a) /\ (forall v, ln_b l = Some v -> length v = b).
(** eqx.nn.Linear(a, b) makes such layers ... *)
Definition linear_law {N : Num} {G : Rng} (li : nat -> nat -> key -> bool -> linear) : Prop :=
  forall a b k bias, linear_shape a b (li a b k bias).
(** ... with weights and bias drawn from [-1/sqrt a, 1/sqrt a], in particular from [-1, 1]. *)
Definition linear_bounded {G : @Rng RNum} (li : nat -> nat -> key -> bool -> @linear RNum) : Prop :=
  forall a b k bias, (1 <= a)%nat ->
    (forall i j, Rabs (ent (ln_w (li a b k bias)) i j) <= 1) /\
    (forall v i, ln_b (li a b k bias) = Some v -> Rabs (nth i v 0) <= 1).

(** No input of an activation is 0 when the network is evaluated at x (relu has its kink there). *)
Fixpoint no_kink (act : R -> R) (ls : list (@linear RNum)) (x : list R) : Prop :=
  match ls with
  | [] => True
  | l :: r => (forall v, In v (@linear_call RNum l x) -> v <> 0) /\ no_kink act r (map act (@linear_call RNum l x))
  end.
Definition off_kinks (m : @mlp RNum) (x : list R) : Prop := no_kink (ml_act m) (ml_hidden m) x.
(** The same for all networks of a RealNVP evaluated at x; layer i sees the point the layers before it
    produce, with its masked-out coordinates set to 0. *)
Fixpoint flow_off_kinks (n i : nat) (ms : list (@mlp RNum * @mlp RNum)) (x : list R) : Prop :=
  match ms with
  | [] => True
  | (s, t) :: r =>
      let m := @realnvp_mask RNum n i in
      off_kinks s (@vmul RNum x m) /\ off_kinks t (@vmul RNum x m) /\
      flow_off_kinks n (S i) r (fst (coupling_fwd (mkCoupling m (mlp_affine (mlp_call s) (mlp_call t) 1)) x))
  end.
