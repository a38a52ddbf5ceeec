(** Specification vocabulary for the flow-matching model. *)
From Coq Require Import Reals.
From Verif Require Import Prelude Num M_Core M_Kernels M_Flow M_FM RNum MxR Spec_Jac Spec_Flow.
From Verif Require Spec_Kernels.
Open Scope R_scope.

(** A network from n coordinates and the time to n numbers, with its true Jacobian matrix. *)
Record good_net (n : nat) (nt : @fnet RNum) : Prop := {
  gn_in : nt_in nt = S n;
  gn_out : nt_out nt = n;
  gn_len : forall v, length v = S n -> length (nt_call nt v) = n;
  gn_jac : forall v, length v = S n -> is_jac (S n) n (nt_call nt) v (fun i j => nth j (nth i (nt_jac nt v) []) 0) }.

(** A Runge-Kutta method whose weights, one per stage, sum to 1. *)
Definition consistent (tab : @tableau RNum) : Prop :=
  length (tb_weights tab) = length (tb_stages tab) /\
  Rsum (length (tb_weights tab)) (fun i => nth i (tb_weights tab) 0) = 1.

(** A model for n coordinates: positive variances, a good network, a consistent method. *)
Record good_fm (n : nat) (m : @fmodel RNum) : Prop := {
  gf_net : good_net n (sv_net (fm_solver m));
  gf_method : consistent (sv_method (fm_solver m));
  gf_mean : length (fm_mean m) = n;
  gf_var : length (fm_var m) = n;
  gf_pos : forall i, (i < n)%nat -> 0 < nth i (fm_var m) 0 }.

(** The standard deviation of coordinate i. *)
Definition sd (m : @fmodel RNum) (i : nat) : R := sqrt (nth i (fm_var m) 0).
(** The model's network is the constant field c. *)
Definition constant_field (n : nat) (m : @fmodel RNum) (c : list R) : Prop :=
  length c = n /\ forall v, length v = S n -> nt_call (sv_net (fm_solver m)) v = c.
(** For the constant field c: from sample space back to noise space. *)
Definition noise_of (m : @fmodel RNum) (c x : list R) : list R := vsub (fm_whiten m x) c.
(** Squared length. *)
Definition sq_norm (n : nat) (v : list R) : R := Rsum n (fun i => nth i v 0 ^ 2).

(** The straight line from x0 to x1, coordinate i at time t. *)
Definition line (x0 x1 : list R) (t : R) (i : nat) : R := nth i x0 0 + t * (nth i x1 0 - nth i x0 0).
Close Scope R_scope.

(** Training, for any arithmetic. *)
Section SpecFMTrain.
Context {N : Num} {G : Rng} {gtx optst : Type}.
Variable upd : fmodel -> list (vec * F * vec) -> gtx -> optst -> fmodel * optst.
(** Applying the optimiser to the batches one after the other leads from [s] to [s']; each step reports
    the loss of the model it starts from. *)
Inductive fm_updates (tx : gtx) : fmodel * optst -> list (list (vec * F * vec)) -> list F -> fmodel * optst -> Prop :=
| fmu_nil s : fm_updates tx s [] [] s
| fmu_cons s b bs vs s2 : fm_updates tx (upd (fst s) b tx (snd s)) bs vs s2 ->
    fm_updates tx s (b :: bs) (fm_loss (fst s) b :: vs) s2.
(** What the epochs of a training run produce, as in [epochs_from]. *)
Definition fm_epochs (tx : gtx) (x0s x1s : list vec) (ts : vec) (bs : nat) (k : key) (s0 : fmodel * optst)
  (hist : list (F * (fmodel * optst))) : Prop :=
  forall i v s, nth_error hist i = Some (v, s) ->
    let s' := match i with O => s0 | S j => snd (nth j hist (f0, s0)) end in
    fm_train_epoch upd (fst s') (Spec_Kernels.scan_key k i) tx (snd s') x0s x1s ts bs = Ok (v, s).
End SpecFMTrain.

(** Statistics of one column of numbers: mean and (n - 1)-normalised variance. *)
Definition mean_of (n : nat) (f : nat -> R) : R := (Rsum n f / INR n)%R.
Definition var_of (n : nat) (f : nat -> R) : R := (Rsum n (fun i => (f i - mean_of n f) ^ 2) / (INR n - 1))%R.

Open Scope R_scope.
(** A Runge-Kutta method of order at least 2 for fields that depend on time only. *)
Definition second_order (tab : @tableau RNum) : Prop :=
  consistent tab /\
  Rsum (length (tb_weights tab)) (fun i => nth i (tb_weights tab) 0 * fst (nth i (tb_stages tab) (0, []))) = 1 / 2.
(** The network is the field a + t b, independent of the position. *)
Definition time_field (n : nat) (m : @fmodel RNum) (a b : list R) : Prop :=
  length a = n /\ length b = n /\
  forall x t, length x = n -> nt_call (sv_net (fm_solver m)) (x ++ [t]) = vadd a (vscale t b).
(** The field's divergence, the trace of its Jacobian with respect to the position, is everywhere tau. *)
Definition divergence (n : nat) (m : @fmodel RNum) (tau : R) : Prop :=
  forall x t J, length x = n -> is_jac n n (fun y => nt_call (sv_net (fm_solver m)) (y ++ [t])) x J ->
  Rsum n (fun i => J i i) = tau.
(** The solver moves every point by the vector c, forwards and backwards, and finds no divergence. *)
Definition shifts (n : nat) (m : @fmodel RNum) (c : list R) : Prop :=
  length c = n /\
  (forall (dt : R) z, 1 / 4096 <= dt -> length z = n -> solver_carry (fm_solver m) dt z = Ok (vadd z c)) /\
  (forall (dt : R) x, 1 / 4096 <= dt -> length x = n -> solver_back (fm_solver m) dt x = Ok (vsub x c, 0)).
Close Scope R_scope.
