(** The two normalizing flows of the repository as NFModel objects (resource/model/nf_model): sampling,
    log_prob, loss, training step and data statistics, as kernels and strategies see them. *)
From Verif Require Import Prelude Num M_Core M_Kernels M_Flow M_Net.

Section Model.
Context {N : Num} {G : Rng}.

(** jnp.eye(n): covariance, and Cholesky factor, of the default base distribution
    Gaussian(zeros, eye) (realNVP.py 142-144, rqSpline.py 407-409). *)
Definition eye (n : nat) : list vec := map (fun i => map (fun j => b2f (i =? j)) (seq 0 n)) (seq 0 n).
Definition default_base (n : nat) : dist := gaussian (repeat f0 n) (eye n).

(** realNVP.py 210-214, rqSpline.py 490-496: sample with the default base distribution. *)
Definition model_sample (m : flow) (k : key) (n_samples : nat) : list vec :=
  flow_sample m (ds_sample (default_base (fl_n m)) k n_samples).
(** rqSpline.py 498-504: log_prob with the default base distribution. *)
Definition rqs_model_logp (m : flow) (x : vec) : F := rqs_log_prob (ds_logp (default_base (fl_n m))) m x.

(** nf_model/base.py 98-100: loss_fn, minus the mean log_prob of the batch. *)
Definition nf_loss (logp : vec -> F) (xs : list vec) : F := fneg (fmean (map logp xs)).

(** A model is the vector of its floating-point leaves; [decode] rebuilds the flow from it and [put]
    replaces the leaves holding data mean and covariance.  [grad] is the gradient of the loss with
    respect to the leaves (automatic differentiation, external). *)
Variable decode : vec -> flow.
Variable put : vec -> vec -> list vec -> vec.
Variable logp : flow -> vec -> F.
Variable grad : vec -> list vec -> vec.

(** nf_model/base.py 102-125: train_step: loss and gradient at the current leaves, optimiser update,
    apply_updates.  (filter_value_and_grad and filter_jit do not change the values.) *)
Definition nf_train_step (p : vec) (xs : list vec) (a : adamw) (s : adamw_state) : F * vec * adamw_state :=
  let '(p', s') := adamw_step a (grad p xs) p s in (nf_loss (logp (decode p)) xs, p', s').

(** nf_model/base.py 187-188: eqx.tree_at on _data_mean and _data_cov. *)
Definition nf_set_stats (p : vec) (data : list vec) : vec :=
  put p (data_mean (fl_n (decode p)) data) (data_cov (fl_n (decode p)) data).

Definition model_ops : NFOps :=
  {| mdl := vec; optst := adamw_state; gtx := adamw;
     m_logp := fun p => logp (decode p);
     m_sample := fun p => model_sample (decode p);
     m_step := nf_train_step;
     m_stats := nf_set_stats |}.
End Model.

(** realNVP.py 101-228 and rqSpline.py 364-507 as NFModel objects. *)
Definition realnvp_ops {N : Num} {G : Rng} decode put grad : NFOps :=
  model_ops decode put realnvp_log_prob grad.
Definition rqs_ops {N : Num} {G : Rng} decode put grad : NFOps :=
  model_ops decode put rqs_model_logp grad.
