(** The two bundles with the arguments users give them: the flow is a MaskedCouplingRQSpline built by the
    constructor from the bundle's key, and the optimiser is built for it from the learning rate. *)
From Verif Require Import Prelude Num M_Core M_Kernels M_Strategies M_PT M_Bundle M_Flow M_Net M_Model M_Tree.

(** RQSpline_MALA.py 33-55, RQSpline_MALA_PT.py 39-65: the constructor's arguments in order (verbose is not
    modelled; a_window is history_window, only an argument of the PT bundle). *)
Record args {N : Num} {G : Rng} := mkArgs {
  a_key : key; a_n_chains : nat; a_n_dims : nat; a_logpdf : lpdf;
  a_local : nat; a_global : nat; a_train_loops : nat; a_prod_loops : nat; a_epochs : nat;
  a_step : stepsize; a_chain_batch : nat;
  a_hidden : list nat; a_bins : nat; a_layers : nat; a_lr : F;
  a_batch : nat; a_max : nat; a_local_th : nat; a_global_th : nat; a_nf_bs : nat; a_window : nat }.
Arguments mkArgs {N G}.

Section Spline.
Context {N : Num} {G : Rng}.
Variable linear_init : nat -> nat -> key -> bool -> linear.
Variable chol : list vec -> list vec.
Variable grad : list leaf -> list vec -> vec.

(** A spline flow with its methods log_prob and sample (rqSpline.py 490-504), train_step (nf_model/base.py
    102-125) and data statistics (187-188). *)
Definition spline_ops (a : args) : NFOps :=
  tree_ops (rqs_tree_logp chol (a_layers a) (a_bins a) (a_hidden a))
           (rqs_tree_sample chol (a_layers a) (a_bins a) (a_hidden a)) grad.

(** RQSpline_MALA.py 94-96, RQSpline_MALA_PT.py 105-107: MaskedCouplingRQSpline(n_dims, n_layers, hidden_units,
    n_bins, subkey), with the default spline_range (-10, 10) (rqSpline.py 399).  The constructor never raises
    (rqs_tree_ok). *)
Definition spline_model (a : args) (k : key) : list leaf :=
  match rqs_tree linear_init (a_n_dims a) (a_layers a) (a_bins a) (a_hidden a) (fofZ (-10)) (fofZ 10) k with
  | Ok lv => lv | Raise _ => [] end.

(** RQSpline_MALA.py 100, RQSpline_MALA_PT.py 111 with optimizer.py 13-23: Optimizer(model, learning_rate) with
    the default momentum 0.9. *)
Definition spline_tx (a : args) : adamw := optimizer_new (a_lr a) (fofZ 9 /. fofZ 10).

(** The bundle of M_Bundle with this flow and this optimiser. *)
Definition spline_config (a : args) : @config N G (spline_ops a) :=
  @mkConfig N G (spline_ops a) (a_key a) (a_n_chains a) (a_n_dims a) (a_logpdf a) (a_local a) (a_global a) (a_train_loops a)
    (a_prod_loops a) (a_epochs a) (a_step a) (a_chain_batch a) (a_batch a) (a_max a) (a_local_th a) (a_global_th a)
    (a_nf_bs a) (a_window a) (spline_model a) (spline_tx a) tree_optimizer_init.
Definition RQSpline_MALA (a : args) := @rqspline_mala_bundle N G (spline_ops a) (spline_config a).
(** RQSpline_MALA_PT.py 61-65: the further arguments of the tempered bundle. *)
Definition spline_pt_config (a : args) (n_temps : nat) (max_temp : F) (steps : Z) (prior : lpdf) : @pt_config N G (spline_ops a) :=
  @mkPtConfig N G (spline_ops a) (spline_config a) n_temps max_temp steps prior.
Definition RQSpline_MALA_PT (a : args) (n_temps : nat) (max_temp : F) (steps : Z) (prior : lpdf) :=
  @rqspline_mala_pt_bundle N G (spline_ops a) (spline_pt_config a n_temps max_temp steps prior).
End Spline.
