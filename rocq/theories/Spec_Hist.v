(** Specification vocabulary: what the sample buffers of a bundle hold at any time. *)
From Verif Require Import Prelude Num M_Core M_Kernels M_Strategies M_PT M_Bundle
  Spec Spec_Core Spec_Steps Spec_Kernels Spec_Train Spec_Bundle Spec_Kinds.

Section SpecHist.
Context {N : Num} {G : Rng} {NF : NFOps}.

(** Slot [s] of chain [i] was never written: the position and the log-probability are -inf. *)
Definition unwritten (pb lb : buffer) (dim i s : nat) : Prop :=
  (forall j, j < dim -> aget (b_data pb) [i; s; j] = fninf) /\ aget (b_data lb) [i; s] = fninf.

(** The buffers of a phase ("training" or "production"): every slot of every chain is unwritten or holds a position
    and a log-probability related by [ok]; every acceptance flag is -inf, 0 or 1. *)
Definition phase_honest (c : config) (w : world) (phase : string) (ok : vec -> F -> Prop) : Prop :=
  exists slots pl pb ll lb al ab gl gb,
    buffer_named w (append "positions_" phase) pl pb /\ buffer_named w (append "log_prob_" phase) ll lb /\
    buffer_named w (append "local_accs_" phase) al ab /\ buffer_named w (append "global_accs_" phase) gl gb /\
    ashape (b_data pb) = [c_n_chains c; slots; c_n_dims c] /\ ashape (b_data lb) = [c_n_chains c; slots] /\
    ashape (b_data ab) = [c_n_chains c; slots] /\ ashape (b_data gb) = [c_n_chains c; slots] /\
    forall i s, i < c_n_chains c -> s < slots ->
      (unwritten pb lb (c_n_dims c) i s \/ ok (brow pb (c_n_dims c) i s) (aget (b_data lb) [i; s])) /\
      (forall b, b = ab \/ b = gb -> aget (b_data b) [i; s] = fninf \/ exists flag, aget (b_data b) [i; s] = b2f flag).

(** [v] is the value of the target at [x] with the data of one of the calls; global steps evaluate the target with
    the extra entry n_steps (C24). *)
Definition target_value (c : config) (args : list (initpos * datad)) (x : vec) (v : F) : Prop :=
  exists init d, In (init, d) args /\
    (v = lp_val (c_logpdf c) x d \/ v = lp_val (c_logpdf c) x (with_n_steps d (c_global c))).

(** Standing conditions on the calls: positions with n_dims coordinates (any number of chains), gradients of that
    length, and the shapes of external routines. *)
Record history_ok (c : config) (args : list (initpos * datad)) (good : mdl -> Prop) : Prop := mkHistoryOk {
  hk_bs : 0 < c_nf_bs c;
  hk_pos : forall init d x, In (init, d) args -> In x (atleast_2d init) -> length x = c_n_dims c;
  hk_grad : forall init d, In (init, d) args -> grad_shape (c_logpdf c) d (c_n_dims c);
  hk_normal : normal_shape;
  hk_class : model_class good (c_n_dims c);
  hk_model : good (c_model c (split (c_key c) 2 1)) }.

(** Outside the region [P] the log-density is NaN or -inf. *)
Definition impossible_outside (f : lpdf) (d : datad) (dim : nat) (P : vec -> Prop) : Prop :=
  forall x, length x = dim -> P x \/ impossible (lp_val f x d).

(** [w] is what is left in memory after some of the calls (returning or raising), or within a further one of them after
    any number of its strategies (j = 0: right after the calls; j large: after the whole further call, or where it
    raised). *)
Definition seen (s : sampler) (h : list obj) (bd : bundle) (args : list (initpos * datad)) (w : world) : Prop :=
  exists args1 init d j k, (forall a, In a args1 -> In a args) /\ In (init, d) args /\
    w = snd (run_order (bd_strategies bd) (firstn j (bd_order bd)) k (atleast_2d init) d (calls_of s h args1)).
(** All initial positions of all calls lie in [P]. *)
Definition starts_in (args : list (initpos * datad)) (P : vec -> Prop) : Prop :=
  forall init d x, In (init, d) args -> In x (atleast_2d init) -> P x.
End SpecHist.
