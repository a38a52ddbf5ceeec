(** Model of the solver AdamOptimization builds. *)
From Verif Require Import Prelude Num M_Core M_Kernels M_Strategies M_PT M_Net.
Local Open Scope num_scope.

Section Adam.
Context {N : Num} {G : Rng} {NF : NFOps}.
(** optimization.py 65-67: self.solver = optax.chain(optax.adam(learning_rate)); optax.adam is scale_by_adam with its
    defaults b1 = 0.9, b2 = 0.999, eps = 1e-8, eps_root = 0, then scale_by_learning_rate.  One coordinate: gradient,
    (mu, nu) and count of this step; result update, mu, nu. *)
Definition adam_b1 : F := fofZ 9 /. fofZ 10.
Definition adam_b2 : F := fofZ 999 /. fofZ 1000.
Definition adam_eps : F := f1 /. fofZ 100000000.
Definition adam_coord (lr : F) (count : nat) (g mu nu : F) : F * F * F :=
  let mu' := (f1 -. adam_b1) *. g +. adam_b1 *. mu in
  let nu' := (f1 -. adam_b2) *. fsq g +. adam_b2 *. nu in
  let mh := mu' /. (f1 -. fpow adam_b1 count) in
  let nh := nu' /. (f1 -. fpow adam_b2 count) in
  (fneg lr *. (mh /. (fsqrt nh +. adam_eps)), mu', nu').
(** solver.update(grad, opt_state, params) (optimization.py 130).  The parameters are not used by adam. *)
Definition adam_update (lr : F) (g : vec) (s : adamw_state) (p : vec) : vec * adamw_state :=
  let c := S (as_count s) in
  let o := map (fun i => adam_coord lr c (nth i g f0) (nth i (as_mu s) f0) (nth i (as_nu s) f0)) (seq 0 (length g)) in
  (map (fun x => fst (fst x)) o, mkAws c (map (fun x => snd (fst x)) o) (map snd o)).
(** optimization.py 39-67: AdamOptimization(logpdf, n_steps, learning_rate, noise_level, bounds). *)
Definition adam_optimization (logpdf : lpdf) (n_steps : nat) (lr noise : F) (bounds : arr) : adam :=
  mkAdam logpdf n_steps noise bounds adamw_state adamw_init (adam_update lr).
(** optimization.py 31-37: the default arguments. *)
Definition adam_defaults (logpdf : lpdf) : adam :=
  adam_optimization logpdf 100 (f1 /. fofZ 100) (fofZ 10)
    (mkArr [1; 2] (fun ix => match ix with [_; 0] => fninf | _ => fneg fninf end)).
End Adam.
