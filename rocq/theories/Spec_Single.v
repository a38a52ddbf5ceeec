(** Specification vocabulary for C99. *)
From Verif Require Import Prelude Num M_Core M_Kernels M_Strategies M_PT Spec_PT.

Section Single.
Context {N : Num} {G : Rng} {NF : NFOps}.
(** The key a parallel-tempering call with key [k] gives to the only walker of chain [c] of [chains]. *)
Definition walker_key (k : key) (chains c : nat) : key := split (split (split (split k 2 0) 2 1) chains c) 1 0.
(** Where [n] steps of the local sampler for the target [f] take a chain. *)
Definition end_of (kern : skernel) (f : lpdf) (d : datad) (n : nat) (k : key) (x : vec) : vec :=
  match serial_sample kern f d n k x with Ok tr => last (map (fun o => fst (fst o)) tr) x | Raise _ => x end.
End Single.
