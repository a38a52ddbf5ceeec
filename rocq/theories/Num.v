(** Arithmetic interface.  The model is written once over an arbitrary [Num]; theorems are
    proved for every [Num] (bookkeeping), for every [Num] satisfying [NumLaws] (IEEE special
    values) or for the instance [RNum] (exact reals). *)
From Verif Require Import Prelude.

Class Num := mkNum {
  F : Type;                          (* jnp float dtype *)
  fofZ : Z -> F;                     (* Python literals *)
  fpi : F;                           (* np.pi *)
  fninf : F;                         (* -jnp.inf *)
  fadd : F -> F -> F;
  fsub : F -> F -> F;
  fmul : F -> F -> F;
  fdiv : F -> F -> F;
  fneg : F -> F;
  fexp : F -> F;
  fln : F -> F;                      (* jnp.log *)
  fsqrt : F -> F;
  ftanh : F -> F;
  flt : F -> F -> bool;              (* x < y; false if either is NaN *)
  fle : F -> F -> bool;              (* x <= y; false if either is NaN *)
  fnan : F -> bool;                  (* jnp.isnan *)
  ffinite : F -> bool                (* jnp.isfinite *)
}.

Declare Scope num_scope.
Delimit Scope num_scope with num.
Infix "+." := fadd (at level 50, left associativity) : num_scope.
Infix "-." := fsub (at level 50, left associativity) : num_scope.
Infix "*." := fmul (at level 40, left associativity) : num_scope.
Infix "/." := fdiv (at level 40, left associativity) : num_scope.
Infix "<.?" := flt (at level 70) : num_scope.
Infix "<=.?" := fle (at level 70) : num_scope.
Open Scope num_scope.

(** 1-D float arrays *)
Notation vec := (list F).

Section Derived.
Context {N : Num}.

Definition f0 : F := fofZ 0.
Definition f1 : F := fofZ 1.
Definition f2 : F := fofZ 2.
Definition f4 : F := fofZ 4.
Definition fhalf : F := fofZ 1 /. fofZ 2.        (* 0.5 *)
Definition b2f (b : bool) : F := if b then f1 else f0.

(** jnp.maximum / jnp.minimum: NaN-propagating. *)
Definition fmax (x y : F) : F :=
  if fnan x then x else if fnan y then y else if x <=.? y then y else x.
Definition fmin (x y : F) : F :=
  if fnan x then x else if fnan y then y else if x <=.? y then x else y.
(** jnp.clip(x, lo, hi) = minimum(maximum(x, lo), hi) *)
Definition fclip (x lo hi : F) : F := fmin (fmax x lo) hi.
(** jnp.sum; the order of summation is not specified by JAX, here right to left from 0. *)
Definition fsum (l : list F) : F := fold_right fadd f0 l.
(** jnp.mean over a 1-D array *)
Definition fmean (l : list F) : F := fsum l /. fofZ (Z.of_nat (length l)).
(** x ** 2 *)
Definition fsq (x : F) : F := x *. x.

Definition vadd : vec -> vec -> vec := map2 fadd.
Definition vsub : vec -> vec -> vec := map2 fsub.
Definition vmul : vec -> vec -> vec := map2 fmul.
Definition vscale (a : F) (v : vec) : vec := map (fun x => a *. x) v.
Definition vneg (v : vec) : vec := map fneg v.
(** jnp.dot of two 1-D arrays *)
Definition vdot (u v : vec) : F := fsum (vmul u v).
End Derived.

(** Randomness oracle: jax.random.  [split k n i] is the i-th key of [jax.random.split(k, n)]. *)
Class Rng {N : Num} := mkRng {
  key : Type;
  split : key -> nat -> nat -> key;
  normal : key -> nat -> vec;               (* jax.random.normal(key, shape=(n,)) *)
  normal0 : key -> F;                       (* jax.random.normal(key), scalar *)
  uniform : key -> F;                       (* jax.random.uniform(key), in [0,1) *)
  permutation : key -> nat -> list nat;     (* jax.random.permutation(key, n) *)
  choice : key -> nat -> nat -> list nat    (* jax.random.choice(key, arange(n), (k,), replace=True) *)
}.
