(** Specification vocabulary for C95. *)
From Coq Require Import Reals.
From Verif Require Import Prelude Num M_Core M_Kernels M_Strategies Spec_Kernels RNum Spec_Real Spec_Inv.
Open Scope R_scope.

(** 1 if step [j] of a chain was recorded as accepted, 0 otherwise. *)
Definition flag_at (j : nat) (r : res (list (list R * R * bool))) : R :=
  match r with
  | Ok l => match nth_error l j with Some (_, _, true) => 1 | _ => 0 end
  | Raise _ => 0
  end.
(** The target's probability of a state of X. *)
Definition target_prob (X : list (list R)) (f : @lpdf RNum) (d : @datad RNum) (x : list R) : R := density f d x / total X (density f d).
(** The mass two distributions have in common: 1 minus their total variation distance. *)
Definition overlap (X : list (list R)) (f : @lpdf RNum) (d : @datad RNum) (q : list R -> R) : R := total X (fun x => Rmin (target_prob X f d x) (q x)).
(** The expected acceptance of step [j] of a call of the global sampler, for a chain that starts distributed as the target. *)
Definition global_rate {G : @Rng RNum} {NF : @NFOps RNum G} (X : list (list R)) (p : nfp) (f : lpdf) (d : datad) (n j : nat) (E : expect key) : R :=
  expected_under X (target_prob X f d) (fun x => ex E (fun k => flag_at j (group_sample p f d n k x))).
