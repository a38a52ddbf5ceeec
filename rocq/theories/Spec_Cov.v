(** Specification vocabulary for C96. *)
From Coq Require Import Reals.
From Verif Require Import Prelude Num M_Core M_Kernels M_Strategies Spec_Kernels RNum Spec_Real Spec_Inv Spec_Erg Spec_Lln Spec_Rate.
Open Scope R_scope.

(** The target's variance of [g]. *)
Definition variance (X : list (list R)) (f : @lpdf RNum) (d : @datad RNum) (g : list R -> R) : R :=
  expected_under X (target_prob X f d) (fun x => (g x - target_mean X (density f d) g)^2).
(** The covariance of [g] at the positions number [i] and [j] recorded by a call of the global sampler, for a chain
    that starts distributed as the target. *)
Definition autocov {G : @Rng RNum} {NF : @NFOps RNum G} (X : list (list R)) (p : nfp) (f : lpdf) (d : datad) (n i j : nat) (g : list R -> R) (E : expect key) : R :=
  let mu := target_mean X (density f d) g in
  expected_under X (target_prob X f d) (fun x => ex E (fun k =>
    let l := visited (group_sample p f d n k x) in (g (nth i l []) - mu) * (g (nth j l []) - mu))).
(** The mean square error of the average of [g] over the [n] positions recorded by such a call. *)
Definition call_error {G : @Rng RNum} {NF : @NFOps RNum G} (X : list (list R)) (p : nfp) (f : lpdf) (d : datad) (n : nat) (g : list R -> R) (E : expect key) : R :=
  expected_under X (target_prob X f d) (fun x => mean_square_error E g (fun k => visited (group_sample p f d n k x)) (target_mean X (density f d) g)).
