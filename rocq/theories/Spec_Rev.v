(** Specification vocabulary for C98. *)
From Coq Require Import Reals.
From Verif Require Import Prelude Num M_Core M_Kernels M_Strategies Spec_Kernels RNum Spec_Real Spec_Inv Spec_Erg Spec_Lln Spec_Rate.
Open Scope R_scope.

(** A source of keys with the law of [E1]. *)
Definition same_law {T} (E1 E : expect T) : Prop := forall h, ex E h = ex E1 h.
(** The covariance of [g] at the positions number [i] and [j] recorded by a call of [m] local steps, for a chain that starts
    distributed as the target. *)
Definition local_autocov {G : @Rng RNum} (X : list (list R)) (kern : skernel) (f : lpdf) (d : datad) (m i j : nat) (g : list R -> R) (E : expect key) : R :=
  let mu := target_mean X (density f d) g in
  expected_under X (target_prob X f d) (fun x => ex E (fun k =>
    let l := visited (serial_sample kern f d m k x) in (g (nth i l []) - mu) * (g (nth j l []) - mu))).
