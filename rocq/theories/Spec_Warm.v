(** Specification vocabulary for C97. *)
From Coq Require Import Reals.
From Verif Require Import Prelude Num M_Core RNum Spec_Inv Spec_Erg.
Open Scope R_scope.

(** A random state given by its expectations [law] is within total variation distance [delta] of the target with weights
    [w] on the states [X]: no probability, or expectation of an observable with values in [0,1], is off by more. *)
Definition off_by (X : list (list R)) (w : list R -> R) (delta : R) (law : (list R -> R) -> R) : Prop :=
  forall g, ranges X g 0 1 -> Rabs (law g - target_mean X w g) <= delta.
(** The starts: any distribution [nu] on the states. *)
Definition distribution (X : list (list R)) (nu : list R -> R) : Prop := (forall x, In x X -> 0 <= nu x) /\ total X nu = 1.
