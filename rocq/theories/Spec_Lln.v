(** Specification vocabulary: averages over recorded positions. *)
From Coq Require Import Reals.
From Verif Require Import Prelude Num M_Core M_Kernels M_Strategies M_Bundle Spec_Bundle Spec_Kernels RNum Spec_Real Spec_Inv Spec_Erg.
Open Scope R_scope.

(** The positions of a chain. *)
Definition visited (r : res (list (list R * R * bool))) : list (list R) := match r with Ok l => map (fun o => fst (fst o)) l | Raise _ => [] end.
(** The average of [g] over a list of positions. *)
Definition average (g : list R -> R) (l : list (list R)) : R := total l g / INR (length l).
(** The mean square error of the average of [g] over the random list [l k], as an estimate of [mu]. *)
Definition mean_square_error {K} (E : expect K) (g : list R -> R) (l : K -> list (list R)) (mu : R) : R := ex E (fun k => (average g (l k) - mu)^2).
(** The probability that this average is off by [delta] or more. *)
Definition error_probability {K} (E : expect K) (g : list R -> R) (l : K -> list (list R)) (mu delta : R) : R :=
  ex E (fun k => if Rle_dec delta (Rabs (average g (l k) - mu)) then 1 else 0).
(** All positions chain [i] recorded in the buffer [name], which has [slots] slots. *)
Definition recorded_rows {G : @Rng RNum} {NF : @NFOps RNum G} (w : world) (name : string) (dim i slots : nat) : list (list R) :=
  map (fun s => recorded_row w name dim i s) (seq 0 slots).
