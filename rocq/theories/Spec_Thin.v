(** Specification vocabulary for C100. *)
From Coq Require Import Reals.
From Verif Require Import Prelude Num M_Core M_Kernels M_Strategies Spec_Kernels RNum Spec_Real Spec_Inv Spec_Erg Spec_Lln Spec_Rate.
Open Scope R_scope.

(** The entries of a list at the positions 0, t, 2 t, ... *)
Definition every {A} (t : nat) (l : list A) : list A := map snd (filter (fun p => (fst p mod t =? 0)%nat) (combine (seq 0 (length l)) l)).
(** The mean square error of the average of [g] over every t-th of the positions visited in a call of [m] local steps, for a chain that
    starts distributed as the target. *)
Definition local_thinned_error {G : @Rng RNum} (X : list (list R)) (kern : skernel) (f : lpdf) (d : datad) (m t : nat) (g : list R -> R) (E : expect key) : R :=
  expected_under X (target_prob X f d) (fun x => mean_square_error E g (fun k => every t (visited (serial_sample kern f d m k x))) (target_mean X (density f d) g)).
(** The same for a call of [m] global steps. *)
Definition global_thinned_error {G : @Rng RNum} {NF : @NFOps RNum G} (X : list (list R)) (p : nfp) (f : lpdf) (d : datad) (m t : nat) (g : list R -> R) (E : expect key) : R :=
  expected_under X (target_prob X f d) (fun x => mean_square_error E g (fun k => every t (visited (group_sample p f d m k x))) (target_mean X (density f d) g)).
