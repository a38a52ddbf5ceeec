(** Specification vocabulary: how far one optimiser step reaches. *)
From Coq Require Import Reals.
From Verif Require Import Prelude Num M_Core M_Kernels M_Strategies M_PT RNum Spec_PT.
Open Scope R_scope.

(** The largest multiple of the learning rate by which a step with momentum b1 (and second-moment decay 0.999) can move a
    parameter: (1 - b1) / sqrt ((1 - 0.999) (1 - b1^2 / 0.999)); below 7.3 for the usual b1 = 0.9. *)
Definition reach (b1 : R) : R := (1 - b1) / sqrt ((1 - 999 / 1000) * (1 - b1 ^ 2 / (999 / 1000))).
(** Coordinate j of x is between its bounds. *)
Definition coord_in_box (b : @arr RNum) (j : nat) (x : list R) : Prop := bound b j 0 <= nth j x 0 <= bound b j 1.
