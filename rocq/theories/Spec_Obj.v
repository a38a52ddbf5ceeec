(** Specification vocabulary for C61: the smallest RealNVP with a trainable parameter. *)
From Coq Require Import Reals.
From Verif Require Import Prelude Num M_Core M_Flow M_Net RNum.
Open Scope R_scope.

(** One coordinate, one layer whose networks output the constants 0 (scale) and theta (shift).  Its leaves
    are [theta; data mean; data variance]. *)
Definition shift_flow (p : list R) : @flow RNum :=
  @mkFlow RNum 1 (map coupling_layer (realnvp_layers 1 [(fun _ => [0], fun _ => [nth 0 p 0])])) [nth 1 p 0] [nth 2 p 0].
Definition shift_put (p mu : list R) (cov : list (list R)) : list R := [nth 0 p 0; nth 0 mu 0; nth 0 (nth 0 cov []) 0].
(** Gradient of the loss in theta; the statistics are behind stop_gradient. *)
Definition shift_grad (p : list R) (xs : list (list R)) : list R :=
  [Rsum (length xs) (fun i => (nth 0 (nth i xs []) 0 - nth 1 p 0) / sqrt (nth 2 p 0) + nth 0 p 0) / INR (length xs); 0; 0].
