(** Specification vocabulary: the affine coupling layer of RealNVP in IEEE single precision. *)
From Coq Require Import ZArith Reals.
From Flocq Require Import Core BinarySingleNaN.
From Verif Require Import Prelude Num Float32 M_Flow M_Net Spec_FSpline.
Open Scope R_scope.

(** The library's exponential is accurate to 2^-20 (sixteen units in the last place) between -1 and 1. *)
Definition exp_accurate (fe : B32 -> B32) : Prop :=
  forall x, isfin x -> Rabs (val x) <= 1 -> isfin (fe x) /\ Rabs (val (fe x) - exp (val x)) <= / 1048576 * exp (val x).
(** The hyperbolic tangent is finite, between -1 and 1, and does not distinguish the two zeros otherwise than by a zero. *)
Definition tanh_fit (ft : B32 -> B32) : Prop :=
  tanh_ok ft /\ forall x y, isfin x -> isfin y -> val x = val y -> val (ft x) = val (ft y).
(** Two lists of finite floats standing for the same numbers. *)
Definition same_numbers (a b : list B32) : Prop := Forall2 (fun p q => isfin p /\ isfin q /\ val p = val q) a b.
(** A conditioner network: for contexts of [n] numbers up to 2^40, [n] numbers of moderate size which depend on the numbers only. *)
Definition network_ok (net : list B32 -> list B32) (n : nat) : Prop :=
  forall c, length c = n -> (forall v, In v c -> within 40 v) ->
  length (net c) = n /\ (forall v, In v (net c) -> within 100 v) /\ forall c', same_numbers c c' -> same_numbers (net c) (net c').
(** Coordinate [j] is held (passed through) by layer [i] of [n] coordinates: the first half by even layers, the others by odd ones. *)
Definition held (n i j : nat) : bool := if (i mod 2 =? 0)%nat then (j <? n / 2)%nat else negb (j <? n / 2)%nat.
(** [x'] is [x] up to rounding: everything finite, held coordinates the same number, the others to a relative error of 2^-17 of
    the coordinate and the shift [t] that was added and taken away again (and an absolute one of 2^-140); the second
    log-determinant [l'] is exactly the opposite of the first. *)
Definition back_again (n i : nat) (t x x' : list B32) (l l' : B32) : Prop :=
  length x' = n /\ isfin l /\ isfin l' /\ val l' = - val l /\
  forall j d, (j < n)%nat -> isfin (nth j x' d) /\
    if held n i j then val (nth j x' d) = val (nth j x d)
    else Rabs (val (nth j x' d) - val (nth j x d)) <= / 131072 * (Rabs (val (nth j x d)) + Rabs (val (nth j t d))) + / IZR (2 ^ 140).
