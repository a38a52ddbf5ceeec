(** Order laws of floating-point arithmetic used for temperature ladders, and the ladder property. *)
From Verif Require Import Prelude Num Spec_Kernels.

Section SpecOrder.
Context {N : Num}.
(** A result is at least [a], or NaN. *)
Definition at_least (a x : F) : Prop := (a <=.? x) = true \/ fnan x = true.
Record OrderLaws : Prop := mkOrderLaws {
  ol_one : (f0 <.? f1) = true;
  ol_sub : forall x y, (x <=.? y) = true -> at_least f0 (y -. x);
  ol_mul : forall a b, (f0 <=.? a) = true -> (f0 <=.? b) = true -> at_least f0 (a *. b);
  ol_add : forall x b, (f0 <=.? b) = true -> at_least x (x +. b) \/ fnan x = true;
  ol_scale : forall t, (f0 <.? t) = true -> impossible ((f1 /. t) *. fninf) }.
(** The exponential is never negative. *)
Definition exp_nonneg : Prop := forall x, at_least f0 (fexp x).

(** A temperature ladder: it starts at 1, and its temperatures but the last do not decrease (or the later one is NaN). *)
Definition ladder_from_one (temps : list F) : Prop :=
  nth 0 temps f1 = f1 /\ forall i, i + 2 < length temps -> at_least (nth i temps f0) (nth (i + 1) temps f0).
End SpecOrder.
