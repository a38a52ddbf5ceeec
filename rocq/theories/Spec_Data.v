(** Specification vocabulary: what a run can see of the target and of the data. *)
From Verif Require Import Prelude Num M_Core M_Kernels M_Strategies M_PT M_Bundle Spec_Bundle Spec_Shift.

Section SpecData.
Context {N : Num} {G : Rng} {NF : NFOps}.
(** The target [g] with the data [d'] has, at every point, the value and the gradient of [f] with [d]. *)
Definition same_target (f g : lpdf) (d d' : datad) : Prop :=
  forall x, lp_val g x d' = lp_val f x d /\ lp_grad g x d' = lp_grad f x d.
(** Also when the entry "n_steps" is written into both data dicts (which is what TakeGroupSteps hands to the target). *)
Definition interchangeable (f g : lpdf) (d d' : datad) : Prop :=
  same_target f g d d' /\ forall n, same_target f g (with_n_steps d n) (with_n_steps d' n).
(** The same calls of sample: the same initial positions, data dicts the targets do not tell apart. *)
Definition same_calls (P : datad -> datad -> Prop) (args args' : list (initpos * datad)) : Prop :=
  Forall2 (fun a a' => fst a' = fst a /\ P (snd a) (snd a')) args args'.
(** The target with the data [d0] built in, whatever data it is given. *)
Definition closed_over (f : lpdf) (d0 : datad) : lpdf := mkLpdf (fun x _ => lp_val f x d0) (fun x _ => lp_grad f x d0).
(** Every object is the same, and every resource except the targets themselves. *)
Definition same_but_target (w w' : world) : Prop :=
  heap w' = heap w /\
  forall name, ~ In name ["logpdf"; "tempered_logpdf"]%string -> dget (rdict w') name = dget (rdict w) name.
End SpecData.
