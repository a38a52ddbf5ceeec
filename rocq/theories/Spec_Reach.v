(** Specification vocabulary for C94. *)
From Verif Require Import Prelude Num M_Core M_Kernels M_Strategies M_PT Spec_PT.

Section Reach.
Context {N : Num} {G : Rng} {NF : NFOps}.
(** Successive parallel-tempering calls with the given keys, each starting where the one before ended; the last positions. *)
Fixpoint pt_calls (pt : ptemp) (d : datad) (ks : list key) (xs : pos_t) (w : world) : res pos_t :=
  match ks with
  | [] => Ok xs
  | k :: ks' => match parallel_tempering pt k xs d w with
                | (Ok (_, ys), w') => pt_calls pt d ks' ys w'
                | (Raise e, _) => Raise e
                end
  end.
(** The first stored walker of chain c (the walker at the second temperature). *)
Definition second_walker (pb : buffer) (xs : pos_t) (c : nat) : vec := nth 1 (ensemble_before pb xs c) [].
End Reach.
