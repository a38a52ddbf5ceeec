(** Specification vocabulary: one training call of a spline flow. *)
From Coq Require Import Reals.
From Verif Require Import Prelude Num M_Core M_Kernels M_Strategies M_PT M_Bundle M_Flow M_Net M_Model M_Tree M_Spline RNum.

(** The leaves after the data statistics were stored and, from a new optimiser state, one optimiser step was taken for each batch. *)
Definition spline_trained {G : @Rng RNum} (chol : list (list R) -> list (list R)) (grad : list (@leaf RNum) -> list (list R) -> list R) (a : @args RNum G)
  (lv0 : list (@leaf RNum)) (data : list (list R)) (batches : list (list (list R))) : list (@leaf RNum) :=
  fst (fold_left (fun p xs => let r := @m_step RNum G (@spline_ops RNum G chol grad a) (fst p) xs (spline_tx a) (snd p) in (snd (fst r), snd r)) batches
         (@m_stats RNum G (@spline_ops RNum G chol grad a) lv0 data, tree_optimizer_init lv0)).
