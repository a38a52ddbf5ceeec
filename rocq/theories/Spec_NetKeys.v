(** Specification vocabulary: the random streams of a freshly built network or flow. *)
From Verif Require Import Prelude Num M_Core M_Kernels M_Strategies M_Flow M_Net Spec_Keys.
(** Streams of an MLP with h hidden layers built with key k: for hidden layer i one for the bias and one for
    the weights, then one for the last layer. *)
Definition mlp_streams (h : nat) (k : path) : list path :=
  (concat (map (fun i => [1 :: repeat 0 i ++ k; 2 :: repeat 0 i ++ k]) (seq 0 h)) ++ [1 :: repeat 0 h ++ k])%list.
(** Streams of a RealNVP (two one-hidden-layer networks per layer) and of a RQSpline flow. *)
Definition realnvp_streams (L : nat) (k : path) : list path :=
  concat (map (fun i => mlp_streams 1 (1 :: i :: k) ++ mlp_streams 1 (2 :: i :: k))%list (seq 0 L)).
Definition rqs_streams (L h : nat) (k : path) : list path := concat (map (fun i => mlp_streams h (i :: k)) (seq 0 L)).
