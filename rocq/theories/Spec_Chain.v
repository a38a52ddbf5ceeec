(** Specification vocabulary: what one chain recorded in two runs. *)
From Verif Require Import Prelude Num M_Core M_Kernels M_Strategies M_PT M_Bundle Spec Spec_Core Spec_Steps Spec_Kernels Spec_Train Spec_PT Spec_Bundle.

Section SpecChain.
Context {N : Num} {G : Rng} {NF : NFOps}.
(** Chain [i] has the same entries in slots [0 .. n-1] of the four buffers of a phase in both memories. *)
Definition chain_agrees (dims n : nat) (w1 w2 : world) (phase : string) (i : nat) : Prop :=
  exists pl1 pb1 ll1 lb1 al1 ab1 gl1 gb1 pl2 pb2 ll2 lb2 al2 ab2 gl2 gb2,
    buffer_named w1 (append "positions_" phase) pl1 pb1 /\ buffer_named w1 (append "log_prob_" phase) ll1 lb1 /\
    buffer_named w1 (append "local_accs_" phase) al1 ab1 /\ buffer_named w1 (append "global_accs_" phase) gl1 gb1 /\
    buffer_named w2 (append "positions_" phase) pl2 pb2 /\ buffer_named w2 (append "log_prob_" phase) ll2 lb2 /\
    buffer_named w2 (append "local_accs_" phase) al2 ab2 /\ buffer_named w2 (append "global_accs_" phase) gl2 gb2 /\
    forall s, s < n ->
      brow pb1 dims i s = brow pb2 dims i s /\
      aget (b_data lb1) [i; s] = aget (b_data lb2) [i; s] /\
      aget (b_data ab1) [i; s] = aget (b_data ab2) [i; s] /\
      aget (b_data gb1) [i; s] = aget (b_data gb2) [i; s].
(** The position chain [i] recorded in slot [s] of a phase. *)
Definition recorded_at (dims : nat) (w : world) (phase : string) (i s : nat) (x : vec) : Prop :=
  exists pl pb, buffer_named w (append "positions_" phase) pl pb /\ brow pb dims i s = x.
End SpecChain.
