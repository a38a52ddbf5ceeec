(** Specification vocabulary: what no strategy changes about the resources. *)
From Verif Require Import Prelude Num M_Core M_Kernels M_Strategies M_PT M_Bundle Spec_Core.

Section SpecKinds.
Context {N : Num} {G : Rng} {NF : NFOps}.
(** An object after some calls: a buffer keeps its name, shape and cursor_dim, a state its name and the keys it has, an
    optimiser its transformation; cursors stay cursors. *)
Definition obj_like (o o' : obj) : Prop :=
  match o, o' with
  | OBuf b, OBuf b' => b_name b' = b_name b /\ ashape (b_data b') = ashape (b_data b) /\ b_cursor_dim b' = b_cursor_dim b
  | OState s, OState s' => s_name s' = s_name s /\ forall key v, dget (s_data s) key = Some v -> exists v', dget (s_data s') key = Some v'
  | OOpt o, OOpt o' => o_tx o' = o_tx o
  | OCursor _, OCursor _ => True
  | _, _ => False
  end.
(** An entry of the resource dictionary: a reference stays the same reference, a model stays a model, a flow kernel keeps
    its batch size, everything else stays as it is. *)
Definition entry_like (r r' : resource) : Prop :=
  match r, r' with
  | RModel _, RModel _ => True
  | RNFP p, RNFP p' => nfp_bs p' = nfp_bs p
  | _, _ => r' = r
  end.
(** No object and no entry was created, removed or changed its kind. *)
Definition same_resources (w w' : world) : Prop :=
  length (heap w') = length (heap w) /\
  (forall l o, hget l w = Some o -> exists o', hget l w' = Some o' /\ obj_like o o') /\
  map fst (rdict w') = map fst (rdict w) /\
  (forall name r, dget (rdict w) name = Some r -> exists r', dget (rdict w') name = Some r' /\ entry_like r r').
(** The strategy's own current_position exists. *)
Definition has_cursor (w : world) (l : loc) : Prop := exists z, hget l w = Some (OCursor z).
(** [st] never changes the resources' kinds, whatever its arguments and outcome, in worlds with the given cursors. *)
Definition preserving (cursors : list loc) (st : strategy) : Prop :=
  forall k xs d w, (forall l, In l cursors -> has_cursor w l) -> same_resources w (snd (st k xs d w)).
(** Any number of calls of sample, each on the sampler as the call before left it (whether it raised or not). *)
Fixpoint calls_of (s : sampler) (h : list obj) (args : list (initpos * datad)) : world :=
  match args with
  | [] => mkWorld h (sm_resources s)
  | (init, d) :: r => let w := snd (sampler_sample s init d h) in calls_of (sampler_after s w) (heap w) r
  end.
(** The two steppers' current_position. *)
Definition stepper_cursors (c : config) : list loc := [ts_cur (local_ts c); ts_cur (global_ts c)].
End SpecKinds.
