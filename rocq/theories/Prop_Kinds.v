(** C69: no history of calls creates, removes, renames, resizes or retypes a resource. *)
From Verif Require Import Prelude Num M_Core M_Kernels M_Strategies M_PT M_Bundle M_Files Spec Spec_Core Spec_Steps Spec_Kinds P_Kinds.
From Verif Require Import Spec_Files P_Files4 P_Kinds2 Prop_Files Prop_Bundle.
From Verif Require Import Toy.
Open Scope nat_scope.

(* ==================================================================================== *)
(** C69.  Whatever its arguments and its outcome (also when it raises), a call of any strategy of the repository leaves
    the same objects (buffers with the same names, shapes and cursor_dim; states with at least the keys they had) and the
    same resource names, each bound to the same object or to a value of the same kind. *)
Theorem C69_strategies : forall (N : Num) (G : Rng) (NF : NFOps) samp ts tm name keys values a pt,
  preserving [] (take_steps samp ts) /\ preserving [] (train_model tm) /\ preserving [] (update_state name keys values) /\
  preserving [] (adam_strategy a) /\ preserving [] (parallel_tempering pt).
Proof.
  intros. split; [apply take_steps_kinds|]. split; [apply train_model_kinds|]. split; [apply update_state_kinds|]. split; [apply adam_kinds|apply pt_kinds].
Qed.
Theorem C69_bundle_strategies : forall (N : Num) (G : Rng) (NF : NFOps) c window pc n st,
  (dget (base_strategies c window) n = Some st -> preserving (stepper_cursors c) st) /\
  (dget (pt_strategies pc) n = Some st -> preserving (stepper_cursors (p_base pc)) st).
Proof. intros. split; [apply base_kinds|apply pt_all_kinds]. Qed.
(** So do any number of calls of sample on a Sampler whose strategies are such, each on what the call before left behind,
    whether that call returned or raised. *)
Theorem C69_samplers : forall (N : Num) (G : Rng) (NF : NFOps) cursors order args s h w0, sm_order s = OList order ->
  (forall n st, In n order -> dget (sm_strategies s) n = Some st -> preserving cursors st) ->
  (forall l, In l cursors -> has_cursor w0 l) -> same_resources w0 (mkWorld h (sm_resources s)) ->
  same_resources w0 (calls_of s h args).
Proof. exact @calls_kinds. Qed.
(** In particular those of the two bundles. *)
Theorem C69_base_bundle : forall (N : Num) (G : Rng) (NF : NFOps) c h bd n nc k o kw s args,
  rqspline_mala_bundle c = Ok (h, bd) -> sampler_init n nc k None None o (Some bd) kw = Ok s ->
  same_resources (mkWorld h (bd_resources bd)) (calls_of s h args).
Proof. exact @base_calls. Qed.
Theorem C69_pt_bundle : forall (N : Num) (G : Rng) (NF : NFOps) pc h bd n nc k o kw s args,
  rqspline_mala_pt_bundle pc = Ok (h, bd) -> sampler_init n nc k None None o (Some bd) kw = Ok s ->
  same_resources (mkWorld h (bd_resources bd)) (calls_of s h args).
Proof. exact @pt_calls. Qed.
(** Hence after any calls all buffers of a bundle can be saved with one path and loaded back. *)
Theorem C69_base_saved : forall (N : Num) (G : Rng) (NF : NFOps) c h bd n nc k o kw s args fs path i b,
  rqspline_mala_bundle c = Ok (h, bd) -> sampler_init n nc k None None o (Some bd) kw = Ok s ->
  let bs := buffers_in (heap (calls_of s h args)) in
  nth_error bs i = Some b ->
  exists file b', stored_as path (b_name b) file /\ buffer_load_from (save_all fs (map (SaveBuffer path) bs)) file = Ok b' /\ reset_copy b b'.
Proof.
  intros N G NF c h bd n nc k o kw s args fs path i b Hb Hs bs Hi.
  pose proof (base_calls c h bd n nc k o kw s args Hb Hs) as HS. unfold rqspline_mala_bundle in Hb. destruct (_ || _); [discriminate|]. injection Hb as <- <-.
  destruct (C67_bundle_names N G NF c (mkPtConfig c 1 f1 0%Z (c_logpdf c)) (c_model c (split (c_key c) 2 1)) _ (or_introl eq_refl)) as [ND HN].
  exact (all_come_back _ _ fs path i b _ HS eq_refl ND HN Hi).
Qed.
Theorem C69_pt_saved : forall (N : Num) (G : Rng) (NF : NFOps) pc h bd n nc k o kw s args fs path i b,
  rqspline_mala_pt_bundle pc = Ok (h, bd) -> sampler_init n nc k None None o (Some bd) kw = Ok s ->
  let bs := buffers_in (heap (calls_of s h args)) in
  nth_error bs i = Some b ->
  exists file b', stored_as path (b_name b) file /\ buffer_load_from (save_all fs (map (SaveBuffer path) bs)) file = Ok b' /\ reset_copy b b'.
Proof.
  intros N G NF pc h bd n nc k o kw s args fs path i b Hb Hs bs Hi.
  pose proof (pt_calls pc h bd n nc k o kw s args Hb Hs) as HS. unfold rqspline_mala_pt_bundle in Hb. destruct (_ || _); [discriminate|]. destruct (_ =? 0); [discriminate|].
  injection Hb as <- <-.
  destruct (C67_bundle_names N G NF (p_base pc) pc (c_model (p_base pc) (split (c_key (p_base pc)) 2 1)) _ (or_intror eq_refl)) as [ND HN].
  exact (all_come_back _ _ fs path i b _ HS eq_refl ND HN Hi).
Qed.

(** Two runs of the toy bundle, the second raising (its positions have too many chains for the buffers). *)
Example C69_case :
  Nat.eqb (length (heap (@calls_of ZNum ZRng ZNF (zsamp (snd zhb)) (fst zhb)
     [(@P2 ZNum zstart, []); (@P2 ZNum (zstart ++ zstart), [])]))) (length (fst zhb)) = true /\
  match fst (@sampler_sample ZNum ZRng ZNF (zsamp (snd zhb)) (@P2 ZNum (zstart ++ zstart)) [] (fst zhb)) with Raise TypeError => true | _ => false end = true.
Proof. split; vm_compute; reflexivity. Qed.

Print Assumptions C69_strategies. Print Assumptions C69_bundle_strategies. Print Assumptions C69_samplers. Print Assumptions C69_base_bundle.
Print Assumptions C69_pt_bundle. Print Assumptions C69_base_saved. Print Assumptions C69_pt_saved.
