(** C69: buffers after any calls can be saved and loaded. *)
From Verif Require Import Prelude Num M_Core M_Kernels M_Strategies M_PT M_Bundle M_Files Spec Spec_Core Spec_Steps Spec_Kinds P_Lists P_Core P_Steps P_Kinds.
From Verif Require Import Spec_Files P_Files P_Files4.
Open Scope nat_scope.
Section Saved.
Context {N : Num} {G : Rng} {NF : NFOps}.
Lemma like_all w w' : same_resources w w' -> Forall2 obj_like (heap w) (heap w').
Proof.
  intros (L & B & _). unfold hget in B. revert L B. generalize (heap w) (heap w'). intros l l'. revert l'.
  induction l as [|o l IH]; intros [|o' l'] L B; try discriminate L; [constructor|]. constructor.
  - destruct (B 0 o eq_refl) as (o2 & E & H). injection E as <-. exact H.
  - apply IH; [now injection L|]. intros i x Hx. exact (B (S i) x Hx).
Qed.
Lemma like_names l l' : Forall2 obj_like l l' -> map b_name (buffers_in l') = map b_name (buffers_in l).
Proof.
  induction 1 as [|o o' l l' H _ IH]; [reflexivity|]. unfold buffers_in in * . cbn [flat_map]. rewrite !map_app, IH. f_equal.
  destruct o, o'; cbn in H; try contradiction; try reflexivity. destruct H as (E & _). cbn. now rewrite E.
Qed.
Lemma all_come_back w w' fs path i b names :
  same_resources w w' -> map b_name (buffers_in (heap w)) = names -> NoDup names -> (forall n, In n names -> ~ exists a, n = append a ".npz") ->
  nth_error (buffers_in (heap w')) i = Some b ->
  exists file b', stored_as path (b_name b) file /\
    buffer_load_from (save_all fs (map (SaveBuffer path) (buffers_in (heap w')))) file = Ok b' /\ reset_copy b b'.
Proof.
  intros HS <- ND HN Hi. apply like_all, like_names in HS. apply one_path with (i := i); auto; [rewrite HS; exact ND|].
  intros b1 Hb1. apply HN. rewrite <- HS. now apply in_map.
Qed.
End Saved.
