(** C66: stepping calls that raise. *)
From Verif Require Import Prelude Num M_Core M_Kernels M_Strategies Spec Spec_Core Spec_Steps Spec_Kernels P_Steps P_StepsK P_Fail Toy.

(* ==================================================================================== *)
(** C66.  A stepping call that raises, for whatever reason, leaves everything as it was, or (when the log-density
    or acceptance buffer refuses its update) it has recorded the new positions, and possibly their
    log-densities, in the slots reserved for them, and nothing else: the acceptance buffer, the strategy's
    current_position, all other objects and all other slots are unchanged, so that the next call of the
    strategy writes the same slots again. *)
Theorem C66_failed_steps : forall (N : Num) (G : Rng) (NF : NFOps)
  (samp : resource -> resource -> datad -> nat -> key -> vec -> res (list (vec * F * bool)))
  ts k xs d w e w' pl pb ll lb al ab kern lp cur dim (good : vec -> Prop),
  setup w ts pl pb ll lb al ab kern lp cur ->
  sampler_shape (samp kern lp d) (ts_n_steps ts) dim good -> (forall x, In x xs -> good x) -> 0 < ts_n_steps ts ->
  let kept := cdiv (ts_n_steps ts) (ts_thinning ts) in
  room pb cur kept -> room lb cur kept ->
  take_steps samp ts k xs d w = (Raise e, w') ->
  w' = w \/
  (rdict w' = rdict w /\ (forall l, l <> pl -> l <> ll -> hget l w' = hget l w) /\
   exists out pb' lb', length out = length xs /\
     (forall c, c < length xs -> samp kern lp d (ts_n_steps ts) (split (split k 2 1) (length xs) c) (nth c xs []) = Ok (nth c out [])) /\
     hget pl w' = Some (OBuf pb') /\ hget ll w' = Some (OBuf lb') /\ same_header pb pb' /\ same_header lb lb' /\
     (forall c j o i, c < length out -> i < dim -> nth_error (nth c out []) (j * ts_thinning ts) = Some o ->
        aget (b_data pb') [c; cur + j; i] = nth i (s_pos o) f0) /\
     (lb' = lb \/ forall c j o, c < length out -> nth_error (nth c out []) (j * ts_thinning ts) = Some o -> aget (b_data lb') [c; cur + j] = s_lp o) /\
     (forall c s i, s < cur \/ cur + kept <= s ->
        aget (b_data pb') [c; s; i] = aget (b_data pb) [c; s; i] /\ aget (b_data lb') [c; s] = aget (b_data lb) [c; s])).
Proof. exact @steps_failed. Qed.

(** The half-way case occurs: an acceptance buffer of the wrong rank is refused after positions and
    log-densities were written, and current_position is still 3. *)
Definition half_world : @world ZNum ZRng ZNF := @mkWorld ZNum ZRng ZNF (set_nth 2 (OBuf (zbuf [2; 10; 1])) (heap zworld)) (rdict zworld).
Definition half_call := @take_serial_steps ZNum ZRng ZNF (zts "rw" 5 2 0) [] zstart [].
Example C66_case :
  (exists pb lb ab kern lp, @setup ZNum ZRng ZNF half_world (zts "rw" 5 2 0) 0 pb 1 lb 2 ab kern lp 3 /\ room pb 3 3 /\ room lb 3 3) /\
  (match fst (half_call half_world) with Raise TypeError => true | _ => false end) = true /\
  zdata half_world 0 [0; 3; 0] <> zdata (snd (half_call half_world)) 0 [0; 3; 0] /\ zdata half_world 1 [0; 3] <> zdata (snd (half_call half_world)) 1 [0; 3] /\
  (match hget 4 (snd (half_call half_world)) with Some (OCursor z) => Z.eqb z 3 | _ => false end) = true.
Proof.
  split.
  - eexists _, _, _, _, _; split; [constructor; try (eexists 3, _, _; repeat split; reflexivity); repeat split; try reflexivity; discriminate|unfold room; simpl; lia].
  - split; [vm_compute; reflexivity|]. split; [vm_compute; discriminate|]. split; [vm_compute; discriminate|]. vm_compute. reflexivity.
Qed.
Print Assumptions C66_failed_steps.
