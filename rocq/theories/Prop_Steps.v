(** Properties C07-C12 and C24: TakeSerialSteps and TakeGroupSteps. *)
From Verif Require Import Prelude Num M_Core M_Kernels M_Strategies M_PT M_Bundle
  Spec Spec_Core Spec_Steps Spec_Kernels P_Lists P_Steps P_Kernels P_StepsK P_Steps2 Toy.

Section Props.
Context {N : Num} {G : Rng} {NF : NFOps}.

(** A chain sampler as TakeSerialSteps.sample and TakeGroupSteps.sample are: kernel resource,
    logpdf resource, data, n_steps, key, initial position to the chain's steps. *)
Implicit Type samp : resource -> resource -> datad -> nat -> key -> vec -> res (list (vec * F * bool)).

(* ==================================================================================== *)
(** C07.  Whatever a stepping call does (also when it raises half-way), it modifies only the
    buffer objects that the State resource names at the time of the call, and the strategy's own
    current_position.  The resource dictionary is not modified, buffers keep shape, name,
    cursor and cursor dimension. *)
Theorem C07_frame :
  forall samp ts k xs d w r w',
  take_steps samp ts k xs d w = (r, w') ->
  rdict w' = rdict w /\ length (heap w') = length (heap w) /\
  (forall l, l <> ts_cur ts ->
     (forall b, ~ target w (ts_state ts) (ts_pos_key ts) l b) ->
     (forall b, ~ target w (ts_state ts) (ts_lp_key ts) l b) ->
     (forall b, ~ target w (ts_state ts) (ts_acc_key ts) l b) ->
     hget l w' = hget l w) /\
  (forall l b, hget l w = Some (OBuf b) ->
     exists b', hget l w' = Some (OBuf b') /\ same_header b b') /\
  (forall l z, hget l w = Some (OCursor z) -> exists z', hget l w' = Some (OCursor z')).
Proof. exact C07_frame_proof. Qed.

(** If the State, one of the three buffer names or buffers, the kernel or the logpdf is missing or
    of the wrong kind, the call raises and nothing is modified. *)
Theorem C07_missing_name :
  forall samp ts k xs d w, ~ ready w ts ->
  exists e, take_steps samp ts k xs d w = (Raise e, w).
Proof. exact C07_missing_proof. Qed.

(* ==================================================================================== *)
(** C08.  After a successful call with enough room: slot cur + j of chain c holds step j * thinning
    of the chain that was run from chain c's start with chain c's key; the other slots keep their
    content; the returned position of chain c is its last kept step; current_position advances. *)
Theorem C08_samples_recorded :
  forall samp ts k xs d w k' xs' w' pl pb ll lb al ab kern lp cur dim (good : vec -> Prop),
  setup w ts pl pb ll lb al ab kern lp cur ->
  sampler_shape (samp kern lp d) (ts_n_steps ts) dim good -> (forall x, In x xs -> good x) ->
  let n := ts_n_steps ts in let th := ts_thinning ts in let kept := cdiv n th in
  room pb cur kept -> room lb cur kept -> room ab cur kept ->
  take_steps samp ts k xs d w = (Ok (k', xs'), w') ->
  exists out pb' lb' ab',
    length out = length xs /\
    (forall c, c < length xs ->
       samp kern lp d n (split (split k 2 1) (length xs) c) (nth c xs []) = Ok (nth c out [])) /\
    rectangular n dim out /\
    setup w' ts pl pb' ll lb' al ab' kern lp (cur + n / th) /\
    same_header pb pb' /\ same_header lb lb' /\ same_header ab ab' /\
    holds_samples pb' lb' ab' cur n th dim out /\
    (forall c s i, s < cur \/ cur + kept <= s ->
       aget (b_data pb') [c; s; i] = aget (b_data pb) [c; s; i] /\
       aget (b_data lb') [c; s] = aget (b_data lb) [c; s] /\
       aget (b_data ab') [c; s] = aget (b_data ab) [c; s]) /\
    length xs' = length xs /\
    (forall c, c < length xs -> 0 < n /\ last_kept n th (nth c out []) (nth c xs' [])) /\
    (forall x, In x xs' -> good x) /\ 0 < th /\
    k' = split k 2 0.
Proof. exact C08_setup_proof. Qed.

(** The hypothesis on the chain sampler holds for every kernel of the repository. *)
Theorem C08_serial_kernels_qualify :
  forall kf lpr f d n dim,
  density_of lpr f -> repo_kernel kf dim -> normal_shape -> grad_shape f d dim ->
  sampler_shape (samp_serial (RSer kf) lpr d) n dim (fun x => length x = dim).
Proof. exact C08_serial_shape_proof. Qed.
Theorem C08_flow_kernel_qualifies :
  forall p lpr f d n dim,
  density_of lpr f -> samples_shape (nfp_model p) dim -> 0 < nfp_bs p ->
  sampler_shape (samp_group (RNFP p) lpr d) n dim (fun x => length x = dim).
Proof. exact samp_group_shape. Qed.

(** And the call does succeed when every chain's sampler does and the buffers are large enough
    for one call (no matter where current_position is). *)
Theorem C08_call_succeeds :
  forall samp ts k xs d w pl pb ll lb al ab kern lp cur dim out,
  setup w ts pl pb ll lb al ab kern lp cur ->
  xs <> [] -> 0 < ts_n_steps ts -> 0 < ts_thinning ts ->
  length out = length xs ->
  (forall c, c < length xs ->
     samp kern lp d (ts_n_steps ts) (split (split k 2 1) (length xs) c) (nth c xs [])
       = Ok (nth c out [])) ->
  rectangular (ts_n_steps ts) dim out ->
  large_enough pb lb ab (length xs) (cdiv (ts_n_steps ts) (ts_thinning ts)) dim ->
  exists xs' w', take_steps samp ts k xs d w = (Ok (split k 2 0, xs'), w').
Proof. exact take_steps_total. Qed.

(* ==================================================================================== *)
(** C09.  chain_batch_size has no influence on the result or on any effect. *)
Theorem C09_batching_invisible :
  forall samp (ts : takesteps) (b b' : nat) k xs d w,
  let with_batch b0 := mkTakeSteps (ts_logpdf ts) (ts_kernel ts) (ts_state ts) (ts_pos_key ts)
        (ts_lp_key ts) (ts_acc_key ts) (ts_n_steps ts) (ts_thinning ts) b0 (ts_cur ts) in
  take_steps samp (with_batch b) k xs d w = take_steps samp (with_batch b') k xs d w.
Proof. exact C09_proof. Qed.

(* ==================================================================================== *)
(** C10.  Changing the starting points of other chains changes nothing in chain c's recorded
    samples and returned position. *)
Theorem C10_chains_independent :
  forall samp ts k xs ys d w k1 xs1 w1 k2 ys2 w2 pl pb ll lb al ab kern lp cur dim
         (good : vec -> Prop) c,
  setup w ts pl pb ll lb al ab kern lp cur ->
  sampler_shape (samp kern lp d) (ts_n_steps ts) dim good ->
  (forall x, In x xs -> good x) -> (forall x, In x ys -> good x) ->
  let kept := cdiv (ts_n_steps ts) (ts_thinning ts) in
  room pb cur kept -> room lb cur kept -> room ab cur kept ->
  length ys = length xs -> c < length xs -> nth c ys [] = nth c xs [] ->
  take_steps samp ts k xs d w = (Ok (k1, xs1), w1) ->
  take_steps samp ts k ys d w = (Ok (k2, ys2), w2) ->
  nth c ys2 [] = nth c xs1 [] /\
  exists pb1 lb1 ab1 pb2 lb2 ab2,
    hget pl w1 = Some (OBuf pb1) /\ hget ll w1 = Some (OBuf lb1) /\ hget al w1 = Some (OBuf ab1) /\
    hget pl w2 = Some (OBuf pb2) /\ hget ll w2 = Some (OBuf lb2) /\ hget al w2 = Some (OBuf ab2) /\
    forall s, (forall i, i < dim -> aget (b_data pb1) [c; s; i] = aget (b_data pb2) [c; s; i]) /\
              aget (b_data lb1) [c; s] = aget (b_data lb2) [c; s] /\
              aget (b_data ab1) [c; s] = aget (b_data ab2) [c; s].
Proof. exact C10_proof. Qed.

(* ==================================================================================== *)
(** C11.  The log-probability recorded in a slot is the log-density of the position recorded in
    that slot.  (Double negation is exact in IEEE arithmetic; HMC returns minus the potential.) *)
Theorem C11_local_steps :
  forall ts k xs d w k' xs' w' pl pb ll lb al ab kf lpr f cur dim,
  setup w ts pl pb ll lb al ab (RSer kf) lpr cur -> density_of lpr f ->
  repo_kernel kf dim -> normal_shape -> grad_shape f d dim -> (forall v : F, fneg (fneg v) = v) ->
  (forall x, In x xs -> length x = dim) ->
  let kept := cdiv (ts_n_steps ts) (ts_thinning ts) in
  room pb cur kept -> room lb cur kept -> room ab cur kept ->
  take_serial_steps ts k xs d w = (Ok (k', xs'), w') ->
  exists pb' lb',
    hget pl w' = Some (OBuf pb') /\ hget ll w' = Some (OBuf lb') /\
    (forall c s, c < length xs -> cur <= s < cur + kept ->
      aget (b_data lb') [c; s] = lp_val f (recorded_position pb' dim c s) d).
Proof. exact C11_serial_proof. Qed.

Theorem C11_global_steps :
  forall ts k xs d w k' xs' w' pl pb ll lb al ab p lpr f cur dim,
  setup w ts pl pb ll lb al ab (RNFP p) lpr cur -> density_of lpr f ->
  samples_shape (nfp_model p) dim -> 0 < nfp_bs p -> ignores_n_steps f ->
  (forall x, In x xs -> length x = dim) ->
  let kept := cdiv (ts_n_steps ts) (ts_thinning ts) in
  room pb cur kept -> room lb cur kept -> room ab cur kept ->
  take_group_steps ts k xs d w = (Ok (k', xs'), w') ->
  exists pb' lb',
    hget pl w' = Some (OBuf pb') /\ hget ll w' = Some (OBuf lb') /\
    (forall c s, c < length xs -> cur <= s < cur + kept ->
      aget (b_data lb') [c; s] = lp_val f (recorded_position pb' dim c s) d).
Proof. exact C11_group_proof. Qed.

(* ==================================================================================== *)
(** C12.  [m] consecutive calls, any thinning: call i starts from the positions returned by call
    i - 1 (the last kept step, not the last step) and writes from slot cur + i * (n / th); at the
    end, of call i exactly the kept steps j < n / th (and, for the last call, all kept steps) are
    found in the buffers. *)
Theorem C12_consecutive_calls :
  forall samp ts m k xs d w k' xs' w' pl pb ll lb al ab kern lp cur dim (good : vec -> Prop),
  setup w ts pl pb ll lb al ab kern lp cur ->
  sampler_shape (samp kern lp d) (ts_n_steps ts) dim good -> (forall x, In x xs -> good x) ->
  let n := ts_n_steps ts in let th := ts_thinning ts in
  let kept := cdiv n th in let adv := n / th in
  room pb cur (m * adv + (kept - adv)) -> room lb cur (m * adv + (kept - adv)) ->
  room ab cur (m * adv + (kept - adv)) ->
  calls m (take_steps samp ts) k xs d w = (Ok (k', xs'), w') ->
  exists (outs : nat -> list chain_out) (pos : nat -> pos_t) pb' lb' ab',
    pos 0 = xs /\ pos m = xs' /\ k' = iter m (fun q => split q 2 0) k /\
    (forall i c, i < m -> c < length xs ->
       length (outs i) = length xs /\ length (nth c (outs i) []) = n /\
       samp kern lp d n (split (split (iter i (fun q => split q 2 0) k) 2 1) (length xs) c)
            (nth c (pos i) []) = Ok (nth c (outs i) []) /\
       last_kept n th (nth c (outs i) []) (nth c (pos (S i)) [])) /\
    setup w' ts pl pb' ll lb' al ab' kern lp (cur + m * adv) /\
    (forall i c j o, i < m -> c < length xs -> j * th < n -> (j < adv \/ S i = m) ->
       nth_error (nth c (outs i) []) (j * th) = Some o ->
       holds_at pb' lb' ab' dim c (cur + i * adv + j) o) /\
    (forall c s i, s < cur \/ cur + (m * adv + (kept - adv)) <= s ->
       aget (b_data pb') [c; s; i] = aget (b_data pb) [c; s; i] /\
       aget (b_data lb') [c; s] = aget (b_data lb) [c; s] /\
       aget (b_data ab') [c; s] = aget (b_data ab) [c; s]) /\
    same_header pb pb' /\ same_header lb lb' /\ same_header ab ab'.
Proof. exact C12_calls_proof. Qed.

(** Slots written and slots advanced: equal exactly when the thinning divides the number of steps,
    otherwise one slot is written beyond the advance.  Trailing steps dropped: (n - 1) mod th. *)
Theorem C12_slot_count :
  forall n th, 0 < th ->
  (forall j, j < cdiv n th <-> j * th < n) /\
  (n mod th = 0 -> cdiv n th = n / th) /\
  (n mod th <> 0 -> cdiv n th = n / th + 1) /\
  (0 < n -> n - 1 - (n - 1) / th * th = (n - 1) mod th /\ (n - 1) mod th < th).
Proof. exact C12_slot_count_proof. Qed.

(** Dividing thinning: every kept step of every call is found afterwards, call after call, without
    gap or overlap: slot cur + t is step (t mod kept) * th of call t / kept. *)
Theorem C12_tiling :
  forall samp ts m k xs d w k' xs' w' pl pb ll lb al ab kern lp cur dim (good : vec -> Prop),
  setup w ts pl pb ll lb al ab kern lp cur ->
  sampler_shape (samp kern lp d) (ts_n_steps ts) dim good -> (forall x, In x xs -> good x) ->
  let n := ts_n_steps ts in let th := ts_thinning ts in let kept := n / th in
  n mod th = 0 -> 0 < th ->
  room pb cur (m * kept) -> room lb cur (m * kept) -> room ab cur (m * kept) ->
  calls m (take_steps samp ts) k xs d w = (Ok (k', xs'), w') ->
  exists (outs : nat -> list chain_out) (pos : nat -> pos_t) pb' lb' ab',
    pos 0 = xs /\ pos m = xs' /\
    (forall i c, i < m -> c < length xs ->
       samp kern lp d n (split (split (iter i (fun q => split q 2 0) k) 2 1) (length xs) c)
            (nth c (pos i) []) = Ok (nth c (outs i) []) /\
       last_kept n th (nth c (outs i) []) (nth c (pos (S i)) [])) /\
    setup w' ts pl pb' ll lb' al ab' kern lp (cur + m * kept) /\
    (forall c t, c < length xs -> t < m * kept ->
       exists o, nth_error (nth c (outs (t / kept)) []) (t mod kept * th) = Some o /\
                 holds_at pb' lb' ab' dim c (cur + t) o).
Proof. exact C12_tiling_proof. Qed.

(** Non-dividing thinning: the last kept step of a call is overwritten by the first step of the
    next one. *)
Theorem C12_lossy :
  forall samp ts k xs d w k' xs' w' pl pb ll lb al ab kern lp cur dim (good : vec -> Prop),
  setup w ts pl pb ll lb al ab kern lp cur ->
  sampler_shape (samp kern lp d) (ts_n_steps ts) dim good -> (forall x, In x xs -> good x) ->
  let n := ts_n_steps ts in let th := ts_thinning ts in let adv := n / th in
  n mod th <> 0 -> 0 < th ->
  room pb cur (2 * adv + 1) -> room lb cur (2 * adv + 1) -> room ab cur (2 * adv + 1) ->
  calls 2 (take_steps samp ts) k xs d w = (Ok (k', xs'), w') ->
  exists out1 out2 xs1 k1 w1 pb1 lb1 ab1 pb' lb' ab',
    take_steps samp ts k xs d w = (Ok (k1, xs1), w1) /\
    setup w1 ts pl pb1 ll lb1 al ab1 kern lp (cur + adv) /\
    setup w' ts pl pb' ll lb' al ab' kern lp (cur + 2 * adv) /\
    forall c, c < length xs ->
      samp kern lp d n (split (split k 2 1) (length xs) c) (nth c xs []) = Ok (nth c out1 []) /\
      samp kern lp d n (split (split k1 2 1) (length xs) c) (nth c xs1 []) = Ok (nth c out2 []) /\
      (exists o1, nth_error (nth c out1 []) (adv * th) = Some o1 /\
                  holds_at pb1 lb1 ab1 dim c (cur + adv) o1 /\ nth c xs1 [] = s_pos o1) /\
      (exists o2, nth_error (nth c out2 []) 0 = Some o2 /\
                  holds_at pb' lb' ab' dim c (cur + adv) o2).
Proof. exact C12_lossy_proof. Qed.

(* ==================================================================================== *)
(** C24.  TakeGroupSteps evaluates proposals with data extended by n_steps and the starting point
    with the user's data. *)
Theorem C24_extra_entry :
  forall p f d n k x co dim,
  samples_shape (nfp_model p) dim -> 0 < nfp_bs p ->
  group_sample p f d n k x = Ok co ->
  let d' := dset d "n_steps" (DInt (Z.of_nat n)) in
  (forall key, key <> "n_steps"%string -> dget d' key = dget d key) /\
  dget d' "n_steps" = Some (DInt (Z.of_nat n)) /\
  (forall i o, nth_error co i = Some o -> s_acc o = true -> s_lp o = lp_val f (s_pos o) d') /\
  (forall o, nth_error co 0 = Some o -> s_acc o = false -> s_pos o = x /\ s_lp o = lp_val f x d) /\
  (ignores_n_steps f -> forall o, In o co -> s_lp o = lp_val f (s_pos o) d).
Proof. exact C24_proof. Qed.

End Props.

(** A target that reads n_steps can have a recorded log-probability that is not its log-density
    under the user's data. *)
Theorem C24_recorded_can_differ :
  exists (N : Num) (G : Rng) (NF : NFOps) (p : nfp) (f : lpdf) (d : datad) n k x co o,
    samples_shape (nfp_model p) 2 /\ 0 < nfp_bs p /\ dget d "n_steps" = None /\
    group_sample p f d n k x = Ok co /\ In o co /\ s_lp o <> lp_val f (s_pos o) d.
Proof. exact C24_differ_proof. Qed.

(* ---- concrete cases ---------------------------------------------------------------- *)

(** The toy world meets the hypotheses of C08, C10, C11, C12: a setup with three distinct buffers,
    qualifying samplers, room for two calls, and successful calls (5 steps, thinning 2). *)
Example steps_example :
  (exists pb lb ab kern lp, @setup ZNum ZRng ZNF zworld (zts "rw" 5 2 0) 0 pb 1 lb 2 ab kern lp 3 /\
     room pb 3 5 /\ room lb 3 5 /\ room ab 3 5) /\
  (exists pb lb ab kern lp, @setup ZNum ZRng ZNF zworld (zts "nf" 4 2 0) 0 pb 1 lb 2 ab kern lp 3 /\
     room pb 3 4 /\ room lb 3 4 /\ room ab 3 4) /\
  @normal_shape ZNum ZRng /\ @grad_shape ZNum zlp [] 2 /\ @samples_shape ZNum ZRng ZNF 1%Z 2 /\
  zok (calls 2 (@take_serial_steps ZNum ZRng ZNF (zts "rw" 5 2 0)) [] zstart [] zworld) = true /\
  zok (calls 2 (@take_group_steps ZNum ZRng ZNF (zts "nf" 4 2 0)) [] zstart [] zworld) = true /\
  (* some proposal was accepted, some rejected *)
  zdata (snd (@take_serial_steps ZNum ZRng ZNF (zts "rw" 5 2 0) [] zstart [] zworld)) 2 [0; 3] = 0%Z /\
  zdata (snd (@take_serial_steps ZNum ZRng ZNF (zts "rw" 5 2 0) [] zstart [] zworld)) 2 [0; 4] = 1%Z.
Proof. exact steps_example_proof. Qed.

(** C07: a world with no buffer named in the state is not [ready]; the call raises. *)
Example C07_example :
  ~ @ready ZNum ZRng ZNF (mkWorld (heap zworld) (tl (rdict zworld))) (zts "rw" 5 2 0) /\
  fst (@take_serial_steps ZNum ZRng ZNF (zts "rw" 5 2 0) [] zstart [] (mkWorld (heap zworld) (tl (rdict zworld))))
    = Raise KeyError.
Proof. exact C07_example_proof. Qed.

(** C09: three chains, batches of two. *)
Example C09_example :
  fst (@take_serial_steps ZNum ZRng ZNF (zts "rw" 4 1 1) [] zstart [] zworld) =
  fst (@take_serial_steps ZNum ZRng ZNF (zts "rw" 4 1 0) [] zstart [] zworld) /\
  zok (@take_serial_steps ZNum ZRng ZNF (zts "rw" 4 1 0) [] zstart [] zworld) = true.
Proof. vm_compute. auto. Qed.

Print Assumptions C07_frame.
Print Assumptions C07_missing_name.
Print Assumptions C08_samples_recorded.
Print Assumptions C08_serial_kernels_qualify.
Print Assumptions C08_flow_kernel_qualifies.
Print Assumptions C08_call_succeeds.
Print Assumptions C09_batching_invisible.
Print Assumptions C10_chains_independent.
Print Assumptions C11_local_steps.
Print Assumptions C11_global_steps.
Print Assumptions C12_consecutive_calls.
Print Assumptions C12_slot_count.
Print Assumptions C12_tiling.
Print Assumptions C12_lossy.
Print Assumptions C24_extra_entry.
Print Assumptions C24_recorded_can_differ.
