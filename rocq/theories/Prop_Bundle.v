(** Properties C44-C47: the bundles RQSpline_MALA_Bundle and RQSpline_MALA_PT_Bundle, run by a
    Sampler. *)
From Verif Require Import Prelude Num M_Core M_Kernels M_Strategies M_PT M_Bundle P_Lists
  Spec Spec_Core Spec_Sampler Spec_Steps Spec_Kernels Spec_Train Spec_PT Spec_Bundle
  P_Bundle5 P_Bundle6 P_Bundle7 P_Bundle8 Toy.

Section Props.
Context {N : Num} {G : Rng} {NF : NFOps}.

(* ==================================================================================== *)
(** C44.  Every name in the bundle's strategy_order is a registered strategy; all training loops
    precede reset_steppers and update_state, which precede all production loops; the trainer occurs
    n_training_loops times, all of them before. *)
Theorem C44_base_schedule :
  forall c h bd, rqspline_mala_bundle c = Ok (h, bd) ->
  (forall n, In n (bd_order bd) -> exists st, dget (bd_strategies bd) n = Some st) /\
  exists tr pr, bd_order bd = tr ++ ["reset_steppers"; "update_state"]%string ++ pr /\
    tr = concat (repeat ["local_stepper"; "update_global_step"; "model_trainer"; "update_model"; "global_stepper";
        "update_local_step"]%string (c_train_loops c)) /\
    pr = concat (repeat ["local_stepper"; "update_global_step"; "global_stepper"; "update_local_step"]%string (c_prod_loops c)) /\
    count_occ string_dec tr "model_trainer"%string = c_train_loops c /\
    ~ In "model_trainer"%string pr /\ ~ In "reset_steppers"%string (tr ++ pr) /\ ~ In "update_state"%string (tr ++ pr).
Proof. exact C44_base_proof. Qed.

Theorem C44_pt_schedule :
  forall pc h bd, rqspline_mala_pt_bundle pc = Ok (h, bd) ->
  (forall n, In n (bd_order bd) -> exists st, dget (bd_strategies bd) n = Some st) /\
  exists tr pr, bd_order bd = "initialize_tempered_positions"%string :: tr ++ ["reset_steppers"; "update_state"]%string ++ pr /\
    tr = concat (repeat ["parallel_tempering"; "local_stepper"; "update_global_step"; "model_trainer"; "update_model"; "global_stepper";
        "update_local_step"]%string (c_train_loops (p_base pc))) /\
    pr = concat (repeat ["parallel_tempering"; "local_stepper"; "update_global_step"; "global_stepper"; "update_local_step"]%string
           (c_prod_loops (p_base pc))) /\
    count_occ string_dec tr "model_trainer"%string = c_train_loops (p_base pc) /\
    ~ In "model_trainer"%string pr /\ ~ In "reset_steppers"%string (tr ++ pr) /\ ~ In "update_state"%string (tr ++ pr) /\
    ~ In "initialize_tempered_positions"%string (tr ++ pr).
Proof. exact C44_pt_proof. Qed.

(** The constructors fail exactly for a zero thinning, and for PT without temperatures. *)
Theorem C44_constructor :
  forall c pc,
  ((exists o, rqspline_mala_bundle c = Ok o) <-> 0 < c_local_th c /\ 0 < c_global_th c) /\
  ((exists o, rqspline_mala_pt_bundle pc = Ok o) <->
     0 < c_local_th (p_base pc) /\ 0 < c_global_th (p_base pc) /\ 0 < p_n_temps pc).
Proof. exact C44_constructor_proof. Qed.

(* ==================================================================================== *)
(** C45.  A successful Sampler.sample on a fresh bundle is a run of the reference algorithm of
    Spec_Bundle: training loops, then production loops, each writing every slot of its buffers
    exactly once in chronological order; losses and the final flow and optimiser state too. *)
Theorem C45_base_run :
  forall c h bd n nc k o kw s d xs good k' xs' w',
  rqspline_mala_bundle c = Ok (h, bd) -> sampler_init n nc k None None o (Some bd) kw = Ok s -> run_ok c d xs good ->
  sampler_sample s (P2 xs) d h = (Ok (k', xs'), w') ->
  let m := c_model c (split (c_key c) 2 1) in
  exists train_loops prod_loops s1 s2,
    training_run nothing_before c 100 d (mkR k xs m (c_opt c m) tt) train_loops s1 /\
    production_run nothing_before c d s1 prod_loops s2 /\
    length train_loops = c_train_loops c /\ length prod_loops = c_prod_loops c /\
    k' = r_key s2 /\ xs' = r_pos s2 /\
    phase_recorded c w' "training" train_loops /\ phase_recorded c w' "production" prod_loops /\
    losses_recorded c w' train_loops /\
    content_of w' "model" = CPlain (RModel (r_model s2)) /\
    content_of w' "global_sampler" = CPlain (RNFP (mkNfp (r_model s2) (c_nf_bs c))) /\
    content_of w' "optimizer" = CObject (Some (OOpt (mkOptimizer (c_tx c) (r_opt s2)))).
Proof. exact C45_base_proof. Qed.

Theorem C45_pt_run :
  forall pc h bd n nc k o kw s d xs good k' xs' w',
  rqspline_mala_pt_bundle pc = Ok (h, bd) -> sampler_init n nc k None None o (Some bd) kw = Ok s ->
  run_ok (p_base pc) d xs good -> grad_shape (p_prior pc) d (c_n_dims (p_base pc)) -> 0 < c_n_chains (p_base pc) ->
  sampler_sample s (P2 xs) d h = (Ok (k', xs'), w') ->
  let c := p_base pc in let m := c_model c (split (c_key c) 2 1) in
  exists e0 train_loops prod_loops s1 s2, initial_ensemble pc xs e0 /\
    training_run (tempering pc d true) c (c_window c) d (mkR k xs m (c_opt c m) e0) train_loops s1 /\
    production_run (tempering pc d false) c d s1 prod_loops s2 /\
    length train_loops = c_train_loops c /\ length prod_loops = c_prod_loops c /\
    k' = r_key s2 /\ xs' = r_pos s2 /\
    phase_recorded c w' "training" train_loops /\ phase_recorded c w' "production" prod_loops /\
    losses_recorded c w' train_loops /\
    content_of w' "model" = CPlain (RModel (r_model s2)) /\
    content_of w' "global_sampler" = CPlain (RNFP (mkNfp (r_model s2) (c_nf_bs c))) /\
    content_of w' "optimizer" = CObject (Some (OOpt (mkOptimizer (c_tx c) (r_opt s2)))) /\
    content_of w' "tempered_positions" = CObject (Some (OBuf (fst (r_ext s2)))) /\
    content_of w' "temperatures" = CObject (Some (OBuf (snd (r_ext s2)))).
Proof. exact C45_pt_proof. Qed.

(** The number of tempered steps per loop: n_tempered_steps, or n_local_steps if that is not
    positive. *)
Theorem C45_tempered_steps :
  forall pc, ((p_steps pc <= 0)%Z -> pt_n_steps (pt_strat pc) = c_local (p_base pc)) /\
             ((0 < p_steps pc)%Z -> Z.of_nat (pt_n_steps (pt_strat pc)) = p_steps pc).
Proof.
  intros pc. unfold pt_strat. cbn [pt_n_steps]. destruct (Z.leb_spec (p_steps pc) 0); split; intros; try lia; reflexivity.
Qed.

(* ==================================================================================== *)
(** C46.  From any point of the production phase on, whatever happens (even if a strategy raises),
    nothing but the four production buffers changes: model, flow kernel, optimiser, training buffers,
    losses, state (and tempered walkers and temperatures) keep their contents. *)
Theorem C46_base_production_frozen :
  forall c h bd, rqspline_mala_bundle c = Ok (h, bd) ->
  forall tr p1 p2 d k xs t1 k1 xs1 w1 t2 r w2,
  bd_order bd = tr ++ ["reset_steppers"; "update_state"]%string ++ p1 ++ p2 ->
  runs (bd_strategies bd) d (tr ++ ["reset_steppers"; "update_state"]%string ++ p1) k xs (mkWorld h (bd_resources bd)) t1 (Ok (k1, xs1)) w1 ->
  runs (bd_strategies bd) d p2 k1 xs1 w1 t2 r w2 ->
  forall n, ~ In n production_buffers -> content_of w2 n = content_of w1 n.
Proof. exact C46_base_proof. Qed.

Theorem C46_pt_production_frozen :
  forall pc h bd, rqspline_mala_pt_bundle pc = Ok (h, bd) ->
  forall tr p1 p2 d k xs t1 k1 xs1 w1 t2 r w2,
  bd_order bd = tr ++ ["reset_steppers"; "update_state"]%string ++ p1 ++ p2 ->
  runs (bd_strategies bd) d (tr ++ ["reset_steppers"; "update_state"]%string ++ p1) k xs (mkWorld h (bd_resources bd)) t1 (Ok (k1, xs1)) w1 ->
  runs (bd_strategies bd) d p2 k1 xs1 w1 t2 r w2 ->
  forall n, ~ In n production_buffers -> content_of w2 n = content_of w1 n.
Proof. exact C46_pt_proof. Qed.

(* ==================================================================================== *)
(** C47.  A second run of the same sampler: the training buffers stay as the first run left them,
    whatever the second run does. *)
Theorem C47_training_buffers_kept :
  forall h bd n nc k o kw s init1 d1 o1 w1 init2 d2 r2 w2,
  (exists c, rqspline_mala_bundle c = Ok (h, bd)) \/ (exists pc, rqspline_mala_pt_bundle pc = Ok (h, bd)) ->
  sampler_init n nc k None None o (Some bd) kw = Ok s ->
  sampler_sample s init1 d1 h = (Ok o1, w1) ->
  sampler_sample (sampler_after s w1) init2 d2 (heap w1) = (r2, w2) ->
  forall name, In name training_buffers -> content_of w2 name = content_of w1 name.
Proof. exact C47_kept_proof. Qed.

(** If it succeeds: it starts from the same key [k] as the first one and from the flow and optimiser
    state the first one left; its training loops train the flow on the FIRST run's training
    positions; the production buffers end up with the positions and log-probabilities of its own
    production loops. *)
Theorem C47_base_second_run :
  forall c h bd n nc k o kw s d1 xs1 good k1 ys1 w1 d2 xs2 k2 ys2 w2,
  rqspline_mala_bundle c = Ok (h, bd) -> sampler_init n nc k None None o (Some bd) kw = Ok s ->
  run_ok c d1 xs1 good -> run_ok c d2 xs2 good ->
  sampler_sample s (P2 xs1) d1 h = (Ok (k1, ys1), w1) ->
  sampler_sample (sampler_after s w1) (P2 xs2) d2 (heap w1) = (Ok (k2, ys2), w2) ->
  let m := c_model c (split (c_key c) 2 1) in
  exists train1 prod1 sa s1,
    training_run nothing_before c 100 d1 (mkR k xs1 m (c_opt c m) tt) train1 sa /\
    production_run nothing_before c d1 sa prod1 s1 /\
    phase_recorded c w1 "training" train1 /\ phase_recorded c w1 "production" prod1 /\
    exists train2 prod2 sb s2,
      retraining_run nothing_before c 100 d2 (positions_of c train1) (mkR k xs2 (r_model s1) (r_opt s1) tt) train2 sb /\
      production_run nothing_before c d2 sb prod2 s2 /\
      length train2 = c_train_loops c /\ length prod2 = c_prod_loops c /\
      k2 = r_key s2 /\ ys2 = r_pos s2 /\
      phase_samples c w2 "production" prod2 /\
      content_of w2 "model" = CPlain (RModel (r_model s2)) /\
      content_of w2 "optimizer" = CObject (Some (OOpt (mkOptimizer (c_tx c) (r_opt s2)))).
Proof. exact C47_base_proof. Qed.

(** The same with tempering, which is frozen during the whole second run: the temperatures never
    change again. *)
Theorem C47_pt_second_run :
  forall pc h bd n nc k o kw s d1 xs1 good k1 ys1 w1 d2 xs2 k2 ys2 w2,
  rqspline_mala_pt_bundle pc = Ok (h, bd) -> sampler_init n nc k None None o (Some bd) kw = Ok s ->
  run_ok (p_base pc) d1 xs1 good -> run_ok (p_base pc) d2 xs2 good ->
  grad_shape (p_prior pc) d1 (c_n_dims (p_base pc)) -> grad_shape (p_prior pc) d2 (c_n_dims (p_base pc)) ->
  0 < c_n_chains (p_base pc) ->
  sampler_sample s (P2 xs1) d1 h = (Ok (k1, ys1), w1) ->
  sampler_sample (sampler_after s w1) (P2 xs2) d2 (heap w1) = (Ok (k2, ys2), w2) ->
  let c := p_base pc in let m := c_model c (split (c_key c) 2 1) in
  exists e0 train1 prod1 sa s1, initial_ensemble pc xs1 e0 /\
    training_run (tempering pc d1 true) c (c_window c) d1 (mkR k xs1 m (c_opt c m) e0) train1 sa /\
    production_run (tempering pc d1 false) c d1 sa prod1 s1 /\
    phase_recorded c w1 "training" train1 /\ phase_recorded c w1 "production" prod1 /\
    exists tp train2 prod2 sb s2,
      ashape (b_data tp) = [c_n_chains c; p_n_temps pc - 1; c_n_dims c] /\
      (forall i j, i < length xs2 -> j < p_n_temps pc - 1 -> brow tp (c_n_dims c) i j = nth i xs2 []) /\
      retraining_run (tempering pc d2 false) c (c_window c) d2 (positions_of c train1)
        (mkR k xs2 (r_model s1) (r_opt s1) (tp, snd (r_ext s1))) train2 sb /\
      production_run (tempering pc d2 false) c d2 sb prod2 s2 /\
      length train2 = c_train_loops c /\ length prod2 = c_prod_loops c /\
      k2 = r_key s2 /\ ys2 = r_pos s2 /\
      phase_samples c w2 "production" prod2 /\
      content_of w2 "model" = CPlain (RModel (r_model s2)) /\
      content_of w2 "optimizer" = CObject (Some (OOpt (mkOptimizer (c_tx c) (r_opt s2)))) /\
      content_of w2 "temperatures" = content_of w1 "temperatures".
Proof. exact C47_pt_proof. Qed.
End Props.

(* ==================================================================================== *)
(** Two bundles on the executable instance: 2 chains, 2 dimensions, 2+2 loops of 4 local steps
    (thinning 2) and 2 global steps, 3 temperatures. *)
Definition zcfg : @config ZNum ZRng ZNF := @mkConfig ZNum ZRng ZNF
  [7] 2 2 zlp 4 2 2 2 3 (@SScalar ZNum 1%Z) 1 2 6 2 1 2 100 (fun k => Z.of_nat (length k)) 1%Z (fun m => 0%Z).
Definition zpcfg : @pt_config ZNum ZRng ZNF := @mkPtConfig ZNum ZRng ZNF zcfg 3 4%Z 2 zlp.
Definition zhb : list (@obj ZNum ZRng ZNF) * @bundle ZNum ZRng ZNF :=
  match @rqspline_mala_bundle ZNum ZRng ZNF zcfg with Ok p => p | Raise _ => ([], mkBundle [] [] []) end.
Definition zhp : list (@obj ZNum ZRng ZNF) * @bundle ZNum ZRng ZNF :=
  match @rqspline_mala_pt_bundle ZNum ZRng ZNF zpcfg with Ok p => p | Raise _ => ([], mkBundle [] [] []) end.
Definition zsamp (b : @bundle ZNum ZRng ZNF) : @sampler ZNum ZRng ZNF :=
  @mkSampler ZNum ZRng ZNF 2 2 [3] (bd_resources b) (bd_strategies b) (OList (bd_order b)) [].
Definition zfirst hb := @sampler_sample ZNum ZRng ZNF (zsamp (snd hb)) (@P2 ZNum zstart) [] (fst hb).
Definition zsecond hb := @sampler_sample ZNum ZRng ZNF
  (@sampler_after ZNum ZRng ZNF (zsamp (snd hb)) (snd (zfirst hb))) (@P2 ZNum zstart) [] (heap (snd (zfirst hb))).
Lemma zfirst_def hb : zfirst hb = @sampler_sample ZNum ZRng ZNF (zsamp (snd hb)) (@P2 ZNum zstart) [] (fst hb).
Proof. reflexivity. Qed.
Lemma zsecond_def hb : zsecond hb = @sampler_sample ZNum ZRng ZNF
  (@sampler_after ZNum ZRng ZNF (zsamp (snd hb)) (snd (zfirst hb))) (@P2 ZNum zstart) [] (heap (snd (zfirst hb))).
Proof. reflexivity. Qed.

(** The hypotheses of C44-C47 hold for them: the constructors succeed, the standing conditions hold,
    and both runs of both samplers succeed. *)
Lemma z_run_ok : @run_ok ZNum ZRng ZNF zcfg [] zstart (fun _ => True).
Proof.
  constructor; try reflexivity; try (cbn; lia); try exact I.
  - intros x [<-|[<-|[]]]; reflexivity.
  - intros x Hx. cbn. now rewrite map_length.
  - intros k n. cbn. now rewrite map_length, seq_length.
  - intros k n c. cbn. split; [now rewrite map_length, seq_length|]. intros Hn i Hi. apply in_map_iff in Hi as (j & <- & _).
    apply Nat.mod_upper_bound. lia.
  - split; [|split; auto]. intros m _ k n. cbn. split; [now rewrite map_length, seq_length|].
    intros x Hx. apply in_map_iff in Hx as (j & <- & _). reflexivity.
Qed.
Example C45_bundles :
  @rqspline_mala_bundle ZNum ZRng ZNF zcfg = Ok zhb /\ @rqspline_mala_pt_bundle ZNum ZRng ZNF zpcfg = Ok zhp /\
  @sampler_init ZNum ZRng ZNF 2 2 [3] None None ONone (Some (snd zhb)) [] = Ok (zsamp (snd zhb)) /\
  @sampler_init ZNum ZRng ZNF 2 2 [3] None None ONone (Some (snd zhp)) [] = Ok (zsamp (snd zhp)) /\
  @run_ok ZNum ZRng ZNF zcfg [] zstart (fun _ => True) /\ @grad_shape ZNum zlp [] 2.
Proof.
  do 4 (split; [reflexivity|]). split; [exact z_run_ok|]. intros x Hx. cbn. now rewrite map_length.
Qed.
Example C45_runs_succeed :
  zok (zfirst zhb) = true /\ zok (zsecond zhb) = true /\ zok (zfirst zhp) = true /\ zok (zsecond zhp) = true.
Proof. repeat split; vm_compute; reflexivity. Qed.
(** Local acceptance flags of chain 0 after the first run: two local slots, two global slots, ... *)
Example C45_slots :
  map (fun s => zdata (snd (zfirst zhb)) L_la_pr [0; s]) (seq 0 8) =
  [0; 0; -1000000; -1000000; 0; 1; -1000000; -1000000]%Z.
Proof. vm_compute. reflexivity. Qed.

Lemma robj_of {N : Num} {G : Rng} {NF : NFOps} (o : option resource) l :
  match o with Some (RObj l') => l' =? l | _ => false end = true -> o = Some (RObj l).
Proof. destruct o as [[l'| | | | |]|]; try discriminate. intros H. apply Nat.eqb_eq in H. now rewrite H. Qed.
(** C47: after a second run a slot need not have just one acceptance flag: flags of the second run's
    training-phase local steps remain in slots of global steps. *)
Theorem C47_one_flag_per_slot_refuted :
  ~ (forall (N : Num) (G : Rng) (NF : NFOps) c h bd n nc k o kw s d1 xs1 good k1 ys1 w1 d2 xs2 k2 ys2 w2 al ab gl gb i j,
     rqspline_mala_bundle c = Ok (h, bd) -> sampler_init n nc k None None o (Some bd) kw = Ok s ->
     run_ok c d1 xs1 good -> run_ok c d2 xs2 good ->
     sampler_sample s (P2 xs1) d1 h = (Ok (k1, ys1), w1) ->
     sampler_sample (sampler_after s w1) (P2 xs2) d2 (heap w1) = (Ok (k2, ys2), w2) ->
     buffer_named w2 "local_accs_production" al ab -> buffer_named w2 "global_accs_production" gl gb ->
     i < c_n_chains c -> j < phase_slots c (c_prod_loops c) ->
     aget (b_data ab) [i; j] = fninf \/ aget (b_data gb) [i; j] = fninf).
Proof.
  intros H.
  destruct (zfirst zhb) as [[[k1 ys1]|e1] w1] eqn:E1; [|exfalso; pose proof (proj1 C45_runs_succeed) as X; rewrite E1 in X; discriminate X].
  destruct (zsecond zhb) as [[[k2 ys2]|e2] w2] eqn:E2; [|exfalso; pose proof (proj1 (proj2 C45_runs_succeed)) as X; rewrite E2 in X; discriminate X].
  assert (B : forall l, In l [L_la_pr; L_ga_pr] -> match hget l (snd (zsecond zhb)) with Some (OBuf b) => aget (b_data b) [0; 7] <> (-1000000)%Z | _ => False end).
  { intros l [<-|[<-|[]]]; vm_compute; discriminate. }
  rewrite E2 in B. cbn [snd] in B.
  assert (D : forall nl, In nl [("local_accs_production"%string, L_la_pr); ("global_accs_production"%string, L_ga_pr)] ->
     match dget (rdict (snd (zsecond zhb))) (fst nl) with Some (RObj l) => l =? snd nl | _ => false end = true).
  { intros nl [<-|[<-|[]]]; vm_compute; reflexivity. }
  rewrite E2 in D. cbn [snd] in D.
  assert (D' : forall nl, In nl [("local_accs_production"%string, L_la_pr); ("global_accs_production"%string, L_ga_pr)] ->
     dget (rdict w2) (fst nl) = Some (RObj (snd nl))).
  { intros nl Hnl. exact (robj_of _ _ (D nl Hnl)). }
  pose proof (D' _ (or_introl eq_refl)) as D1. pose proof (D' _ (or_intror (or_introl eq_refl))) as D2. cbn [fst snd] in D1, D2.
  pose proof (B L_la_pr (or_introl eq_refl)) as Ba. pose proof (B L_ga_pr (or_intror (or_introl eq_refl))) as Bg.
  destruct (hget L_la_pr w2) as [[ab| | |]|] eqn:Ha; try contradiction.
  destruct (hget L_ga_pr w2) as [[gb| | |]|] eqn:Hg; try contradiction.
  rewrite zsecond_def, E1 in E2. cbn [snd] in E2. rewrite zfirst_def in E1.
  destruct (H ZNum ZRng ZNF zcfg (fst zhb) (snd zhb) 2 2 [3] ONone [] (zsamp (snd zhb)) [] zstart (fun _ => True) k1 ys1 w1
     [] zstart k2 ys2 w2 L_la_pr ab L_ga_pr gb 0 7 (proj1 C45_bundles) (proj1 (proj2 (proj2 C45_bundles))) z_run_ok z_run_ok E1 E2
     (conj D1 Ha) (conj D2 Hg)) as [X|X].
  - cbn. lia.
  - apply Nat.ltb_lt. vm_compute. reflexivity.
  - exact (Ba X).
  - exact (Bg X).
Qed.

Print Assumptions C44_base_schedule.
Print Assumptions C44_pt_schedule.
Print Assumptions C44_constructor.
Print Assumptions C45_base_run.
Print Assumptions C45_pt_run.
Print Assumptions C45_tempered_steps.
Print Assumptions C46_base_production_frozen.
Print Assumptions C46_pt_production_frozen.
Print Assumptions C47_training_buffers_kept.
Print Assumptions C47_base_second_run.
Print Assumptions C47_pt_second_run.
Print Assumptions C47_one_flag_per_slot_refuted.
