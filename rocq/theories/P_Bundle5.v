(** The two bundles. *)
From Verif Require Import Prelude Num M_Core M_Kernels M_Strategies M_PT M_Bundle P_Lists P_Buffer
  Spec Spec_Core P_Core Spec_Sampler P_Sampler Spec_Steps P_Steps Spec_Kernels P_Kernels P_StepsK P_Steps2 Spec_Train P_Train P_Train2
  Spec_PT P_PT P_PT2 P_PT3 P_PT4 P_PT5 Spec_Bundle P_Bundle P_Bundle2 P_Bundle3 P_Bundle4.

Section Bnd.
Context {N : Num} {G : Rng} {NF : NFOps}.

(* ------------------------------------------------------------------ C44 *)
Lemma in_repeat_phase n p x : In x (repeat_phase n p) -> In x p.
Proof. induction n; cbn; [easy|]. intros H. apply in_app_iff in H as [|]; auto. Qed.
Lemma count_repeat_phase f n p :
  length (filter f (repeat_phase n p)) = n * length (filter (f : string -> bool) p).
Proof. induction n; cbn; [easy|]. rewrite filter_app, app_length, IHn. lia. Qed.

Lemma C44_base_proof c h bd : rqspline_mala_bundle c = Ok (h, bd) ->
  (forall n, In n (bd_order bd) -> exists st, dget (bd_strategies bd) n = Some st) /\
  exists tr pr, bd_order bd = tr ++ ["reset_steppers"; "update_state"]%string ++ pr /\
    tr = concat (repeat ["local_stepper"; "update_global_step"; "model_trainer"; "update_model"; "global_stepper";
        "update_local_step"]%string (c_train_loops c)) /\
    pr = concat (repeat ["local_stepper"; "update_global_step"; "global_stepper"; "update_local_step"]%string (c_prod_loops c)) /\
    count_occ string_dec tr "model_trainer"%string = c_train_loops c /\
    ~ In "model_trainer"%string pr /\ ~ In "reset_steppers"%string (tr ++ pr) /\ ~ In "update_state"%string (tr ++ pr).
Proof.
  intros H. unfold rqspline_mala_bundle in H. destruct (_ || _); [discriminate|]. injection H as <- <-. cbn [bd_order bd_strategies].
  assert (A : forall n p, repeat_phase n p = concat (repeat p n)) by (induction n; intros; cbn; congruence).
  assert (B : forall (n : nat) (p : list string) x, In x (concat (repeat p n)) -> In x p).
  { intros n p x Hx. rewrite <- A in Hx. eapply in_repeat_phase; eauto. }
  split.
  - intros n Hn. unfold base_order in Hn. rewrite !in_app_iff in Hn. destruct Hn as [Hn|[Hn|Hn]].
    + apply in_repeat_phase in Hn. repeat destruct Hn as [<-|Hn]; [eexists; reflexivity..|easy].
    + repeat destruct Hn as [<-|Hn]; [eexists; reflexivity..|easy].
    + apply in_repeat_phase in Hn. repeat destruct Hn as [<-|Hn]; [eexists; reflexivity..|easy].
  - eexists _, _. split; [unfold base_order; rewrite !A; reflexivity|]. split; [reflexivity|]. split; [reflexivity|].
    split; [|split; [|split]].
    + generalize (c_train_loops c) as n. induction n as [|n IH]; [reflexivity|]. cbn [repeat concat]. rewrite count_occ_app, IH. reflexivity.
    + intros Hx. apply B in Hx. cbn in Hx. intuition discriminate.
    + rewrite in_app_iff. intros [Hx|Hx]; apply B in Hx; cbn in Hx; intuition discriminate.
    + rewrite in_app_iff. intros [Hx|Hx]; apply B in Hx; cbn in Hx; intuition discriminate.
Qed.

Lemma C44_pt_proof pc h bd : rqspline_mala_pt_bundle pc = Ok (h, bd) ->
  (forall n, In n (bd_order bd) -> exists st, dget (bd_strategies bd) n = Some st) /\
  exists tr pr, bd_order bd = "initialize_tempered_positions"%string :: tr ++ ["reset_steppers"; "update_state"]%string ++ pr /\
    tr = concat (repeat ["parallel_tempering"; "local_stepper"; "update_global_step"; "model_trainer"; "update_model"; "global_stepper";
        "update_local_step"]%string (c_train_loops (p_base pc))) /\
    pr = concat (repeat ["parallel_tempering"; "local_stepper"; "update_global_step"; "global_stepper"; "update_local_step"]%string
           (c_prod_loops (p_base pc))) /\
    count_occ string_dec tr "model_trainer"%string = c_train_loops (p_base pc) /\
    ~ In "model_trainer"%string pr /\ ~ In "reset_steppers"%string (tr ++ pr) /\ ~ In "update_state"%string (tr ++ pr) /\
    ~ In "initialize_tempered_positions"%string (tr ++ pr).
Proof.
  intros H. unfold rqspline_mala_pt_bundle in H. destruct (_ || _); [discriminate|]. destruct (_ =? 0); [discriminate|].
  injection H as <- <-. cbn [bd_order bd_strategies].
  assert (A : forall n p, repeat_phase n p = concat (repeat p n)) by (induction n; intros; cbn; congruence).
  assert (B : forall (n : nat) (p : list string) x, In x (concat (repeat p n)) -> In x p).
  { intros n p x Hx. rewrite <- A in Hx. eapply in_repeat_phase; eauto. }
  split.
  - intros n Hn. unfold pt_order in Hn. rewrite !in_app_iff in Hn. destruct Hn as [Hn|[Hn|[Hn|Hn]]].
    + repeat destruct Hn as [<-|Hn]; [eexists; reflexivity..|easy].
    + apply in_repeat_phase in Hn. repeat destruct Hn as [<-|Hn]; [eexists; reflexivity..|easy].
    + repeat destruct Hn as [<-|Hn]; [eexists; reflexivity..|easy].
    + apply in_repeat_phase in Hn. repeat destruct Hn as [<-|Hn]; [eexists; reflexivity..|easy].
  - eexists _, _. split; [unfold pt_order; rewrite !A; reflexivity|]. split; [reflexivity|]. split; [reflexivity|].
    split; [|split; [|split; [|split]]].
    + generalize (c_train_loops (p_base pc)) as n. induction n as [|n IH]; [reflexivity|]. cbn [repeat concat]. rewrite count_occ_app, IH. reflexivity.
    + intros Hx. apply B in Hx. cbn in Hx. intuition discriminate.
    + rewrite in_app_iff. intros [Hx|Hx]; apply B in Hx; cbn in Hx; intuition discriminate.
    + rewrite in_app_iff. intros [Hx|Hx]; apply B in Hx; cbn in Hx; intuition discriminate.
    + rewrite in_app_iff. intros [Hx|Hx]; apply B in Hx; cbn in Hx; intuition discriminate.
Qed.

(** Constructors succeed exactly when both thinnings (and for PT the number of temperatures) are not 0. *)
Lemma C44_constructor_proof c pc :
  ((exists o, rqspline_mala_bundle c = Ok o) <-> 0 < c_local_th c /\ 0 < c_global_th c) /\
  ((exists o, rqspline_mala_pt_bundle pc = Ok o) <-> 0 < c_local_th (p_base pc) /\ 0 < c_global_th (p_base pc) /\ 0 < p_n_temps pc).
Proof.
  unfold rqspline_mala_bundle, rqspline_mala_pt_bundle.
  destruct (Nat.eqb_spec (c_local_th c) 0), (Nat.eqb_spec (c_global_th c) 0),
    (Nat.eqb_spec (c_local_th (p_base pc)) 0), (Nat.eqb_spec (c_global_th (p_base pc)) 0), (Nat.eqb_spec (p_n_temps pc) 0); cbn [orb];
  (split; split; [intros [o Ho]; try discriminate Ho; lia | intros; first [eexists; reflexivity|lia]
                 |intros [o Ho]; try discriminate Ho; lia | intros; first [eexists; reflexivity|lia]]).
Qed.

(* ------------------------------------------------------------------ C45 *)
Lemma sampler_of_bundle n nc k o bd kw s : sampler_init n nc k None None o (Some bd) kw = Ok s ->
  sm_key s = k /\ sm_resources s = bd_resources bd /\ sm_strategies s = bd_strategies bd /\ sm_order s = OList (bd_order bd).
Proof. cbn. intros H. injection H as <-. auto. Qed.

Lemma sample_of_bundle n nc k o bd kw s xs d h r : sampler_init n nc k None None o (Some bd) kw = Ok s ->
  sampler_sample s (P2 xs) d h = r -> run_order (bd_strategies bd) (bd_order bd) k xs d (mkWorld h (bd_resources bd)) = r.
Proof.
  intros H. destruct (sampler_of_bundle _ _ _ _ _ _ _ H) as (E1 & E2 & E3 & E4). unfold sampler_sample.
  rewrite E4, E1, E2, E3. cbn [atleast_2d]. auto.
Qed.

Lemma nothing_pre S c rx d ph m mg tr pr loss ost lc gc k xs k' xs' w' (e : unit) : shaped c xs ->
  run_order S [] k xs d (bworld c rx [] m mg ph tr pr loss ost lc gc) = (Ok (k', xs'), w') ->
  exists e' : unit, nothing_before e k xs e' k' xs' /\ shaped c xs' /\ w' = bworld c rx [] m mg ph tr pr loss ost lc gc.
Proof. intros Hs H. cbn in H. unfold mret in H. injection H as <- <- <-. exists tt. split; [split; auto|]. auto. Qed.

Lemma base_run c h bd n nc k o kw s d xs good k' xs' w' :
  rqspline_mala_bundle c = Ok (h, bd) -> sampler_init n nc k None None o (Some bd) kw = Ok s -> run_ok c d xs good ->
  sampler_sample s (P2 xs) d h = (Ok (k', xs'), w') ->
  let m := c_model c (split (c_key c) 2 1) in
  exists ls1 ls2 k1 xs1 m' st' tr' pr' loss' lc gc,
    training_run nothing_before c 100 d (mkR k xs m (c_opt c m) tt) ls1 (mkR k1 xs1 m' st' tt) /\
    production_run nothing_before c d (mkR k1 xs1 m' st' tt) ls2 (mkR k' xs' m' st' tt) /\
    length ls1 = c_train_loops c /\ length ls2 = c_prod_loops c /\
    (forall l, In l ls1 -> length (lo_losses l) = c_epochs c) /\
    w' = bworld c [] [] m' m' false tr' pr' loss' st' lc gc /\
    ph_shape c (phase_slots c (c_train_loops c)) tr' /\ ph_shape c (phase_slots c (c_prod_loops c)) pr' /\
    good m' /\ shaped c xs' /\
    phase_recorded c w' "training" ls1 /\ phase_recorded c w' "production" ls2 /\ losses_recorded c w' ls1.
Proof.
  intros Hb Hs Hok H m. apply (sample_of_bundle _ _ _ _ _ _ _ _ _ _ _ Hs) in H.
  unfold rqspline_mala_bundle in Hb. destruct (_ || _); [discriminate|]. injection Hb as <- <-. cbn [bd_strategies bd_order bd_resources] in H.
  fold m in H.
  destruct (bundle_run_w c [] d 100 (base_strategies c 100) [] unit (fun _ => []) (fun _ => nothing_before) good xs Hok
    eq_refl eq_refl eq_refl eq_refl eq_refl eq_refl eq_refl eq_refl
    (fun ph e m mg tr pr loss ost lc gc k xs k' xs' w' => nothing_pre (base_strategies c 100) c [] d ph m mg tr pr loss ost lc gc k xs k' xs' w' e)
    tt m k k' xs' w' (ok_model _ _ _ _ Hok) H)
    as (ls1 & ls2 & k1 & xs1 & m' & st' & [] & [] & tr' & pr' & loss' & lc & gc & A).
  exists ls1, ls2, k1, xs1, m', st', tr', pr', loss', lc, gc. exact A.
Qed.

(** The model and the optimiser state after the run. *)
Lemma C45_base_proof c h bd n nc k o kw s d xs good k' xs' w' :
  rqspline_mala_bundle c = Ok (h, bd) -> sampler_init n nc k None None o (Some bd) kw = Ok s -> run_ok c d xs good ->
  sampler_sample s (P2 xs) d h = (Ok (k', xs'), w') ->
  let m := c_model c (split (c_key c) 2 1) in
  exists train_loops prod_loops s1 s2,
    training_run nothing_before c 100 d (mkR k xs m (c_opt c m) tt) train_loops s1 /\
    production_run nothing_before c d s1 prod_loops s2 /\
    length train_loops = c_train_loops c /\ length prod_loops = c_prod_loops c /\
    k' = r_key s2 /\ xs' = r_pos s2 /\
    phase_recorded c w' "training" train_loops /\ phase_recorded c w' "production" prod_loops /\
    losses_recorded c w' train_loops /\
    content_of w' "model" = CPlain (RModel (r_model s2)) /\
    content_of w' "global_sampler" = CPlain (RNFP (mkNfp (r_model s2) (c_nf_bs c))) /\
    content_of w' "optimizer" = CObject (Some (OOpt (mkOptimizer (c_tx c) (r_opt s2)))).
Proof.
  intros Hb Hs Hok H m. destruct (base_run _ _ _ _ _ _ _ _ _ _ _ _ _ _ _ Hb Hs Hok H)
    as (ls1 & ls2 & k1 & xs1 & m' & st' & tr' & pr' & loss' & lc & gc & R1 & R2 & N1 & N2 & _ & Hw & _ & _ & _ & _ & P1 & P2 & P3).
  exists ls1, ls2, (mkR k1 xs1 m' st' tt), (mkR k' xs' m' st' tt).
  do 9 (split; [solve [assumption|reflexivity]|]). rewrite Hw. split; [reflexivity|split; reflexivity].
Qed.
End Bnd.
