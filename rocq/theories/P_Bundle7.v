(** What the strategies of the bundles can change, in any outcome. *)
From Verif Require Import Prelude Num M_Core M_Kernels M_Strategies M_PT M_Bundle P_Lists P_Buffer
  Spec Spec_Core P_Core Spec_Sampler P_Sampler Spec_Steps P_Steps Spec_Kernels P_Kernels P_StepsK P_Steps2 Spec_Train P_Train P_Train2
  Spec_PT P_PT P_PT2 P_PT3 P_PT4 P_PT5 Spec_Bundle P_Bundle P_Bundle2 P_Bundle3 P_Bundle4 P_Bundle5 P_Bundle6.

Section Frame.
Context {N : Num} {G : Rng} {NF : NFOps}.

Lemma pt_frame pt k xs d w r w' : parallel_tempering pt k xs d w = (r, w') ->
  rdict w' = rdict w /\
  forall l, (forall b, ~ buffer_named w (pt_pos_buf pt) l b) -> (forall b, ~ buffer_named w (pt_temp_buf pt) l b) ->
    hget l w' = hget l w.
Proof.
  intros E. unfold parallel_tempering in E.
  assert (Hpure : forall A (m : M world A) f w0 (r0 : res (key * pos_t)) wf, mbind m f w0 = (r0, wf) -> snd (m w0) = w0 ->
     wf = w0 \/ exists a, m w0 = (Ok a, w0) /\ f a w0 = (r0, wf)).
  { intros A m f w0 r0 wf Hm Hs. apply mbind_cases in Hm as [(e & Ha & ->)|(a & w1 & Ha & Hm)]; rewrite Ha in Hs; cbn in Hs; subst; eauto. }
  apply Hpure in E as [->|(kr & Ea & E)]; [auto| |apply res_get_snd].
  apply Hpure in E as [->|(u & Eb & E)]; [auto| |destruct kr; reflexivity].
  apply Hpure in E as [->|(tr & Ec & E)]; [auto| |apply res_get_snd].
  apply Hpure in E as [->|(t & Ed & E)]; [auto| |destruct tr; reflexivity].
  apply Hpure in E as [->|([tpl tpb] & Ee & E)]; [auto| |apply get_buffer_snd].
  apply Hpure in E as [->|([tml tmb] & Ef & E)]; [auto| |apply get_buffer_snd].
  apply Hpure in E as [->|([sl' st'] & Eg & E)]; [auto| |apply get_state_snd].
  apply Hpure in E as [->|(kern & Eh & E)]; [auto| |destruct kr; reflexivity].
  apply Hpure in E as [->|(u0 & Ei & E)]; [auto| |].
  2:{ destruct (ashape (b_data tpb)) as [|? [|? [|? [|? ?]]]]; try reflexivity. destruct (_ && _); reflexivity. }
  apply Hpure in E as [->|(stepped & Ej & E)]; [auto| |reflexivity].
  cbn zeta in E.
  apply Hpure in E as [->|(tg & Ek & E)]; [auto| |destruct (dget (s_data st') "training"); reflexivity].
  apply get_buffer_inv in Ee as (_ & B1 & B2). apply get_buffer_inv in Ef as (_ & B3 & B4).
  assert (K : forall l w1 w2 u s (o : res unit), buf_update l u s w1 = (o, w2) ->
     rdict w2 = rdict w1 /\ forall l', l' <> l -> hget l' w2 = hget l' w1).
  { intros l w1 w2 u1 s [x|e] Hb.
    - apply buf_update_inv in Hb as (b & b' & _ & _ & ->). split; [apply rdict_hset|]. intros; apply hget_hset_neq; auto.
    - apply buf_update_raise in Hb as ->. auto. }
  apply mbind_cases in E as [(e & E & ->)|(u1 & w1 & E & E2)].
  - destruct tg; [|unfold mret in E; discriminate].
    apply mbind_cases in E as [(e' & E & _)|(u2 & w2 & E & E3)].
    + apply K in E as [K1 K2]. split; [auto|]. intros l H1 _. apply K2. intros ->. apply (H1 tpb). split; auto.
    + apply K in E as [K1 K2]. apply K in E3 as [K3 K4]. split; [congruence|]. intros l H1 H2.
      rewrite K4 by (intros ->; apply (H2 tmb); split; auto). apply K2. intros ->. apply (H1 tpb). split; auto.
  - unfold mret in E2. injection E2 as _ <-. destruct tg.
    + apply mbind_Ok in E as (u2 & w2 & E & E3).
      apply K in E as [K1 K2]. apply K in E3 as [K3 K4]. split; [congruence|]. intros l H1 H2.
      rewrite K4 by (intros ->; apply (H2 tmb); split; auto). apply K2. intros ->. apply (H1 tpb). split; auto.
    + unfold mret in E. injection E as _ <-. auto.
Qed.

Section S.
Variables (c : config) (rx : dict resource) (d : datad).

Definition binv (ph : bool) (w : world) : Prop :=
  (exists m mg, rdict w = bdict c m mg ++ rx) /\ hget L_state w = Some (OState (phase_state ph)).

(** Locations a strategy can modify. *)
Definition touches (n : string) (ph : bool) : list loc :=
  if String.eqb n "local_stepper" then (if ph then [0; 1; 2; 11] else [5; 6; 7; 11])
  else if String.eqb n "global_stepper" then (if ph then [0; 1; 3; 12] else [5; 6; 8; 12])
  else if String.eqb n "model_trainer" then [4; 9]
  else if String.eqb n "update_state" then [10]
  else if String.eqb n "update_global_step" then [12]
  else if String.eqb n "update_local_step" then [11]
  else if String.eqb n "reset_steppers" then [11; 12]
  else if String.eqb n "update_model" then []
  else if String.eqb n "parallel_tempering" then (if ph then [13; 14] else [])
  else [13].
Definition next_phase (n : string) (ph : bool) : bool := if String.eqb n "update_state" then false else ph.
Definition sets_dict (n : string) : bool := String.eqb n "model_trainer" || String.eqb n "update_model".

Definition strat_frame (n : string) (st : strategy) : Prop :=
  forall ph k xs w r w', binv ph w -> st k xs d w = (r, w') ->
    binv (next_phase n ph) w' /\ (forall l, ~ In l (touches n ph) -> hget l w' = hget l w) /\
    (sets_dict n = false -> rdict w' = rdict w).

Lemma frame_simple n st : n <> "update_state"%string ->
  (forall ph, ~ In L_state (touches n ph)) ->
  (forall ph k xs w r w', binv ph w -> st k xs d w = (r, w') ->
     rdict w' = rdict w /\ forall l, ~ In l (touches n ph) -> hget l w' = hget l w) -> strat_frame n st.
Proof.
  intros Hn Hs H ph k xs w r w' Hb E. destruct (H ph k xs w r w' Hb E) as [H1 H2]. split; [|split; auto].
  unfold next_phase. destruct (String.eqb_spec n "update_state"); [congruence|].
  destruct Hb as [Hb1 Hb2]. split; [rewrite H1; auto|]. rewrite H2; auto.
Qed.

Lemma target_loc ph w key l b m mg : rdict w = bdict c m mg ++ rx ->
  hget L_state w = Some (OState (phase_state ph)) ->
  target w "sampler_state" key l b -> exists bn, dget (s_data (phase_state ph)) key = Some (SStr bn) /\ dget (bdict c m mg ++ rx) bn = Some (RObj l).
Proof.
  intros Hr Hs (sl & st & bn & E1 & E2 & E3 & E4 & E5). rewrite Hr in E1, E4.
  change (Some (@RObj N G NF L_state) = Some (RObj sl)) in E1. injection E1 as <-. rewrite Hs in E2. injection E2 as <-. eauto.
Qed.

Lemma local_frame : strat_frame "local_stepper" (take_serial_steps (local_ts c)).
Proof.
  apply frame_simple; [discriminate|intros [|]; vm_compute; intuition discriminate|].
  intros ph k xs w r w' [(m & mg & Hr) Hs] E. apply C07_frame_proof in E as (F1 & _ & F3 & _). split; auto.
  intros l Hl. apply F3; cbn [local_ts ts_cur ts_state ts_pos_key ts_lp_key ts_acc_key].
  - intros ->. apply Hl. destruct ph; vm_compute; auto 8.
  - intros b Ht. apply (target_loc ph w _ _ _ m mg Hr Hs) in Ht as (bn & B1 & B2). apply Hl.
    destruct ph; injection B1 as <-; injection B2 as <-; vm_compute; auto 8.
  - intros b Ht. apply (target_loc ph w _ _ _ m mg Hr Hs) in Ht as (bn & B1 & B2). apply Hl.
    destruct ph; injection B1 as <-; injection B2 as <-; vm_compute; auto 8.
  - intros b Ht. apply (target_loc ph w _ _ _ m mg Hr Hs) in Ht as (bn & B1 & B2). apply Hl.
    destruct ph; injection B1 as <-; injection B2 as <-; vm_compute; auto 8.
Qed.

Lemma global_frame : strat_frame "global_stepper" (take_group_steps (global_ts c)).
Proof.
  apply frame_simple; [discriminate|intros [|]; vm_compute; intuition discriminate|].
  intros ph k xs w r w' [(m & mg & Hr) Hs] E. apply C07_frame_proof in E as (F1 & _ & F3 & _). split; auto.
  intros l Hl. apply F3; cbn [global_ts ts_cur ts_state ts_pos_key ts_lp_key ts_acc_key].
  - intros ->. apply Hl. destruct ph; vm_compute; auto 8.
  - intros b Ht. apply (target_loc ph w _ _ _ m mg Hr Hs) in Ht as (bn & B1 & B2). apply Hl.
    destruct ph; injection B1 as <-; injection B2 as <-; vm_compute; auto 8.
  - intros b Ht. apply (target_loc ph w _ _ _ m mg Hr Hs) in Ht as (bn & B1 & B2). apply Hl.
    destruct ph; injection B1 as <-; injection B2 as <-; vm_compute; auto 8.
  - intros b Ht. apply (target_loc ph w _ _ _ m mg Hr Hs) in Ht as (bn & B1 & B2). apply Hl.
    destruct ph; injection B1 as <-; injection B2 as <-; vm_compute; auto 8.
Qed.

Lemma trainer_frame window : strat_frame "model_trainer" (train_model (trainer_tm c window)).
Proof.
  intros ph k xs w r w' [(m & mg & Hr) Hs] E. destruct r as [[k' xs']|e].
  - apply train_model_inv in E as (m0 & dl & db & ol & opt & pool & ex & m' & st' & losses & Hm & Hd & Ho &
      Hp & He & Ht & Exs & w1 & d1 & Hw & Hloss).
    cbn [trainer_tm tm_model tm_data tm_opt tm_loss] in * .
    destruct Hloss as [(X & _)|(_ & ll & lb & lb1 & [Hl1 Hl2] & Hu & Hw1 & Hd1)]; [discriminate|].
    destruct Ho as [Ho1 Ho2]. rewrite Hr in Ho1, Hl1.
    change (Some (@RObj N G NF L_opt) = Some (RObj ol)) in Ho1. injection Ho1 as <-.
    change (Some (@RObj N G NF L_loss) = Some (RObj ll)) in Hl1. injection Hl1 as <-.
    assert (HH : forall l, l <> L_opt -> l <> L_loss -> hget l w' = hget l w).
    { intros l N1 N2. rewrite Hw. change (hget l (hset L_opt (OOpt (mkOptimizer (o_tx opt) st')) w1) = hget l w).
      rewrite hget_hset_neq by auto. rewrite Hw1, hget_hset_neq by auto. reflexivity. }
    split; [split|split].
    + exists m', mg. rewrite Hw, Hd1, Hr. reflexivity.
    + rewrite HH by discriminate. exact Hs.
    + intros l Hl. apply HH; intros ->; apply Hl; vm_compute; auto 8.
    + discriminate.
  - apply C37_raise_proof in E as ->. split; [split; eauto|]. split; auto.
Qed.

Lemma ustate_frame : strat_frame "update_state" (update_state "sampler_state" prod_keys prod_values).
Proof.
  intros ph k xs w r w' [(m & mg & Hr) Hs] E.
  assert (Hw : w' = hset L_state (OState prod_state) w).
  { unfold update_state, get_state, res_get, mbind, heap_set, mret in E. rewrite Hr in E.
    change (dget (bdict c m mg ++ rx) "sampler_state") with (Some (@RObj N G NF L_state)) in E.
    cbn iota beta in E. rewrite Hs in E. injection E as _ <-. destruct ph; reflexivity. }
  subst w'. split; [split|split].
  - exists m, mg. rewrite rdict_hset. auto.
  - apply (hget_hset_eq _ _ _ _ Hs).
  - intros l Hl. apply hget_hset_neq. intros <-. apply Hl. vm_compute. auto 8.
  - intros _. apply rdict_hset.
Qed.

Lemma heap_set_frame l o (w : world) : rdict (hset l o w) = rdict w /\ forall l', l' <> l -> hget l' (hset l o w) = hget l' w.
Proof. split; [apply rdict_hset|]. intros; apply hget_hset_neq; auto. Qed.

Lemma ugs_frame : strat_frame "update_global_step" (update_global_step c).
Proof.
  apply frame_simple; [discriminate|intros [|]; vm_compute; intuition discriminate|].
  intros ph k xs w r w' _ E. unfold update_global_step, lambda, set_current_position, heap_set, get_cursor, mbind, mret in E.
  destruct (hget _ w) as [[| | |z]|]; injection E as _ <-; auto.
  destruct (heap_set_frame (ts_cur (global_ts c)) (OCursor z) w) as [A B]. split; auto.
  intros l Hl. apply B. intros ->. apply Hl. vm_compute. auto 8.
Qed.
Lemma uls_frame : strat_frame "update_local_step" (update_local_step c).
Proof.
  apply frame_simple; [discriminate|intros [|]; vm_compute; intuition discriminate|].
  intros ph k xs w r w' _ E. unfold update_local_step, lambda, set_current_position, heap_set, get_cursor, mbind, mret in E.
  destruct (hget _ w) as [[| | |z]|]; injection E as _ <-; auto.
  destruct (heap_set_frame (ts_cur (local_ts c)) (OCursor z) w) as [A B]. split; auto.
  intros l Hl. apply B. intros ->. apply Hl. vm_compute. auto 8.
Qed.
Lemma reset_frame : strat_frame "reset_steppers" (reset_steppers c).
Proof.
  apply frame_simple; [discriminate|intros [|]; vm_compute; intuition discriminate|].
  intros ph k xs w r w' _ E. unfold reset_steppers, lambda, set_current_position, heap_set, mbind, mret in E. injection E as _ <-.
  split; [rewrite !rdict_hset; auto|].
  intros l Hl. rewrite !hget_hset_neq; auto; intros <-; apply Hl; vm_compute; auto 8.
Qed.
Lemma umodel_frame : strat_frame "update_model" update_model.
Proof.
  intros ph k xs w r w' [(m & mg & Hr) Hs] E.
  unfold update_model, lambda, res_get, res_set, mbind, mret in E. rewrite Hr in E.
  change (dget (bdict c m mg ++ rx) "model") with (Some (@RModel N G NF m)) in E.
  cbn iota in E. rewrite Hr in E.
  change (dget (bdict c m mg ++ rx) "global_sampler") with (Some (@RNFP N G NF (mkNfp mg (c_nf_bs c)))) in E.
  cbn iota in E. injection E as _ <-. split; [split|split].
  - exists m, m. cbn [rdict]. rewrite Hr. reflexivity.
  - exact Hs.
  - intros l _. reflexivity.
  - discriminate.
Qed.

(** Runs, in any outcome. *)
Variable S : dict strategy.
Hypothesis HS : forall n st, dget S n = Some st -> strat_frame n st.

Lemma run_frame order : forall ph k xs w r w', binv ph w -> run_order S order k xs d w = (r, w') ->
  (exists ph', binv ph' w' /\ (ph = false -> ph' = false) /\
     (forall o, r = Ok o -> In "update_state"%string order -> ph' = false)) /\
  (forall P : list loc, (forall n ph', In n order -> (ph = false -> ph' = false) -> forall l, In l (touches n ph') -> In l P) ->
     forall l, ~ In l P -> hget l w' = hget l w) /\
  ((forall n, In n order -> sets_dict n = false) -> rdict w' = rdict w).
Proof.
  induction order as [|n order IH]; intros ph k xs w r w' Hb E; cbn [run_order] in E.
  - unfold mret in E. injection E as <- <-. split; [exists ph; split; auto; split; auto; intros _ _ []|]. auto.
  - destruct (dget S n) as [st|] eqn:En.
    2:{ unfold mraise in E. injection E as <- <-. split; [exists ph; split; auto; split; auto; intros; discriminate|]. auto. }
    pose proof (HS n st En) as HF.
    apply mbind_cases in E as [(e & E & ->)|([k1 xs1] & w1 & E & E2)].
    + destruct (HF ph k xs w _ w' Hb E) as (A & B & C). split; [|split].
      * exists (next_phase n ph). split; auto. split; [|intros; discriminate]. intros ->. unfold next_phase. now destruct (String.eqb n _).
      * intros P HP l Hl. apply B. intros Hin. apply Hl. eapply HP; eauto. left; auto.
      * intros Hd. apply C. apply Hd. left; auto.
    + destruct (HF ph k xs w _ w1 Hb E) as (A & B & C).
      destruct (IH _ _ _ _ _ _ A E2) as ((ph' & A1 & A2 & A3) & B1 & C1). split; [|split].
      * exists ph'. split; auto. split.
        -- intros ->. apply A2. unfold next_phase. now destruct (String.eqb n _).
        -- intros o Ho [->|Hin]; [apply A2; reflexivity|eauto].
      * intros P HP l Hl. rewrite (B1 P).
        -- apply B. intros Hin. apply Hl. eapply HP; eauto. left; auto.
        -- intros n' ph2 Hn' Hph l' Hl'. eapply HP; [right; eauto| |eauto]. intros ->. apply Hph. unfold next_phase. now destruct (String.eqb n _).
        -- auto.
      * intros Hd. rewrite C1 by (intros; apply Hd; right; auto). apply C. apply Hd. left; auto.
Qed.
End S.

Ltac dict_cases H :=
  repeat (cbn [dget app] in H; match type of H with context [String.eqb ?n ?s] => destruct (String.eqb_spec n s); [subst n|] end).
Lemma base_frames c rx d window n st : dget (base_strategies c window) n = Some st -> strat_frame c rx d n st.
Proof.
  unfold base_strategies. cbn [dget]. intros H.
  repeat (match type of H with (if String.eqb ?a ?b then _ else _) = _ => destruct (String.eqb_spec a b); [subst; injection H as <-|] end).
  - apply local_frame.
  - apply global_frame.
  - apply trainer_frame.
  - apply ustate_frame.
  - apply ugs_frame.
  - apply uls_frame.
  - apply reset_frame.
  - apply umodel_frame.
  - discriminate.
Qed.

Lemma pt_frames pc d n st : dget (pt_strategies pc) n = Some st -> strat_frame (p_base pc) (pt_rx pc) d n st.
Proof.
  unfold pt_strategies, base_strategies. cbn [dget app]. intros H.
  repeat (match type of H with (if String.eqb ?a ?b then _ else _) = _ => destruct (String.eqb_spec a b); [subst; injection H as <-|] end).
  - apply local_frame.
  - apply global_frame.
  - apply trainer_frame.
  - apply ustate_frame.
  - apply ugs_frame.
  - apply uls_frame.
  - apply reset_frame.
  - apply umodel_frame.
  - apply frame_simple; [discriminate|intros [|]; vm_compute; intuition discriminate|].
    intros ph k xs w r w' [(m & mg & Hr) Hs] E. destruct ph.
    + apply pt_frame in E as [A B]. split; auto. intros l Hl. apply B.
      * intros b [X _]. rewrite Hr in X. injection X as <-. apply Hl. vm_compute. auto 8.
      * intros b [X _]. rewrite Hr in X. injection X as <-. apply Hl. vm_compute. auto 8.
    + assert (Hw : snd (parallel_tempering (pt_strat pc) k xs d w) = w).
      { apply (pt_frozen (pt_strat pc) k xs d w L_state prod_state (SBool false)); auto. rewrite Hr. reflexivity. }
      rewrite E in Hw. cbn in Hw. subst w'. auto.
  - apply frame_simple; [discriminate|intros [|]; vm_compute; intuition discriminate|].
    intros ph k xs w r w' _ E. unfold initialize_tempered_positions, lambda in E.
    apply mbind_cases in E as [(e & E & _)|(u & w1 & E & E2)].
    + apply buf_update_raise in E as ->. auto.
    + unfold mret in E2. injection E2 as _ <-. apply buf_update_inv in E as (b & b' & _ & _ & ->).
      destruct (heap_set_frame L_tpos (OBuf b') w) as [A B]. split; auto. intros l Hl. apply B. intros ->. apply Hl. vm_compute. auto 8.
  - discriminate.
Qed.

(* ------------------------------------------------------------------ C46, C47 *)
Lemma content_same (w w' : world) n : rdict w' = rdict w ->
  (forall l, dget (rdict w) n = Some (RObj l) -> hget l w' = hget l w) -> content_of w' n = content_of w n.
Proof. intros H1 H2. unfold content_of. rewrite H1. destruct (dget (rdict w) n) as [[]|] eqn:E; auto. rewrite (H2 _ eq_refl). auto. Qed.

Definition pt_small (rx : dict resource) : Prop := forall n l, dget rx n = Some (RObj l) -> 13 <= l.

Lemma bdict_obj c m mg rx n l : dget (bdict c m mg ++ rx) n = Some (RObj l) -> ~ In n production_buffers ->
  pt_small rx -> ~ In l [5; 6; 7; 8; 11; 12].
Proof.
  intros H Hn Hrx. unfold bdict in H. cbn [dget app] in H.
  repeat (match type of H with (if String.eqb ?a ?b then _ else _) = _ =>
     destruct (String.eqb_spec a b); [subst; try discriminate H; try (injection H as <-; first [solve [vm_compute; intuition discriminate] | exfalso; apply Hn; cbn; tauto])|] end).
  apply Hrx in H. cbn. lia.
Qed.

Lemma production_frame c rx d S order ph_any k xs w r w' :
  (forall n st, dget S n = Some st -> strat_frame c rx d n st) -> pt_small rx -> binv c rx false w ->
  (forall n, In n order -> In n ("parallel_tempering"%string :: production_phase)) ->
  run_order S order k xs d w = (r, w') -> ph_any = tt ->
  forall n, ~ In n production_buffers -> content_of w' n = content_of w n.
Proof.
  intros HS Hrx Hb Ho E _ n Hn. destruct (run_frame c rx d S HS order false k xs w r w' Hb E) as (_ & B & C).
  apply content_same.
  - apply C. intros n' Hn'. apply Ho in Hn'. repeat destruct Hn' as [<-|Hn']; try reflexivity. easy.
  - intros l Hl. apply (B [5; 6; 7; 8; 11; 12]).
    + intros n' ph' Hn' Hph l' Hl'. rewrite (Hph eq_refl) in Hl'. apply Ho in Hn'.
      repeat destruct Hn' as [<-|Hn']; vm_compute in Hl' |- * ; tauto.
    + destruct Hb as [(m & mg & Hr) _]. rewrite Hr in Hl. eapply bdict_obj; eauto.
Qed.

Lemma training_bufs_kept c rx d S order k xs w r w' :
  (forall n st, dget S n = Some st -> strat_frame c rx d n st) -> binv c rx false w ->
  run_order S order k xs d w = (r, w') ->
  forall n, In n training_buffers -> content_of w' n = content_of w n.
Proof.
  intros HS Hb E n Hn. destruct (run_frame c rx d S HS order false k xs w r w' Hb E) as ((ph' & [(m' & mg' & Hr') _] & _) & B & _).
  destruct Hb as [(m & mg & Hr) _].
  assert (HH : forall l, l < 4 -> hget l w' = hget l w).
  { intros l Hl. apply (B [4; 5; 6; 7; 8; 9; 10; 11; 12; 13; 14]).
    - intros n' p _ Hp l' Hl'. rewrite (Hp eq_refl) in Hl'. unfold touches in Hl'.
      repeat (match type of Hl' with context [String.eqb ?a ?b] => destruct (String.eqb a b) end); vm_compute in Hl' |- * ; tauto.
    - cbn. lia. }
  unfold content_of. rewrite Hr, Hr'. cbn in Hn.
  destruct Hn as [<-|[<-|[<-|[<-|[]]]]].
  - change (CObject (hget 0 w') = CObject (hget 0 w)). rewrite HH by lia. reflexivity.
  - change (CObject (hget 1 w') = CObject (hget 1 w)). rewrite HH by lia. reflexivity.
  - change (CObject (hget 2 w') = CObject (hget 2 w)). rewrite HH by lia. reflexivity.
  - change (CObject (hget 3 w') = CObject (hget 3 w)). rewrite HH by lia. reflexivity.
Qed.

Lemma fresh_binv_base c h bd : rqspline_mala_bundle c = Ok (h, bd) -> binv c [] true (mkWorld h (bd_resources bd)) /\
  (forall d n st, dget (bd_strategies bd) n = Some st -> strat_frame c [] d n st) /\ bd_order bd = base_order c.
Proof.
  intros H. unfold rqspline_mala_bundle in H. destruct (_ || _); [discriminate|]. injection H as <- <-. cbn [bd_resources bd_strategies bd_order].
  split; [split; [eexists _, _; reflexivity|reflexivity]|]. split; [|auto]. intros d n st. apply base_frames.
Qed.
Lemma fresh_binv_pt pc h bd : rqspline_mala_pt_bundle pc = Ok (h, bd) -> binv (p_base pc) (pt_rx pc) true (mkWorld h (bd_resources bd)) /\
  (forall d n st, dget (bd_strategies bd) n = Some st -> strat_frame (p_base pc) (pt_rx pc) d n st) /\ bd_order bd = pt_order pc.
Proof.
  intros H. unfold rqspline_mala_pt_bundle in H. destruct (_ || _); [discriminate|]. destruct (_ =? 0); [discriminate|].
  injection H as <- <-. cbn [bd_resources bd_strategies bd_order].
  split; [split; [eexists _, _; reflexivity|reflexivity]|]. split; [|auto]. intros d n st. apply pt_frames.
Qed.
Lemma pt_small_nil : pt_small []. Proof. intros n l H. discriminate. Qed.
Lemma pt_small_pt pc : pt_small (pt_rx pc).
Proof.
  intros n l H. unfold pt_rx in H. cbn [dget] in H.
  repeat (match type of H with (if String.eqb ?a ?b then _ else _) = _ => destruct (String.eqb a b); [try discriminate H; injection H as <-; unfold L_tpos, L_temp; lia|] end).
  discriminate.
Qed.

Lemma C46_base_proof c h bd : rqspline_mala_bundle c = Ok (h, bd) ->
  forall tr p1 p2 d k xs t1 k1 xs1 w1 t2 r w2,
  bd_order bd = tr ++ ["reset_steppers"; "update_state"]%string ++ p1 ++ p2 ->
  runs (bd_strategies bd) d (tr ++ ["reset_steppers"; "update_state"]%string ++ p1) k xs (mkWorld h (bd_resources bd)) t1 (Ok (k1, xs1)) w1 ->
  runs (bd_strategies bd) d p2 k1 xs1 w1 t2 r w2 ->
  forall n, ~ In n production_buffers -> content_of w2 n = content_of w1 n.
Proof.
  intros Hb tr p1 p2 d k xs t1 k1 xs1 w1 t2 r w2 Ho R1 R2.
  destruct (C44_base_proof _ _ _ Hb) as (_ & tr' & pr' & O2 & Etr & Epr & _ & _ & NR & NU).
  destruct (fresh_binv_base _ _ _ Hb) as (B0 & HS & _).
  assert (Hsplit : forall (a b a' b' : list string), a ++ ["reset_steppers"; "update_state"]%string ++ b = a' ++ ["reset_steppers"; "update_state"]%string ++ b' ->
     ~ In "reset_steppers"%string (a' ++ b') -> b = b').
  { induction a as [|x a IH]; intros b a' b' E Hni; destruct a' as [|x' a']; cbn in E.
    - congruence.
    - injection E as <- _. exfalso. apply Hni. left; auto.
    - injection E as -> E. exfalso. apply Hni. cbn.
      destruct a as [|y a]; cbn in E; [discriminate E|]. injection E as _ E. apply (f_equal (fun l => In "reset_steppers"%string l)) in E.
      rewrite <- E. apply in_app_iff. right. left. auto.
    - injection E as -> E. apply IH in E; auto. intros Hin. apply Hni. right. auto. }
  assert (Epp : p1 ++ p2 = pr').
  { rewrite O2 in Ho. symmetry in Ho. rewrite <- (Hsplit _ _ _ _ Ho NR). reflexivity. }
  assert (W1 : run_order (bd_strategies bd) (tr ++ ["reset_steppers"; "update_state"]%string ++ p1) k xs d (mkWorld h (bd_resources bd)) = (Ok (k1, xs1), w1)).
  { apply run_order_iff. eauto. }
  assert (W2 : run_order (bd_strategies bd) p2 k1 xs1 d w1 = (r, w2)) by (apply run_order_iff; eauto).
  destruct (run_frame c [] d _ (HS d) _ _ _ _ _ _ _ B0 W1) as ((ph' & B1 & _ & B2) & _ & _).
  assert (ph' = false) as ->. { eapply B2; [reflexivity|]. rewrite !in_app_iff. right; left; cbn; auto. }
  eapply (production_frame c [] d _ p2 tt); eauto; [apply pt_small_nil|].
  intros n Hn. right. assert (Hin : In n pr') by (rewrite <- Epp; apply in_app_iff; auto). rewrite Epr in Hin.
  apply in_concat in Hin as (x & Hx & Hin). apply repeat_spec in Hx. subst x. exact Hin.
Qed.

Lemma C46_pt_proof pc h bd : rqspline_mala_pt_bundle pc = Ok (h, bd) ->
  forall tr p1 p2 d k xs t1 k1 xs1 w1 t2 r w2,
  bd_order bd = tr ++ ["reset_steppers"; "update_state"]%string ++ p1 ++ p2 ->
  runs (bd_strategies bd) d (tr ++ ["reset_steppers"; "update_state"]%string ++ p1) k xs (mkWorld h (bd_resources bd)) t1 (Ok (k1, xs1)) w1 ->
  runs (bd_strategies bd) d p2 k1 xs1 w1 t2 r w2 ->
  forall n, ~ In n production_buffers -> content_of w2 n = content_of w1 n.
Proof.
  intros Hb tr p1 p2 d k xs t1 k1 xs1 w1 t2 r w2 Ho R1 R2.
  destruct (C44_pt_proof _ _ _ Hb) as (_ & tr' & pr' & O2 & Etr & Epr & _ & _ & NR & NU & NI).
  destruct (fresh_binv_pt _ _ _ Hb) as (B0 & HS & _).
  assert (Hsplit : forall (a b a' b' : list string), a ++ ["reset_steppers"; "update_state"]%string ++ b = a' ++ ["reset_steppers"; "update_state"]%string ++ b' ->
     ~ In "reset_steppers"%string (a' ++ b') -> b = b').
  { induction a as [|x a IH]; intros b a' b' E Hni; destruct a' as [|x' a']; cbn in E.
    - congruence.
    - injection E as <- _. exfalso. apply Hni. left; auto.
    - injection E as -> E. exfalso. apply Hni. cbn.
      destruct a as [|y a]; cbn in E; [discriminate E|]. injection E as _ E. apply (f_equal (fun l => In "reset_steppers"%string l)) in E.
      rewrite <- E. apply in_app_iff. right. left. auto.
    - injection E as -> E. apply IH in E; auto. intros Hin. apply Hni. right. auto. }
  assert (Epp : p1 ++ p2 = pr').
  { rewrite O2 in Ho. symmetry in Ho.
    change ("initialize_tempered_positions"%string :: tr' ++ ["reset_steppers"; "update_state"]%string ++ pr')
      with (("initialize_tempered_positions"%string :: tr') ++ ["reset_steppers"; "update_state"]%string ++ pr') in Ho.
    rewrite <- (Hsplit _ _ _ _ Ho); [reflexivity|]. cbn. intros [X|X]; [discriminate|auto]. }
  assert (W1 : run_order (bd_strategies bd) (tr ++ ["reset_steppers"; "update_state"]%string ++ p1) k xs d (mkWorld h (bd_resources bd)) = (Ok (k1, xs1), w1)).
  { apply run_order_iff. eauto. }
  assert (W2 : run_order (bd_strategies bd) p2 k1 xs1 d w1 = (r, w2)) by (apply run_order_iff; eauto).
  destruct (run_frame (p_base pc) (pt_rx pc) d _ (HS d) _ _ _ _ _ _ _ B0 W1) as ((ph' & B1 & _ & B2) & _ & _).
  assert (ph' = false) as ->. { eapply B2; [reflexivity|]. rewrite !in_app_iff. right; left; cbn; auto. }
  eapply (production_frame (p_base pc) (pt_rx pc) d _ p2 tt); eauto; [apply pt_small_pt|].
  intros n Hn. assert (Hin : In n pr') by (rewrite <- Epp; apply in_app_iff; auto). rewrite Epr in Hin.
  apply in_concat in Hin as (x & Hx & Hin). apply repeat_spec in Hx. subst x. exact Hin.
Qed.

(** C47: the first run succeeded; whatever the second one does, the training buffers stay. *)
Lemma C47_kept_proof h bd n nc k o kw s init1 d1 o1 w1 init2 d2 r2 w2 :
  (exists c, rqspline_mala_bundle c = Ok (h, bd)) \/ (exists pc, rqspline_mala_pt_bundle pc = Ok (h, bd)) ->
  sampler_init n nc k None None o (Some bd) kw = Ok s ->
  sampler_sample s init1 d1 h = (Ok o1, w1) ->
  sampler_sample (sampler_after s w1) init2 d2 (heap w1) = (r2, w2) ->
  forall name, In name training_buffers -> content_of w2 name = content_of w1 name.
Proof.
  intros Hb Hs H1 H2. destruct (sampler_of_bundle _ _ _ _ _ _ _ Hs) as (E1 & E2 & E3 & E4).
  unfold sampler_sample in H1, H2. cbn [sampler_after sm_order sm_strategies sm_key sm_resources] in H2.
  rewrite E4, E3, E2 in H1. rewrite E4, E3 in H2. assert (mkWorld (heap w1) (rdict w1) = w1) as Ew by (destruct w1; reflexivity). rewrite Ew in H2.
  destruct Hb as [[c Hb]|[pc Hb]].
  - destruct (fresh_binv_base _ _ _ Hb) as (B0 & HS & EO).
    destruct (run_frame c [] d1 _ (HS d1) _ _ _ _ _ _ _ B0 H1) as ((ph' & B1 & _ & B2) & _ & _).
    assert (ph' = false) as ->. { eapply B2; [reflexivity|]. rewrite EO. unfold base_order. rewrite !in_app_iff. right; left; cbn; auto. }
    eapply training_bufs_kept; eauto.
  - destruct (fresh_binv_pt _ _ _ Hb) as (B0 & HS & EO).
    destruct (run_frame (p_base pc) (pt_rx pc) d1 _ (HS d1) _ _ _ _ _ _ _ B0 H1) as ((ph' & B1 & _ & B2) & _ & _).
    assert (ph' = false) as ->. { eapply B2; [reflexivity|]. rewrite EO. unfold pt_order. rewrite !in_app_iff. right; right; left; cbn; auto. }
    eapply training_bufs_kept; eauto.
Qed.
End Frame.
