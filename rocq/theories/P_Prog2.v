(** Outcomes of loops and runs of a bundle. *)
From Verif Require Import Prelude Num M_Core M_Kernels M_Strategies M_PT M_Bundle P_Lists P_Buffer
  Spec Spec_Core P_Core Spec_Sampler P_Sampler Spec_Steps P_Steps Spec_Kernels P_Kernels P_StepsK P_Steps2 Spec_Train P_Train P_Train2
  P_Kernels2 P_PT3 P_PT5 P_Tree13 Spec_Bundle P_Bundle P_Bundle2 P_Bundle3 P_Bundle4 P_Bundle5 Spec_Prog P_Prog1.

Section Prog.
Context {N : Num} {G : Rng} {NF : NFOps}.

Section Loops.
Variables (c : config) (rx : dict resource) (d : datad) (window : nat) (S : dict strategy) (pre : list string).
Variables (E : Type) (hx : E -> list obj) (before : bool -> E -> key -> pos_t -> E -> key -> pos_t -> Prop).
Variable einv : E -> Prop.
Variable good : mdl -> Prop.
Variable xs0 : pos_t.
Hypothesis OK : run_ok c d xs0 good.
Hypothesis HTl : 0 < c_local_th c.
Hypothesis HTg : 0 < c_global_th c.
Hypothesis HO : counts_ok c.
Hypothesis S_local : dget S "local_stepper" = Some (take_serial_steps (local_ts c)).
Hypothesis S_global : dget S "global_stepper" = Some (take_group_steps (global_ts c)).
Hypothesis S_train : dget S "model_trainer" = Some (train_model (trainer_tm c window)).
Hypothesis S_ugs : dget S "update_global_step" = Some (update_global_step c).
Hypothesis S_uls : dget S "update_local_step" = Some (update_local_step c).
Hypothesis S_um : dget S "update_model" = Some update_model.
Hypothesis S_reset : dget S "reset_steppers" = Some (reset_steppers c).
Hypothesis S_us : dget S "update_state" = Some (update_state "sampler_state" prod_keys prod_values).
Hypothesis Hpre : forall ph e m mg tr pr loss ost lc gc k xs k' xs' w', shaped c xs ->
  run_order S pre k xs d (bworld c rx (hx e) m mg ph tr pr loss ost lc gc) = (Ok (k', xs'), w') ->
  exists e', before ph e k xs e' k' xs' /\ shaped c xs' /\
    w' = bworld c rx (hx e') m mg ph tr pr loss ost lc gc.
Hypothesis Hgo : forall (ph : bool) e m mg tr pr loss ost lc gc k xs, shaped c xs -> einv e ->
  exists k' xs' w', run_order S pre k xs d (bworld c rx (hx e) m mg ph tr pr loss ost lc gc) = (Ok (k', xs'), w').
Hypothesis Hkeep : forall ph e k xs e' k' xs', shaped c xs -> before ph e k xs e' k' xs' -> einv e -> einv e'.

Lemma training_loop_outcome e m tr pr loss ost lc gc k xs slots b0 past size :
  einv e -> good m -> shaped c xs -> fresh_pos b0 ->
  ph_shape c slots tr -> ph_holds c slots b0 tr (chain_history c past) ->
  lc = length past * per_loop c -> lc + per_loop c <= slots ->
  loss_holds size loss past -> length (concat (map lo_losses past)) + c_epochs c <= size ->
  (exists k' xs' w', run_order S (pre ++ training_phase) k xs d (bworld c rx (hx e) m m true tr pr loss ost lc gc) = (Ok (k', xs'), w')) \/
  exists err w', run_order S (pre ++ training_phase) k xs d (bworld c rx (hx e) m m true tr pr loss ost lc gc) = (Raise err, w') /\
    exists e0 k0 xs0 lout xs1, before true e k xs e0 k0 xs0 /\ local_run c d k0 xs0 lout xs1 /\ training_refused c past lout err.
Proof.
  intros He Hgm Hxs Hfr Hsh Hh Hlc Hroom Hlo Hls. unfold per_loop in Hroom.
  destruct OK as [O1 O2 O3 O4 O5 O6 O7 O7b O8 O9 O10 O11].
  destruct (Hgo true e m m tr pr loss ost lc gc k xs Hxs He) as (k0 & xs2 & w0 & H0).
  destruct (Hpre _ _ _ _ _ _ _ _ _ _ _ _ _ _ _ Hxs H0) as (e' & Hb & Hxs0 & Ew). rewrite (order_app_ok _ _ _ _ _ _ _ _ _ _ H0). rewrite Ew. clear H0 Ew w0.
  destruct (local_progress c rx d O7 O8 O1 O2 O3 HTl HTg HO true (hx e') m m tr pr loss ost lc gc k0 xs2 slots Hsh) as (xs3 & w1 & H1);
    [lia|apply Hxs0|apply Hxs0|].
  unfold training_phase. rewrite (order_cons_ok _ _ _ _ _ _ _ _ _ _ _ S_local H1).
  destruct (local_step_w c rx d O7 O8 O1 O2 O3 true (hx e') m m tr pr loss ost lc gc k0 xs2 (split k0 2 0) xs3 w1 slots b0 (chain_history c past)) as
    (lout & tr1 & Hlr & Hdim1 & _ & Hsh1 & Hh1 & ->); auto; try (apply Hxs0); try lia; try (intros; rewrite history_length; lia).
  pose proof (local_shaped c d O1 O2 O3 O4 _ _ _ _ Hxs0 Hlr Hdim1) as Hxs3.
  rewrite (order_cons_ok _ _ _ _ _ _ _ _ _ _ _ S_ugs (ugs_w c rx d _ _ _ _ _ _ _ _ _ _ _ _)).
  set (h1 := fun i => chain_history c past i ++ map (pair true) (kept_steps (c_local c) (c_local_th c) (nth i lout []))) in * .
  assert (Hl1 : forall i, length (h1 i) = lc + c_local c / c_local_th c).
  { intros i. unfold h1. rewrite app_length, history_length, map_length, kept_steps_length. lia. }
  assert (EH : map (filter finite_row) (map (fun i => map (brow (q_pos tr1) (c_n_dims c) i) (seq 0 slots)) (seq 0 (c_n_chains c))) =
     map (filter finite_row) (recorded_so_far c past lout)).
  { unfold recorded_so_far. rewrite !map_map. apply map_ext_in. intros i Hi. apply in_seq in Hi.
    rewrite (finite_history O7b c slots b0 tr1 h1 i); auto; [|lia|rewrite Hl1; lia].
    unfold h1. rewrite map_app, map_map. cbn [snd]. f_equal. }
  destruct Hlo as (Lo1 & Lo2 & Lo3 & Lo4).
  destruct (trainer_outcome c rx d O1 O2 O3 HTl HTg HO true (hx e') m m tr1 pr loss ost (lc + c_local c / c_local_th c) (lc + c_local c / c_local_th c)
     (split k0 2 0) xs3 window slots size (ps_pos _ _ _ Hsh1) Lo1 Lo2 ltac:(lia)) as [(_ & _ & k4 & w4 & H4)|(err & H4 & Href)].
  - left. rewrite (order_cons_ok _ _ _ _ _ _ _ _ _ _ _ S_train H4).
    apply (trainer_w c rx d) with (S := slots) in H4 as (ex & m' & st' & losses & loss1 & _ & Htr & _ & _ & ->);
      [|exact O9|apply (ps_pos _ _ _ Hsh1)].
    rewrite (order_cons_ok _ _ _ _ _ _ _ _ _ _ _ S_um (umodel_w c rx d _ _ _ _ _ _ _ _ _ _ _ _)).
    assert (Hgm' : good m') by exact (good_train c good O10 _ _ _ _ _ _ _ _ _ _ _ Hgm Htr).
    edestruct (global_progress c rx d O1 O2 O3 HTl HTg HO true (hx e') m' m') as (xs5 & w5 & H5);
      [apply O10; exact Hgm'|exact Hsh1| | | |rewrite (order_cons_ok _ _ _ _ _ _ _ _ _ _ _ S_global H5)]; try apply Hxs3; [lia|].
    edestruct (global_step_w c rx d O1 O2 O3 true (hx e') m' m') with (b0 := b0) (h := h1) as (gout & tr2 & _ & _ & _ & _ & _ & ->); [apply O10; exact Hgm'|exact Hsh1|exact Hh1| | | | |exact H5|];
      try apply Hxs3; try (intros; apply Hl1); [lia|].
    rewrite (order_cons_ok _ _ _ _ _ _ _ _ _ _ _ S_uls (uls_w c rx d _ _ _ _ _ _ _ _ _ _ _ _)).
    cbn [run_order]. unfold mret. eauto.
  - right. rewrite (order_cons_raise _ _ _ _ _ _ _ _ _ _ S_train H4). exists err. eexists. split; [reflexivity|].
    exists e', k0, xs2, lout, xs3. split; [exact Hb|]. split; [exact Hlr|]. unfold training_refused. rewrite <- EH. exact Href.
Qed.

Lemma production_loop_progress e m tr pr loss ost lc gc k xs slots b0 past :
  einv e -> good m -> shaped c xs ->
  ph_shape c slots pr -> ph_holds c slots b0 pr (chain_history c past) ->
  lc = length past * per_loop c -> lc + per_loop c <= slots ->
  exists k' xs' w', run_order S (pre ++ production_phase) k xs d (bworld c rx (hx e) m m false tr pr loss ost lc gc) = (Ok (k', xs'), w').
Proof.
  intros He Hgm Hxs Hsh Hh Hlc Hroom. unfold per_loop in Hroom.
  destruct OK as [O1 O2 O3 O4 O5 O6 O7 O7b O8 O9 O10 O11].
  destruct (Hgo false e m m tr pr loss ost lc gc k xs Hxs He) as (k0 & xs2 & w0 & H0).
  destruct (Hpre _ _ _ _ _ _ _ _ _ _ _ _ _ _ _ Hxs H0) as (e' & Hb & Hxs0 & Ew). rewrite (order_app_ok _ _ _ _ _ _ _ _ _ _ H0). rewrite Ew. clear H0 Ew w0.
  destruct (local_progress c rx d O7 O8 O1 O2 O3 HTl HTg HO false (hx e') m m tr pr loss ost lc gc k0 xs2 slots Hsh) as (xs3 & w1 & H1);
    [lia|apply Hxs0|apply Hxs0|].
  unfold production_phase. rewrite (order_cons_ok _ _ _ _ _ _ _ _ _ _ _ S_local H1).
  destruct (local_step_w c rx d O7 O8 O1 O2 O3 false (hx e') m m tr pr loss ost lc gc k0 xs2 (split k0 2 0) xs3 w1 slots b0 (chain_history c past)) as
    (lout & tr1 & Hlr & Hdim1 & _ & Hsh1 & Hh1 & ->); auto; try (apply Hxs0); try lia; try (intros; rewrite history_length; lia).
  pose proof (local_shaped c d O1 O2 O3 O4 _ _ _ _ Hxs0 Hlr Hdim1) as Hxs3.
  rewrite (order_cons_ok _ _ _ _ _ _ _ _ _ _ _ S_ugs (ugs_w c rx d _ _ _ _ _ _ _ _ _ _ _ _)).
  set (h1 := fun i => chain_history c past i ++ map (pair true) (kept_steps (c_local c) (c_local_th c) (nth i lout []))) in * .
  assert (Hl1 : forall i, length (h1 i) = lc + c_local c / c_local_th c).
  { intros i. unfold h1. rewrite app_length, history_length, map_length, kept_steps_length. lia. }
  edestruct (global_progress c rx d O1 O2 O3 HTl HTg HO false (hx e') m m) as (xs5 & w5 & H5);
    [apply O10; exact Hgm|exact Hsh1| | | |rewrite (order_cons_ok _ _ _ _ _ _ _ _ _ _ _ S_global H5)]; try apply Hxs3; [lia|].
  edestruct (global_step_w c rx d O1 O2 O3 false (hx e') m m) with (b0 := b0) (h := h1) as (gout & tr2 & _ & _ & _ & _ & _ & ->); [apply O10; exact Hgm|exact Hsh1|exact Hh1| | | | |exact H5|];
    try apply Hxs3; try (intros; apply Hl1); [lia|].
  rewrite (order_cons_ok _ _ _ _ _ _ _ _ _ _ _ S_uls (uls_w c rx d _ _ _ _ _ _ _ _ _ _ _ _)).
  cbn [run_order]. unfold mret. eauto.
Qed.

Lemma training_run_outcome n : forall e m tr pr loss ost k xs slots size,
  einv e -> good m -> shaped c xs -> fresh_pos tr -> ph_shape c slots tr ->
  n * per_loop c <= slots -> loss_holds size loss [] -> n * c_epochs c <= size ->
  (exists k' xs' w' ls e' m' st' tr' loss', run_order S (repeat_phase n (pre ++ training_phase)) k xs d (bworld c rx (hx e) m m true tr pr loss ost 0 0) = (Ok (k', xs'), w') /\
     einv e' /\ length ls = n /\ training_run (before true) c window d (mkR k xs m ost e) ls (mkR k' xs' m' st' e') /\
     (forall l, In l ls -> length (lo_losses l) = c_epochs c) /\
     good m' /\ shaped c xs' /\ ph_shape c slots tr' /\ ph_holds c slots tr tr' (chain_history c ls) /\ loss_holds size loss' ls /\
     w' = bworld c rx (hx e') m' m' true tr' pr loss' st' (n * per_loop c) (n * per_loop c)) \/
  exists err w', run_order S (repeat_phase n (pre ++ training_phase)) k xs d (bworld c rx (hx e) m m true tr pr loss ost 0 0) = (Raise err, w') /\
    stops_early (before true) c window d n (mkR k xs m ost e) err.
Proof.
  destruct OK as [O1 O2 O3 O4 O5 O6 O7 O7b O8 O9 O10 O11].
  induction n as [|n IH]; intros e m tr pr loss ost k xs slots size He Hgm Hxs Hfr Hsh Hroom Hlo Hls.
  - left. cbn [repeat_phase run_order]. unfold mret. exists k, xs. eexists. exists [], e, m, ost, tr, loss.
    split; [reflexivity|]. split; [auto|]. split; [auto|]. split; [constructor|]. split; [intros l []|]. split; [auto|]. split; [auto|]. split; [auto|]. split; [|split; auto].
    intros i s Hi. unfold chain_history. cbn. destruct s; cbn; auto.
  - rewrite repeat_phase_snoc.
    destruct (IH e m tr pr loss ost k xs slots size He Hgm Hxs Hfr Hsh ltac:(lia) Hlo ltac:(lia))
      as [(k1 & xs1 & w1 & ls & e1 & m1 & st1 & tr1 & loss1 & H1 & He1 & Hn & Hrun & Hll & Hg1 & Hx1 & Hs1 & Hh1 & Hlo1 & ->)|(err & w1 & H1 & (past & s & A))].
    + rewrite (order_app_ok _ _ _ _ _ _ _ _ _ _ H1).
      assert (Hlen : length (concat (map lo_losses ls)) = n * c_epochs c) by (rewrite (losses_length_le ls (c_epochs c)) by auto; rewrite Hn; reflexivity).
      destruct (training_loop_outcome e1 m1 tr1 pr loss1 st1 (n * per_loop c) (n * per_loop c) k1 xs1 slots tr ls size He1 Hg1 Hx1 Hfr Hs1 Hh1
         ltac:(rewrite Hn; reflexivity) ltac:(lia) Hlo1 ltac:(lia)) as [(k2 & xs2 & w2 & H2)|(err & w2 & H2 & (e0 & k0 & xs2 & lout & xs3 & A1 & A2 & A3))].
      * left. rewrite H2.
        destruct (training_loop_w c rx d window S pre E hx before good O7b O7 O8 O1 O2 O3 O4 O9 O10 S_local S_global S_train S_ugs S_uls S_um Hpre
          e1 m1 tr1 pr loss1 st1 (n * per_loop c) (n * per_loop c) k1 xs1 k2 xs2 w2 slots tr ls size Hg1 Hx1 Hfr Hs1 Hh1 ltac:(rewrite Hn; reflexivity) ltac:(lia) Hlo1 ltac:(lia) H2)
          as (l & e2 & m2 & st2 & tr2 & loss2 & Hloop & Hln & Hg2 & Hx2 & Hs2 & Hh2 & Hlo2 & ->).
        exists k2, xs2. eexists. exists (ls ++ [l]), e2, m2, st2, tr2, loss2. split; [reflexivity|].
        split. { destruct Hloop as (k0 & y0 & y1 & ex & k3 & B & _). cbn [r_ext r_key r_pos] in B. exact (Hkeep _ _ _ _ _ _ _ Hx1 B He1). }
        split; [rewrite app_length; cbn; lia|]. split; [econstructor; eauto|].
        split. { intros l' Hl. apply in_app_iff in Hl as [Hl|[<-|[]]]; auto. }
        split; [auto|]. split; [auto|]. split; [auto|]. split; [auto|]. split; [auto|].
        replace (Datatypes.S n * per_loop c) with (n * per_loop c + per_loop c) by lia. reflexivity.
      * right. exists err, w2. split; [exact H2|]. exists ls, (mkR k1 xs1 m1 st1 e1), e0, k0, xs2, lout, xs3. cbn [r_ext r_key r_pos]. split; [lia|]. auto.
    + right. exists err, w1. split; [now apply order_app_raise|]. exists past, s. destruct A as (e0 & k0 & y0 & lout & y1 & A1 & A2). exists e0, k0, y0, lout, y1. split; [lia|exact A2].
Qed.

Lemma production_run_progress n : forall e m tr pr loss ost k xs slots,
  einv e -> good m -> shaped c xs -> ph_shape c slots pr -> n * per_loop c <= slots ->
  exists k' xs' w' ls e' pr', run_order S (repeat_phase n (pre ++ production_phase)) k xs d (bworld c rx (hx e) m m false tr pr loss ost 0 0) = (Ok (k', xs'), w') /\
    einv e' /\ length ls = n /\ shaped c xs' /\ ph_shape c slots pr' /\ ph_holds c slots pr pr' (chain_history c ls) /\
    w' = bworld c rx (hx e') m m false tr pr' loss ost (n * per_loop c) (n * per_loop c).
Proof.
  destruct OK as [O1 O2 O3 O4 O5 O6 O7 O7b O8 O9 O10 O11].
  induction n as [|n IH]; intros e m tr pr loss ost k xs slots He Hgm Hxs Hsh Hroom.
  - cbn [repeat_phase run_order]. unfold mret. exists k, xs. eexists. exists [], e, pr. split; [reflexivity|]. do 4 (split; [auto|]). split; auto.
    intros i s Hi. unfold chain_history. cbn. destruct s; cbn; auto.
  - rewrite repeat_phase_snoc.
    destruct (IH e m tr pr loss ost k xs slots He Hgm Hxs Hsh ltac:(lia)) as (k1 & xs1 & w1 & ls & e1 & pr1 & H1 & He1 & Hn & Hx1 & Hs1 & Hh1 & ->).
    rewrite (order_app_ok _ _ _ _ _ _ _ _ _ _ H1).
    destruct (production_loop_progress e1 m tr pr1 loss ost (n * per_loop c) (n * per_loop c) k1 xs1 slots pr ls He1 Hgm Hx1 Hs1 Hh1
       ltac:(rewrite Hn; reflexivity) ltac:(lia)) as (k2 & xs2 & w2 & H2).
    destruct (production_loop_w c rx d S pre E hx before good O7 O8 O1 O2 O3 O4 O10 S_local S_global S_ugs S_uls Hpre
       e1 m tr pr1 loss ost (n * per_loop c) (n * per_loop c) k1 xs1 k2 xs2 w2 slots pr ls Hgm Hx1 Hs1 Hh1 ltac:(rewrite Hn; reflexivity) ltac:(lia) H2)
       as (l & e2 & pr2 & Hloop & Hx2 & Hs2 & Hh2 & ->).
    exists k2, xs2. eexists. exists (ls ++ [l]), e2, pr2. split; [exact H2|].
    split. { destruct Hloop as (k0 & y0 & y1 & B & _). cbn [r_ext r_key r_pos] in B. exact (Hkeep _ _ _ _ _ _ _ Hx1 B He1). }
    split; [rewrite app_length; cbn; lia|]. split; [auto|]. split; [auto|]. split; [auto|].
    replace (Datatypes.S n * per_loop c) with (n * per_loop c + per_loop c) by lia. reflexivity.
Qed.

Lemma bundle_outcome e m k : einv e -> good m ->
  let w := bworld c rx (hx e) m m true (empty_bufs c (phase_slots c (c_train_loops c)) "training")
       (empty_bufs c (phase_slots c (c_prod_loops c)) "production") (fresh_loss c) (c_opt c m) 0 0 in
  (exists k' xs' w', run_order S (the_order c pre) k xs0 d w = (Ok (k', xs'), w')) \/
  exists err w', run_order S (the_order c pre) k xs0 d w = (Raise err, w') /\
    stops_early (before true) c window d (c_train_loops c) (mkR k xs0 m (c_opt c m) e) err.
Proof.
  intros He Hm w. unfold the_order.
  destruct (training_run_outcome (c_train_loops c) e m (empty_bufs c (phase_slots c (c_train_loops c)) "training")
     (empty_bufs c (phase_slots c (c_prod_loops c)) "production") (fresh_loss c) (c_opt c m) k xs0 (phase_slots c (c_train_loops c)) (c_train_loops c * c_epochs c) He Hm
     (conj (ok_chains _ _ _ _ OK) (ok_pos _ _ _ _ OK)) (empty_fresh _ _ _) (empty_shape _ _ _))
    as [(k1 & xs1 & w1 & ls & e1 & m1 & st1 & tr1 & loss1 & H1 & He1 & Hn & Hrun & Hll & Hg1 & Hx1 & Hs1 & Hh1 & Hlo1 & ->)|(err & w1 & H1 & A)].
  { rewrite phase_slots_eq. lia. }
  { split; [reflexivity|]. split; [reflexivity|]. split; [reflexivity|]. intros [|j] v Hv; discriminate. }
  { lia. }
  - left. unfold w. rewrite (order_app_ok _ _ _ _ _ _ _ _ _ _ H1).
    change (["reset_steppers"; "update_state"]%string ++ repeat_phase (c_prod_loops c) (pre ++ production_phase)) with
      ("reset_steppers"%string :: "update_state"%string :: repeat_phase (c_prod_loops c) (pre ++ production_phase)).
    rewrite (order_cons_ok _ _ _ _ _ _ _ _ _ _ _ S_reset (reset_w c rx d _ _ _ _ _ _ _ _ _ _ _ _)).
    rewrite (order_cons_ok _ _ _ _ _ _ _ _ _ _ _ S_us (ustate_w c rx d _ _ _ _ _ _ _ _ _ _ _ _)).
    destruct (production_run_progress (c_prod_loops c) e1 m1 tr1 (empty_bufs c (phase_slots c (c_prod_loops c)) "production") loss1 st1 k1 xs1
      (phase_slots c (c_prod_loops c)) He1 Hg1 Hx1 (empty_shape _ _ _)) as (k2 & xs2 & w2 & _ & _ & _ & H2 & _).
    { rewrite phase_slots_eq. lia. }
    eauto.
  - right. exists err, w1. split; [unfold w; now apply order_app_raise|exact A].
Qed.
End Loops.

(* ------------------------------------------------------------------ the base bundle *)
Lemma base_outcome c h bd n nc k o kw s d xs good :
  rqspline_mala_bundle c = Ok (h, bd) -> sampler_init n nc k None None o (Some bd) kw = Ok s -> run_ok c d xs good -> counts_ok c ->
  let m := c_model c (split (c_key c) 2 1) in
  (exists k' xs' w', sampler_sample s (P2 xs) d h = (Ok (k', xs'), w')) \/
  exists err w', sampler_sample s (P2 xs) d h = (Raise err, w') /\
    stops_early nothing_before c 100 d (c_train_loops c) (mkR k xs m (c_opt c m) tt) err.
Proof.
  intros Hb Hs Hok HO m.
  rewrite <- (sample_of_bundle _ _ _ _ _ _ _ xs d h (sampler_sample s (P2 xs) d h) Hs eq_refl).
  unfold rqspline_mala_bundle in Hb. destruct (_ || _) eqn:Et; [discriminate|]. injection Hb as <- <-. cbn [bd_strategies bd_order bd_resources].
  apply orb_false_iff in Et as [T1 T2]. apply Nat.eqb_neq in T1, T2. fold m.
  apply (bundle_outcome c [] d 100 (base_strategies c 100) [] unit (fun _ => []) (fun _ => nothing_before) (fun _ => True) good xs Hok
    ltac:(lia) ltac:(lia) HO eq_refl eq_refl eq_refl eq_refl eq_refl eq_refl eq_refl eq_refl
    (fun ph e m mg tr pr loss ost lc gc k xs k' xs' w' => nothing_pre (base_strategies c 100) c [] d ph m mg tr pr loss ost lc gc k xs k' xs' w' e)); auto.
  - intros. cbn [run_order]. unfold mret. eauto.
  - apply Hok.
Qed.
End Prog.
