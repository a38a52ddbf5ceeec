(** The parallel-tempering bundle. *)
From Verif Require Import Prelude Num M_Core M_Kernels M_Strategies M_PT M_Bundle P_Lists P_Buffer
  Spec Spec_Core P_Core Spec_Sampler P_Sampler Spec_Steps P_Steps Spec_Kernels P_Kernels P_StepsK P_Steps2 Spec_Train P_Train P_Train2
  Spec_PT P_PT P_PT2 P_PT3 P_PT4 P_PT5 Spec_Bundle P_Bundle P_Bundle2 P_Bundle3 P_Bundle4 P_Bundle5.

Section Bnd.
Context {N : Num} {G : Rng} {NF : NFOps}.

Definition pt_rx (pc : pt_config) : dict resource :=
  [ ("tempered_logpdf", RTemp (pt_tempered pc));
    ("tempered_positions", RObj L_tpos);
    ("temperatures", RObj L_temp) ]%string.
Definition pt_hx (e : buffer * buffer) : list obj := [OBuf (fst e); OBuf (snd e)].

Section PT.
Variables (pc : pt_config) (d : datad).
Let c := p_base pc.
Hypothesis Hgrad : grad_shape (c_logpdf c) d (c_n_dims c).
Hypothesis Hprior : grad_shape (p_prior pc) d (c_n_dims c).
Hypothesis Hnormal : normal_shape.
Hypothesis Hchains : 0 < c_n_chains c.

Lemma pt_pre (S : dict strategy) ph e m mg tr pr loss ost lc gc k xs k' xs' w' :
  dget S "parallel_tempering" = Some (parallel_tempering (pt_strat pc)) -> shaped c xs ->
  run_order S ["parallel_tempering"%string] k xs d (bworld c (pt_rx pc) (pt_hx e) m mg ph tr pr loss ost lc gc) = (Ok (k', xs'), w') ->
  exists e', tempering pc d ph e k xs e' k' xs' /\ shaped c xs' /\
    w' = bworld c (pt_rx pc) (pt_hx e') m mg ph tr pr loss ost lc gc.
Proof.
  intros HS [Hl Hd] H. apply (run_order_cons _ _ _ _ _ _ _ _ _ _ _ HS) in H as (k1 & xs1 & w1 & H & H2).
  cbn [run_order] in H2. unfold mret in H2. injection H2 as -> -> ->.
  set (w := bworld c (pt_rx pc) (pt_hx e) m mg ph tr pr loss ost lc gc) in * .
  assert (Hset : pt_setup w (pt_strat pc) (mala_kernel (c_step c)) (pt_tempered pc) L_tpos (fst e) L_temp (snd e) ph).
  { constructor; try reflexivity; try (split; reflexivity). exists L_state, (phase_state ph), (SBool ph). repeat split. destruct ph; reflexivity. }
  assert (H0 : length (nth 0 xs []) = c_n_dims c) by (apply Hd, nth_In; lia).
  assert (Hkd : keeps_dim (mala_kernel (c_step c)) (pt_tempered pc) d (length (nth 0 xs []))).
  { rewrite H0. apply C41_kernels_proof; auto. }
  assert (Hr : forall x, In x xs -> length x = length (nth 0 xs [])) by (intros; rewrite H0; auto).
  destruct (pt_inv _ _ _ _ _ _ _ _ _ _ _ _ _ _ _ Hset H) as (K & D & stp & ex & Hsh & HD & _).
  destruct (C41_proof _ _ _ _ _ _ _ _ _ _ _ _ _ _ _ Hset Hkd Hr H) as (after & accs & A1 & A2 & A3 & A4 & A5 & A6).
  assert (Hlt : length (temps_of (snd e)) = Datatypes.S K).
  { destruct (A5 0 ltac:(lia)) as (B & _). rewrite <- B. unfold ensemble_before. rewrite Hsh. cbn [nth length].
    rewrite map_length, seq_length. reflexivity. }
  assert (Hxs' : shaped c xs').
  { split; [congruence|]. intros x Hx. apply (In_nth _ _ []) in Hx as (i & Hi & <-). rewrite A3 in Hi.
    destruct (A5 i Hi) as (B & C & stepped & ens & L1 & Hmv & Hsw & Hc).
    assert (Hperm : Forall (fun v => length v = c_n_dims c) stepped).
    { apply Forall_forall. intros v Hv. apply (In_nth _ _ []) in Hv as (j & Hj & <-). rewrite L1 in Hj.
      rewrite <- H0. apply (moved_dim _ _ _ _ _ _ _ _ _ Hkd) with (2 := Hmv j Hj).
      unfold ensemble_before. rewrite Hsh. cbn [nth]. destruct j as [|j].
      + apply Hr, nth_In; auto.
      + rewrite nth_map_seq by lia. unfold brow. rewrite map_length, seq_length. auto. }
    assert (Hall : forall j, j <= length accs -> True) by auto.
    assert (HF : forall i0, i0 <= length (nth i accs []) -> Forall (fun v => length v = c_n_dims c) (nth i0 ens [])).
    { destruct Hsw as (S1 & S2 & S3 & S4 & S5). induction i0 as [|i0 IH]; intros Hle; [rewrite S3; auto|].
      specialize (IH ltac:(lia)). destruct (S5 i0 ltac:(lia)) as (_ & Hx). rewrite Nat.add_1_r in Hx.
      destruct (nth i0 (nth i accs []) false).
      - destruct Hx as (X1 & X2 & X3 & X4 & X5). apply Forall_forall. intros v Hv.
        apply In_nth_error in Hv as (j & Hj). rewrite Forall_forall in IH.
        destruct (Nat.eq_dec j i0) as [->|]; [rewrite X3 in Hj; apply IH; eapply nth_error_In; eauto|].
        destruct (Nat.eq_dec j (i0 + 1)) as [->|]; [rewrite X4 in Hj; apply IH; eapply nth_error_In; eauto|].
        rewrite X5 in Hj by auto. apply IH; eapply nth_error_In; eauto.
      - rewrite Hx. auto. }
    destruct Hsw as (S1 & S2 & S3 & S4 & S5). specialize (HF _ (le_n _)). rewrite S4 in HF.
    rewrite Hc. rewrite Forall_forall in HF. apply HF, nth_In. lia. }
  destruct ph.
  - destruct A6 as (pb' & tb' & G1 & G2 & G3 & G4 & G5 & G6 & G7 & G8). exists (pb', tb').
    split; [|split; [exact Hxs'|]].
    + exists after, accs. do 5 (split; [assumption|]). cbn [fst snd]. split; [exact G3|]. split; [exact G4|]. split; [|exact G8].
      intros i j Hi Hj. rewrite Hsh in G7. cbn [nth] in G7. rewrite <- (G7 i j); auto; [|lia]. rewrite HD, H0. reflexivity.
    + assert (Hh : heap w' = heap (bworld c (pt_rx pc) (pt_hx (pb', tb')) m mg true tr pr loss ost lc gc)).
      { apply nth_error_ext'. intros l.
        destruct (Nat.eq_dec l L_tpos) as [->|N1]; [exact G1|]. destruct (Nat.eq_dec l L_temp) as [->|N2]; [exact G2|].
        specialize (G6 l N1 N2). unfold hget in G6. rewrite G6. unfold L_tpos, L_temp in * .
        do 13 (destruct l as [|l]; [reflexivity|]). destruct l as [|l]; [lia|]. destruct l as [|l]; [lia|]. reflexivity. }
      destruct w' as [h1 r1]. cbn [heap rdict] in Hh, G5. subst h1 r1. reflexivity.
  - subst w'. exists e. split; [|split; [exact Hxs'|reflexivity]]. exists after, accs. do 5 (split; [assumption|]). reflexivity.
Qed.

Lemma pt_init pb0 tb ph m mg tr pr loss ost lc gc k xs k' xs' w' : shaped c xs ->
  ashape (b_data pb0) = [c_n_chains c; p_n_temps pc - 1; c_n_dims c] ->
  initialize_tempered_positions pc k xs d (bworld c (pt_rx pc) (pt_hx (pb0, tb)) m mg ph tr pr loss ost lc gc) = (Ok (k', xs'), w') ->
  exists pb, k' = k /\ xs' = xs /\ w' = bworld c (pt_rx pc) (pt_hx (pb, tb)) m mg ph tr pr loss ost lc gc /\
    ashape (b_data pb) = [c_n_chains c; p_n_temps pc - 1; c_n_dims c] /\
    (forall i j, i < length xs -> j < p_n_temps pc - 1 -> brow pb (c_n_dims c) i j = nth i xs []).
Proof.
  intros [Hl Hd] Hpb0 H. unfold initialize_tempered_positions, lambda in H. apply mbind_Ok in H as (u & w1 & H & H2).
  unfold mret in H2. injection H2 as <- <- <-. apply buf_update_inv in H as (b & b' & Hb & Hu & ->).
  change (Some (OBuf pb0) = Some (OBuf b)) in Hb. injection Hb as <-.
  exists b'. split; [auto|]. split; [auto|]. split; [reflexivity|].
  pose proof (C02_shape_proof _ _ _ _ Hu) as (E1 & _). split; [congruence|].
  pose proof (update_buffer_fits _ _ _ _ Hu) as Hf.
  destruct (update_written pb0 _ 0 Hf) as (b2 & Hu2 & _ & W1 & _). rewrite Hu in Hu2. injection Hu2 as <-.
  replace (norm_start 0 _ _) with 0 in W1 by (unfold norm_start; cbn [Z.ltb Z.compare]; lia).
  assert (H0 : length (nth 0 xs []) = c_n_dims c) by (apply Hd, nth_In; lia).
  intros i j Hi Hj. unfold brow.
  assert (Li : length (nth i xs []) = c_n_dims c) by (apply Hd, nth_In; auto).
  apply (list_eq_nth f0); [rewrite map_length, seq_length; auto|]. rewrite map_length, seq_length. intros q Hq.
  rewrite nth_map_seq by auto. rewrite (W1 [i; j; q] [i; j; q]).
  - cbn [stack3 aget nth]. rewrite (nth_map' _ _ i [] []) by auto. rewrite (nth_indep _ [] (nth i xs [])) by (rewrite repeat_length; auto).
    rewrite nth_repeat. reflexivity.
  - unfold stack3. cbn [ashape]. rewrite map_length, (nth_map' _ _ 0 [] []) by lia. rewrite repeat_length.
    rewrite (nth_indep _ [] (nth 0 xs [])) by (rewrite repeat_length; lia). rewrite nth_repeat, H0. apply valid_index3; auto.
  - apply shifted_0.
Qed.

Lemma temps_initial : temps_of (temp_buffer pc) = linspace f1 (p_max_temp pc) (p_n_temps pc).
Proof.
  assert (Hs : ashape (b_data (temp_buffer pc)) = [p_n_temps pc]).
  { unfold temp_buffer. destruct (update_buffer _ _ _) as [b'|e] eqn:E; [|reflexivity].
    apply C02_shape_proof in E as (E & _). rewrite E. reflexivity. }
  unfold temps_of. rewrite Hs. cbn [nth]. apply (list_eq_nth f0).
  - rewrite map_length, seq_length, linspace_length. reflexivity.
  - rewrite map_length, seq_length. intros i Hi. rewrite nth_map_seq by auto. apply temp_buffer_get; auto.
Qed.
End PT.

Lemma pt_run pc h bd n nc k o kw s d xs good k' xs' w' :
  rqspline_mala_pt_bundle pc = Ok (h, bd) -> sampler_init n nc k None None o (Some bd) kw = Ok s ->
  run_ok (p_base pc) d xs good -> grad_shape (p_prior pc) d (c_n_dims (p_base pc)) -> 0 < c_n_chains (p_base pc) ->
  sampler_sample s (P2 xs) d h = (Ok (k', xs'), w') ->
  let c := p_base pc in let m := c_model c (split (c_key c) 2 1) in
  exists e0 ls1 ls2 k1 xs1 m' st' e1 e2 tr' pr' loss' lc gc, initial_ensemble pc xs e0 /\
    training_run (tempering pc d true) c (c_window c) d (mkR k xs m (c_opt c m) e0) ls1 (mkR k1 xs1 m' st' e1) /\
    production_run (tempering pc d false) c d (mkR k1 xs1 m' st' e1) ls2 (mkR k' xs' m' st' e2) /\
    length ls1 = c_train_loops c /\ length ls2 = c_prod_loops c /\
    (forall l, In l ls1 -> length (lo_losses l) = c_epochs c) /\
    w' = bworld c (pt_rx pc) (pt_hx e2) m' m' false tr' pr' loss' st' lc gc /\
    ph_shape c (phase_slots c (c_train_loops c)) tr' /\ ph_shape c (phase_slots c (c_prod_loops c)) pr' /\
    good m' /\ shaped c xs' /\
    phase_recorded c w' "training" ls1 /\ phase_recorded c w' "production" ls2 /\ losses_recorded c w' ls1.
Proof.
  intros Hb Hs Hok Hpr Hch H c m. apply (sample_of_bundle _ _ _ _ _ _ _ _ _ _ _ Hs) in H.
  unfold rqspline_mala_pt_bundle in Hb. destruct (_ || _); [discriminate|]. destruct (_ =? 0); [discriminate|].
  injection Hb as <- <-. cbn [bd_strategies bd_order bd_resources] in H. fold c in H. fold m in H.
  set (pb0 := buffer_init "tempered_positions" [c_n_chains c; p_n_temps pc - 1; c_n_dims c] 2).
  change (mkWorld (pt_heap pc m) (pt_resources pc m)) with
    (bworld c (pt_rx pc) (pt_hx (pb0, temp_buffer pc)) m m true (empty_bufs c (phase_slots c (c_train_loops c)) "training")
       (empty_bufs c (phase_slots c (c_prod_loops c)) "production") (fresh_loss c) (c_opt c m) 0 0) in H.
  unfold pt_order in H. cbn [app] in H.
  apply (run_order_cons (pt_strategies pc) "initialize_tempered_positions"%string (initialize_tempered_positions pc) _ _ _ _ _ _ _ _ eq_refl) in H as (k1 & xs1 & w1 & H1 & H).
  apply (pt_init pc d Hch) in H1 as (pb & -> & -> & -> & E1 & E2); [|split; apply Hok|reflexivity].
  destruct (bundle_run_w c (pt_rx pc) d (c_window c) (pt_strategies pc) ["parallel_tempering"%string] (buffer * buffer) pt_hx
    (tempering pc d) good xs Hok
    eq_refl eq_refl eq_refl eq_refl eq_refl eq_refl eq_refl eq_refl
    (fun ph e m mg tr pr loss ost lc gc k xs k' xs' w' Hsh =>
       pt_pre pc d (ok_grad _ _ _ _ Hok) Hpr (ok_normal _ _ _ _ Hok) Hch (pt_strategies pc) ph e m mg tr pr loss ost lc gc k xs k' xs' w' eq_refl Hsh)
    (pb, temp_buffer pc) m k k' xs' w' (ok_model _ _ _ _ Hok) H)
    as (ls1 & ls2 & k2 & xs2 & m' & st' & e1 & e2 & tr' & pr' & loss' & lc & gc & A).
  exists (pb, temp_buffer pc), ls1, ls2, k2, xs2, m', st', e1, e2, tr', pr', loss', lc, gc. split; [|exact A].
  split; [exact E1|]. split; [exact E2|]. apply temps_initial.
Qed.

Lemma C45_pt_proof pc h bd n nc k o kw s d xs good k' xs' w' :
  rqspline_mala_pt_bundle pc = Ok (h, bd) -> sampler_init n nc k None None o (Some bd) kw = Ok s ->
  run_ok (p_base pc) d xs good -> grad_shape (p_prior pc) d (c_n_dims (p_base pc)) -> 0 < c_n_chains (p_base pc) ->
  sampler_sample s (P2 xs) d h = (Ok (k', xs'), w') ->
  let c := p_base pc in let m := c_model c (split (c_key c) 2 1) in
  exists e0 train_loops prod_loops s1 s2, initial_ensemble pc xs e0 /\
    training_run (tempering pc d true) c (c_window c) d (mkR k xs m (c_opt c m) e0) train_loops s1 /\
    production_run (tempering pc d false) c d s1 prod_loops s2 /\
    length train_loops = c_train_loops c /\ length prod_loops = c_prod_loops c /\
    k' = r_key s2 /\ xs' = r_pos s2 /\
    phase_recorded c w' "training" train_loops /\ phase_recorded c w' "production" prod_loops /\
    losses_recorded c w' train_loops /\
    content_of w' "model" = CPlain (RModel (r_model s2)) /\
    content_of w' "global_sampler" = CPlain (RNFP (mkNfp (r_model s2) (c_nf_bs c))) /\
    content_of w' "optimizer" = CObject (Some (OOpt (mkOptimizer (c_tx c) (r_opt s2)))) /\
    content_of w' "tempered_positions" = CObject (Some (OBuf (fst (r_ext s2)))) /\
    content_of w' "temperatures" = CObject (Some (OBuf (snd (r_ext s2)))).
Proof.
  intros Hb Hs Hok Hpr Hch H c m. destruct (pt_run _ _ _ _ _ _ _ _ _ _ _ _ _ _ _ Hb Hs Hok Hpr Hch H)
    as (e0 & ls1 & ls2 & k1 & xs1 & m' & st' & e1 & e2 & tr' & pr' & loss' & lc & gc & I & R1 & R2 & N1 & N2 & _ & Hw & _ & _ & _ & _ & P1 & P2 & P3).
  exists e0, ls1, ls2, (mkR k1 xs1 m' st' e1), (mkR k' xs' m' st' e2).
  do 10 (split; [solve [assumption|reflexivity]|]). rewrite Hw. repeat split; reflexivity.
Qed.
End Bnd.
