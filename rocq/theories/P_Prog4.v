(** Outcomes of runs of the parallel-tempering bundle. *)
From Coq Require Import Permutation.
From Verif Require Import Prelude Num M_Core M_Kernels M_Strategies M_PT M_Bundle P_Lists P_Buffer
  Spec Spec_Core P_Core Spec_Sampler P_Sampler Spec_Steps P_Steps Spec_Kernels P_Kernels P_StepsK P_Steps2 Spec_Train P_Train P_Train2
  P_Kernels2 Spec_PT P_PT P_PT2 P_PT3 P_PT4 P_PT5 P_Tree13 Spec_Bundle P_Bundle P_Bundle2 P_Bundle3 P_Bundle4 P_Bundle5 P_Bundle6 Spec_Prog P_Prog1 P_Prog2 P_Prog3.

Section Prog.
Context {N : Num} {G : Rng} {NF : NFOps}.

Lemma rmapM_total {A B} (f : A -> res B) : forall l, (forall x, In x l -> exists y, f x = Ok y) -> exists ys, rmapM f l = Ok ys.
Proof.
  induction l as [|a l IH]; intros H; [exists []; reflexivity|].
  destruct (H a (or_introl eq_refl)) as [y E]. destruct IH as [ys E2]; [intros; apply H; right; auto|].
  exists (y :: ys). cbn. rewrite E. cbn. rewrite E2. reflexivity.
Qed.

Lemma buf_update_ok l w b u b' : hget l w = Some (OBuf b) -> update_buffer b u 0 = Ok b' -> buf_update l u 0 w = (Ok tt, hset l (OBuf b') w).
Proof. intros H1 H2. unfold buf_update. rewrite H1, H2. reflexivity. Qed.

Definition pt_fit (pc : pt_config) (e : buffer * buffer) : Prop :=
  ashape (b_data (fst e)) = [c_n_chains (p_base pc); p_n_temps pc - 1; c_n_dims (p_base pc)] /\ b_cursor_dim (fst e) = 2 /\
  ashape (b_data (snd e)) = [p_n_temps pc] /\ b_cursor_dim (snd e) = 0.

Lemma fit_keep pc d ph e k xs e' k' xs' : tempering pc d ph e k xs e' k' xs' -> pt_fit pc e -> pt_fit pc e'.
Proof.
  intros (after & accs & _ & _ & _ & _ & _ & H) (A & B & C & D). destruct ph; [|subst; split; auto].
  destruct H as ((H1 & _ & _ & H2) & (H3 & _ & _ & H4) & _). repeat split; congruence.
Qed.

Section PT.
Variables (pc : pt_config) (d : datad).
Let c := p_base pc.
Hypothesis Hgrad : grad_shape (c_logpdf c) d (c_n_dims c).
Hypothesis Hprior : grad_shape (p_prior pc) d (c_n_dims c).
Hypothesis Hnormal : normal_shape.
Hypothesis HO : counts_ok c.
Hypothesis Htemps : 0 < p_n_temps pc.

Lemma individual_total n k x temp : length x = c_n_dims c ->
  exists o, individual_step n (mala_kernel (c_step c)) (pt_tempered pc) d k x temp = Ok o /\ length (fst (fst o)) = c_n_dims c.
Proof.
  intros Hx. assert (Hg : grad_shape (tempered_lpdf (pt_tempered pc) temp) d (c_n_dims c)) by (apply tempered_grad_shape; auto).
  destruct (scan_total (mala_kernel (c_step c)) (tempered_lpdf (pt_tempered pc) temp) d (c_n_dims c) (mala_shape _ _ _ _ Hnormal Hg)
    (mala_total _ _ _ _ Hnormal Hg (co_step _ HO)) n k x (tempered_log_pdf (pt_tempered pc) temp x d) Hx) as [co E].
  assert (T : exists o, individual_step n (mala_kernel (c_step c)) (pt_tempered pc) d k x temp = Ok o).
  { unfold individual_step. rewrite E. cbn [rbind]. destruct (match last_opt co with Some _ => _ | None => _ end). eauto. }
  destruct T as [o Ho]. exists o. split; [exact Ho|].
  apply individual_moved in Ho. apply (moved_dim (mala_kernel (c_step c)) (pt_tempered pc) d temp k x _ n (c_n_dims c)); auto.
  apply C41_kernels_proof; auto.
Qed.

Lemma ensemble_total n temps k xs : length xs = length temps -> (forall x, In x xs -> length x = c_n_dims c) ->
  exists ys, ensemble_step n (mala_kernel (c_step c)) (pt_tempered pc) d temps k xs = Ok ys.
Proof.
  intros Hl Hx. unfold ensemble_step. rewrite Hl, Nat.eqb_refl. apply rmapM_total. intros [[q x] t] Hin. cbn [fst snd].
  apply in_combine_l in Hin. apply in_combine_r in Hin.
  destruct (individual_total n q x t (Hx _ Hin)) as (o & -> & _). cbn. eauto.
Qed.

Lemma pt_go ph e m mg tr pr loss ost lc gc k xs : shaped c xs -> pt_fit pc e ->
  exists k' xs' w', parallel_tempering (pt_strat pc) k xs d (bworld c (pt_rx pc) (pt_hx e) m mg ph tr pr loss ost lc gc) = (Ok (k', xs'), w').
Proof.
  intros [Hl Hd] (F1 & F2 & F3 & F4). fold c in F1.
  assert (H0 : length (nth 0 xs []) = c_n_dims c) by (apply Hd, nth_In; destruct HO; lia).
  unfold parallel_tempering.
  do 6 (erewrite mbind_eq by reflexivity; cbv beta iota).
  erewrite mbind_eq by (destruct ph; reflexivity). cbv beta iota.
  erewrite mbind_eq by reflexivity; cbv beta iota.
  cbn [b_data fst snd]. rewrite F1, Hl, H0, !Nat.eqb_refl. cbn [andb].
  erewrite mbind_eq by reflexivity; cbv beta iota zeta.
  set (init := map2 cons xs (unstack3 (b_data (fst e)))).
  assert (HI : forall z, In z init -> length z = length (unstack1 (b_data (snd e))) /\ forall x, In x z -> length x = c_n_dims c).
  { intros z Hz. apply (In_nth _ _ []) in Hz as (i & Hi & <-). unfold init in Hi |- * .
    assert (Lu : length (unstack3 (b_data (fst e))) = c_n_chains c) by (unfold unstack3; rewrite map_length, seq_length, F1; reflexivity).
    rewrite map2_length, Lu in Hi. rewrite (nth_map2 cons _ _ _ [] []) by lia.
    unfold unstack3, unstack1. rewrite F1, F3. cbn [nth]. rewrite nth_map_seq by lia. split.
    - cbn [length]. rewrite !map_length, !seq_length. lia.
    - intros x [<-|Hx]; [apply Hd, nth_In; lia|]. apply in_map_iff in Hx as (j & <- & _). rewrite map_length, seq_length. reflexivity. }
  assert (Li : length init = length xs).
  { unfold init, unstack3. rewrite map2_length, map_length, seq_length, F1. cbn. fold c. lia. }
  set (ks := split_keys (split (split k 2 0) 2 1) (c_n_chains c)).
  destruct (rmapM_total (fun kx => ensemble_step (pt_n_steps (pt_strat pc)) (mala_kernel (c_step c)) (pt_tempered pc) d
              (unstack1 (b_data (snd e))) (fst kx) (snd kx)) (combine ks init)) as [stepped Hst].
  { intros [q z] Hz. cbn [fst snd]. apply in_combine_r in Hz. destruct (HI z Hz). apply ensemble_total; auto. }
  erewrite mbind_eq; [|unfold mlift; rewrite Hst; reflexivity]. cbv beta.
  erewrite mbind_eq; [|destruct ph; reflexivity]. cbv beta.
  destruct ph; [|erewrite mbind_eq by reflexivity; unfold mret; eauto].
  set (ex := map (fun kx => exchange (pt_tempered pc) d (unstack1 (b_data (snd e))) (fst kx) (snd kx))
      (combine (split_keys (split (split (split k 2 0) 2 0) 2 1) (c_n_chains c)) stepped)) in * .
  pose proof (rmapM_length _ _ _ Hst) as Ls. unfold ks in Ls. rewrite combine_length, split_keys_length, Li, Hl, Nat.min_id in Ls.
  assert (Lx : length ex = c_n_chains c) by (unfold ex; rewrite map_length, combine_length, split_keys_length; lia).
  assert (HX : Forall (fun v => length v = c_n_dims c) (fst (fst (nth 0 ex ([], [], [])))) /\ length (fst (fst (nth 0 ex ([], [], [])))) = p_n_temps pc).
  { assert (C0 : 0 < c_n_chains c) by apply HO.
    unfold ex. rewrite (nth_map' _ _ 0 (k, []) ([], [], [])) by (rewrite combine_length, split_keys_length; lia).
    rewrite combine_nth by (rewrite split_keys_length; lia). cbn [fst snd].
    destruct (exchange _ _ _ _ (nth 0 stepped [])) as [[ys lps] ac] eqn:Eex. apply C38_proof in Eex as (Hperm & _). cbn [fst].
    apply rmapM_Ok in Hst. apply (Forall2_nth' _ _ _ (k, []) [] 0) in Hst; [|unfold ks; rewrite combine_length, split_keys_length; lia].
    rewrite combine_nth in Hst by (unfold ks; rewrite split_keys_length; lia). cbn [fst snd] in Hst.
    apply ensemble_step_moved in Hst as (L1 & L2 & Hmv).
    assert (Lt : length (unstack1 (b_data (snd e))) = p_n_temps pc) by (unfold unstack1; rewrite map_length, seq_length, F3; reflexivity).
    split; [|rewrite <- (Permutation_length Hperm); lia].
    eapply Permutation_Forall; [exact Hperm|]. apply Forall_forall. intros v Hv. apply (In_nth _ _ []) in Hv as (j & Hj & <-).
    rewrite L2 in Hj. apply (moved_dim _ _ _ _ _ _ _ _ (c_n_dims c)) with (3 := Hmv j Hj); [apply C41_kernels_proof; auto|].
    assert (Hin : In (nth 0 init []) init) by (apply nth_In; lia). apply (proj2 (HI _ Hin)). apply nth_In. lia. }
  destruct HX as [HX1 HX2].
  destruct (update_written (fst e) (stack3 (map (@List.tl vec) (map (fun o => fst (fst o)) ex))) 0) as (pb & U1 & _).
  { split; [rewrite F1, F2; cbn; lia|]. split; [rewrite F1; reflexivity|]. rewrite F1.
    assert (E0 : nth 0 (map (@List.tl vec) (map (fun o => fst (fst o)) ex)) [] = List.tl (fst (fst (nth 0 ex ([], [], []))))).
    { assert (C0 : 0 < c_n_chains c) by apply HO. rewrite map_map. rewrite (nth_map' _ _ 0 ([], [], []) []) by lia. reflexivity. }
    intros [|[|[|q]]] Hq; cbn [stack3 ashape nth length] in Hq |- *; [rewrite !map_length; lia| | |lia].
    - rewrite E0. destruct (fst (fst (nth 0 ex ([], [], [])))); cbn [List.tl length] in * ; lia.
    - rewrite E0. destruct (fst (fst (nth 0 ex ([], [], [])))) as [|a [|b r]]; cbn; try lia.
      rewrite Forall_forall in HX1. rewrite (HX1 b); [lia|right; left; auto]. }
  destruct (update_written (snd e) (stack1 (adapt_temperature (unstack1 (b_data (snd e))) (map snd ex))) 0) as (tb & U2 & _).
  { split; [rewrite F3, F4; cbn; lia|]. split; [rewrite F3; reflexivity|]. rewrite F3.
    intros [|q] Hq; cbn [stack1 ashape nth length] in Hq |- *; [|lia].
    rewrite (proj1 (adapt_ends _ _)). unfold unstack1. rewrite map_length, seq_length, F3. cbn. lia. }
  match goal with |- exists k' xs' w', mbind ?a ?f ?w0 = _ => assert (HA : exists w2, a w0 = (Ok tt, w2)) end.
  { cbn [truthy]. eexists. erewrite mbind_eq.
    2: apply (buf_update_ok _ _ (fst e) _ pb); [reflexivity|exact U1].
    apply (buf_update_ok _ _ (snd e) _ tb); [|exact U2]. rewrite hget_hset_neq by (intro X; vm_compute in X; discriminate X). reflexivity. }
  destruct HA as [w2 HA]. rewrite (mbind_eq _ _ _ _ _ HA). unfold mret. eauto.
Qed.

Lemma init_go pb0 tb ph m mg tr pr loss ost lc gc k xs : shaped c xs ->
  ashape (b_data pb0) = [c_n_chains c; p_n_temps pc - 1; c_n_dims c] -> b_cursor_dim pb0 = 2 ->
  exists w', initialize_tempered_positions pc k xs d (bworld c (pt_rx pc) (pt_hx (pb0, tb)) m mg ph tr pr loss ost lc gc) = (Ok (k, xs), w').
Proof.
  intros [Hl Hd] F1 F2. assert (C0 : 0 < c_n_chains c) by apply HO.
  assert (H0 : length (nth 0 xs []) = c_n_dims c) by (apply Hd, nth_In; lia).
  destruct (update_written pb0 (stack3 (map (fun x => repeat x (p_n_temps pc - 1)) xs)) 0) as (pb & U1 & _).
  { split; [rewrite F1, F2; cbn; lia|]. split; [rewrite F1; reflexivity|]. rewrite F1.
    intros [|[|[|q]]] Hq; cbn [stack3 ashape nth length] in Hq |- *; [rewrite !map_length; lia| | |lia].
    - rewrite (nth_map' _ _ 0 [] []) by lia. rewrite repeat_length. lia.
    - rewrite (nth_map' _ _ 0 [] []) by lia. destruct (p_n_temps pc - 1); cbn; lia. }
  unfold initialize_tempered_positions, lambda. eexists. erewrite mbind_eq; [reflexivity|].
  unfold buf_update. cbn. cbn in U1. rewrite U1. reflexivity.
Qed.
End PT.

Lemma temp_buffer_fit pc : ashape (b_data (temp_buffer pc)) = [p_n_temps pc] /\ b_cursor_dim (temp_buffer pc) = 0.
Proof.
  unfold temp_buffer. destruct (update_buffer _ _ _) as [b'|e] eqn:E; [|split; reflexivity].
  apply C02_shape_proof in E as (E & _ & _ & E2). rewrite E, E2. split; reflexivity.
Qed.

Lemma pt_outcome pc h bd n nc k o kw s d xs good :
  rqspline_mala_pt_bundle pc = Ok (h, bd) -> sampler_init n nc k None None o (Some bd) kw = Ok s ->
  run_ok (p_base pc) d xs good -> grad_shape (p_prior pc) d (c_n_dims (p_base pc)) -> counts_ok (p_base pc) ->
  let c := p_base pc in let m := c_model c (split (c_key c) 2 1) in
  (exists k' xs' w', sampler_sample s (P2 xs) d h = (Ok (k', xs'), w')) \/
  exists err w' e0, sampler_sample s (P2 xs) d h = (Raise err, w') /\ initial_ensemble pc xs e0 /\ pt_fit pc e0 /\
    stops_early (tempering pc d true) c (c_window c) d (c_train_loops c) (mkR k xs m (c_opt c m) e0) err.
Proof.
  intros Hb Hs Hok Hpr HO c m.
  rewrite <- (sample_of_bundle _ _ _ _ _ _ _ xs d h (sampler_sample s (P2 xs) d h) Hs eq_refl).
  unfold rqspline_mala_pt_bundle in Hb. destruct (_ || _) eqn:Et; [discriminate|]. destruct (Nat.eqb_spec (p_n_temps pc) 0) as [|Hnt]; [discriminate|].
  injection Hb as <- <-. cbn [bd_strategies bd_order bd_resources]. apply orb_false_iff in Et as [T1 T2]. apply Nat.eqb_neq in T1, T2. fold c in T1, T2 |- * . fold m.
  set (pb0 := buffer_init "tempered_positions" [c_n_chains c; p_n_temps pc - 1; c_n_dims c] 2).
  change (mkWorld (pt_heap pc m) (pt_resources pc m)) with
    (bworld c (pt_rx pc) (pt_hx (pb0, temp_buffer pc)) m m true (empty_bufs c (phase_slots c (c_train_loops c)) "training")
       (empty_bufs c (phase_slots c (c_prod_loops c)) "production") (fresh_loss c) (c_opt c m) 0 0).
  unfold pt_order. cbn [app].
  assert (Hsh : shaped c xs) by (split; apply Hok).
  destruct (init_go pc d HO ltac:(lia) pb0 (temp_buffer pc) true m m (empty_bufs c (phase_slots c (c_train_loops c)) "training")
       (empty_bufs c (phase_slots c (c_prod_loops c)) "production") (fresh_loss c) (c_opt c m) 0 0 k xs Hsh eq_refl eq_refl) as [w1 H1].
  rewrite (order_cons_ok (pt_strategies pc) "initialize_tempered_positions"%string _ _ _ _ _ _ _ _ _ eq_refl H1).
  pose proof H1 as H1'. unfold initialize_tempered_positions, lambda in H1'. apply mbind_Ok in H1' as (u & w2 & H2 & H3).
  apply buf_update_inv in H2 as (b & b' & Hb & Hu & _). change (Some (OBuf pb0) = Some (OBuf b)) in Hb. injection Hb as <-.
  assert (C0 : 0 < c_n_chains c) by apply HO.
  assert (HF : forall pb, pt_hx (pb, temp_buffer pc) = pt_hx (b', temp_buffer pc) -> pt_fit pc (pb, temp_buffer pc)).
  { intros pb E. injection E as ->. apply C02_shape_proof in Hu as (E1 & _ & _ & E2). destruct (temp_buffer_fit pc).
    repeat split; cbn [fst snd]; auto; rewrite ?E1, ?E2; reflexivity. }
  assert (Hw1 : w1 = bworld c (pt_rx pc) (pt_hx (b', temp_buffer pc)) m m true (empty_bufs c (phase_slots c (c_train_loops c)) "training")
       (empty_bufs c (phase_slots c (c_prod_loops c)) "production") (fresh_loss c) (c_opt c m) 0 0).
  { unfold initialize_tempered_positions, lambda in H1. apply mbind_Ok in H1 as (u' & w3 & H4 & H5). unfold mret in H5. injection H5 as <-.
    apply buf_update_inv in H4 as (b1 & b2 & Hb1 & Hu1 & ->). change (Some (OBuf pb0) = Some (OBuf b1)) in Hb1. injection Hb1 as <-.
    rewrite Hu in Hu1. injection Hu1 as <-. reflexivity. }
  assert (HI : initial_ensemble pc xs (b', temp_buffer pc)).
  { apply (pt_init pc d C0) in H1 as (pb & _ & _ & Ew & E1 & E2); [|exact Hsh|reflexivity].
    rewrite Hw1 in Ew. apply (f_equal (hget L_tpos)) in Ew. change (Some (OBuf b') = Some (OBuf pb)) in Ew. injection Ew as ->.
    split; [exact E1|]. split; [exact E2|]. apply temps_initial. }
  rewrite Hw1.
  destruct (bundle_outcome c (pt_rx pc) d (c_window c) (pt_strategies pc) ["parallel_tempering"%string] (buffer * buffer) pt_hx
    (tempering pc d) (pt_fit pc) good xs Hok ltac:(lia) ltac:(lia) HO
    eq_refl eq_refl eq_refl eq_refl eq_refl eq_refl eq_refl eq_refl
    (fun ph e m mg tr pr loss ost lc gc k xs k' xs' w' Hsh =>
       pt_pre pc d (ok_grad _ _ _ _ Hok) Hpr (ok_normal _ _ _ _ Hok) C0 (pt_strategies pc) ph e m mg tr pr loss ost lc gc k xs k' xs' w' eq_refl Hsh))
    with (e := (b', temp_buffer pc)) (m := m) (k := k) as [A|(err & w' & A1 & A2)].
  - intros ph e m0 mg tr pr loss ost lc gc q ys Hys He.
    destruct (pt_go pc d (ok_grad _ _ _ _ Hok) Hpr (ok_normal _ _ _ _ Hok) HO ltac:(lia) ph e m0 mg tr pr loss ost lc gc q ys Hys He) as (k' & xs' & w' & E).
    exists k', xs', w'. rewrite (order_cons_ok (pt_strategies pc) "parallel_tempering"%string _ _ _ _ _ _ _ _ _ eq_refl E). reflexivity.
  - intros ph e q ys e' k' xs' _ Ht He. eapply fit_keep; eauto.
  - apply HF; reflexivity.
  - apply Hok.
  - left. exact A.
  - right. exists err, w', (b', temp_buffer pc). split; [exact A1|]. split; [exact HI|]. split; [apply HF; reflexivity|exact A2].
Qed.
End Prog.
