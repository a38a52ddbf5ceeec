(** Runs of the bundles with their own flow. *)
From Verif Require Import Prelude Num M_Core M_Kernels M_Strategies M_PT M_Bundle M_Flow M_Net M_Model M_Tree M_Spline P_Lists
  Spec Spec_Core Spec_Sampler Spec_Steps Spec_Kernels Spec_Train Spec_PT Spec_Bundle P_Bundle5 P_Bundle6 Spec_Net Spec_Tree Spec_Run P_Tree1 P_Tree2 P_Tree3 P_Run1.

(* ------------------------------------------------------------------ the trainings of a run *)
Section Trainings.
Context {N : Num} {G : Rng} {NF : NFOps}.
Lemma recent_in {A} w (l : list A) x : In x (recent w l) -> In x l.
Proof.
  unfold recent, last_elements. destruct (w =? 0); auto. intros H. rewrite <- (firstn_skipn (length l - w) l). apply in_or_app. now right.
Qed.
Lemma training_set_in window max k hist ex x : training_set window max k hist ex -> In x ex ->
  finite_row x = true /\ exists h, In h hist /\ In x h.
Proof.
  intros (blocks & n & E & _ & _ & _ & _ & Hp) Hx. apply Hp in Hx. apply in_concat in Hx as (b & Hb & Hx).
  apply in_map_iff in Hb as (b0 & <- & Hb0). apply recent_in in Hx.
  assert (Hc : In x (concat blocks)) by (apply in_concat; eauto). rewrite E in Hc. apply in_concat in Hc as (f & Hf & Hxf).
  apply in_map_iff in Hf as (h & <- & Hh). apply filter_In in Hxf as [H1 H2]. eauto.
Qed.
Lemma chain_history_app c ls ls' i : chain_history c (ls ++ ls') i = chain_history c ls i ++ chain_history c ls' i.
Proof. unfold chain_history. now rewrite map_app, concat_app. Qed.

Lemma run_split {E} (before : E -> key -> pos_t -> E -> key -> pos_t -> Prop) c window d s ls s' :
  (forall e k xs e' k' xs', before e k xs e' k' xs' -> length xs' = length xs) ->
  Spec_Bundle.training_run before c window d s ls s' ->
  length (r_pos s') = length (r_pos s) /\
  exists ds, length ds = length ls /\ Spec_Tree.training_run (c_tx c) (r_model s) (r_opt s) ds (r_model s') (r_opt s') /\
    forall data, In data ds -> length data = c_max c /\ forall x, In x data -> finite_row x = true /\
      exists i o, i < length (r_pos s) /\ In o (chain_history c ls i) /\ x = s_pos (snd o).
Proof.
  intros Hb H. induction H as [s|s past s1 l s2 H1 IH Hl].
  - split; [reflexivity|]. exists []. split; [reflexivity|]. split; [constructor|]. intros data [].
  - destruct (IH) as [Hlen (ds & L1 & R1 & D1)].
    destruct Hl as (k0 & xs0 & xs1 & ex & k3 & B & Lr & TS & T & Gr & _).
    apply Hb in B. destruct Lr as (_ & A2 & _). destruct Gr as (_ & A4 & _). split; [congruence|].
    exists (ds ++ [ex]). split; [rewrite !app_length; cbn; lia|]. split; [exact (run_more _ _ _ _ _ _ _ _ _ _ _ _ _ _ R1 T)|].
    intros data Hd. apply in_app_or in Hd as [Hd|[<-|[]]].
    + destruct (D1 data Hd) as [E1 E2]. split; [exact E1|]. intros x Hx. destruct (E2 x Hx) as [F1 (i & o & Hi & Ho & Ex)]. split; [exact F1|].
      exists i, o. split; [exact Hi|]. split; [|exact Ex]. rewrite chain_history_app. apply in_or_app. now left.
    + split; [destruct TS as (blocks & n & _ & _ & _ & _ & EL & _); exact EL|]. intros x Hx.
      destruct (training_set_in _ _ _ _ _ _ TS Hx) as [F1 (h & Hh & Hxh)]. split; [exact F1|].
      apply in_map_iff in Hh as (i & <- & Hi). apply in_seq in Hi. rewrite B, Hlen in Hi. cbn [Nat.add] in Hi.
      apply in_app_or in Hxh as [Hxh|Hxh].
      * apply in_map_iff in Hxh as (o & <- & Ho). exists i, o. split; [lia|]. split; [|reflexivity]. rewrite chain_history_app. apply in_or_app. now left.
      * apply in_map_iff in Hxh as (o & <- & Ho). exists i, (true, o). split; [lia|]. split; [|reflexivity]. rewrite chain_history_app. apply in_or_app. right.
        unfold chain_history. cbn [map concat]. rewrite app_nil_r. apply in_or_app. left. now apply in_map.
Qed.
Lemma production_keeps {E} (before : E -> key -> pos_t -> E -> key -> pos_t -> Prop) c d s ls s' :
  production_run before c d s ls s' -> r_model s' = r_model s /\ r_opt s' = r_opt s.
Proof.
  induction 1 as [|s past s1 l s2 H1 IH Hl]; [auto|]. destruct Hl as (k0 & xs0 & xs1 & _ & _ & _ & _ & -> & -> & _). exact IH.
Qed.
Lemma in_recorded c w phase ls i o : phase_recorded c w phase ls -> i < c_n_chains c -> In o (chain_history c ls i) ->
  finite_row (s_pos (snd o)) = true -> recorded_row w (append "positions_" phase) (c_n_chains c) (c_n_dims c) (s_pos (snd o)).
Proof.
  intros (slots & pl & pb & ll & lb & al & ab & gl & gb & B1 & _ & _ & _ & S1 & _ & _ & _ & H) Hi Ho Hf.
  destruct (H i Hi) as [HL HS]. apply In_nth_error in Ho as [s0 Es]. destruct o as [il o]. destruct (HS s0 il o Es) as (E & _).
  exists pl, pb, slots, i, s0. split; [exact B1|]. split; [exact S1|]. split; [exact Hi|]. split; [|split; [now rewrite E|exact Hf]].
  rewrite <- HL. apply nth_error_Some. congruence.
Qed.
End Trainings.

(* ------------------------------------------------------------------ the spline bundles *)
Section Run.
Context {N : Num} {G : Rng}.
Variable li : nat -> nat -> key -> bool -> linear.
Variable chol : list vec -> list vec.
Variable grad : list leaf -> list vec -> vec.

Lemma spline_model_ok a k : exists lv, rqs_tree li (a_n_dims a) (a_layers a) (a_bins a) (a_hidden a) (fofZ (-10)) (fofZ 10) k = Ok lv /\ spline_model li a k = lv.
Proof. unfold spline_model. destruct (rqs_tree_ok li (a_n_dims a) (a_layers a) (a_bins a) (a_hidden a) (fofZ (-10)) (fofZ 10) k) as [lv ->]. eauto. Qed.

Lemma rqs_masks_len n L bins hidden lo hi k lv : rqs_tree li n L bins hidden lo hi k = Ok lv ->
  header_ok n lv /\ length (leaf_vals (lv_at lv 6)) = L * n /\ length (leaf_vals (lv_at lv 9)) = L * n.
Proof.
  unfold rqs_tree. destruct (per_layer (fun _ => rqs_network li n bins hidden) L k) as [st|]; [|discriminate]. cbn [rbind]. intros H. apply ok_inj in H. subst lv.
  split; [apply header_ok_new|]. split.
  - change (length (concat (map (fun _ : nat => repeat (@f0 N) n) (seq 0 L))) = L * n). rewrite (concat_length_uniform _ n); [now rewrite map_length, seq_length|].
    intros r Hr. apply in_map_iff in Hr as (i & <- & _). apply repeat_length.
  - change (length (concat (map (@rqs_mask N n) (seq 0 L))) = L * n). rewrite (concat_length_uniform _ n); [now rewrite map_length, seq_length|].
    intros r Hr. apply in_map_iff in Hr as (i & <- & _). unfold rqs_mask. now rewrite map_length, seq_length.
Qed.
Lemma spline_class a lv0 k : chol_shape chol -> normal_shape ->
  rqs_tree li (a_n_dims a) (a_layers a) (a_bins a) (a_hidden a) (fofZ (-10)) (fofZ 10) k = Ok lv0 ->
  @model_class N G (spline_ops chol grad a) (only_floats_differ lv0) (a_n_dims a).
Proof.
  intros HC HN H0. destruct (rqs_masks_len _ _ _ _ _ _ _ _ H0) as (Hh & H6 & H9). split; [|split].
  - intros lv Ho k0 ns. apply rqs_sample_shape; auto.
    + exact (header_ok_ofd _ _ _ Ho Hh).
    + now rewrite (ofd_len lv0 lv _ Ho).
    + now rewrite (ofd_len lv0 lv _ Ho).
  - intros lv data Ho. eapply ofd_trans; [exact Ho|]. apply (stats_ofd (a_n_dims a)). eapply ofd_stats; [exact Ho|]. exact (rqs_stats li _ _ _ _ _ _ _ _ H0).
  - intros lv b tx st Ho. eapply ofd_trans; [exact Ho|].
    destruct (@m_step N G (spline_ops chol grad a) lv b tx st) as [[v lv'] st'] eqn:E. exact (step_ofd _ _ _ _ _ _ _ _ _ E).
Qed.
Lemma spline_run_ok a d xs lv0 : args_ok a chol d xs ->
  rqs_tree li (a_n_dims a) (a_layers a) (a_bins a) (a_hidden a) (fofZ (-10)) (fofZ 10) (split (a_key a) 2 1) = Ok lv0 ->
  @run_ok N G (spline_ops chol grad a) (spline_config li chol grad a) d xs (only_floats_differ lv0).
Proof.
  intros [H1 H2 H3 H4 H5 H6 H7 H8 H9 H10 H11] H0. constructor; auto.
  - exact (spline_class a lv0 (split (a_key a) 2 1) H11 H9 H0).
  - cbn [c_model spline_config c_key]. unfold spline_model. rewrite H0. apply ofd_refl.
Qed.

Lemma spline_trained a h bd n nc k o kw s d xs k' xs' w' :
  RQSpline_MALA li chol grad a = Ok (h, bd) -> @sampler_init N G (spline_ops chol grad a) n nc k None None o (Some bd) kw = Ok s -> args_ok a chol d xs ->
  sampler_sample s (P2 xs) d h = (Ok (k', xs'), w') ->
  exists lv0 ds lv st,
    rqs_tree li (a_n_dims a) (a_layers a) (a_bins a) (a_hidden a) (fofZ (-10)) (fofZ 10) (split (a_key a) 2 1) = Ok lv0 /\
    length ds = a_train_loops a /\
    @Spec_Tree.training_run N G (spline_ops chol grad a) (optimizer_new (a_lr a) (fofZ 9 /. fofZ 10)) lv0 (tree_optimizer_init lv0) ds lv st /\
    (forall data, In data ds -> length data = a_max a /\ forall x, In x data -> recorded_row w' "positions_training" (a_n_chains a) (a_n_dims a) x) /\
    content_of w' "model" = CPlain (@RModel N G (spline_ops chol grad a) lv) /\
    content_of w' "global_sampler" = CPlain (@RNFP N G (spline_ops chol grad a) (@mkNfp N G (spline_ops chol grad a) lv (a_nf_bs a))) /\
    content_of w' "optimizer" = CObject (Some (OOpt (@mkOptimizer N G (spline_ops chol grad a) (optimizer_new (a_lr a) (fofZ 9 /. fofZ 10)) st))).
Proof.
  intros Hb Hs Hok H. destruct (spline_model_ok a (split (a_key a) 2 1)) as (lv0 & E0 & Em).
  pose proof (spline_run_ok a d xs lv0 Hok E0) as R.
  destruct (C45_base_proof _ _ _ _ _ _ _ _ _ _ _ _ _ _ _ Hb Hs R H) as (tl & pl & s1 & s2 & T & P & N1 & N2 & _ & _ & PR & _ & _ & C1 & C2 & C3).
  apply run_split in T as [_ (ds & L1 & T1 & D1)]; [|intros e q ys e' q' ys' [_ ->]; reflexivity].
  apply production_keeps in P as [P1 P2]. rewrite P1 in C1, C2. rewrite P2 in C3. cbn [r_model r_opt spline_config c_model c_key c_opt] in T1. rewrite Em in T1.
  exists lv0, ds, (r_model s1), (r_opt s1). split; [exact E0|]. split; [now rewrite L1|]. split; [exact T1|]. split; [|split; [exact C1|split; [exact C2|exact C3]]].
  intros data Hd. destruct (D1 data Hd) as [E1 E2]. split; [exact E1|]. intros x Hx. destruct (E2 x Hx) as [F1 (i & o1 & Hi & Ho & ->)].
  refine (in_recorded _ w' "training" tl i o1 PR _ Ho F1). cbn [r_pos] in Hi. pose proof (ok_chains _ _ _ _ R) as E. exact (eq_ind _ (fun z => i < z) Hi _ E).
Qed.
Lemma spline_pt_trained a nt mt steps prior h bd n nc k o kw s d xs k' xs' w' :
  RQSpline_MALA_PT li chol grad a nt mt steps prior = Ok (h, bd) -> @sampler_init N G (spline_ops chol grad a) n nc k None None o (Some bd) kw = Ok s -> args_ok a chol d xs ->
  grad_shape prior d (a_n_dims a) -> 0 < a_n_chains a ->
  sampler_sample s (P2 xs) d h = (Ok (k', xs'), w') ->
  exists lv0 ds lv st,
    rqs_tree li (a_n_dims a) (a_layers a) (a_bins a) (a_hidden a) (fofZ (-10)) (fofZ 10) (split (a_key a) 2 1) = Ok lv0 /\
    length ds = a_train_loops a /\
    @Spec_Tree.training_run N G (spline_ops chol grad a) (optimizer_new (a_lr a) (fofZ 9 /. fofZ 10)) lv0 (tree_optimizer_init lv0) ds lv st /\
    (forall data, In data ds -> length data = a_max a /\ forall x, In x data -> recorded_row w' "positions_training" (a_n_chains a) (a_n_dims a) x) /\
    content_of w' "model" = CPlain (@RModel N G (spline_ops chol grad a) lv) /\
    content_of w' "global_sampler" = CPlain (@RNFP N G (spline_ops chol grad a) (@mkNfp N G (spline_ops chol grad a) lv (a_nf_bs a))) /\
    content_of w' "optimizer" = CObject (Some (OOpt (@mkOptimizer N G (spline_ops chol grad a) (optimizer_new (a_lr a) (fofZ 9 /. fofZ 10)) st))).
Proof.
  intros Hb Hs Hok Hpr Hch H. destruct (spline_model_ok a (split (a_key a) 2 1)) as (lv0 & E0 & Em).
  pose proof (spline_run_ok a d xs lv0 Hok E0) as R.
  destruct (C45_pt_proof _ _ _ _ _ _ _ _ _ _ _ _ _ _ _ Hb Hs R Hpr Hch H) as (e0 & tl & pl & s1 & s2 & _ & T & P & N1 & N2 & _ & _ & PR & _ & _ & C1 & C2 & C3 & _).
  apply run_split in T as [_ (ds & L1 & T1 & D1)]; [|intros e q ys e' q' ys' (aft & accs & _ & _ & E & _); exact E].
  apply production_keeps in P as [P1 P2]. rewrite P1 in C1, C2. rewrite P2 in C3. cbn [r_model r_opt spline_pt_config p_base spline_config c_model c_key c_opt] in T1. rewrite Em in T1.
  exists lv0, ds, (r_model s1), (r_opt s1). split; [exact E0|]. split; [now rewrite L1|]. split; [exact T1|]. split; [|split; [exact C1|split; [exact C2|exact C3]]].
  intros data Hd. destruct (D1 data Hd) as [E1 E2]. split; [exact E1|]. intros x Hx. destruct (E2 x Hx) as [F1 (i & o1 & Hi & Ho & ->)].
  refine (in_recorded _ w' "training" tl i o1 PR _ Ho F1). cbn [r_pos] in Hi. pose proof (ok_chains _ _ _ _ R) as E. exact (eq_ind _ (fun z => i < z) Hi _ E).
Qed.
End Run.
