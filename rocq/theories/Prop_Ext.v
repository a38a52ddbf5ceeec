(** C82: a longer run extends a shorter one, and batching is invisible, for whole runs of the bundles. *)
From Verif Require Import Prelude Num M_Core M_Kernels M_Strategies M_PT M_Bundle Spec Spec_Core Spec_Steps Spec_Kernels Spec_Train Spec_PT Spec_Bundle Spec_Ext P_Ext Toy Prop_Bundle.
Open Scope nat_scope.

Section Props.
Context {N : Num} {G : Rng} {NF : NFOps}.
(** C82: two RQSpline_MALA bundles with the same settings up to the number of loops, the chain batch size (and the flow batch
    size if all proposals fit into one batch), sampled with the same key, positions and data: the training samples and losses
    agree in all slots both have; if the numbers of training loops are equal, so do the production samples, and the models and
    optimisers are equal; if the numbers of production loops are equal too, key and positions returned are equal. *)
Theorem C82_base :
  forall c1 c2 h1 h2 b1 b2 n1 n2 nc1 nc2 k o1 o2 kw1 kw2 s1 s2 d xs good1 good2 k1 x1 w1 k2 x2 w2,
  same_settings c1 c2 -> 0 < c_n_chains c1 ->
  rqspline_mala_bundle c1 = Ok (h1, b1) -> rqspline_mala_bundle c2 = Ok (h2, b2) ->
  sampler_init n1 nc1 k None None o1 (Some b1) kw1 = Ok s1 -> sampler_init n2 nc2 k None None o2 (Some b2) kw2 = Ok s2 ->
  run_ok c1 d xs good1 -> run_ok c2 d xs good2 ->
  sampler_sample s1 (P2 xs) d h1 = (Ok (k1, x1), w1) -> sampler_sample s2 (P2 xs) d h2 = (Ok (k2, x2), w2) ->
  runs_agree c1 c2 k1 x1 w1 k2 x2 w2.
Proof. exact base_agree. Qed.

(** C82: the same for RQSpline_MALA_PT; the final temperatures agree too. *)
Theorem C82_pt :
  forall p1 p2 h1 h2 b1 b2 n1 n2 nc1 nc2 k o1 o2 kw1 kw2 s1 s2 d xs good1 good2 k1 x1 w1 k2 x2 w2,
  same_pt_settings p1 p2 -> 0 < c_n_chains (p_base p1) ->
  rqspline_mala_pt_bundle p1 = Ok (h1, b1) -> rqspline_mala_pt_bundle p2 = Ok (h2, b2) ->
  sampler_init n1 nc1 k None None o1 (Some b1) kw1 = Ok s1 -> sampler_init n2 nc2 k None None o2 (Some b2) kw2 = Ok s2 ->
  run_ok (p_base p1) d xs good1 -> run_ok (p_base p2) d xs good2 -> grad_shape (p_prior p1) d (c_n_dims (p_base p1)) ->
  sampler_sample s1 (P2 xs) d h1 = (Ok (k1, x1), w1) -> sampler_sample s2 (P2 xs) d h2 = (Ok (k2, x2), w2) ->
  runs_agree (p_base p1) (p_base p2) k1 x1 w1 k2 x2 w2 /\
  (c_train_loops (p_base p1) = c_train_loops (p_base p2) ->
   exists tl1 tb1 tl2 tb2, buffer_named w1 "temperatures" tl1 tb1 /\ buffer_named w2 "temperatures" tl2 tb2 /\ temps_of tb1 = temps_of tb2).
Proof. exact pt_agree. Qed.
End Props.

(** A second bundle: three production loops instead of two, both chains in one batch, flow batch size 9 instead of 2. *)
Definition zcfg2 : @config ZNum ZRng ZNF := @mkConfig ZNum ZRng ZNF
  [7] 2 2 zlp 4 2 2 3 3 (@SScalar ZNum 1%Z) 2 2 6 2 1 9 100 (fun k => Z.of_nat (length k)) 1%Z (fun m => 0%Z).
(** A third one: three training loops. *)
Definition zcfg3 : @config ZNum ZRng ZNF := @mkConfig ZNum ZRng ZNF
  [7] 2 2 zlp 4 2 3 1 3 (@SScalar ZNum 1%Z) 2 2 6 2 1 9 100 (fun k => Z.of_nat (length k)) 1%Z (fun m => 0%Z).
Definition zhb_of (c : @config ZNum ZRng ZNF) : list (@obj ZNum ZRng ZNF) * @bundle ZNum ZRng ZNF :=
  match @rqspline_mala_bundle ZNum ZRng ZNF c with Ok p => p | Raise _ => ([], mkBundle [] [] []) end.
Definition zhp_of (c : @config ZNum ZRng ZNF) : list (@obj ZNum ZRng ZNF) * @bundle ZNum ZRng ZNF :=
  match @rqspline_mala_pt_bundle ZNum ZRng ZNF (@mkPtConfig ZNum ZRng ZNF c 3 4%Z 2 zlp) with Ok p => p | Raise _ => ([], mkBundle [] [] []) end.
Lemma z_run_ok2 : @run_ok ZNum ZRng ZNF zcfg2 [] zstart (fun _ => True).
Proof. destruct z_run_ok. constructor; auto. cbn. lia. Qed.
Lemma z_run_ok3 : @run_ok ZNum ZRng ZNF zcfg3 [] zstart (fun _ => True).
Proof. destruct z_run_ok. constructor; auto. cbn. lia. Qed.
Example C82_case : @same_settings ZNum ZRng ZNF zcfg zcfg2 /\ @same_settings ZNum ZRng ZNF zcfg zcfg3 /\ 0 < @c_n_chains ZNum ZRng ZNF zcfg /\
  @run_ok ZNum ZRng ZNF zcfg [] zstart (fun _ => True) /\ @run_ok ZNum ZRng ZNF zcfg2 [] zstart (fun _ => True) /\ @run_ok ZNum ZRng ZNF zcfg3 [] zstart (fun _ => True) /\
  @same_pt_settings ZNum ZRng ZNF zpcfg (@mkPtConfig ZNum ZRng ZNF zcfg2 3 4%Z 2 zlp) /\
  zok (zfirst (zhb_of zcfg)) = true /\ zok (zfirst (zhb_of zcfg2)) = true /\ zok (zfirst (zhb_of zcfg3)) = true /\
  zok (zfirst (zhp_of zcfg)) = true /\ zok (zfirst (zhp_of zcfg2)) = true.
Proof.
  assert (S2 : @same_settings ZNum ZRng ZNF zcfg zcfg2) by (constructor; try reflexivity; right; cbn; lia).
  split; [exact S2|]. split; [constructor; try reflexivity; right; cbn; lia|]. split; [cbn; lia|]. split; [exact z_run_ok|]. split; [exact z_run_ok2|]. split; [exact z_run_ok3|].
  split; [constructor; try reflexivity; exact S2|]. repeat split; vm_compute; reflexivity.
Qed.

(** C82: without the condition on the flow batch size the claim is false: when the proposals do not fit into one batch the batch
    size changes the samples (sample_flow then splits its key), even with everything else equal. *)
Definition zsteep : @lpdf ZNum := @mkLpdf ZNum (fun x d => (100 * hd 0 x)%Z) (fun x d => map (fun a => 0%Z) x).
Definition zbs (b : nat) : @config ZNum ZRng ZNF := @mkConfig ZNum ZRng ZNF
  [7] 2 2 zsteep 4 2 2 2 3 (@SScalar ZNum 1%Z) 1 2 6 2 1 b 100 (fun k => Z.of_nat (length k)) 1%Z (fun m => 0%Z).
Definition with_flow_batch {N : Num} {G : Rng} {NF : NFOps} (c : config) (b : nat) : config :=
  mkConfig (c_key c) (c_n_chains c) (c_n_dims c) (c_logpdf c) (c_local c) (c_global c) (c_train_loops c) (c_prod_loops c) (c_epochs c) (c_step c)
    (c_chain_batch c) (c_batch c) (c_max c) (c_local_th c) (c_global_th c) b (c_window c) (c_model c) (c_tx c) (c_opt c).
Lemma z_run_ok_bs b : 0 < b -> @run_ok ZNum ZRng ZNF (zbs b) [] zstart (fun _ => True).
Proof. intros B. destruct z_run_ok. constructor; auto. intros x Hx. cbn. now rewrite map_length. Qed.
Theorem C82_flow_batch_refuted :
  ~ (forall (N : Num) (G : Rng) (NF : NFOps) c b h1 h2 b1 b2 n nc k o kw s1 s2 d xs good k1 x1 w1 k2 x2 w2,
     rqspline_mala_bundle c = Ok (h1, b1) -> rqspline_mala_bundle (with_flow_batch c b) = Ok (h2, b2) ->
     sampler_init n nc k None None o (Some b1) kw = Ok s1 -> sampler_init n nc k None None o (Some b2) kw = Ok s2 ->
     run_ok c d xs good -> run_ok (with_flow_batch c b) d xs good ->
     sampler_sample s1 (P2 xs) d h1 = (Ok (k1, x1), w1) -> sampler_sample s2 (P2 xs) d h2 = (Ok (k2, x2), w2) -> x1 = x2).
Proof.
  intros H.
  assert (P : (match fst (zfirst (zhb_of (zbs 2))) with Ok (_, xs) => xs | _ => [] end) = [[30; 4]; [27; 0]]%Z) by (vm_compute; reflexivity).
  assert (Q : (match fst (zfirst (zhb_of (zbs 1))) with Ok (_, xs) => xs | _ => [] end) = [[30; 0]; [25; 0]]%Z) by (vm_compute; reflexivity).
  destruct (zfirst (zhb_of (zbs 2))) as [[[k1 x1]|e1] w1] eqn:E1; [|discriminate P].
  destruct (zfirst (zhb_of (zbs 1))) as [[[k2 x2]|e2] w2] eqn:E2; [|discriminate Q]. cbn [fst] in P, Q. rewrite zfirst_def in E1, E2.
  pose proof (H ZNum ZRng ZNF (zbs 2) 1 (fst (zhb_of (zbs 2))) (fst (zhb_of (zbs 1))) (snd (zhb_of (zbs 2))) (snd (zhb_of (zbs 1))) 2 2 [3] ONone []
    (zsamp (snd (zhb_of (zbs 2)))) (zsamp (snd (zhb_of (zbs 1)))) [] zstart (fun _ => True) k1 x1 w1 k2 x2 w2 eq_refl eq_refl eq_refl eq_refl
    (z_run_ok_bs 2 ltac:(lia)) (z_run_ok_bs 1 ltac:(lia)) E1 E2) as X.
  rewrite P, Q in X. discriminate X.
Qed.
Print Assumptions C82_base.
Print Assumptions C82_pt.
Print Assumptions C82_flow_batch_refuted.
