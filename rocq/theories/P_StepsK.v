(** Stepping strategies with the repository's kernels: success, recorded densities. *)
From Verif Require Import Prelude Num M_Core M_Kernels M_Strategies Spec Spec_Core Spec_Steps
  Spec_Kernels P_Lists P_Buffer P_Core P_Sampler P_Steps P_Kernels.

Section StepsK.
Context {N : Num} {G : Rng} {NF : NFOps}.

Lemma fits3 b u cp sp dp a1 a2 a3 : b_cursor_dim b = 1 -> ashape (b_data b) = [cp; sp; dp] ->
  ashape u = [a1; a2; a3] -> a1 <= cp -> a2 <= sp -> a3 <= dp -> fits_shape b u.
Proof.
  intros H1 H2 H3 L1 L2 L3. unfold fits_shape. rewrite H1, H2, H3. simpl. split; [lia|]. split; [auto|].
  intros [|[|[|k]]] Hk; simpl; lia.
Qed.
Lemma fits2 b u cp sp a1 a2 : b_cursor_dim b = 1 -> ashape (b_data b) = [cp; sp] ->
  ashape u = [a1; a2] -> a1 <= cp -> a2 <= sp -> fits_shape b u.
Proof.
  intros H1 H2 H3 L1 L2. unfold fits_shape. rewrite H1, H2, H3. simpl. split; [lia|]. split; [auto|].
  intros [|[|k]] Hk; simpl; lia.
Qed.

Lemma rmapM_all_Ok {A B} (f : A -> res B) l : (forall x, In x l -> exists y, f x = Ok y) -> exists ys, rmapM f l = Ok ys.
Proof.
  induction l as [|x l IH]; intros H; simpl; [eauto|].
  destruct (H x ltac:(simpl; auto)) as [y ->]. destruct IH as [ys ->]; [intros; apply H; simpl; auto|]. simpl; eauto.
Qed.

Lemma vmap_chains_Ok f keys xs out (dk : key) :
  length keys = length xs -> length out = length xs ->
  (forall c, c < length xs -> f (nth c keys dk) (nth c xs []) = Ok (nth c out [])) ->
  vmap_chains f keys xs = Ok out.
Proof.
  intros HL HO H. unfold vmap_chains. apply rmapM_Ok.
  assert (Q : forall (l : list (key * vec)) (o : list chain_out), length o = length l ->
    (forall c, c < length l -> f (fst (nth c l (dk, []))) (snd (nth c l (dk, []))) = Ok (nth c o [])) ->
    Forall2 (fun x y => f (fst x) (snd x) = Ok y) l o).
  { induction l as [|x l IH]; intros [|y o] HLo Hc; simpl in *; try discriminate; constructor.
    - exact (Hc 0 ltac:(lia)).
    - apply IH; [lia|]. intros c Hcl. exact (Hc (S c) ltac:(lia)). }
  apply Q. { rewrite combine_length. lia. }
  intros c Hc. rewrite combine_length in Hc. rewrite combine_nth' by lia. apply H. lia.
Qed.

Lemma take_steps_total samp ts k xs d w pl pb ll lb al ab kern lp cur dim out :
  setup w ts pl pb ll lb al ab kern lp cur ->
  xs <> [] -> 0 < ts_n_steps ts -> 0 < ts_thinning ts ->
  length out = length xs ->
  (forall c, c < length xs ->
     samp kern lp d (ts_n_steps ts) (split (split k 2 1) (length xs) c) (nth c xs []) = Ok (nth c out [])) ->
  rectangular (ts_n_steps ts) dim out ->
  large_enough pb lb ab (length xs) (cdiv (ts_n_steps ts) (ts_thinning ts)) dim ->
  exists xs' w', take_steps samp ts k xs d w = (Ok (split k 2 0, xs'), w').
Proof.
  intros [T1 T2 T3 (N1 & N2 & N3) (D1 & D2 & D3) HK HL HC] Hne Hn Hth HO HS HR
    ((c1 & s1 & d1 & B1 & B2 & B3 & B4) & (c2 & s2 & B5 & B6 & B7) & (c3 & s3 & B8 & B9 & B10)).
  destruct (take_steps_split samp ts k xs d w) as [(e & _ & Hnr)|(pl' & ll' & al' & kern' & lp' & (L1 & L2 & L3 & L4 & L5) & E)].
  { exfalso. apply Hnr. repeat split; eauto; congruence. }
  destruct L1 as [? L1], L2 as [? L2], L3 as [? L3].
  destruct (target_fun _ _ _ _ _ _ _ T1 L1) as [<- <-].
  destruct (target_fun _ _ _ _ _ _ _ T2 L2) as [<- <-].
  destruct (target_fun _ _ _ _ _ _ _ T3 L3) as [<- <-].
  assert (kern' = kern) by congruence. assert (lp' = lp) by congruence. subst kern' lp'.
  rewrite E. clear E.
  rewrite run_chains_batch by apply split_keys_length.
  rewrite (vmap_chains_Ok _ _ _ out k); auto.
  2: { apply split_keys_length. }
  2: { intros c Hc. rewrite nth_split_keys by auto. auto. }
  assert (Hone : out <> []) by (destruct out, xs; simpl in *; congruence).
  unfold mbind at 1, mlift at 1. unfold ts_finish.
  destruct (Nat.eqb_spec (ts_thinning ts) 0); [lia|].
  unfold mbind at 1, mret at 1. unfold mbind at 1, get_cursor at 1. rewrite HC.
  pose proof (target_buf _ _ _ _ _ T1) as P1. pose proof (target_buf _ _ _ _ _ T2) as P2. pose proof (target_buf _ _ _ _ _ T3) as P3.
  assert (F1 : fits_shape pb (stack3 (ts_positions (ts_thinning ts) out))).
  { refine (fits3 pb _ c1 s1 d1 (length out) (cdiv (ts_n_steps ts) (ts_thinning ts)) dim D1 B1 _ _ B3 B4); [now apply ts_positions_shape|lia]. }
  assert (F2 : fits_shape lb (stack2 (ts_logprobs (ts_thinning ts) out))).
  { refine (fits2 lb _ c2 s2 (length out) (cdiv (ts_n_steps ts) (ts_thinning ts)) D2 B5 _ _ B7); [eapply ts_2d_shape; eauto|lia]. }
  assert (F3 : fits_shape ab (stack2 (ts_accs (ts_thinning ts) out))).
  { refine (fits2 ab _ c3 s3 (length out) (cdiv (ts_n_steps ts) (ts_thinning ts)) D3 B8 _ _ B10); [eapply ts_2d_shape; eauto|lia]. }
  destruct (update_buffer_ok pb _ (Z.of_nat cur) F1) as (pb' & U1 & _).
  destruct (update_buffer_ok lb _ (Z.of_nat cur) F2) as (lb' & U2 & _).
  destruct (update_buffer_ok ab _ (Z.of_nat cur) F3) as (ab' & U3 & _).
  unfold mbind at 1, buf_update at 1. rewrite P1, U1.
  unfold mbind at 1, buf_update at 1. rewrite hget_hset_neq by auto. rewrite P2, U2.
  unfold mbind at 1, buf_update at 1. rewrite !hget_hset_neq by auto. rewrite P3, U3.
  unfold mbind at 1, heap_set at 1. 
  destruct (rmapM_all_Ok (fun ps : list vec => match last_opt ps with Some p => Ok p | None => Raise IndexError end)
     (ts_positions (ts_thinning ts) out)) as [ys Hys].
  { intros ps Hps. unfold ts_positions in Hps. rewrite map_map in Hps. apply in_map_iff in Hps as (co & <- & Hco).
    match goal with |- context [last_opt ?l] => destruct (last_opt l) eqn:El end; [eauto|].
    exfalso. destruct (stride (ts_thinning ts) co) as [|z zs] eqn:Es; [|discriminate El].
    apply (f_equal (@length _)) in Es. rewrite length_stride in Es by auto. simpl in Es.
    destruct (HR co Hco) as [Hlc _]. rewrite Hlc in Es. pose proof (cdiv_pos (ts_n_steps ts) (ts_thinning ts)). lia. }
  unfold mbind at 1, mlift at 1. rewrite Hys. unfold mret. eauto.
Qed.

(** Facts about step outputs carried to the buffers. *)
Lemma steps_transfer samp ts k xs d w k' xs' w' pl pb ll lb al ab kern lp cur dim good (P : vec -> F -> Prop) :
  setup w ts pl pb ll lb al ab kern lp cur ->
  sampler_shape (samp kern lp d) (ts_n_steps ts) dim good -> (forall x, In x xs -> good x) ->
  let kept := cdiv (ts_n_steps ts) (ts_thinning ts) in
  room pb cur kept -> room lb cur kept -> room ab cur kept ->
  take_steps samp ts k xs d w = (Ok (k', xs'), w') ->
  (forall q x co o, In x xs -> samp kern lp d (ts_n_steps ts) q x = Ok co -> In o co -> P (s_pos o) (s_lp o)) ->
  exists pb' lb',
    hget pl w' = Some (OBuf pb') /\ hget ll w' = Some (OBuf lb') /\
    (forall c s, c < length xs -> cur <= s < cur + kept ->
      P (recorded_position pb' dim c s) (aget (b_data lb') [c; s])) /\
    (forall x, In x xs' -> exists l, P x l).
Proof.
  intros Hsu HS Hg kept R1 R2 R3 H HP.
  destruct (C08_setup_proof _ _ _ _ _ _ _ _ _ _ _ _ _ _ _ _ _ _ _ _ Hsu HS Hg R1 R2 R3 H) as
    (out & pb' & lb' & ab' & A1 & A2 & A3 & A4 & _ & _ & _ & A5 & A6 & A7 & A8 & _ & Hth & _).
  exists pb', lb'. destruct A4 as [Y1 Y2 _ _ _ _ _ _].
  split; [exact (target_buf _ _ _ _ _ Y1)|]. split; [exact (target_buf _ _ _ _ _ Y2)|]. split.
  - intros c s Hc Hs. set (j := s - cur). replace s with (cur + j) by lia.
    assert (Hj : j * ts_thinning ts < ts_n_steps ts) by (apply cdiv_lt; [auto|fold kept; lia]).
    destruct (A3 (nth c out [])) as [HL1 HL2]. { apply nth_In. rewrite A1; auto. }
    destruct (nth_error (nth c out []) (j * ts_thinning ts)) as [o|] eqn:Eo.
    2: { apply nth_error_None in Eo. lia. }
    assert (Hin : In o (nth c out [])) by (eapply nth_error_In; eauto).
    destruct (A5 c j o) as (V1 & V2 & _); [rewrite A1; auto|auto|auto|].
    replace (recorded_position pb' dim c (cur + j)) with (s_pos o).
    { rewrite V2. eapply HP; [apply nth_In; exact Hc|apply A2; auto|auto]. }
    apply (list_eq_nth f0). { unfold recorded_position. rewrite map_length, seq_length. auto. }
    intros i Hi. rewrite HL2 in Hi by auto. unfold recorded_position.
    rewrite (nth_map_seq (fun i => aget (b_data pb') [c; cur + j; i])) by auto. symmetry. auto.
  - intros x Hx. destruct (In_nth _ _ [] Hx) as (c & Hc & <-). rewrite A7 in Hc.
    destruct (A8 c Hc) as (_ & o & Ho & ->). apply nth_error_In in Ho. exists (s_lp o).
    eapply HP; [apply nth_In; exact Hc|apply A2; auto|auto].
Qed.

(** The kernels of the repository that TakeSerialSteps can run. *)
Definition repo_kernel (kf : skernel) (dim : nat) : Prop :=
  (exists ss, kf = grw_kernel ss) \/ (exists ss, kf = mala_kernel ss) \/
  (exists h, kf = hmc_kernel h /\ length (h_chol h) = dim).

Lemma repo_kernel_shape kf f d dim : repo_kernel kf dim -> normal_shape -> grad_shape f d dim -> kernel_shape kf f d dim.
Proof.
  intros [[ss ->]|[[ss ->]|(h & -> & Hh)]] Hn Hg; [apply grw_shape|apply mala_shape|apply hmc_shape]; auto.
Qed.
Lemma repo_kernel_keeps kf f d dim : repo_kernel kf dim -> (forall v : F, fneg (fneg v) = v) -> keeps_density kf f d.
Proof.
  intros [[ss ->]|[[ss ->]|(h & -> & Hh)]] Hn; [apply grw_keeps|apply mala_keeps|apply hmc_keeps]; auto.
Qed.
Lemma repo_kernel_reject kf dim f d : repo_kernel kf dim ->
  forall q x lp o, kf q x lp f d = Ok o -> s_acc o = false -> s_pos o = x.
Proof.
  intros [[ss ->]|[[ss ->]|(h & -> & Hh)]] q x lp o H E.
  - apply grw_contract in H as (y & _ & _ & _ & B). now apply B.
  - apply mala_contract in H as (y & r & _ & _ & _ & _ & _ & B). now apply B.
  - apply hmc_contract in H as (m & _ & _ & _ & B). now apply B.
Qed.
Lemma repo_kernel_possible kf dim f d : NumLaws -> repo_kernel kf dim -> never_impossible kf f d.
Proof.
  intros NL [[ss ->]|[[ss ->]|(h & -> & Hh)]] q x lp o H E.
  - eapply grw_possible; eauto. - eapply mala_possible; eauto. - eapply hmc_possible; eauto.
Qed.

Lemma C11_serial_proof ts k xs d w k' xs' w' pl pb ll lb al ab kf lpr f cur dim :
  setup w ts pl pb ll lb al ab (RSer kf) lpr cur -> density_of lpr f ->
  repo_kernel kf dim -> normal_shape -> grad_shape f d dim -> (forall v : F, fneg (fneg v) = v) ->
  (forall x, In x xs -> length x = dim) ->
  let kept := cdiv (ts_n_steps ts) (ts_thinning ts) in
  room pb cur kept -> room lb cur kept -> room ab cur kept ->
  take_serial_steps ts k xs d w = (Ok (k', xs'), w') ->
  exists pb' lb',
    hget pl w' = Some (OBuf pb') /\ hget ll w' = Some (OBuf lb') /\
    (forall c s, c < length xs -> cur <= s < cur + kept ->
      aget (b_data lb') [c; s] = lp_val f (recorded_position pb' dim c s) d).
Proof.
  intros Hsu Hf Hk Hn Hg Hnn Hx kept R1 R2 R3 H.
  destruct (steps_transfer samp_serial ts k xs d w k' xs' w' pl pb ll lb al ab (RSer kf) lpr cur dim
    (fun x => length x = dim) (fun x l => l = lp_val f x d) Hsu) as (pb' & lb' & A1 & A2 & A3 & _); auto.
  - eapply samp_serial_shape; eauto. now apply repo_kernel_shape.
  - intros q x co o _ E Ho. unfold samp_serial in E. rewrite (as_density _ _ Hf) in E.
    eapply serial_density; eauto. eapply repo_kernel_keeps; eauto.
  - exists pb', lb'. auto.
Qed.

Lemma C11_group_proof ts k xs d w k' xs' w' pl pb ll lb al ab p lpr f cur dim :
  setup w ts pl pb ll lb al ab (RNFP p) lpr cur -> density_of lpr f ->
  samples_shape (nfp_model p) dim -> 0 < nfp_bs p -> ignores_n_steps f ->
  (forall x, In x xs -> length x = dim) ->
  let kept := cdiv (ts_n_steps ts) (ts_thinning ts) in
  room pb cur kept -> room lb cur kept -> room ab cur kept ->
  take_group_steps ts k xs d w = (Ok (k', xs'), w') ->
  exists pb' lb',
    hget pl w' = Some (OBuf pb') /\ hget ll w' = Some (OBuf lb') /\
    (forall c s, c < length xs -> cur <= s < cur + kept ->
      aget (b_data lb') [c; s] = lp_val f (recorded_position pb' dim c s) d).
Proof.
  intros Hsu Hf HS Hb Hi Hx kept R1 R2 R3 H.
  destruct (steps_transfer samp_group ts k xs d w k' xs' w' pl pb ll lb al ab (RNFP p) lpr cur dim
    (fun x => length x = dim) (fun x l => l = lp_val f x d) Hsu) as (pb' & lb' & A1 & A2 & A3 & _); auto.
  - eapply samp_group_shape; eauto.
  - intros q x co o _ E Ho. unfold samp_group in E. rewrite (as_density _ _ Hf) in E.
    eapply group_density; eauto.
  - exists pb', lb'. auto.
Qed.

Lemma C14_serial_proof ts k xs d w k' xs' w' pl pb ll lb al ab kf lpr f cur dim :
  NumLaws ->
  setup w ts pl pb ll lb al ab (RSer kf) lpr cur -> density_of lpr f ->
  repo_kernel kf dim -> normal_shape -> grad_shape f d dim ->
  (forall x, In x xs -> length x = dim /\ ~ impossible (lp_val f x d)) ->
  let kept := cdiv (ts_n_steps ts) (ts_thinning ts) in
  room pb cur kept -> room lb cur kept -> room ab cur kept ->
  take_serial_steps ts k xs d w = (Ok (k', xs'), w') ->
  (forall x, In x xs' -> length x = dim /\ ~ impossible (lp_val f x d)) /\
  exists pb' lb',
    hget pl w' = Some (OBuf pb') /\ hget ll w' = Some (OBuf lb') /\
    (forall c s, c < length xs -> cur <= s < cur + kept -> ~ impossible (aget (b_data lb') [c; s])).
Proof.
  intros NL Hsu Hf Hk Hn Hg Hx kept R1 R2 R3 H.
  destruct (steps_transfer samp_serial ts k xs d w k' xs' w' pl pb ll lb al ab (RSer kf) lpr cur dim
    (fun x => length x = dim) (fun x l => length x = dim /\ ~ impossible l /\ l = lp_val f x d) Hsu) as (pb' & lb' & A1 & A2 & A3 & A4); auto.
  - eapply samp_serial_shape; eauto. now apply repo_kernel_shape.
  - intros x Hin. now apply Hx.
  - intros q x co o Hin E Ho. split.
    { pose proof (samp_serial_shape kf lpr f d (ts_n_steps ts) dim Hf (repo_kernel_shape _ _ _ _ Hk Hn Hg)) as Q.
      destruct (Q q x co (proj1 (Hx _ Hin)) E) as [_ Q2]. now apply Q2. }
    unfold samp_serial in E. rewrite (as_density _ _ Hf) in E. pose proof (nl_neg_neg NL) as Hnn.
    eapply serial_possible; eauto.
    + eapply repo_kernel_keeps; eauto.
    + eapply repo_kernel_possible; eauto.
    + eapply repo_kernel_reject; eauto.
    + now apply Hx.
  - split. { intros x Hin. destruct (A4 x Hin) as (l & B0 & B1 & ->). auto. }
    exists pb', lb'. split; [auto|]. split; [auto|]. intros c s Hc Hs. now apply A3.
Qed.

Lemma C14_group_proof ts k xs d w k' xs' w' pl pb ll lb al ab p lpr f cur dim :
  NumLaws ->
  setup w ts pl pb ll lb al ab (RNFP p) lpr cur -> density_of lpr f ->
  samples_shape (nfp_model p) dim -> 0 < nfp_bs p ->
  (forall x, In x xs -> length x = dim /\ ~ impossible (lp_val f x d)) ->
  let kept := cdiv (ts_n_steps ts) (ts_thinning ts) in
  room pb cur kept -> room lb cur kept -> room ab cur kept ->
  take_group_steps ts k xs d w = (Ok (k', xs'), w') ->
  (forall x, In x xs' -> length x = dim /\ (ignores_n_steps f -> ~ impossible (lp_val f x d))) /\
  exists pb' lb',
    hget pl w' = Some (OBuf pb') /\ hget ll w' = Some (OBuf lb') /\
    (forall c s, c < length xs -> cur <= s < cur + kept -> ~ impossible (aget (b_data lb') [c; s])).
Proof.
  intros NL Hsu Hf HS Hb Hx kept R1 R2 R3 H.
  destruct (steps_transfer samp_group ts k xs d w k' xs' w' pl pb ll lb al ab (RNFP p) lpr cur dim
    (fun x => length x = dim)
    (fun x l => length x = dim /\ ~ impossible l /\ (ignores_n_steps f -> l = lp_val f x d)) Hsu) as (pb' & lb' & A1 & A2 & A3 & A4); auto.
  - eapply samp_group_shape; eauto.
  - intros x Hin. now apply Hx.
  - intros q x co o Hin E Ho. split.
    { pose proof (samp_group_shape p lpr f d (ts_n_steps ts) dim Hf HS Hb) as Q.
      destruct (Q q x co (proj1 (Hx _ Hin)) E) as [_ Q2]. now apply Q2. }
    unfold samp_group in E. rewrite (as_density _ _ Hf) in E. split.
    + eapply group_possible; eauto. now apply Hx.
    + intros Hi. eapply group_density; eauto.
  - split. { intros x Hin. destruct (A4 x Hin) as (l & B0 & B1 & B2). split; auto. intros Hi. rewrite <- B2; auto. }
    exists pb', lb'. split; [auto|]. split; [auto|]. intros c s Hc Hs. now apply A3.
Qed.
End StepsK.
