(** The sample buffers of a bundle stay honest under every strategy of the bundle. *)
From Verif Require Import Prelude Num M_Core M_Kernels M_Strategies M_PT M_Bundle P_Lists P_Buffer
  Spec Spec_Core P_Core Spec_Steps P_Steps Spec_Kernels P_Kernels P_StepsK Spec_Train Spec_Sampler P_Sampler P_Train Spec_Bundle P_Bundle3 Spec_Kinds P_Kinds Spec_Hist P_Hist1.

Section Hist.
Context {N : Num} {G : Rng} {NF : NFOps}.

Lemma chainP {A B} (P : world -> Prop) (m : M world A) (f : A -> M world B) w :
  P (snd (m w)) -> (forall a w1, m w = (Ok a, w1) -> P w1 -> P (snd (f a w1))) -> P (snd (mbind m f w)).
Proof. intros H1 H2. unfold mbind. destruct (m w) as [[a|e] w1] eqn:E; cbn in H1; [eapply H2; eauto|exact H1]. Qed.
Lemma peelP {A B} (P : world -> Prop) (m : M world A) (f : A -> M world B) w :
  P w -> snd (m w) = w -> (forall a, m w = (Ok a, w) -> P (snd (f a w))) -> P (snd (mbind m f w)).
Proof. intros H0 H1 H2. unfold mbind. destruct (m w) as [[a|e] w1] eqn:E; cbn in H1; subst w1; [apply H2; reflexivity|exact H0]. Qed.

Variables (c : config) (good : mdl -> Prop) (hx : list obj) (rx : dict resource) (m0 : mdl).
Variables (okpos : vec -> Prop) (ok : vec -> F -> Prop) (D : datad -> Prop).
Hypothesis Hclass : model_class good (c_n_dims c).
Hypothesis Hdim : forall x, okpos x -> length x = c_n_dims c.
Hypothesis Hloc : forall d k x co, D d -> okpos x -> serial_sample (mala_kernel (c_step c)) (c_logpdf c) d (c_local c) k x = Ok co ->
  length co = c_local c /\ forall o, In o co -> okpos (s_pos o) /\ ok (s_pos o) (s_lp o).
Hypothesis Hglob : forall d m k x co, D d -> good m -> okpos x -> group_sample (mkNfp m (c_nf_bs c)) (c_logpdf c) d (c_global c) k x = Ok co ->
  length co = c_global c /\ forall o, In o co -> okpos (s_pos o) /\ ok (s_pos o) (s_lp o).

Definition w0 : world := mkWorld (base_heap c m0 ++ hx) (base_resources c m0 ++ rx).

Definition l_pos (ph : bool) := if ph then L_pos_tr else L_pos_pr.
Definition l_lp (ph : bool) := if ph then L_lp_tr else L_lp_pr.
Definition l_acc (ph g : bool) := if ph then (if g then L_ga_tr else L_la_tr) else (if g then L_ga_pr else L_la_pr).
Definition slots_of (ph : bool) := phase_slots c (if ph then c_train_loops c else c_prod_loops c).
Definition phase_state (ph : bool) (st : state) : Prop :=
  dget (s_data st) "target_positions" = Some (SStr (if ph then "positions_training" else "positions_production")) /\
  dget (s_data st) "target_log_prob" = Some (SStr (if ph then "log_prob_training" else "log_prob_production")) /\
  dget (s_data st) "target_local_accs" = Some (SStr (if ph then "local_accs_training" else "local_accs_production")) /\
  dget (s_data st) "target_global_accs" = Some (SStr (if ph then "global_accs_training" else "global_accs_production")) /\
  dget (s_data st) "training" = Some (SBool ph).
Definition good_entries (w : world) : Prop :=
  (exists m, dget (rdict w) "model" = Some (RModel m) /\ good m) /\
  (exists m, dget (rdict w) "global_sampler" = Some (RNFP (mkNfp m (c_nf_bs c))) /\ good m).
Record inv (w : world) : Prop := mkInv {
  iv_same : same_resources w0 w;
  iv_good : good_entries w;
  iv_state : exists ph st, hget L_state w = Some (OState st) /\ phase_state ph st;
  iv_pair : forall ph, exists pb lb, hget (l_pos ph) w = Some (OBuf pb) /\ hget (l_lp ph) w = Some (OBuf lb) /\ pair_ok ok (c_n_chains c) (slots_of ph) (c_n_dims c) pb lb;
  iv_flags : forall ph g, exists ab, hget (l_acc ph g) w = Some (OBuf ab) /\ flags_ok (c_n_chains c) (slots_of ph) ab }.

Definition tracked : list loc := [L_pos_tr; L_lp_tr; L_la_tr; L_ga_tr; L_pos_pr; L_lp_pr; L_la_pr; L_ga_pr; L_state].
Lemma tracked_pos ph : In (l_pos ph) tracked. Proof. destruct ph; cbn; tauto. Qed.
Lemma tracked_lp ph : In (l_lp ph) tracked. Proof. destruct ph; cbn; tauto. Qed.
Lemma tracked_acc ph g : In (l_acc ph g) tracked. Proof. destruct ph, g; cbn; tauto. Qed.
Lemma tracked_state : In L_state tracked. Proof. cbn; tauto. Qed.
Lemma inv_frame w w' : inv w -> same_resources w0 w' -> good_entries w' -> (forall l, In l tracked -> hget l w' = hget l w) -> inv w'.
Proof.
  intros [I1 I2 I3 I4 I5] HS HG HT. constructor; auto.
  - rewrite HT by apply tracked_state. exact I3.
  - intros ph. rewrite !HT by (apply tracked_pos || apply tracked_lp). apply I4.
  - intros ph g. rewrite HT by apply tracked_acc. apply I5.
Qed.

Lemma obj_fixed w n l : same_resources w0 w -> dget (rdict w0) n = Some (RObj l) -> dget (rdict w) n = Some (RObj l).
Proof. intros (_ & _ & _ & H) E. destruct (H _ _ E) as (r' & E' & L). cbn in L. now subst. Qed.
Lemma ser_fixed w n l : same_resources w0 w -> dget (rdict w0) n = Some (RSer l) -> dget (rdict w) n = Some (RSer l).
Proof. intros (_ & _ & _ & H) E. destruct (H _ _ E) as (r' & E' & L). cbn in L. now subst. Qed.
Lemma log_fixed w n l : same_resources w0 w -> dget (rdict w0) n = Some (RLog l) -> dget (rdict w) n = Some (RLog l).
Proof. intros (_ & _ & _ & H) E. destruct (H _ _ E) as (r' & E' & L). cbn in L. now subst. Qed.
Lemma buf_fixed w l b0 : same_resources w0 w -> hget l w0 = Some (OBuf b0) ->
  exists b, hget l w = Some (OBuf b) /\ ashape (b_data b) = ashape (b_data b0) /\ b_cursor_dim b = b_cursor_dim b0.
Proof. intros (_ & H & _) E. destruct (H _ _ E) as (o' & E' & L). destruct o'; cbn in L; try contradiction. eexists. split; [exact E'|tauto]. Qed.
Lemma pos_layout w ph pb : same_resources w0 w -> hget (l_pos ph) w = Some (OBuf pb) ->
  ashape (b_data pb) = [c_n_chains c; slots_of ph; c_n_dims c] /\ b_cursor_dim pb = 1.
Proof.
  intros HS E. destruct ph; [destruct (buf_fixed w L_pos_tr _ HS eq_refl) as (b & E' & S1 & S2)|destruct (buf_fixed w L_pos_pr _ HS eq_refl) as (b & E' & S1 & S2)];
    cbn [l_pos] in E; rewrite E in E'; injection E' as <-; (split; [exact S1|exact S2]).
Qed.
Lemma lp_layout w ph lb : same_resources w0 w -> hget (l_lp ph) w = Some (OBuf lb) ->
  ashape (b_data lb) = [c_n_chains c; slots_of ph] /\ b_cursor_dim lb = 1.
Proof.
  intros HS E. destruct ph; [destruct (buf_fixed w L_lp_tr _ HS eq_refl) as (b & E' & S1 & S2)|destruct (buf_fixed w L_lp_pr _ HS eq_refl) as (b & E' & S1 & S2)];
    cbn [l_lp] in E; rewrite E in E'; injection E' as <-; (split; [exact S1|exact S2]).
Qed.
Lemma acc_layout w ph g ab : same_resources w0 w -> hget (l_acc ph g) w = Some (OBuf ab) ->
  ashape (b_data ab) = [c_n_chains c; slots_of ph] /\ b_cursor_dim ab = 1.
Proof.
  intros HS E. destruct ph, g; [destruct (buf_fixed w L_ga_tr _ HS eq_refl) as (b & E' & S1 & S2)|destruct (buf_fixed w L_la_tr _ HS eq_refl) as (b & E' & S1 & S2)
    |destruct (buf_fixed w L_ga_pr _ HS eq_refl) as (b & E' & S1 & S2)|destruct (buf_fixed w L_la_pr _ HS eq_refl) as (b & E' & S1 & S2)];
    cbn [l_acc] in E; rewrite E in E'; injection E' as <-; (split; [exact S1|exact S2]).
Qed.

Lemma target_is w key name l l' b st : same_resources w0 w -> hget L_state w = Some (OState st) ->
  dget (s_data st) key = Some (SStr name) -> dget (rdict w0) name = Some (RObj l') ->
  target w "sampler_state" key l b -> l = l'.
Proof.
  intros HS Hst Hk Hn (sl & st' & bn & T1 & T2 & T3 & T4 & T5).
  pose proof (obj_fixed w "sampler_state" L_state HS eq_refl) as E1. rewrite E1 in T1. injection T1 as <-.
  rewrite Hst in T2. injection T2 as <-. rewrite Hk in T3. injection T3 as <-.
  rewrite (obj_fixed w _ _ HS Hn) in T4. now injection T4.
Qed.
Lemma pos_neq_lp ph ph' : l_pos ph <> l_lp ph'. Proof. destruct ph, ph'; intro X; vm_compute in X; discriminate X. Qed.
Lemma pos_neq_acc ph ph' g : l_pos ph <> l_acc ph' g. Proof. destruct ph, ph', g; intro X; vm_compute in X; discriminate X. Qed.
Lemma lp_neq_acc ph ph' g : l_lp ph <> l_acc ph' g. Proof. destruct ph, ph', g; intro X; vm_compute in X; discriminate X. Qed.
Lemma pos_inj ph ph' : l_pos ph = l_pos ph' -> ph = ph'. Proof. destruct ph, ph'; intro X; vm_compute in X; auto; discriminate X. Qed.
Lemma lp_inj ph ph' : l_lp ph = l_lp ph' -> ph = ph'. Proof. destruct ph, ph'; intro X; vm_compute in X; auto; discriminate X. Qed.
Lemma acc_inj ph g ph' g' : l_acc ph g = l_acc ph' g' -> ph = ph' /\ g = g'. Proof. destruct ph, ph', g, g'; intro X; vm_compute in X; auto; discriminate X. Qed.
Lemma state_neq ph g : l_pos ph <> L_state /\ l_lp ph <> L_state /\ l_acc ph g <> L_state.
Proof. destruct ph, g; repeat split; intro X; vm_compute in X; discriminate X. Qed.
Lemma small_locs ph g l : 11 <= l -> l_pos ph <> l /\ l_lp ph <> l /\ l_acc ph g <> l.
Proof. destruct ph, g; unfold l_pos, l_lp, l_acc, L_pos_tr, L_lp_tr, L_la_tr, L_ga_tr, L_pos_pr, L_lp_pr, L_la_pr, L_ga_pr; lia. Qed.

Definition step_ok (st : strategy) : Prop := forall k xs d w r w', D d -> inv w -> (forall x, In x xs -> okpos x) -> st k xs d w = (r, w') ->
  inv w' /\ (forall l, 13 <= l -> hget l w' = hget l w) /\
  (forall k' xs', r = Ok (k', xs') -> length xs' = length xs /\ forall x, In x xs' -> okpos x).

Lemma rmapM_in {A B} (f : A -> res B) : forall l ys, rmapM f l = Ok ys -> forall y, In y ys -> exists x, In x l /\ f x = Ok y.
Proof.
  induction l as [|a l IH]; intros ys H y Hy; cbn in H; [injection H as <-; destruct Hy|].
  destruct (f a) as [b|] eqn:E; [|discriminate]. destruct (rmapM f l) as [bs|] eqn:E2; [|discriminate]. cbn in H. injection H as <-.
  destruct Hy as [<-|Hy]; [exists a; split; [now left|exact E]|]. destruct (IH _ eq_refl y Hy) as (x & Hx & Hf). exists x. split; [now right|exact Hf].
Qed.

Lemma ts_ok samp ts (g : bool) n : ts_state ts = "sampler_state"%string -> ts_pos_key ts = "target_positions"%string -> ts_lp_key ts = "target_log_prob"%string ->
  ts_acc_key ts = (if g then "target_global_accs" else "target_local_accs")%string -> 11 <= ts_cur ts <= 12 -> ts_n_steps ts = n ->
  (forall w d kern lp k x co, D d -> inv w -> dget (rdict w) (ts_kernel ts) = Some kern -> dget (rdict w) (ts_logpdf ts) = Some lp -> okpos x ->
     samp kern lp d n k x = Ok co -> length co = n /\ forall o, In o co -> okpos (s_pos o) /\ ok (s_pos o) (s_lp o)) ->
  step_ok (take_steps samp ts).
Proof.
  intros E1 E2 E3 E4 E5 E6 HS k xs d w r w' Hd HI Hx H.
  pose proof (take_steps_kinds samp ts k xs d w ltac:(intros l [])) as KS. rewrite H in KS. cbn [snd] in KS.
  destruct (take_steps_world _ _ _ _ _ _ _ _ H) as [(-> & e & ->)|(pl & ll & al & kern & lp & out & cur & w1 & HL & Hv & Hth & Hc & U1 & Hrest)].
  { split; [auto|]. split; [auto|]. intros; discriminate. }
  destruct HL as ([b1 T1] & [b2 T2] & [b3 T3] & T4 & T5). rewrite E1, E2 in T1. rewrite E1, E3 in T2. rewrite E1, E4 in T3. rewrite E6 in * .
  destruct HI as [I1 I2 (ph & st & Hst & P1 & P2 & P3 & P4 & P5) I4 I5].
  assert (HI : inv w) by (constructor; auto; exists ph, st; unfold phase_state; auto 10).
  assert (pl = l_pos ph). { eapply target_is; [exact I1|exact Hst|exact P1| |exact T1]. destruct ph; reflexivity. } subst pl.
  assert (ll = l_lp ph). { eapply target_is; [exact I1|exact Hst|exact P2| |exact T2]. destruct ph; reflexivity. } subst ll.
  assert (al = l_acc ph g). { destruct g; [eapply target_is; [exact I1|exact Hst|exact P4| |exact T3]|eapply target_is; [exact I1|exact Hst|exact P3| |exact T3]]; destruct ph; reflexivity. } subst al.
  assert (Hout : length out = length xs /\ forall co, In co out -> length co = n /\ forall o, In o co -> okpos (s_pos o) /\ ok (s_pos o) (s_lp o)).
  { split; [destruct (vmap_chains_nth _ _ _ _ k 0 (split_keys_length _ _) Hv); auto|]. intros co Hco. apply (In_nth _ _ []) in Hco as (i & Hi & <-).
    destruct (vmap_chains_nth _ _ _ _ k i (split_keys_length _ _) Hv) as [Hl Hn]. rewrite Hl in Hi. specialize (Hn Hi).
    eapply (HS w d kern lp); eauto. apply Hx, nth_In, Hi. }
  destruct Hout as [Hlen Hout].
  assert (HR : rectangular n (c_n_dims c) out). { intros co Hco. destruct (Hout co Hco) as [A B]. split; [exact A|]. intros o Ho. apply Hdim, B, Ho. }
  destruct (I4 ph) as (pb & lb & Hpb & Hlb & HP). destruct (I5 ph g) as (ab & Hab & HF).
  destruct (pos_layout _ _ _ I1 Hpb) as [S1 C1]. destruct (lp_layout _ _ _ I1 Hlb) as [S2 C2]. destruct (acc_layout _ _ _ _ I1 Hab) as [S3 C3].
  apply buf_update_inv in U1 as (pb0 & pb' & Hpb0 & U1 & ->). rewrite Hpb in Hpb0. injection Hpb0 as <-.
  assert (Hlb1 : hget (l_lp ph) (hset (l_pos ph) (OBuf pb') w) = Some (OBuf lb)) by (rewrite hget_hset_neq by apply pos_neq_lp; exact Hlb).
  assert (Hab1 : hget (l_acc ph g) (hset (l_pos ph) (OBuf pb') w) = Some (OBuf ab)) by (rewrite hget_hset_neq by apply pos_neq_acc; exact Hab).
  destruct (fits_too _ _ _ _ lb _ _ s_lp _ _ _ Hth HR C1 C2 S1 S2 U1) as (lb' & U2).
  destruct (fits_too _ _ _ _ ab _ _ (fun o => b2f (s_acc o)) _ _ _ Hth HR C1 C3 S1 S3 U1) as (ab' & U3).
  destruct Hrest as [(e & R1)|(w2 & R1 & Hrest)].
  { exfalso. unfold buf_update in R1. rewrite Hlb1 in R1. unfold ts_logprobs in R1. rewrite U2 in R1. discriminate R1. }
  apply buf_update_inv in R1 as (lb0 & lb0' & Hlb0 & R1 & ->). rewrite Hlb1 in Hlb0. injection Hlb0 as <-.
  assert (lb0' = lb'). { unfold ts_logprobs in R1. rewrite U2 in R1. now injection R1. } subst lb0'.
  assert (Hab2 : hget (l_acc ph g) (hset (l_lp ph) (OBuf lb') (hset (l_pos ph) (OBuf pb') w)) = Some (OBuf ab)) by (rewrite hget_hset_neq by apply lp_neq_acc; exact Hab1).
  destruct Hrest as [(e & R2)|(w3 & R2 & -> & Hr)].
  { exfalso. unfold buf_update in R2. rewrite Hab2 in R2. unfold ts_accs in R2. rewrite U3 in R2. discriminate R2. }
  apply buf_update_inv in R2 as (ab0 & ab0' & Hab0 & R2 & ->). rewrite Hab2 in Hab0. injection Hab0 as <-.
  assert (ab0' = ab'). { unfold ts_accs in R2. rewrite U3 in R2. now injection R2. } subst ab0'.
  set (wf := hset (ts_cur ts) _ _) in * .
  assert (Hother : forall l, l <> l_pos ph -> l <> l_lp ph -> l <> l_acc ph g -> l <> ts_cur ts -> hget l wf = hget l w).
  { intros l N1 N2 N3 N4. unfold wf. rewrite !hget_hset_neq by auto. reflexivity. }
  pose proof (small_locs ph g (ts_cur ts) (proj1 E5)) as (Z1 & Z2 & Z3).
  assert (F1 : hget (l_pos ph) wf = Some (OBuf pb')).
  { unfold wf. rewrite hget_hset_neq by auto. rewrite hget_hset_neq by (apply not_eq_sym, pos_neq_acc). rewrite hget_hset_neq by (apply not_eq_sym, pos_neq_lp). eapply hget_hset_eq; eauto. }
  assert (F2 : hget (l_lp ph) wf = Some (OBuf lb')).
  { unfold wf. rewrite hget_hset_neq by auto. rewrite hget_hset_neq by (apply not_eq_sym, lp_neq_acc). eapply hget_hset_eq; eauto. }
  assert (F3 : hget (l_acc ph g) wf = Some (OBuf ab')).
  { unfold wf. rewrite hget_hset_neq by auto. eapply hget_hset_eq; eauto. }
  split; [|split].
  - constructor.
    + eapply same_trans; eauto.
    + exact I2.
    + exists ph, st. split; [|unfold phase_state; auto 10]. rewrite Hother; auto; try (apply not_eq_sym, (state_neq ph g)). unfold L_state; lia.
    + intros ph'. destruct (Bool.bool_dec ph' ph) as [->|Hne].
      * exists pb', lb'. split; [exact F1|]. split; [exact F2|].
        refine (pair_write ok _ _ _ _ _ _ _ _ _ _ _ Hth HR _ C1 C2 S1 S2 U1 R1 HP). intros co o Hco Ho. apply (Hout co Hco), Ho.
      * destruct (small_locs ph' g (ts_cur ts) (proj1 E5)) as (Y1 & Y2 & Y3).
        rewrite !Hother; auto; try apply pos_neq_acc; try apply lp_neq_acc; try apply pos_neq_lp; try (apply not_eq_sym, pos_neq_lp);
          intros X; first [apply pos_inj in X|apply lp_inj in X]; auto.
    + intros ph' g'. destruct (Bool.bool_dec ph' ph) as [->|Hne].
      * destruct (Bool.bool_dec g' g) as [->|Hne'].
        { exists ab'. split; [exact F3|]. exact (flags_write _ _ _ _ _ _ _ _ _ Hth HR C3 S3 R2 HF). }
        destruct (small_locs ph g' (ts_cur ts) (proj1 E5)) as (Y1 & Y2 & Y3).
        rewrite Hother; auto; try (apply not_eq_sym, pos_neq_acc); try (apply not_eq_sym, lp_neq_acc). intros X. apply acc_inj in X as [_ X]. auto.
      * destruct (small_locs ph' g' (ts_cur ts) (proj1 E5)) as (Y1 & Y2 & Y3).
        rewrite Hother; auto; try (apply not_eq_sym, pos_neq_acc); try (apply not_eq_sym, lp_neq_acc). intros X. apply acc_inj in X as [X _]. auto.
  - intros l Hl. destruct (small_locs ph g l ltac:(lia)) as (Y1 & Y2 & Y3). apply Hother; auto. lia.
  - intros k' xs' Er. specialize (Hr k' xs' Er). split.
    + apply rmapM_length in Hr. rewrite Hr. unfold ts_positions. rewrite !map_length. auto.
    + intros x Hxin. destruct (rmapM_in _ _ _ Hr x Hxin) as (ps & Hps & Hlast). unfold ts_positions in Hps.
      destruct (last_opt ps) as [p|] eqn:El; [|discriminate]. injection Hlast as ->.
      apply in_map_iff in Hps as (so & <- & Hso). apply in_map_iff in Hso as (co & <- & Hco).
      assert (Hin : In x (map s_pos (stride (ts_thinning ts) co))).
      { clear - El. revert El. generalize (map s_pos (stride (ts_thinning ts) co)). intros [|a l] E; [discriminate|]. cbn in E. injection E as <-.
        destruct (exists_last (l := a :: l) ltac:(discriminate)) as (l' & y & E). rewrite E. apply in_app_iff. right. left.
        replace (last l a) with (last (a :: l) a) by (destruct l; reflexivity). rewrite E. now rewrite last_last. }
      apply in_map_iff in Hin as (o & <- & Ho). apply (Hout co Hco).
      apply (In_nth _ _ odef) in Ho as (j & Hj & <-). rewrite length_stride in Hj by auto. rewrite nth_stride by auto. apply nth_In. apply cdiv_lt; auto.
Qed.

Lemma local_ok : step_ok (take_serial_steps (local_ts c)).
Proof.
  apply (ts_ok samp_serial (local_ts c) false (c_local c)); try reflexivity; [unfold local_ts, ts_cur, L_lcur; lia|].
  intros w d kern lp k x co Hd HI K1 K2 Hx H. destruct HI as [HS _ _ _ _].
  pose proof (ser_fixed w "local_sampler" _ HS eq_refl) as E1. pose proof (log_fixed w "logpdf" _ HS eq_refl) as E2.
  cbn [local_ts ts_kernel ts_logpdf] in K1, K2. rewrite K1 in E1. rewrite K2 in E2. injection E1 as ->. injection E2 as ->.
  unfold samp_serial in H. cbn [as_lpdf bundle_logpdf l_pdf] in H. eapply Hloc; eauto.
Qed.
Lemma global_ok : step_ok (take_group_steps (global_ts c)).
Proof.
  apply (ts_ok samp_group (global_ts c) true (c_global c)); try reflexivity; [unfold global_ts, ts_cur, L_gcur; lia|].
  intros w d kern lp k x co Hd HI K1 K2 Hx H. destruct HI as [HS (_ & m & E1 & Hm) _ _ _].
  pose proof (log_fixed w "logpdf" _ HS eq_refl) as E2.
  cbn [global_ts ts_kernel ts_logpdf] in K1, K2. rewrite K1 in E1. rewrite K2 in E2. injection E1 as ->. injection E2 as ->.
  unfold samp_group in H. cbn [as_lpdf bundle_logpdf l_pdf] in H. eapply Hglob; eauto.
Qed.

(** What the other strategies change. *)
Definition kept (w w' : world) : Prop :=
  good_entries w' /\ (forall l, In l tracked \/ 13 <= l -> hget l w' = hget l w).
Lemma kept_hset w w' l o : kept w w' -> ~ In l tracked -> l < 13 -> kept w (hset l o w').
Proof.
  intros [A B] H1 H2. split; [exact A|]. intros l' Hl'. rewrite hget_hset_neq; [auto|]. intros <-. destruct Hl'; [auto|lia].
Qed.
Lemma ok_of_kept (st : strategy) : (forall k xs d w, D d -> inv w -> kept w (snd (st k xs d w)) /\ same_resources w (snd (st k xs d w)) /\
   forall k' xs', fst (st k xs d w) = Ok (k', xs') -> xs' = xs) -> step_ok st.
Proof.
  intros H k xs d w r w' Hd HI Hx E. destruct (H k xs d w Hd HI) as ((A & B) & KS & C). rewrite E in A, B, C, KS. cbn [fst snd] in A, B, C, KS.
  split; [|split].
  - eapply inv_frame; eauto. eapply same_trans; [apply iv_same, HI|exact KS].
  - intros l Hl. apply B. now right.
  - intros k' xs' Er. apply C in Er. now subst.
Qed.
Lemma lambda_pos f k xs d w k' xs' : fst (lambda f k xs d w) = Ok (k', xs') -> xs' = xs.
Proof. unfold lambda, mbind, mret. destruct (f k xs d w) as [[u|e] w1]; cbn; intros E; [now injection E|discriminate]. Qed.
Lemma lambda_kept w f k xs d : kept w (snd (f k xs d w)) -> kept w (snd (lambda f k xs d w)).
Proof. intros H. unfold lambda. apply (chainP (kept w)); [exact H|]. intros u w1 _ HK. exact HK. Qed.
Lemma kept_refl w : inv w -> kept w w.
Proof. intros HI. split; [apply HI|auto]. Qed.
Lemma not_tracked_cur l : l = L_lcur \/ l = L_gcur \/ l = L_opt \/ l = L_loss -> ~ In l tracked /\ l < 13.
Proof. intros [->|[->|[->| ->]]]; (split; [intros HX; cbn in HX; repeat (destruct HX as [HX|HX]; [vm_compute in HX; discriminate HX|]); exact HX|unfold L_lcur, L_gcur, L_opt, L_loss; lia]). Qed.
Lemma cursors_inv w : inv w -> forall l, In l (stepper_cursors c) -> has_cursor w l.
Proof. intros HI l Hl. eapply same_cursor; [apply HI|]. destruct Hl as [<-|[<-|[]]]; eexists; reflexivity. Qed.

Lemma kept_rset w w' n r : n <> "model"%string -> n <> "global_sampler"%string -> kept w w' -> kept w (snd (res_set n r w')).
Proof.
  intros H1 H2 [[(m & Em & Gm) (mg & Eg & Gg)] B]. split; [|exact B]. cbn. split; [exists m|exists mg]; cbn [rdict]; rewrite dget_dset_neq by auto; auto.
Qed.
Lemma kept_rmodel w w' m : good m -> kept w w' -> kept w (snd (res_set "model" (RModel m) w')).
Proof.
  intros H1 [[_ (mg & Eg & Gg)] B]. split; [|exact B]. cbn. split; [exists m|exists mg]; cbn [rdict]; [rewrite dget_dset_eq; auto|rewrite dget_dset_neq by discriminate; auto].
Qed.
Lemma kept_rglob w w' m : good m -> kept w w' -> kept w (snd (res_set "global_sampler" (RNFP (mkNfp m (c_nf_bs c))) w')).
Proof.
  intros H1 [[(m1 & Em & Gm) _] B]. split; [|exact B]. cbn. split; [exists m1|exists m]; cbn [rdict]; [rewrite dget_dset_neq by discriminate; auto|rewrite dget_dset_eq; auto].
Qed.
Lemma train_kept window k xs d w : inv w -> kept w (snd (train_model (trainer_tm c window) k xs d w)) /\
  forall k' xs', fst (train_model (trainer_tm c window) k xs d w) = Ok (k', xs') -> xs' = xs.
Proof.
  intros HI. pose proof (kept_refl w HI) as K0. destruct HI as [HS (HM & HG) _ _ _].
  pose proof (obj_fixed w "optimizer" L_opt HS eq_refl) as Eo. pose proof (obj_fixed w "loss_buffer" L_loss HS eq_refl) as El.
  split.
  - unfold train_model, trainer_tm. cbn [tm_model tm_data tm_opt tm_loss tm_epochs tm_bs tm_max tm_window].
    apply (peelP (kept w)); [exact K0|apply snd_res_get|]. intros mr Hm. apply res_get_inv in Hm as [_ Hm]. destruct HM as (m & Em & Gm). rewrite Em in Hm. injection Hm as <-.
    apply (peelP (kept w)); [exact K0|reflexivity|]. intros m' Hm'. injection Hm' as <-.
    apply (peelP (kept w)); [exact K0|apply get_buffer_snd|]. intros [dl db] _.
    apply (peelP (kept w)); [exact K0|apply get_optimizer_snd|]. intros [ol opt] Ho. apply get_optimizer_inv in Ho as (_ & Ho1 & Ho2). rewrite Eo in Ho1. injection Ho1 as <-.
    apply (peelP (kept w)); [exact K0|reflexivity|]. intros pool _. apply (peelP (kept w)); [exact K0|reflexivity|]. intros ex _.
    apply (peelP (kept w)); [exact K0|reflexivity|]. intros [[k3 [m' st']] losses] Htr. apply mlift_inv in Htr as [_ Htr].
    pose proof (good_train c good Hclass _ _ _ _ _ _ _ _ _ _ _ Gm Htr) as Gm'.
    destruct (not_tracked_cur L_opt ltac:(auto)) as [NT1 NL1]. destruct (not_tracked_cur L_loss ltac:(auto)) as [NT2 NL2].
    apply (chainP (kept w)).
    { apply (peelP (kept w)); [exact K0|apply get_buffer_snd|]. intros [ll lb] Hl. apply get_buffer_inv in Hl as (_ & Hl1 & Hl2). rewrite El in Hl1. injection Hl1 as <-.
      apply (chainP (kept w)).
      { unfold buf_update. rewrite Hl2. destruct (update_buffer lb (stack1 losses) (b_cursor lb)); [apply kept_hset; auto|exact K0]. }
      intros u w1 _ K1. apply (chainP (kept w)); [rewrite get_buffer_snd; exact K1|]. intros [l2 b2] w2 _ K2.
      apply (chainP (kept w)); [apply kept_hset; auto|]. intros u3 w3 _ K3. apply kept_rset; [discriminate|discriminate|exact K3]. }
    intros u w1 _ K1. apply (chainP (kept w)); [apply kept_hset; auto|]. intros u2 w2 _ K2.
    apply (chainP (kept w)); [apply kept_rmodel; auto|]. intros u3 w3 _ K3.
    apply (chainP (kept w)); [apply kept_rset; [discriminate|discriminate|exact K3]|]. intros u4 w4 _ K4. exact K4.
  - intros k' xs' E. destruct (train_model (trainer_tm c window) k xs d w) as [r w'] eqn:H. cbn [fst] in E. subst r. unfold train_model in H.
    do 7 (apply mbind_Ok in H as ([? ?] & ? & _ & H) || apply mbind_Ok in H as (? & ? & _ & H)).
    repeat match type of H with context [let (_, _) := ?p in _] => destruct p end.
    do 4 (apply mbind_Ok in H as (? & ? & _ & H)). unfold mret in H. now injection H.
Qed.
Lemma base_ok window n st : dget (base_strategies c window) n = Some st -> step_ok st.
Proof.
  unfold base_strategies. cbn [dget].
  destruct (String.eqb n "local_stepper"); [intros H; injection H as <-; apply local_ok|].
  destruct (String.eqb n "global_stepper"); [intros H; injection H as <-; apply global_ok|].
  destruct (String.eqb n "model_trainer"); [intros H; injection H as <-|].
  { apply ok_of_kept. intros k xs d w Hd HI. destruct (train_kept window k xs d w HI) as [A B]. split; [exact A|]. split; [|exact B]. apply train_model_kinds. intros l []. }
  destruct (String.eqb n "update_state"); [intros H; injection H as <-|].
  { intros k xs d w r w' Hd HI Hx H. pose proof (update_state_kinds "sampler_state" prod_keys prod_values k xs d w ltac:(intros l [])) as KS.
    rewrite H in KS. cbn [snd] in KS. unfold update_state in H.
    pose proof (obj_fixed w "sampler_state" L_state (iv_same w HI) eq_refl) as Es.
    apply mbind_cases in H as [(e & H1 & ->)|([l s] & w1 & H1 & H)].
    { pose proof (get_state_snd "sampler_state" w) as Q. rewrite H1 in Q. cbn in Q. subst w'. split; [auto|]. split; [auto|]. intros; discriminate. }
    apply get_state_inv in H1 as (-> & G1 & G2). rewrite Es in G1. injection G1 as <-.
    apply mbind_cases in H as [(e & H1 & _)|(u & w1 & H1 & H)]; [discriminate|]. unfold heap_set in H1. injection H1 as _ <-. unfold mret in H. injection H as <- <-.
    split; [|split].
    - destruct HI as [I1 I2 I3 I4 I5]. constructor; auto.
      + eapply same_trans; eauto.
      + exists false. eexists. split; [eapply hget_hset_eq; eauto|]. unfold phase_state.
        unfold state_update, prod_keys, prod_values; cbn [combine fold_left s_data fst snd].
        do 4 (split; [repeat (rewrite dget_dset_neq by discriminate); apply dget_dset_eq|]). apply dget_dset_eq.
      + intros ph. rewrite !hget_hset_neq by (apply not_eq_sym, (state_neq ph true)). apply I4.
      + intros ph g. rewrite !hget_hset_neq by (apply not_eq_sym, (state_neq ph g)). apply I5.
    - intros l Hl. apply hget_hset_neq. unfold L_state. lia.
    - intros k' xs' E. injection E as <- <-. auto. }
  assert (KX : forall n st, dget (base_strategies c window) n = Some st -> forall k xs d w, inv w -> same_resources w (snd (st k xs d w))).
  { intros n0 st0 H0 k xs d w HI. eapply base_kinds; eauto. apply cursors_inv, HI. }
  destruct (not_tracked_cur L_lcur ltac:(auto)) as [NT1 NL1]. destruct (not_tracked_cur L_gcur ltac:(auto)) as [NT2 NL2].
  destruct (String.eqb n "update_global_step"); [intros H; injection H as <-|].
  { apply ok_of_kept. intros k xs d w Hd HI. split; [|split; [exact (KX "update_global_step"%string _ eq_refl k xs d w HI)|apply lambda_pos]].
    apply lambda_kept. apply (peelP (kept w)); [apply kept_refl, HI|apply get_cursor_snd|]. intros z _. apply kept_hset; auto. apply kept_refl, HI. }
  destruct (String.eqb n "update_local_step"); [intros H; injection H as <-|].
  { apply ok_of_kept. intros k xs d w Hd HI. split; [|split; [exact (KX "update_local_step"%string _ eq_refl k xs d w HI)|apply lambda_pos]].
    apply lambda_kept. apply (peelP (kept w)); [apply kept_refl, HI|apply get_cursor_snd|]. intros z _. apply kept_hset; auto. apply kept_refl, HI. }
  destruct (String.eqb n "reset_steppers"); [intros H; injection H as <-|].
  { apply ok_of_kept. intros k xs d w Hd HI. split; [|split; [exact (KX "reset_steppers"%string _ eq_refl k xs d w HI)|apply lambda_pos]].
    apply lambda_kept. apply (chainP (kept w)); [apply kept_hset; auto; apply kept_refl, HI|]. intros u w1 _ K1. apply kept_hset; auto. }
  destruct (String.eqb n "update_model"); [|discriminate]. intros H; injection H as <-.
  apply ok_of_kept. intros k xs d w Hd HI. split; [|split; [exact (KX "update_model"%string _ eq_refl k xs d w HI)|apply lambda_pos]].
  pose proof (kept_refl w HI) as K0. destruct HI as [_ ((m & Em & Gm) & (mg & Eg & Gg)) _ _ _].
  apply lambda_kept. apply (peelP (kept w)); [exact K0|apply snd_res_get|]. intros mr Hm. apply res_get_inv in Hm as [_ Hm]. rewrite Em in Hm. injection Hm as <-.
  apply (peelP (kept w)); [exact K0|apply snd_res_get|]. intros gr Hg. apply res_get_inv in Hg as [_ Hg]. rewrite Eg in Hg. injection Hg as <-.
  cbn [nfp_bs]. apply kept_rglob; auto.
Qed.

(** A run of such strategies, and any number of calls. *)
Definition run_fine (J : world -> pos_t -> Prop) (strats : dict strategy) (order : list string) : Prop :=
  forall k xs d w r w', D d -> inv w -> J w xs -> (forall x, In x xs -> okpos x) -> run_order strats order k xs d w = (r, w') -> inv w'.
Lemma run_all (J : world -> pos_t -> Prop) (strats : dict strategy) order :
  (forall n (st : strategy), In n order -> dget strats n = Some st -> forall k xs d w r w', D d -> inv w -> J w xs -> (forall x, In x xs -> okpos x) -> st k xs d w = (r, w') ->
     inv w' /\ forall k' xs', r = Ok (k', xs') -> J w' xs' /\ forall x, In x xs' -> okpos x) ->
  run_fine J strats order.
Proof.
  intros HA. unfold run_fine. induction order as [|n order IH]; intros k xs d w r w' Hd HI HJ Hx H; cbn [run_order] in H; [unfold mret in H; injection H as _ <-; exact HI|].
  destruct (dget strats n) as [st|] eqn:E; [|unfold mraise in H; injection H as _ <-; exact HI].
  apply mbind_cases in H as [(e & H1 & ->)|([k1 xs1] & w1 & H1 & H)].
  - exact (proj1 (HA n st (or_introl eq_refl) E _ _ _ _ _ _ Hd HI HJ Hx H1)).
  - destruct (HA n st (or_introl eq_refl) E _ _ _ _ _ _ Hd HI HJ Hx H1) as [I1 Q]. destruct (Q _ _ eq_refl) as [J1 X1].
    eapply (IH (fun n0 st0 Hn => HA n0 st0 (or_intror Hn))); eauto.
Qed.
Lemma calls_inv order args : forall s h, sm_order s = OList order ->
  (forall xs k d w r w', D d -> inv w -> (forall x, In x xs -> okpos x) -> run_order (sm_strategies s) order k xs d w = (r, w') -> inv w') ->
  (forall init d, In (init, d) args -> D d /\ forall x, In x (atleast_2d init) -> okpos x) ->
  inv (mkWorld h (sm_resources s)) -> inv (calls_of s h args).
Proof.
  induction args as [|[init d] args IH]; intros s h E H Ha HI; [exact HI|]. cbn [calls_of].
  apply IH; auto; [intros i0 d0 H0; apply Ha; now right|]. cbn [sampler_after sm_resources].
  replace (mkWorld (heap (snd (sampler_sample s init d h))) (rdict (snd (sampler_sample s init d h)))) with (snd (sampler_sample s init d h)) by now destruct (snd (sampler_sample s init d h)).
  destruct (Ha init d (or_introl eq_refl)) as [Hd Hx]. destruct (sampler_sample s init d h) as [r w'] eqn:Es. unfold sampler_sample in Es. rewrite E in Es. cbn [snd].
  eapply H; eauto.
Qed.
Lemma unwritten0 pb lb n1 n2 C slots dim : pb = buffer_init n1 [C; slots; dim] 1 -> lb = buffer_init n2 [C; slots] 1 -> pair_ok ok C slots dim pb lb.
Proof. intros -> -> i s Hi Hs. left. split; reflexivity. Qed.
Lemma inv_init : good m0 -> inv w0.
Proof.
  intros Hm. constructor.
  - apply same_refl.
  - split; exists m0; split; auto.
  - exists true, init_state. split; [reflexivity|]. repeat split.
  - intros [|]; eexists; eexists; (split; [reflexivity|]); (split; [reflexivity|]); eapply unwritten0; reflexivity.
  - intros [|] [|]; eexists; (split; [reflexivity|]); intros i s Hi Hs; left; reflexivity.
Qed.
(** The invariant in the words of the specification. *)
Lemma inv_phase w (ph : bool) : inv w -> phase_honest c w (if ph then "training" else "production")%string ok.
Proof.
  intros [I1 I2 I3 I4 I5]. destruct (I4 ph) as (pb & lb & Hpb & Hlb & HP). destruct (I5 ph false) as (ab & Hab & HF). destruct (I5 ph true) as (gb & Hgb & HG).
  exists (slots_of ph), (l_pos ph), pb, (l_lp ph), lb, (l_acc ph false), ab, (l_acc ph true), gb.
  split; [split; [destruct ph; apply obj_fixed; auto|exact Hpb]|]. split; [split; [destruct ph; apply obj_fixed; auto|exact Hlb]|].
  split; [split; [destruct ph; apply obj_fixed; auto|exact Hab]|]. split; [split; [destruct ph; apply obj_fixed; auto|exact Hgb]|].
  split; [apply (pos_layout w), Hpb; auto|]. split; [apply (lp_layout w), Hlb; auto|]. split; [eapply acc_layout; eauto|]. split; [eapply acc_layout; eauto|].
  intros i s Hi Hs. split; [apply HP; auto|]. intros b [->| ->]; [apply HF; auto|apply HG; auto].
Qed.
End Hist.
