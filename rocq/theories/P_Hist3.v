(** The same for parallel tempering. *)
From Coq Require Import Permutation.
From Verif Require Import Prelude Num M_Core M_Kernels M_Strategies M_PT M_Bundle P_Lists P_Buffer
  Spec Spec_Core P_Core Spec_Sampler P_Sampler Spec_Steps P_Steps Spec_Kernels P_Kernels P_StepsK P_Steps2 Spec_Train P_Train P_Train2
  P_Kernels2 Spec_PT P_PT P_PT2 P_PT3 P_PT4 P_PT5 Spec_Bundle P_Bundle P_Bundle2 P_Bundle3 P_Bundle5 P_Bundle6 Spec_Prog P_Prog4 P_Prog5 Spec_Kinds P_Kinds Spec_Hist P_Hist1 P_Hist2.

Section Hist.
Context {N : Num} {G : Rng} {NF : NFOps}.
Variables (pc : pt_config) (good : mdl -> Prop) (m0 : mdl).
Let c := p_base pc.
Variables (okpos : vec -> Prop) (ok : vec -> F -> Prop) (D : datad -> Prop) (T : list F -> Prop).
Hypothesis Hclass : model_class good (c_n_dims c).
Hypothesis Hdim : forall x, okpos x -> length x = c_n_dims c.
Hypothesis Hloc : forall d k x co, D d -> okpos x -> serial_sample (mala_kernel (c_step c)) (c_logpdf c) d (c_local c) k x = Ok co ->
  length co = c_local c /\ forall o, In o co -> okpos (s_pos o) /\ ok (s_pos o) (s_lp o).
Hypothesis Hglob : forall d m k x co, D d -> good m -> okpos x -> group_sample (mkNfp m (c_nf_bs c)) (c_logpdf c) d (c_global c) k x = Ok co ->
  length co = c_global c /\ forall o, In o co -> okpos (s_pos o) /\ ok (s_pos o) (s_lp o).
Hypothesis Hkd : forall d, D d -> keeps_dim (mala_kernel (c_step c)) (pt_tempered pc) d (c_n_dims c).
Hypothesis Htemp : forall d temps temp n k x lp tr, D d -> T temps -> In temp temps -> okpos x ->
  serial_scan (mala_kernel (c_step c)) (tempered_lpdf (pt_tempered pc) temp) d n k x lp = Ok tr -> forall o, In o tr -> okpos (s_pos o).
Hypothesis HT0 : T (linspace f1 (p_max_temp pc) (p_n_temps pc)).
Hypothesis HT1 : forall temps accs, T temps -> T (adapt_temperature temps accs).

Definition hx_pt : list obj := [ OBuf (buffer_init "tempered_positions" [c_n_chains c; p_n_temps pc - 1; c_n_dims c] 2); OBuf (temp_buffer pc) ].
Definition rx_pt : dict resource := [ ("tempered_logpdf", RTemp (pt_tempered pc)); ("tempered_positions", RObj L_tpos); ("temperatures", RObj L_temp) ]%string.
Notation W0 := (w0 c hx_pt rx_pt m0).
Notation INV := (inv c good hx_pt rx_pt m0 ok).

Definition temps_fine (w : world) : Prop := exists tb, hget L_temp w = Some (OBuf tb) /\ T (temps_of tb).
Definition inv_pt (w : world) : Prop := INV w /\ temps_fine w.
Definition walk (w : world) (xs : pos_t) : Prop := length xs = c_n_chains c ->
  exists pb, hget L_tpos w = Some (OBuf pb) /\ forall i j, i < c_n_chains c -> j < p_n_temps pc - 1 -> okpos (brow pb (c_n_dims c) i j).

Lemma same_tpos w : same_resources W0 w -> exists pb, hget L_tpos w = Some (OBuf pb) /\ ashape (b_data pb) = [c_n_chains c; p_n_temps pc - 1; c_n_dims c] /\ b_cursor_dim pb = 2.
Proof. intros HS. exact (buf_fixed c hx_pt rx_pt m0 w L_tpos _ HS eq_refl). Qed.
Lemma same_temp w : same_resources W0 w -> exists tb, hget L_temp w = Some (OBuf tb) /\ ashape (b_data tb) = [p_n_temps pc] /\ b_cursor_dim tb = 0.
Proof.
  intros HS. destruct (buf_fixed c hx_pt rx_pt m0 w L_temp _ HS eq_refl) as (tb & E & E1 & E2). exists tb.
  destruct (temp_buffer_fit pc) as [F1 F2]. rewrite F1 in E1. rewrite F2 in E2. auto.
Qed.
Lemma temp_fixed w n l : same_resources W0 w -> dget (rdict W0) n = Some (RTemp l) -> dget (rdict w) n = Some (RTemp l).
Proof. intros (_ & _ & _ & H) E. destruct (H _ _ E) as (r' & E' & L). cbn in L. now subst. Qed.

Definition pt_step_ok (st : strategy) : Prop := forall k xs d w r w', D d -> inv_pt w -> walk w xs -> (forall x, In x xs -> okpos x) -> st k xs d w = (r, w') ->
  inv_pt w' /\ forall k' xs', r = Ok (k', xs') -> walk w' xs' /\ forall x, In x xs' -> okpos x.
Lemma base_pt_ok st : step_ok c good hx_pt rx_pt m0 okpos ok D st -> pt_step_ok st.
Proof.
  intros H k xs d w r w' Hd [HI HT] HW Hx E. destruct (H k xs d w r w' Hd HI Hx E) as (A & B & C). split; [|].
  - split; [exact A|]. destruct HT as (tb & E1 & E2). exists tb. rewrite B by (unfold L_temp; lia). auto.
  - intros k' xs' Er. destruct (C _ _ Er) as [L X]. split; [|exact X]. intros Hl. rewrite B by (unfold L_tpos; lia). apply HW. congruence.
Qed.
Lemma not_tracked l : l = L_tpos \/ l = L_temp -> ~ In l tracked.
Proof. intros [->| ->] HX; cbn in HX; repeat (destruct HX as [HX|HX]; [vm_compute in HX; discriminate HX|]); exact HX. Qed.
Lemma inv_tail w w' : INV w -> same_resources w w' -> rdict w' = rdict w -> (forall l, l <> L_tpos -> l <> L_temp -> hget l w' = hget l w) -> INV w'.
Proof.
  intros HI KS Er Ho. apply (inv_frame c good hx_pt rx_pt m0 ok w w' HI).
  - eapply same_trans; [apply HI|exact KS].
  - destruct HI as [_ HG _ _ _]. unfold good_entries in * . rewrite Er. exact HG.
  - intros l Hl. apply Ho; intros ->; [exact (not_tracked L_tpos (or_introl eq_refl) Hl)|exact (not_tracked L_temp (or_intror eq_refl) Hl)].
Qed.

Lemma init_ok k xs d w r w' : D d -> inv_pt w -> (forall x, In x xs -> okpos x) -> initialize_tempered_positions pc k xs d w = (r, w') ->
  inv_pt w' /\ forall k' xs', r = Ok (k', xs') -> walk w' xs' /\ forall x, In x xs' -> okpos x.
Proof.
  intros Hd [HI HT] Hx H. unfold initialize_tempered_positions, lambda in H. destruct (same_tpos w (iv_same _ _ _ _ _ _ _ HI)) as (pb & Ep & Sp & Cp).
  apply mbind_cases in H as [(e & H1 & ->)|(u & w1 & H1 & H2)].
  { apply buf_update_raise in H1. subst w'. split; [split; auto|]. intros; discriminate. }
  pose proof (same_buf_update L_tpos (stack3 (map (fun x => repeat x (p_n_temps pc - 1)) xs)) 0 w) as KS. rewrite H1 in KS. cbn [snd] in KS.
  unfold mret in H2. injection H2 as <- <-. apply buf_update_inv in H1 as (b & b' & Hb & Hu & ->). rewrite Ep in Hb. injection Hb as <-.
  split; [split|].
  - eapply inv_tail; [exact HI|exact KS|reflexivity|]. intros l N1 N2. now apply hget_hset_neq, not_eq_sym.
  - destruct HT as (tb & E1 & E2). exists tb. rewrite hget_hset_neq by (intro X; vm_compute in X; discriminate X). auto.
  - intros k' xs' Er. injection Er as <- <-. split; [|exact Hx]. intros Hl. exists b'. split; [eapply hget_hset_eq; eauto|].
    pose proof (update_buffer_fits _ _ _ _ Hu) as Hf. destruct (update_written pb _ 0 Hf) as (b2 & Hu2 & _ & W1 & _). rewrite Hu in Hu2. injection Hu2 as <-.
    replace (norm_start 0 _ _) with 0 in W1 by (unfold norm_start; cbn [Z.ltb Z.compare]; lia).
    intros i j Hi Hj. rewrite <- Hl in Hi.
    assert (H0 : length (nth 0 xs []) = c_n_dims c) by (apply Hdim, Hx, nth_In; lia).
    assert (Li : length (nth i xs []) = c_n_dims c) by (apply Hdim, Hx, nth_In; auto).
    replace (brow b' (c_n_dims c) i j) with (nth i xs []); [apply Hx, nth_In; auto|].
    symmetry. unfold brow. apply (list_eq_nth f0); [rewrite map_length, seq_length; auto|]. rewrite map_length, seq_length. intros q Hq.
    rewrite nth_map_seq by auto. rewrite (W1 [i; j; q] [i; j; q]).
    + cbn [stack3 aget nth]. rewrite (nth_map' _ _ i [] []) by auto. rewrite (nth_indep _ [] (nth i xs [])) by (rewrite repeat_length; auto).
      rewrite nth_repeat. reflexivity.
    + unfold stack3. cbn [ashape]. rewrite map_length, (nth_map' _ _ 0 [] []) by lia. rewrite repeat_length.
      rewrite (nth_indep _ [] (nth 0 xs [])) by (rewrite repeat_length; lia). rewrite nth_repeat, H0. apply valid_index3; auto.
    + apply shifted_0.
Qed.

(** What a failing tempering call changes: at most the stored walkers. *)
Lemma pt_raise pt k xs d w kern t pl pb tl tb training e w' :
  pt_setup w pt kern t pl pb tl tb training -> parallel_tempering pt k xs d w = (Raise e, w') -> w' = w \/ exists pb', update_buffer pb pb' 0 <> Raise e /\ w' = snd (buf_update pl pb' 0 w).
Proof.
  intros [HK HL HP HT (sl & st & v & Hs1 & Hs2 & Hs3 & Hs4)] H. unfold parallel_tempering in H.
  apply mbind_cases in H as [(e1 & H1 & _)|(kr & w1 & H1 & H)]; [left; pose proof (snd_res_get (pt_kernel pt) w) as Q; rewrite H1 in Q; auto|]. apply res_get_inv in H1 as [-> H1].
  apply mbind_cases in H as [(e1 & H2 & _)|(u1 & w1 & H2 & H)]; [left; destruct kr; unfold mret, mraise in H2; congruence|]. assert (w1 = w) as -> by (destruct kr; unfold mret, mraise in H2; congruence).
  apply mbind_cases in H as [(e1 & H3 & _)|(tr & w1 & H3 & H)]; [left; pose proof (snd_res_get (pt_logpdf pt) w) as Q; rewrite H3 in Q; auto|]. apply res_get_inv in H3 as [-> H3].
  apply mbind_cases in H as [(e1 & H4 & _)|(t1 & w1 & H4 & H)]; [left; destruct tr; unfold mret, mraise in H4; congruence|]. assert (w1 = w) as -> by (destruct tr; unfold mret, mraise in H4; congruence).
  apply mbind_cases in H as [(e1 & H5 & _)|([tpl tpb] & w1 & H5 & H)]; [left; pose proof (get_buffer_snd (pt_pos_buf pt) w) as Q; rewrite H5 in Q; auto|]. apply get_buffer_inv in H5 as (-> & Hp1 & Hp2).
  destruct HP as [HP1 HP2]. rewrite HP1 in Hp1. injection Hp1 as <-. rewrite HP2 in Hp2. injection Hp2 as <-.
  apply mbind_cases in H as [(e1 & H6 & _)|([tml tmb] & w1 & H6 & H)]; [left; pose proof (get_buffer_snd (pt_temp_buf pt) w) as Q; rewrite H6 in Q; auto|]. apply get_buffer_inv in H6 as (-> & Ht1 & Ht2).
  apply mbind_cases in H as [(e1 & H7 & _)|([sl' st'] & w1 & H7 & H)]; [left; pose proof (get_state_snd (pt_state pt) w) as Q; rewrite H7 in Q; auto|]. apply get_state_inv in H7 as (-> & Hx1 & Hx2).
  apply mbind_cases in H as [(e1 & H8 & _)|(kf & w1 & H8 & H)]; [left; destruct kr; unfold mret, mraise in H8; congruence|]. assert (w1 = w) as -> by (destruct kr; unfold mret, mraise in H8; congruence).
  apply mbind_cases in H as [(e1 & H9 & _)|(u2 & w1 & H9 & H)].
  { left. destruct (ashape (b_data pb)) as [|c1 [|c2 [|c3 [|? ?]]]]; unfold mret, mraise in H9; try congruence. destruct (_ && _); congruence. }
  assert (w1 = w) as ->. { destruct (ashape (b_data pb)) as [|c1 [|c2 [|c3 [|? ?]]]]; unfold mret, mraise in H9; try congruence. destruct (_ && _); congruence. }
  apply mbind_cases in H as [(e1 & H10 & _)|(stepped & w1 & H10 & H)]; [left; unfold mlift in H10; congruence|]. apply mlift_inv in H10 as [-> H10].
  apply mbind_cases in H as [(e1 & H11 & _)|(tr' & w1 & H11 & H)]; [left; destruct (dget (s_data st') "training"); unfold mret, mraise in H11; congruence|].
  assert (w1 = w) as -> by (destruct (dget (s_data st') "training"); unfold mret, mraise in H11; congruence).
  apply mbind_cases in H as [(e1 & H12 & Ee)|(u3 & w1 & H12 & H)]; [|unfold mret in H; discriminate].
  destruct tr'; [|unfold mret in H12; discriminate]. injection Ee as <-.
  apply mbind_cases in H12 as [(e2 & H13 & _)|(u4 & w1 & H13 & H14)]; [left; now apply buf_update_raise in H13|].
  right. match type of H13 with buf_update _ ?u _ _ = _ => exists u end. apply buf_update_raise in H14. subst w'. split.
  - apply buf_update_inv in H13 as (b & b' & Hb & Hu & _). rewrite HP2 in Hb. injection Hb as <-. rewrite Hu. discriminate.
  - rewrite H13. reflexivity.
Qed.

Lemma tempering_ok : pt_step_ok (parallel_tempering (pt_strat pc)).
Proof.
  intros k xs d w r w' Hd [HI HT] HW Hx H. pose proof (iv_same _ _ _ _ _ _ _ HI) as HS.
  pose proof (pt_kinds (pt_strat pc) k xs d w ltac:(intros l [])) as KS. rewrite H in KS. cbn [snd] in KS.
  destruct (same_tpos w HS) as (pb & Ep & Sp & Cp). destruct (same_temp w HS) as (tb & Et & St & Ct).
  destruct HT as (tb0 & Et0 & HTt). rewrite Et in Et0. injection Et0 as <-.
  destruct (iv_state _ _ _ _ _ _ _ HI) as (ph & st & Hst & _ & _ & _ & _ & Htr).
  assert (SU : pt_setup w (pt_strat pc) (mala_kernel (c_step c)) (pt_tempered pc) L_tpos pb L_temp tb ph).
  { constructor.
    - exact (ser_fixed c hx_pt rx_pt m0 w "local_sampler" _ HS eq_refl).
    - exact (temp_fixed w "tempered_logpdf" _ HS eq_refl).
    - split; [exact (obj_fixed c hx_pt rx_pt m0 w "tempered_positions" L_tpos HS eq_refl)|exact Ep].
    - split; [exact (obj_fixed c hx_pt rx_pt m0 w "temperatures" L_temp HS eq_refl)|exact Et].
    - exists L_state, st, (SBool ph). split; [exact (obj_fixed c hx_pt rx_pt m0 w "sampler_state" L_state HS eq_refl)|]. auto. }
  destruct r as [[k1 xs1]|e].
  2: { split; [|intros; discriminate]. destruct (pt_raise _ _ _ _ _ _ _ _ _ _ _ _ _ _ SU H) as [->|(u & _ & E)]; [split; auto; exists tb; auto|].
       assert (Ho : rdict w' = rdict w /\ forall l, l <> L_tpos -> hget l w' = hget l w).
       { subst w'. unfold buf_update. rewrite Ep. destruct (update_buffer pb u 0); cbn [snd]; [|auto]. split; [reflexivity|]. intros l Hl. now apply hget_hset_neq, not_eq_sym. }
       destruct Ho as [Hr Ho]. split; [eapply inv_tail; eauto|]. exists tb. rewrite Ho by (intro X; vm_compute in X; discriminate X). auto. }
  destruct (Nat.eq_dec (length xs) (c_n_chains c)) as [Hlen|Hlen].
  2: { exfalso. destruct (pt_inv _ _ _ _ _ _ _ _ _ _ _ _ _ _ _ SU H) as (K & DD & _ & _ & Hs & _). rewrite Sp in Hs. injection Hs as E _ _. congruence. }
  assert (Hd0 : xs = [] \/ length (nth 0 xs []) = c_n_dims c) by (destruct xs as [|x0 xs0]; [auto|right; apply Hdim, Hx; now left]).
  destruct (pt_inv _ _ _ _ _ _ _ _ _ _ _ _ _ _ _ SU H) as (K & DD & _ & _ & Hs & ED & _). rewrite Sp in Hs. injection Hs as _ <- <-.
  destruct (C41_proof _ _ _ _ _ _ _ _ _ _ _ _ _ _ _ SU ltac:(rewrite <- ED; apply Hkd, Hd) ltac:(intros x Hin; rewrite <- ED; apply Hdim, Hx, Hin) H)
    as (after & accs & L1 & L2 & L3 & _ & HC & HB).
  destruct (HW Hlen) as (pb0 & Ep0 & HWk). rewrite Ep in Ep0. injection Ep0 as <-.
  assert (HA : forall i, i < length xs -> length (nth i after []) = length (temps_of tb) /\ (forall y, In y (nth i after []) -> okpos y) /\
            nth i xs1 [] = nth 0 (nth i after []) [] /\ length (temps_of tb) = S (p_n_temps pc - 1)).
  { intros i Hi. destruct (HC i Hi) as (C1 & C2 & stepped & ens & C3 & C4 & C5 & C6). split; [exact C2|]. split; [|split; [exact C6|]].
    2: { rewrite <- C1. unfold ensemble_before. cbn [length]. rewrite map_length, seq_length, Sp. reflexivity. }
    refine (sweep_forall _ _ _ _ _ _ _ _ C5 _). intros y Hy. apply (In_nth _ _ []) in Hy as (j & Hj & <-). rewrite C3 in Hj.
    assert (Hb : okpos (nth j (ensemble_before pb xs i) [])).
    { unfold ensemble_before. rewrite Sp. cbn [nth]. destruct j as [|j]; [apply Hx, nth_In; auto|].
      unfold ensemble_before in C1. cbn [length] in C1. rewrite map_length, seq_length, Sp in C1. cbn [nth] in C1.
      rewrite nth_map_seq by lia. apply HWk; lia. }
    destruct (C4 j Hj) as (tr & Htr' & ->).
    assert (Hin : forall o, In o tr -> okpos (s_pos o)). { eapply Htemp; [exact Hd|exact HTt| |exact Hb|exact Htr']. apply nth_In, Hj. }
    match goal with |- okpos (last ?l ?x) => destruct (last_in l x) as [->|Q] end; [exact Hb|].
    apply in_map_iff in Q as (o & Eo & Q). rewrite <- Eo. exact (Hin o Q). }
  assert (HX : forall x, In x xs1 -> okpos x).
  { intros x Hin. apply (In_nth _ _ []) in Hin as (i & Hi & <-). rewrite L3 in Hi. destruct (HA i Hi) as (A1 & A2 & -> & A4). apply A2, nth_In. lia. }
  destruct ph.
  - destruct HB as (pb' & tb' & B1 & B2 & B3 & B4 & B5 & B6 & B7 & B8). split; [split|].
    + eapply inv_tail; eauto.
    + exists tb'. split; [exact B2|]. rewrite B8. apply HT1, HTt.
    + intros k' xs' Er. injection Er as <- <-. split; [|exact HX]. intros _. exists pb'. split; [exact B1|]. intros i j Hi Hj.
      rewrite Sp in B7. cbn [nth] in B7. rewrite B7 by (auto; congruence). destruct (HA i ltac:(congruence)) as (A1 & A2 & _ & A4). apply A2, nth_In. lia.
  - subst w'. split; [split; [auto|exists tb; auto]|]. intros k' xs' Er. injection Er as <- <-. split; [|exact HX]. intros Hl. exists pb. split; [exact Ep|exact HWk].
Qed.
Lemma pt_all_ok n st : dget (pt_strategies pc) n = Some st -> pt_step_ok st.
Proof.
  unfold pt_strategies. intros H. apply dget_app in H as [H|H]; [apply base_pt_ok; exact (base_ok c good hx_pt rx_pt m0 okpos ok D Hclass Hdim Hloc Hglob _ _ _ H)|]. cbn [dget] in H.
  destruct (String.eqb n "parallel_tempering"); [injection H as <-; apply tempering_ok|].
  destruct (String.eqb n "initialize_tempered_positions"); [|discriminate]. injection H as <-.
  intros k xs d w r w' Hd HI HW Hx E. eapply init_ok; eauto.
Qed.
Lemma pt_run_ok j k xs d w r w' : D d -> inv_pt w -> (forall x, In x xs -> okpos x) -> run_order (pt_strategies pc) (firstn j (pt_order pc)) k xs d w = (r, w') -> inv_pt w'.
Proof.
  intros Hd HI Hx H. unfold pt_order in H. destruct j as [|j]; [cbn in H; unfold mret in H; injection H as _ <-; exact HI|].
  cbn [firstn app] in H. match type of H with run_order _ (_ :: ?o) _ _ _ _ = _ => revert H; generalize o end.
  intros order H. cbn [run_order] in H. change (dget (pt_strategies pc) "initialize_tempered_positions") with (Some (initialize_tempered_positions pc)) in H.
  apply mbind_cases in H as [(e & H1 & ->)|([k1 xs1] & w1 & H1 & H)]; [exact (proj1 (init_ok _ _ _ _ _ _ Hd HI Hx H1))|].
  destruct (init_ok _ _ _ _ _ _ Hd HI Hx H1) as [I1 Q]. destruct (Q _ _ eq_refl) as [W1 X1]. clear H1 Q Hx HI. cbv beta iota in H. revert k1 xs1 w1 I1 W1 X1 H.
  induction order as [|n order IH]; intros k1 xs1 w1 I1 W1 X1 H; cbn [run_order] in H; [unfold mret in H; injection H as _ <-; exact I1|].
  destruct (dget (pt_strategies pc) n) as [st|] eqn:E; [|unfold mraise in H; injection H as _ <-; exact I1].
  apply mbind_cases in H as [(e & H1 & ->)|([k2 xs2] & w2 & H1 & H)].
  - exact (proj1 (pt_all_ok n st E _ _ _ _ _ _ Hd I1 W1 X1 H1)).
  - destruct (pt_all_ok n st E _ _ _ _ _ _ Hd I1 W1 X1 H1) as [I2 Q]. destruct (Q _ _ eq_refl) as [W2 X2]. eapply IH; eauto.
Qed.
Lemma pt_calls_inv args : forall s h, sm_order s = OList (pt_order pc) -> sm_strategies s = pt_strategies pc ->
  (forall init d, In (init, d) args -> D d /\ forall x, In x (atleast_2d init) -> okpos x) ->
  inv_pt (mkWorld h (sm_resources s)) -> inv_pt (calls_of s h args).
Proof.
  induction args as [|[init d] args IH]; intros s h E Es Ha HI; [exact HI|]. cbn [calls_of].
  apply IH; auto; [intros i0 d0 H0; apply Ha; now right|]. cbn [sampler_after sm_resources].
  replace (mkWorld (heap (snd (sampler_sample s init d h))) (rdict (snd (sampler_sample s init d h)))) with (snd (sampler_sample s init d h)) by now destruct (snd (sampler_sample s init d h)).
  destruct (Ha init d (or_introl eq_refl)) as [Hd Hx]. destruct (sampler_sample s init d h) as [r w'] eqn:H. unfold sampler_sample in H. rewrite E, Es in H. cbn [snd].
  rewrite <- (firstn_all (pt_order pc)) in H. eapply pt_run_ok; eauto.
Qed.
Lemma pt_inv_init : good m0 -> inv_pt W0.
Proof. intros Hm. split; [apply inv_init, Hm|]. exists (temp_buffer pc). split; [reflexivity|]. rewrite temps_initial. exact HT0. Qed.
End Hist.
