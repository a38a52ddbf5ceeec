(** A second run on the same bundle sampler. *)
From Verif Require Import Prelude Num M_Core M_Kernels M_Strategies M_PT M_Bundle P_Lists P_Buffer
  Spec Spec_Core P_Core Spec_Sampler P_Sampler Spec_Steps P_Steps Spec_Kernels P_Kernels P_StepsK P_Steps2 Spec_Train P_Train P_Train2
  Spec_PT P_PT P_PT2 P_PT3 P_PT4 P_PT5 Spec_Bundle P_Bundle P_Bundle2 P_Bundle3 P_Bundle4 P_Bundle5 P_Bundle6 P_Bundle7.

Section Bnd.
Context {N : Num} {G : Rng} {NF : NFOps}.

(** A successful stepping call, wherever the cursor is: the slots written are left open. *)
Lemma take_steps_any samp ts k xs d w k' xs' w' pl pb ll lb al ab kern lp cur dim good :
  setup w ts pl pb ll lb al ab kern lp cur ->
  sampler_shape (samp kern lp d) (ts_n_steps ts) dim good -> (forall x, In x xs -> good x) ->
  let n := ts_n_steps ts in let th := ts_thinning ts in
  take_steps samp ts k xs d w = (Ok (k', xs'), w') ->
  exists out pb' lb' ab',
    length out = length xs /\
    (forall c, c < length xs ->
       samp kern lp d n (split (split k 2 1) (length xs) c) (nth c xs []) = Ok (nth c out [])) /\
    rectangular n dim out /\
    same_header pb pb' /\ same_header lb lb' /\ same_header ab ab' /\
    length xs' = length xs /\
    (forall c, c < length xs -> 0 < n /\ last_kept n th (nth c out []) (nth c xs' [])) /\
    (forall x, In x xs' -> good x) /\ 0 < th /\
    k' = split k 2 0 /\
    w' = hset (ts_cur ts) (OCursor (Z.of_nat cur + Z.of_nat (n / th)))
           (hset al (OBuf ab') (hset ll (OBuf lb') (hset pl (OBuf pb') w))).
Proof.
  intros [T1 T2 T3 (N1 & N2 & N3) (D1 & D2 & D3) HK HLp HC] HS Hg n th H.
  destruct (take_steps_success _ _ _ _ _ _ _ _ _ H) as
    (pl' & ll' & al' & kern' & lp' & out & cz & w1 & w2 & w3 & (L1 & L2 & L3 & L4 & L5) & HV & Hth & Hcz & U1 & U2 & U3 & Hw' & HL & Hk').
  destruct L1 as [pb0 L1], L2 as [lb0 L2], L3 as [ab0 L3].
  destruct (target_fun _ _ _ _ _ _ _ T1 L1) as [<- <-].
  destruct (target_fun _ _ _ _ _ _ _ T2 L2) as [<- <-].
  destruct (target_fun _ _ _ _ _ _ _ T3 L3) as [<- <-].
  assert (kern' = kern) by congruence. assert (lp' = lp) by congruence. assert (cz = Z.of_nat cur) by congruence. subst kern' lp' cz.
  pose proof (target_buf _ _ _ _ _ T1) as P1. pose proof (target_buf _ _ _ _ _ T2) as P2. pose proof (target_buf _ _ _ _ _ T3) as P3.
  apply buf_update_inv in U1 as (b1 & pb' & Q1 & E1 & ->). assert (b1 = pb) by congruence. subst b1.
  apply buf_update_inv in U2 as (b2 & lb' & Q2 & E2 & ->).
  rewrite hget_hset_neq in Q2 by auto. assert (b2 = lb) by congruence. subst b2.
  apply buf_update_inv in U3 as (b3 & ab' & Q3 & E3 & ->).
  rewrite !hget_hset_neq in Q3 by auto. assert (b3 = ab) by congruence. subst b3.
  exists out, pb', lb', ab'.
  pose proof (split_keys_length (split k 2 1) (length xs)) as HSK.
  assert (Hout : length out = length xs) by (eapply (vmap_chains_nth _ _ _ _ k 0); eauto).
  assert (Hchain : forall c, c < length xs ->
       samp kern lp d (ts_n_steps ts) (split (split k 2 1) (length xs) c) (nth c xs []) = Ok (nth c out [])).
  { intros c Hc. destruct (vmap_chains_nth _ _ _ _ k c HSK HV) as [_ HH]. rewrite <- (nth_split_keys _ _ c k) by auto. auto. }
  assert (Hrg : forall co, In co out -> length co = n /\ forall o, In o co -> length (s_pos o) = dim /\ good (s_pos o)).
  { intros co Hco. destruct (In_nth _ _ [] Hco) as (c & Hc & <-). rewrite Hout in Hc.
    eapply HS; [|apply Hchain; auto]. apply Hg, nth_In; auto. }
  assert (Hrect : rectangular n dim out).
  { intros co Hco. destruct (Hrg co Hco) as [Q1' Q2']. split; [auto|]. intros o Ho. now apply Q2'. }
  assert (HLast : length xs' = length xs).
  { apply rmapM_length in HL. unfold ts_positions in HL. rewrite !map_length in HL. congruence. }
  assert (HLc : forall c, c < length xs -> 0 < n /\ last_kept n th (nth c out []) (nth c xs' [])).
  { intros c Hc. apply rmapM_Ok in HL. eapply (Forall2_nth' _ _ _ [] [] c) in HL.
    2: { unfold ts_positions. rewrite !map_length. congruence. }
    unfold ts_positions in HL. rewrite map_map in HL. rewrite (nth_map' _ out c [] []) in HL by congruence.
    assert (Hlen : length (stride (ts_thinning ts) (nth c out [])) = cdiv (ts_n_steps ts) (ts_thinning ts))
      by (apply (rect_kept (ts_n_steps ts) dim); [exact Hth|exact Hrect|exact (eq_ind_r (fun n => c < n) Hc Hout)]).
    unfold n, th in * .
    destruct (Nat.eq_dec (ts_n_steps ts) 0) as [Z0|NZ].
    - exfalso. rewrite Z0 in Hlen. unfold cdiv in Hlen. rewrite Nat.div_small in Hlen by lia.
      destruct (stride (ts_thinning ts) (nth c out [])); simpl in *; discriminate.
    - split; [lia|]. rewrite (last_opt_nth (A:=vec) _ []) in HL.
      2: { intros E. apply (f_equal (@length _)) in E. rewrite map_length, Hlen in E. pose proof (cdiv_pos (ts_n_steps ts) (ts_thinning ts)). simpl in E. lia. }
      injection HL as HL.
      exists (nth ((ts_n_steps ts - 1) / ts_thinning ts * ts_thinning ts) (nth c out []) odef). split.
      { apply nth_error_nth'. destruct (Hrect (nth c out [])) as [-> _].
        - apply nth_In. exact (eq_ind_r (fun n => c < n) Hc Hout).
        - pose proof (Nat.mul_div_le (ts_n_steps ts - 1) (ts_thinning ts)). lia. }
      refine (eq_trans (eq_sym HL) _). rewrite map_length, Hlen, last_kept_index by lia.
      pose proof (cdiv_pos (ts_n_steps ts) (ts_thinning ts) Hth ltac:(lia)).
      rewrite (nth_map' s_pos _ _ odef []) by (rewrite Hlen, <- last_kept_index by lia; lia).
      now rewrite nth_stride. }
  split; [auto|]. split; [auto|]. split; [auto|].
  split; [eapply C02_shape_proof; eauto|]. split; [eapply C02_shape_proof; eauto|]. split; [eapply C02_shape_proof; eauto|].
  split; [auto|]. split; [auto|]. split; [|split; [auto|split; [auto|exact Hw']]].
  intros x Hx. destruct (In_nth _ _ [] Hx) as (c & Hc & <-). rewrite HLast in Hc.
  destruct (HLc c Hc) as (Hn & o & Ho & ->). apply nth_error_In in Ho.
  eapply (Hrg (nth c out [])); eauto. apply nth_In. rewrite Hout. auto.
Qed.

Section Steps.
Variables (c : config) (rx : dict resource) (d : datad).
Hypothesis Hgrad : grad_shape (c_logpdf c) d (c_n_dims c).
Hypothesis Hnormal : normal_shape.
Hypothesis Hbs : 0 < c_nf_bs c.

Lemma local_any ph hx m mg tr pr loss ost lc gc k xs k' xs' w' slots :
  let b := if ph : bool then tr else pr in
  ph_shape c slots b -> length xs = c_n_chains c -> (forall x, In x xs -> length x = c_n_dims c) ->
  take_serial_steps (local_ts c) k xs d (bworld c rx hx m mg ph tr pr loss ost lc gc) = (Ok (k', xs'), w') ->
  exists out b',
    local_run c d k xs out xs' /\ (forall x, In x xs' -> length x = c_n_dims c) /\ k' = split k 2 0 /\
    ph_shape c slots b' /\
    w' = bworld c rx hx m mg ph (if ph then b' else tr) (if ph then pr else b') loss ost
           (lc + c_local c / c_local_th c) gc.
Proof.
  intros b Hsh Hxs Hdim H.
  assert (Hsetup : setup (bworld c rx hx m mg ph tr pr loss ost lc gc) (local_ts c)
     (if ph then L_pos_tr else L_pos_pr) (q_pos b) (if ph then L_lp_tr else L_lp_pr) (q_lp b)
     (if ph then L_la_tr else L_la_pr) (q_la b) (RSer (mala_kernel (c_step c))) (RLog (bundle_logpdf c)) lc).
  { destruct Hsh as [_ _ _ _ (X1 & X2 & X3 & X4)]. unfold b in * .
    destruct ph; (constructor; try (eexists L_state, _, _; repeat split; reflexivity); auto; repeat split; auto; discriminate). }
  assert (HSS : sampler_shape (samp_serial (RSer (mala_kernel (c_step c))) (RLog (bundle_logpdf c)) d)
     (ts_n_steps (local_ts c)) (c_n_dims c) (fun x => length x = c_n_dims c)).
  { eapply C08_serial_shape_proof; [(left; eexists; split; reflexivity) + (right; eexists; split; reflexivity)| |auto|exact Hgrad]. right; left; eauto. }
  destruct Hsh as [X1 X2 X3 X4 (X5 & X6 & X7 & X8)].
  destruct (take_steps_any samp_serial (local_ts c) k xs d _ k' xs' w' _ _ _ _ _ _ _ _ _ _ _ Hsetup HSS Hdim H) as
    (out & pb' & lb' & ab' & A1 & A2 & A3 & S1 & S2 & S3 & A7 & A8 & A9 & A10 & A11 & Hw).
  cbn [local_ts ts_n_steps ts_thinning ts_cur] in * .
  exists out, (mkPB pb' lb' ab' (q_ga b)). split; [|split; [exact A9|split; [exact A11|split]]].
  - unfold local_run, chains_run. split; [auto|]. split; [auto|]. intros i Hi. destruct (A8 i Hi) as [_ L].
    split; [apply (A2 i Hi)|]. split; [|exact L]. apply A3, nth_In. rewrite A1; auto.
  - destruct S1 as (P1&P2&P3&P4), S2 as (P5&P6&P7&P8), S3 as (P9&P10&P11&P12).
    constructor; cbn [q_pos q_lp q_la q_ga]; try congruence. repeat split; congruence.
  - rewrite Hw. unfold b. destruct ph; unfold bworld, hset; cbn; rewrite Nat2Z.inj_add; reflexivity.
Qed.

Lemma global_any ph hx m mg tr pr loss ost lc gc k xs k' xs' w' slots :
  let b := if ph : bool then tr else pr in
  samples_shape mg (c_n_dims c) ->
  ph_shape c slots b -> length xs = c_n_chains c -> (forall x, In x xs -> length x = c_n_dims c) ->
  take_group_steps (global_ts c) k xs d (bworld c rx hx m mg ph tr pr loss ost lc gc) = (Ok (k', xs'), w') ->
  exists out b',
    global_run c d mg k xs out xs' /\ (forall x, In x xs' -> length x = c_n_dims c) /\ k' = split k 2 0 /\
    ph_shape c slots b' /\
    w' = bworld c rx hx m mg ph (if ph then b' else tr) (if ph then pr else b') loss ost
           lc (gc + c_global c / c_global_th c).
Proof.
  intros b Hms Hsh Hxs Hdim H.
  assert (Hsetup : setup (bworld c rx hx m mg ph tr pr loss ost lc gc) (global_ts c)
     (if ph then L_pos_tr else L_pos_pr) (q_pos b) (if ph then L_lp_tr else L_lp_pr) (q_lp b)
     (if ph then L_ga_tr else L_ga_pr) (q_ga b) (RNFP (mkNfp mg (c_nf_bs c))) (RLog (bundle_logpdf c)) gc).
  { destruct Hsh as [_ _ _ _ (X1 & X2 & X3 & X4)]. unfold b in * .
    destruct ph; (constructor; try (eexists L_state, _, _; repeat split; reflexivity); auto; repeat split; auto; discriminate). }
  assert (HSS : sampler_shape (samp_group (RNFP (mkNfp mg (c_nf_bs c))) (RLog (bundle_logpdf c)) d)
     (ts_n_steps (global_ts c)) (c_n_dims c) (fun x => length x = c_n_dims c)).
  { eapply samp_group_shape; [(left; eexists; split; reflexivity) + (right; eexists; split; reflexivity)|exact Hms|exact Hbs]. }
  destruct Hsh as [X1 X2 X3 X4 (X5 & X6 & X7 & X8)].
  destruct (take_steps_any samp_group (global_ts c) k xs d _ k' xs' w' _ _ _ _ _ _ _ _ _ _ _ Hsetup HSS Hdim H) as
    (out & pb' & lb' & ab' & A1 & A2 & A3 & S1 & S2 & S3 & A7 & A8 & A9 & A10 & A11 & Hw).
  cbn [global_ts ts_n_steps ts_thinning ts_cur] in * .
  exists out, (mkPB pb' lb' (q_la b) ab'). split; [|split; [exact A9|split; [exact A11|split]]].
  - unfold global_run, chains_run. split; [auto|]. split; [auto|]. intros i Hi. destruct (A8 i Hi) as [_ L].
    split; [apply (A2 i Hi)|]. split; [|exact L]. apply A3, nth_In. rewrite A1; auto.
  - destruct S1 as (P1&P2&P3&P4), S2 as (P5&P6&P7&P8), S3 as (P9&P10&P11&P12).
    constructor; cbn [q_pos q_lp q_la q_ga]; try congruence. repeat split; congruence.
  - rewrite Hw. unfold b. destruct ph; unfold bworld, hset; cbn; rewrite Nat2Z.inj_add; reflexivity.
Qed.
End Steps.

Section Rerun.
Variables (c : config) (rx : dict resource) (d : datad) (window : nat) (S : dict strategy) (pre : list string).
Variables (E : Type) (hx : E -> list obj) (before : bool -> E -> key -> pos_t -> E -> key -> pos_t -> Prop).
Variable good : mdl -> Prop.
Variable xs0 : pos_t.
Hypothesis OK : run_ok c d xs0 good.
Hypothesis S_local : dget S "local_stepper" = Some (take_serial_steps (local_ts c)).
Hypothesis S_global : dget S "global_stepper" = Some (take_group_steps (global_ts c)).
Hypothesis S_train : dget S "model_trainer" = Some (train_model (trainer_tm c window)).
Hypothesis S_ugs : dget S "update_global_step" = Some (update_global_step c).
Hypothesis S_uls : dget S "update_local_step" = Some (update_local_step c).
Hypothesis S_um : dget S "update_model" = Some update_model.
Hypothesis S_reset : dget S "reset_steppers" = Some (reset_steppers c).
Hypothesis S_us : dget S "update_state" = Some (update_state "sampler_state" prod_keys prod_values).
Hypothesis Hpre : forall ph e m mg tr pr loss ost lc gc k xs k' xs' w', shaped c xs ->
  run_order S pre k xs d (bworld c rx (hx e) m mg ph tr pr loss ost lc gc) = (Ok (k', xs'), w') ->
  exists e', before ph e k xs e' k' xs' /\ shaped c xs' /\
    w' = bworld c rx (hx e') m mg ph tr pr loss ost lc gc.
Variables (tr : pbufs) (slots_tr slots_pr : nat) (hist : list (list vec)).
Hypothesis Htr : ph_shape c slots_tr tr.
Hypothesis Hhist : hist = map (fun i => map (brow (q_pos tr) (c_n_dims c) i) (seq 0 slots_tr)) (seq 0 (c_n_chains c)).

Lemma retraining_loop_w e m pr loss ost lc gc k xs k' xs' w' :
  good m -> shaped c xs -> ph_shape c slots_pr pr ->
  run_order S (pre ++ training_phase) k xs d (bworld c rx (hx e) m m false tr pr loss ost lc gc) = (Ok (k', xs'), w') ->
  exists l e' m' st' pr' loss' lc' gc',
    retraining_loop (before false) c window d hist (mkR k xs m ost e) l (mkR k' xs' m' st' e') /\
    good m' /\ shaped c xs' /\ ph_shape c slots_pr pr' /\
    w' = bworld c rx (hx e') m' m' false tr pr' loss' st' lc' gc'.
Proof.
  destruct OK as [O1 O2 O3 O4 O5 O6 O7 O7b O8 O9 O10 O11].
  intros Hgm Hxs Hsh H.
  apply run_order_app in H as (k0 & ys0 & w0 & H0 & H). apply Hpre in H0 as (e' & Hb & [Hl0 Hdim0] & ->); [|auto].
  unfold training_phase in H.
  apply (run_order_cons _ _ _ _ _ _ _ _ _ _ _ S_local) in H as (k1 & xs1 & w1 & H1 & H).
  apply (local_any c rx d O7 O8 false (hx e') m m tr pr loss ost lc gc k0 ys0 k1 xs1 w1 slots_pr) in H1
    as (lout & pr1 & Hlr & Hdim1 & -> & Hsh1 & ->); auto.
  pose proof (local_shaped c d O1 O2 O3 O4 _ _ _ _ (conj Hl0 Hdim0) Hlr Hdim1) as [Hxs1 _].
  apply (run_order_cons _ _ _ _ _ _ _ _ _ _ _ S_ugs) in H as (k2 & xs2 & w2 & H2 & H).
  rewrite (ugs_w c rx d) in H2. injection H2 as <- <- <-.
  apply (run_order_cons _ _ _ _ _ _ _ _ _ _ _ S_train) in H as (k3 & xs3 & w3 & H3 & H).
  apply (trainer_w c rx d) with (S := slots_tr) in H3 as (ex & m' & st' & losses & loss1 & -> & Htrn & Hts & Hup & ->);
    [|exact O9|apply (ps_pos _ _ _ Htr)].
  rewrite <- Hhist in Hts.
  apply (run_order_cons _ _ _ _ _ _ _ _ _ _ _ S_um) in H as (k4 & xs4 & w4 & H4 & H).
  rewrite (umodel_w c rx d) in H4. injection H4 as <- <- <-.
  apply (run_order_cons _ _ _ _ _ _ _ _ _ _ _ S_global) in H as (k5 & xs5 & w5 & H5 & H).
  assert (Hgm' : good m') by (eapply (good_train c good O10); eauto).
  apply (global_any c rx d O3) with (slots := slots_pr) in H5
    as (gout & pr2 & Hgr & Hdim2 & -> & Hsh2 & ->); auto; try (apply O10; auto; fail).
  apply (run_order_cons _ _ _ _ _ _ _ _ _ _ _ S_uls) in H as (k6 & xs6 & w6 & H6 & H).
  rewrite (uls_w c rx d) in H6. injection H6 as <- <- <-. cbn [run_order] in H. unfold mret in H. injection H as <- <- <-.
  eexists (mkLoop lout losses gout), e', m', st', pr2, _, _, _.
  split; [|split; [auto|split; [|split; [auto|reflexivity]]]].
  - exists k0, ys0, xs1, ex, k3. cbn [r_key r_pos r_model r_opt r_ext lo_local lo_losses lo_global]. auto 10.
  - exact (global_shaped c d O1 O2 O3 O4 m' k3 xs1 gout xs5 (conj Hxs1 Hdim1) Hgr Hdim2).
Qed.

Lemma retraining_run_w n : forall e m pr loss ost lc gc k xs k' xs' w',
  good m -> shaped c xs -> ph_shape c slots_pr pr ->
  run_order S (repeat_phase n (pre ++ training_phase)) k xs d (bworld c rx (hx e) m m false tr pr loss ost lc gc) = (Ok (k', xs'), w') ->
  exists ls e' m' st' pr' loss' lc' gc',
    length ls = n /\ retraining_run (before false) c window d hist (mkR k xs m ost e) ls (mkR k' xs' m' st' e') /\
    good m' /\ shaped c xs' /\ ph_shape c slots_pr pr' /\
    w' = bworld c rx (hx e') m' m' false tr pr' loss' st' lc' gc'.
Proof.
  induction n as [|n IH]; intros e m pr loss ost lc gc k xs k' xs' w' Hgm Hxs Hsh H.
  - cbn in H. unfold mret in H. injection H as <- <- <-. exists [], e, m, ost, pr, loss, lc, gc.
    split; [auto|]. split; [constructor|]. auto.
  - rewrite repeat_phase_snoc in H. apply run_order_app in H as (k1 & xs1 & w1 & H1 & H).
    apply IH in H1 as (ls & e1 & m1 & st1 & pr1 & loss1 & lc1 & gc1 & Hn & Hrun & Hg1 & Hx1 & Hs1 & ->); auto.
    apply retraining_loop_w in H as (l & e2 & m2 & st2 & pr2 & loss2 & lc2 & gc2 & Hloop & Hg2 & Hx2 & Hs2 & ->); auto.
    exists (ls ++ [l]), e2, m2, st2, pr2, loss2, lc2, gc2. split; [rewrite app_length; cbn; lia|].
    split; [econstructor; eauto|]. auto.
Qed.

Lemma rerun_w e m pr loss ost lc gc k k' xs' w' : good m -> ph_shape c slots_pr pr ->
  slots_pr = phase_slots c (c_prod_loops c) ->
  run_order S (the_order c pre) k xs0 d (bworld c rx (hx e) m m false tr pr loss ost lc gc) = (Ok (k', xs'), w') ->
  exists ls1 ls2 k1 xs1 m' st' e1 e2 pr' loss' lc' gc',
    retraining_run (before false) c window d hist (mkR k xs0 m ost e) ls1 (mkR k1 xs1 m' st' e1) /\
    production_run (before false) c d (mkR k1 xs1 m' st' e1) ls2 (mkR k' xs' m' st' e2) /\
    length ls1 = c_train_loops c /\ length ls2 = c_prod_loops c /\
    w' = bworld c rx (hx e2) m' m' false tr pr' loss' st' lc' gc' /\
    phase_samples c w' "production" ls2.
Proof.
  intros Hm Hsh Hsl H. pose proof OK as [O1 O2 O3 O4 O5 O6 O7 O7b O8 O9 O10 O11].
  unfold the_order in H. apply run_order_app in H as (k1 & xs1 & w1 & H1 & H).
  apply retraining_run_w in H1 as (ls1 & e1 & m' & st' & pr1 & loss' & lc1 & gc1 & N1 & R1 & Hm' & Hx1 & Sh1 & ->); auto; [|split; auto].
  apply run_order_app in H as (k2 & xs2 & w2 & H2 & H).
  apply (run_order_cons _ _ _ _ _ _ _ _ _ _ _ S_reset) in H2 as (k3 & xs3 & w3 & H3 & H2).
  rewrite (reset_w c rx d) in H3. injection H3 as <- <- <-.
  apply (run_order_cons _ _ _ _ _ _ _ _ _ _ _ S_us) in H2 as (k3 & xs3 & w3 & H3 & H2).
  rewrite (ustate_w c rx d) in H3. injection H3 as <- <- <-.
  cbn [run_order] in H2. unfold mret in H2. injection H2 as <- <- <-.
  pose proof (production_run_w c rx d S pre E hx before good O7 O8 O1 O2 O3 O4 O10 S_local S_global S_ugs S_uls Hpre
     (c_prod_loops c) e1 m' tr pr1 loss' st' k1 xs1 k' xs' w' (phase_slots c (c_prod_loops c)) Hm' Hx1) as T.
  rewrite <- Hsl in T. specialize (T Sh1).
  destruct T as (ls2 & e2 & pr' & N2 & R2 & Hx2 & Sh2 & Hh2 & Hw).
  { rewrite Hsl, phase_slots_eq. lia. }
  { exact H. }
  exists ls1, ls2, k1, xs1, m', st', e1, e2, pr', loss', (c_prod_loops c * per_loop c), (c_prod_loops c * per_loop c).
  split; [exact R1|]. split; [exact R2|]. split; [auto|]. split; [auto|]. split; [exact Hw|]. rewrite Hw.
  destruct Sh2 as [X1 X2 X3 X4 _].
  exists slots_pr, L_pos_pr, (q_pos pr'), L_lp_pr, (q_lp pr'), L_la_pr, (q_la pr'), L_ga_pr, (q_ga pr').
  do 4 (split; [split; reflexivity|]). do 4 (split; [assumption|]).
  intros i Hi. split; [rewrite history_length, N2, Hsl, phase_slots_eq; reflexivity|]. intros s tag o E0. specialize (Hh2 i s Hi). rewrite E0 in Hh2.
  destruct Hh2 as (A & B & C & D). split; [exact A|]. split; [exact B|]. destruct tag; [exact C|exact D].
Qed.
End Rerun.

(** The rows of the training buffer are the recorded positions. *)
Lemma recorded_rows c rx hx m mg st tr pr loss ost lc gc slots ls :
  phase_recorded c (bworld c rx hx m mg st tr pr loss ost lc gc) "training" ls -> ph_shape c slots tr ->
  positions_of c ls = map (fun i => map (brow (q_pos tr) (c_n_dims c) i) (seq 0 slots)) (seq 0 (c_n_chains c)).
Proof.
  intros (sl & pl & pb & ll & lb & al & ab & gl & gb & [B1 B1'] & _ & _ & _ & E1 & _ & _ & _ & Hi) Hsh.
  change (Some (@RObj N G NF L_pos_tr) = Some (RObj pl)) in B1. injection B1 as <-.
  change (Some (OBuf (q_pos tr)) = Some (OBuf pb)) in B1'. injection B1' as <-.
  rewrite (ps_pos _ _ _ Hsh) in E1. injection E1 as <-.
  unfold positions_of. apply map_ext_in. intros i H. apply in_seq in H. destruct (Hi i ltac:(lia)) as [L R].
  apply (list_eq_nth []); [now rewrite !map_length, seq_length|]. rewrite map_length, L. intros s Hs.
  rewrite nth_map_seq by auto.
  destruct (nth_error (chain_history c ls i) s) as [[tag o]|] eqn:E; [|apply nth_error_None in E; lia].
  destruct (R s tag o E) as (-> & _). rewrite (nth_map' (fun o => s_pos (snd o)) _ s (tag, o) []) by lia.
  rewrite (nth_error_nth _ _ _ E). reflexivity.
Qed.

Lemma sample_again n nc k o bd kw s xs d w r : sampler_init n nc k None None o (Some bd) kw = Ok s ->
  sampler_sample (sampler_after s w) (P2 xs) d (heap w) = r -> run_order (bd_strategies bd) (bd_order bd) k xs d w = r.
Proof.
  intros H. destruct (sampler_of_bundle _ _ _ _ _ _ _ H) as (E1 & E2 & E3 & E4). unfold sampler_sample.
  cbn [sampler_after sm_order sm_strategies sm_key sm_resources]. rewrite E4, E1, E3. cbn [atleast_2d].
  destruct w as [h r0]; intros Hr; exact Hr.
Qed.

Lemma C47_base_proof c h bd n nc k o kw s d1 xs1 good k1 ys1 w1 d2 xs2 k2 ys2 w2 :
  rqspline_mala_bundle c = Ok (h, bd) -> sampler_init n nc k None None o (Some bd) kw = Ok s ->
  run_ok c d1 xs1 good -> run_ok c d2 xs2 good ->
  sampler_sample s (P2 xs1) d1 h = (Ok (k1, ys1), w1) ->
  sampler_sample (sampler_after s w1) (P2 xs2) d2 (heap w1) = (Ok (k2, ys2), w2) ->
  let m := c_model c (split (c_key c) 2 1) in
  exists train1 prod1 sa s1,
    training_run nothing_before c 100 d1 (mkR k xs1 m (c_opt c m) tt) train1 sa /\
    production_run nothing_before c d1 sa prod1 s1 /\
    phase_recorded c w1 "training" train1 /\ phase_recorded c w1 "production" prod1 /\
    exists train2 prod2 sb s2,
      retraining_run nothing_before c 100 d2 (positions_of c train1) (mkR k xs2 (r_model s1) (r_opt s1) tt) train2 sb /\
      production_run nothing_before c d2 sb prod2 s2 /\
      length train2 = c_train_loops c /\ length prod2 = c_prod_loops c /\
      k2 = r_key s2 /\ ys2 = r_pos s2 /\
      phase_samples c w2 "production" prod2 /\
      content_of w2 "model" = CPlain (RModel (r_model s2)) /\
      content_of w2 "optimizer" = CObject (Some (OOpt (mkOptimizer (c_tx c) (r_opt s2)))).
Proof.
  intros Hb Hs Hok1 Hok2 H1 H2 m.
  destruct (base_run _ _ _ _ _ _ _ _ _ _ _ _ _ _ _ Hb Hs Hok1 H1)
    as (ls1 & ls2 & ka & xa & m' & st' & tr' & pr' & loss' & lc & gc & R1 & R2 & N1 & N2 & _ & Hw & Sh1 & Sh2 & Hg & _ & P1 & Pp & P3).
  exists ls1, ls2, (mkR ka xa m' st' tt), (mkR k1 ys1 m' st' tt). do 4 (split; [assumption|]).
  apply (sample_again _ _ _ _ _ _ _ _ _ _ _ Hs) in H2. rewrite Hw in H2, P1.
  unfold rqspline_mala_bundle in Hb. destruct (_ || _); [discriminate|]. injection Hb as <- <-. cbn [bd_strategies bd_order bd_resources] in H2.
  destruct (rerun_w c [] d2 100 (base_strategies c 100) [] unit (fun _ => []) (fun _ => nothing_before) good xs2 Hok2
    eq_refl eq_refl eq_refl eq_refl eq_refl eq_refl eq_refl eq_refl
    (fun ph e m mg tr pr loss ost lc gc k xs k' xs' w' => nothing_pre (base_strategies c 100) c [] d2 ph m mg tr pr loss ost lc gc k xs k' xs' w' e)
    tr' _ _ (positions_of c ls1) Sh1 (recorded_rows _ _ _ _ _ _ _ _ _ _ _ _ _ _ P1 Sh1)
    tt m' pr' loss' st' lc gc k k2 ys2 w2 Hg Sh2 eq_refl H2)
    as (t2 & p2 & kb & xb & m2 & st2 & [] & [] & pr2 & loss2 & lc2 & gc2 & A1 & A2 & A3 & A4 & A5 & A6).
  exists t2, p2, (mkR kb xb m2 st2 tt), (mkR k2 ys2 m2 st2 tt).
  do 7 (split; [solve [assumption|reflexivity]|]). rewrite A5. split; reflexivity.
Qed.

(** Shape of the ensemble buffer through runs. *)
Lemma tempering_shape pc d tr e k xs e' k' xs' : tempering pc d tr e k xs e' k' xs' -> ashape (b_data (fst e')) = ashape (b_data (fst e)).
Proof. intros (af & ac & _ & _ & _ & _ & _ & H). destruct tr; [apply H|now subst]. Qed.
Lemma training_shape pc d tr c window s ls s' : training_run (tempering pc d tr) c window d s ls s' ->
  ashape (b_data (fst (r_ext s'))) = ashape (b_data (fst (r_ext s))).
Proof.
  induction 1 as [|s past s1 l s2 H IH (k0 & x0 & x1 & ex & k3 & B & _)]; [auto|]. rewrite <- IH. eapply tempering_shape; eauto.
Qed.
Lemma production_shape pc d tr c s ls s' : production_run (tempering pc d tr) c d s ls s' ->
  ashape (b_data (fst (r_ext s'))) = ashape (b_data (fst (r_ext s))).
Proof.
  induction 1 as [|s past s1 l s2 H IH (k0 & x0 & x1 & B & _)]; [auto|]. rewrite <- IH. eapply tempering_shape; eauto.
Qed.

Lemma C47_pt_proof pc h bd n nc k o kw s d1 xs1 good k1 ys1 w1 d2 xs2 k2 ys2 w2 :
  rqspline_mala_pt_bundle pc = Ok (h, bd) -> sampler_init n nc k None None o (Some bd) kw = Ok s ->
  run_ok (p_base pc) d1 xs1 good -> run_ok (p_base pc) d2 xs2 good ->
  grad_shape (p_prior pc) d1 (c_n_dims (p_base pc)) -> grad_shape (p_prior pc) d2 (c_n_dims (p_base pc)) -> 0 < c_n_chains (p_base pc) ->
  sampler_sample s (P2 xs1) d1 h = (Ok (k1, ys1), w1) ->
  sampler_sample (sampler_after s w1) (P2 xs2) d2 (heap w1) = (Ok (k2, ys2), w2) ->
  let c := p_base pc in let m := c_model c (split (c_key c) 2 1) in
  exists e0 train1 prod1 sa s1, initial_ensemble pc xs1 e0 /\
    training_run (tempering pc d1 true) c (c_window c) d1 (mkR k xs1 m (c_opt c m) e0) train1 sa /\
    production_run (tempering pc d1 false) c d1 sa prod1 s1 /\
    phase_recorded c w1 "training" train1 /\ phase_recorded c w1 "production" prod1 /\
    exists tp train2 prod2 sb s2,
      ashape (b_data tp) = [c_n_chains c; p_n_temps pc - 1; c_n_dims c] /\
      (forall i j, i < length xs2 -> j < p_n_temps pc - 1 -> brow tp (c_n_dims c) i j = nth i xs2 []) /\
      retraining_run (tempering pc d2 false) c (c_window c) d2 (positions_of c train1)
        (mkR k xs2 (r_model s1) (r_opt s1) (tp, snd (r_ext s1))) train2 sb /\
      production_run (tempering pc d2 false) c d2 sb prod2 s2 /\
      length train2 = c_train_loops c /\ length prod2 = c_prod_loops c /\
      k2 = r_key s2 /\ ys2 = r_pos s2 /\
      phase_samples c w2 "production" prod2 /\
      content_of w2 "model" = CPlain (RModel (r_model s2)) /\
      content_of w2 "optimizer" = CObject (Some (OOpt (mkOptimizer (c_tx c) (r_opt s2)))) /\
      content_of w2 "temperatures" = content_of w1 "temperatures".
Proof.
  intros Hb Hs Hok1 Hok2 Hp1 Hp2 Hch H1 H2 c m.
  destruct (pt_run _ _ _ _ _ _ _ _ _ _ _ _ _ _ _ Hb Hs Hok1 Hp1 Hch H1)
    as (e0 & ls1 & ls2 & ka & xa & m' & st' & e1 & e2 & tr' & pr' & loss' & lc & gc & I & R1 & R2 & N1 & N2 & _ & Hw & Sh1 & Sh2 & Hg & _ & P1 & Pp & P3).
  exists e0, ls1, ls2, (mkR ka xa m' st' e1), (mkR k1 ys1 m' st' e2). do 5 (split; [assumption|]).
  pose proof Hw as Hw1.
  apply (sample_again _ _ _ _ _ _ _ _ _ _ _ Hs) in H2. rewrite Hw in H2, P1.
  unfold rqspline_mala_pt_bundle in Hb. destruct (_ || _); [discriminate|]. destruct (_ =? 0); [discriminate|].
  injection Hb as <- <-. cbn [bd_strategies bd_order bd_resources] in H2.
  unfold pt_order in H2. cbn [app] in H2.
  apply (run_order_cons (pt_strategies pc) "initialize_tempered_positions"%string (initialize_tempered_positions pc) _ _ _ _ _ _ _ _ eq_refl) in H2 as (kx & xsx & wx & Hx & H2).
  assert (Hse : ashape (b_data (fst e2)) = [c_n_chains c; p_n_temps pc - 1; c_n_dims c]).
  { apply production_shape in R2. apply training_shape in R1. cbn [r_ext] in R1, R2. rewrite R2, R1. apply I. }
  assert (Ee2 : e2 = (fst e2, snd e2)) by (destruct e2; reflexivity). rewrite Ee2 in Hx.
  apply (pt_init pc d2 Hch) in Hx as (tp & -> & -> & -> & E1 & E2); [|split; apply Hok2|exact Hse].
  destruct (rerun_w c (pt_rx pc) d2 (c_window c) (pt_strategies pc) ["parallel_tempering"%string] (buffer * buffer) pt_hx
    (tempering pc d2) good xs2 Hok2
    eq_refl eq_refl eq_refl eq_refl eq_refl eq_refl eq_refl eq_refl
    (fun ph e m mg tr pr loss ost lc gc k xs k' xs' w' Hsh =>
       pt_pre pc d2 (ok_grad _ _ _ _ Hok2) Hp2 (ok_normal _ _ _ _ Hok2) Hch (pt_strategies pc) ph e m mg tr pr loss ost lc gc k xs k' xs' w' eq_refl Hsh)
    tr' _ _ (positions_of c ls1) Sh1 (recorded_rows _ _ _ _ _ _ _ _ _ _ _ _ _ _ P1 Sh1)
    (tp, snd e2) m' pr' loss' st' lc gc k k2 ys2 w2 Hg Sh2 eq_refl H2)
    as (t2 & p2 & kb & xb & m2 & st2 & eb & ec & pr2 & loss2 & lc2 & gc2 & A1 & A2 & A3 & A4 & A5 & A6).
  exists tp, t2, p2, (mkR kb xb m2 st2 eb), (mkR k2 ys2 m2 st2 ec).
  split; [exact E1|]. split; [exact E2|].
  do 7 (split; [solve [assumption|reflexivity]|]). rewrite A5, Hw1. split; [reflexivity|]. split; [reflexivity|].
  assert (Hsnd : ec = (tp, snd e2)).
  { assert (B1 : forall s ls s', retraining_run (tempering pc d2 false) c (c_window c) d2 (positions_of c ls1) s ls s' -> r_ext s' = r_ext s).
    { induction 1 as [|s0 past s1 l s2 H0 IH (? & ? & ? & ? & ? & (? & ? & _ & _ & _ & _ & _ & B) & _)]; [auto|]. rewrite <- IH. exact B. }
    assert (B2 : forall s ls s', production_run (tempering pc d2 false) c d2 s ls s' -> r_ext s' = r_ext s).
    { induction 1 as [|s0 past s1 l s2 H0 IH (? & ? & ? & (? & ? & _ & _ & _ & _ & _ & B) & _)]; [auto|]. rewrite <- IH. exact B. }
    apply B1 in A1. apply B2 in A2. cbn [r_ext] in A1, A2. congruence. }
  rewrite Hsnd. reflexivity.
Qed.
End Bnd.
