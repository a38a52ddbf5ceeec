(** C72: what the sample buffers hold at any time. *)
From Coq Require Import Permutation.
From Verif Require Import Prelude Num M_Core M_Kernels M_Strategies M_PT M_Bundle P_Lists P_Buffer
  Spec Spec_Core P_Core Spec_Sampler P_Sampler Spec_Steps P_Steps Spec_Kernels P_Kernels P_StepsK P_Steps2 Spec_Train P_Train P_Train2
  P_Kernels2 Spec_PT P_PT P_PT2 P_PT3 P_PT4 P_PT5 Spec_Bundle P_Bundle P_Bundle2 P_Bundle3 P_Bundle5 P_Bundle6 Spec_Prog P_Prog4 P_Prog5 Spec_Kinds P_Kinds Spec_Hist P_Hist1 P_Hist2 P_Hist3.

Section Hist.
Context {N : Num} {G : Rng} {NF : NFOps}.
Variables (c : config) (args : list (initpos * datad)) (good : mdl -> Prop) (P : vec -> Prop).
Hypothesis HK : history_ok c args good.
(** Either there is no restriction, or outside [P] the target is NaN or -inf. *)
Definition confined : Prop := (forall x, P x) \/
  (NumLaws /\ forall init d, In (init, d) args -> impossible_outside (c_logpdf c) d (c_n_dims c) P /\ impossible_outside (c_logpdf c) (with_n_steps d (c_global c)) (c_n_dims c) P).
Hypothesis HP : confined.

Definition Dargs (d : datad) : Prop := exists init, In (init, d) args.
Definition okp (x : vec) : Prop := length x = c_n_dims c /\ P x.
Definition okv (x : vec) (v : F) : Prop := target_value c args x v /\ P x.

Lemma mala_step_ok f d k x lp o : grad_shape f d (c_n_dims c) -> ((forall x, P x) \/ (NumLaws /\ impossible_outside f d (c_n_dims c) P)) -> okp x ->
  mala_kernel (c_step c) k x lp f d = Ok o -> okp (s_pos o) /\ s_lp o = lp_val f (s_pos o) d.
Proof.
  intros Hg Hp [Hl Hx] H. pose proof (mala_shape _ _ _ _ (hk_normal _ _ _ HK) Hg _ _ _ _ Hl H) as Hl'.
  destruct (mala_contract _ _ _ _ _ _ _ H) as (y & r & _ & _ & _ & _ & A & B). destruct (s_acc o) eqn:Ea.
  - destruct (A eq_refl) as [Ep El]. split; [|rewrite Ep, El; reflexivity]. split; [exact Hl'|].
    destruct Hp as [Hp|[NL Hp]]; [apply Hp|]. destruct (Hp _ Hl') as [Q|Q]; [exact Q|]. exfalso. eapply (mala_possible NL); eauto.
  - destruct (B eq_refl) as [Ep El]. rewrite Ep, El. split; [split; auto|reflexivity].
Qed.
Lemma local_all d k x co : Dargs d -> okp x -> serial_sample (mala_kernel (c_step c)) (c_logpdf c) d (c_local c) k x = Ok co ->
  length co = c_local c /\ forall o, In o co -> okp (s_pos o) /\ okv (s_pos o) (s_lp o).
Proof.
  intros [init Hd] Hx H. unfold serial_sample in H. split; [eapply serial_scan_length; eauto|]. intros o Ho.
  assert (Q : okp (s_pos o) /\ s_lp o = lp_val (c_logpdf c) (s_pos o) d).
  { apply (serial_scan_inv (fun x v => okp x /\ v = lp_val (c_logpdf c) x d) (mala_kernel (c_step c)) (c_logpdf c) d) with (3 := H); auto.
    intros q z lp o' [Hz _] Ho'. eapply mala_step_ok; eauto; [eapply hk_grad; eauto|]. destruct HP as [Q|[NL Q]]; [left; exact Q|right; split; [exact NL|apply (Q _ _ Hd)]]. }
  destruct Q as [Q1 Q2]. split; [exact Q1|]. split; [|apply Q1]. exists init, d. auto.
Qed.
Lemma global_all d m k x co : Dargs d -> good m -> okp x -> group_sample (mkNfp m (c_nf_bs c)) (c_logpdf c) d (c_global c) k x = Ok co ->
  length co = c_global c /\ forall o, In o co -> okp (s_pos o) /\ okv (s_pos o) (s_lp o).
Proof.
  intros [init Hd] Hm Hx H. unfold group_sample in H. pose proof (proj1 (hk_class _ _ _ HK) m Hm) as Hs.
  split. { destruct (nfp_kernel_spec (mkNfp m (c_nf_bs c)) _ _ _ _ _ _ _ _ Hs (hk_bs _ _ _ HK) (with_n_steps_get d (c_global c)) H) as (props & _ & _ & L & _ & _). exact L. }
  intros o Ho. pose (Q := fun y v => okp y /\ (v = lp_val (c_logpdf c) y d \/ v = lp_val (c_logpdf c) y (with_n_steps d (c_global c)))).
  assert (HQ : Q (s_pos o) (s_lp o)).
  { refine (nfp_inv Q (mkNfp m (c_nf_bs c)) _ _ _ _ _ _ _ (c_n_dims c) Hs (hk_bs _ _ _ HK) (with_n_steps_get d (c_global c)) H _ _ o Ho).
    - split; auto.
    - intros y ratio Hl (xp & lpp & _ & ->) (u & Hu). split; [|auto]. split; [exact Hl|].
      destruct HP as [Hp|[NL Hp]]; [apply Hp|]. destruct (proj2 (Hp _ _ Hd) y Hl) as [R|R]; [exact R|]. exfalso. eapply (nfp_possible NL); eauto. }
  destruct HQ as [Q1 Q2]. split; [exact Q1|]. split; [|apply Q1]. exists init, d. auto.
Qed.
Lemma args_dim init d : In (init, d) args -> Dargs d /\ forall x, In x (atleast_2d init) -> length x = c_n_dims c.
Proof. intros H. split; [exists init; exact H|]. intros x Hx. eapply hk_pos; eauto. Qed.
End Hist.

Section Final.
Context {N : Num} {G : Rng} {NF : NFOps}.

Lemma base_history c h bd n nc k o kw s args P good :
  rqspline_mala_bundle c = Ok (h, bd) -> sampler_init n nc k None None o (Some bd) kw = Ok s -> history_ok c args good -> confined c args P ->
  (forall init d x, In (init, d) args -> In x (atleast_2d init) -> P x) ->
  forall args1 init d j k', (forall a, In a args1 -> In a args) -> In (init, d) args ->
  let w := snd (run_order (bd_strategies bd) (firstn j (bd_order bd)) k' (atleast_2d init) d (calls_of s h args1)) in
  forall ph : bool, phase_honest c w (if ph then "training" else "production")%string (okv c args P).
Proof.
  intros Hb Hs HK HP Hin args1 init d j k' H1 Hd w ph. destruct (bundle_init _ _ _ _ _ _ _ Hs) as (E1 & E2 & E3).
  unfold rqspline_mala_bundle in Hb. destruct (_ || _) eqn:Et; [discriminate|]. injection Hb as <- <-. cbn [bd_resources bd_strategies bd_order] in * .
  set (m0 := c_model c (split (c_key c) 2 1)) in * .
  assert (RUN : forall j xs k d w0 r w', Dargs args d -> inv c good [] [] m0 (okv c args P) w0 -> (forall x, In x xs -> okp c P x) ->
     run_order (base_strategies c 100) (firstn j (base_order c)) k xs d w0 = (r, w') -> inv c good [] [] m0 (okv c args P) w').
  { intros j0 xs k0 d0 w1 r w' Hd0 HI Hx H. eapply (run_all c good [] [] m0 (okp c P) (okv c args P) (Dargs args) (fun _ _ => True)); [|exact Hd0|exact HI|exact I|exact Hx|exact H].
    intros n0 st _ Hst k1 xs1 d1 w2 r1 w3 D1 I1 _ X1 S1.
    destruct (base_ok c good [] [] m0 (okp c P) (okv c args P) (Dargs args) (hk_class _ _ _ HK) (fun x Hx => proj1 Hx) (local_all c args good P HK HP) (global_all c args good P HK HP) _ _ _ Hst _ _ _ _ _ _ D1 I1 X1 S1) as (A & _ & B).
    split; [exact A|]. intros k2 xs2 Er. split; [exact I|apply (B _ _ Er)]. }
  assert (HA : forall init d, In (init, d) args -> Dargs args d /\ forall x, In x (atleast_2d init) -> okp c P x).
  { intros i0 d0 H0. destruct (args_dim c args good HK i0 d0 H0) as [A B]. split; [exact A|]. intros x Hx. split; [apply B, Hx|eapply Hin; eauto]. }
  assert (HC : inv c good [] [] m0 (okv c args P) (calls_of s (base_heap c m0) args1)).
  { apply (calls_inv c good [] [] m0 (okp c P) (okv c args P) (Dargs args) (base_order c)); [exact E3| |intros i0 d0 H0; apply HA, H1, H0|].
    - rewrite E2. intros xs k0 d0 w1 r w' D0 I0 X0 R0. rewrite <- (firstn_all (base_order c)) in R0. eapply RUN; eauto.
    - rewrite E1. pose proof (inv_init c good [] [] m0 (okv c args P) (hk_model _ _ _ HK)) as I0. unfold w0 in I0. rewrite !app_nil_r in I0. exact I0. }
  apply (inv_phase c good [] [] m0 (okv c args P) w ph). destruct (HA _ _ Hd) as [A B]. eapply RUN; [exact A|exact HC|exact B|]. apply surjective_pairing.
Qed.

Lemma pt_history pc h bd n nc k o kw s args P good (T : list F -> Prop) : let c := p_base pc in
  rqspline_mala_pt_bundle pc = Ok (h, bd) -> sampler_init n nc k None None o (Some bd) kw = Ok s -> history_ok c args good ->
  (forall init d, In (init, d) args -> grad_shape (p_prior pc) d (c_n_dims c)) -> confined c args P ->
  T (linspace f1 (p_max_temp pc) (p_n_temps pc)) -> (forall temps accs, T temps -> T (adapt_temperature temps accs)) ->
  ((forall x, P x) \/ (NumLaws /\ forall init d temps temp, In (init, d) args -> T temps -> In temp temps -> impossible_outside (tempered_lpdf (pt_tempered pc) temp) d (c_n_dims c) P)) ->
  (forall init d x, In (init, d) args -> In x (atleast_2d init) -> P x) ->
  forall args1 init d j k', (forall a, In a args1 -> In a args) -> In (init, d) args ->
  let w := snd (run_order (bd_strategies bd) (firstn j (bd_order bd)) k' (atleast_2d init) d (calls_of s h args1)) in
  (forall ph : bool, phase_honest c w (if ph then "training" else "production")%string (okv c args P)) /\
  exists tl tb, buffer_named w "temperatures" tl tb /\ T (temps_of tb).
Proof.
  intros c Hb Hs HK Hpr HP T0 T1 HPt Hin args1 init d j k' H1 Hd w. destruct (bundle_init _ _ _ _ _ _ _ Hs) as (E1 & E2 & E3).
  unfold rqspline_mala_pt_bundle in Hb. destruct ((c_local_th (p_base pc) =? 0) || (c_global_th (p_base pc) =? 0)); [discriminate|]. destruct (p_n_temps pc =? 0); [discriminate|]. cbv zeta in Hb. injection Hb as <- <-. cbn [bd_resources bd_strategies bd_order] in * .
  set (m0 := c_model (p_base pc) (split (c_key (p_base pc)) 2 1)) in * .
  assert (TG : forall d temp, Dargs args d -> grad_shape (tempered_lpdf (pt_tempered pc) temp) d (c_n_dims c)).
  { intros d0 temp [i0 D0]. apply tempered_grad_shape; [exact (hk_grad _ _ _ HK _ _ D0)|exact (Hpr _ _ D0)]. }
  assert (KD : forall d, Dargs args d -> keeps_dim (mala_kernel (c_step c)) (pt_tempered pc) d (c_n_dims c)).
  { intros d0 D0 temp k0 x lp o0 Hl Ho. exact (mala_shape _ _ _ _ (hk_normal _ _ _ HK) (TG d0 temp D0) _ _ _ _ Hl Ho). }
  assert (TP : forall d temps temp n k x lp tr, Dargs args d -> T temps -> In temp temps -> okp c P x ->
     serial_scan (mala_kernel (c_step c)) (tempered_lpdf (pt_tempered pc) temp) d n k x lp = Ok tr -> forall o, In o tr -> okp c P (s_pos o)).
  { intros d0 temps temp n0 k0 x lp tr D0 HTt Htm Hx Htr o0 Ho.
    apply (serial_scan_inv (fun x _ => okp c P x) (mala_kernel (c_step c)) (tempered_lpdf (pt_tempered pc) temp) d0) with (3 := Htr); auto.
    intros q z l o1 Hz Ho1. eapply (mala_step_ok c args good P HK); eauto.
    destruct HPt as [Q|[NL Q]]; [left; exact Q|right; split; [exact NL|]]. destruct D0 as [i0 D0]. eapply Q; eauto. }
  pose proof (local_all c args good P HK HP) as HL. pose proof (global_all c args good P HK HP) as HG.
  assert (HA : forall init d, In (init, d) args -> Dargs args d /\ forall x, In x (atleast_2d init) -> okp c P x).
  { intros i0 d0 H0. destruct (args_dim c args good HK i0 d0 H0) as [A B]. split; [exact A|]. intros x Hx. split; [apply B, Hx|eapply Hin; eauto]. }
  assert (HC : inv_pt pc good m0 (okv c args P) T (calls_of s (pt_heap pc m0) args1)).
  { apply (pt_calls_inv pc good m0 (okp c P) (okv c args P) (Dargs args) T (hk_class _ _ _ HK) (fun x Hx => proj1 Hx) HL HG KD TP T1); [exact E3|exact E2|intros i0 d0 H0; apply HA, H1, H0|].
    rewrite E1. exact (pt_inv_init pc good m0 (okv c args P) T T0 (hk_model _ _ _ HK)). }
  destruct (HA _ _ Hd) as [A B].
  assert (HI : inv_pt pc good m0 (okv c args P) T w).
  { refine (pt_run_ok pc good m0 (okp c P) (okv c args P) (Dargs args) T (hk_class _ _ _ HK) (fun x Hx => proj1 Hx) HL HG KD TP T1 j k' (atleast_2d init) d _ _ _ A HC B _).
    apply surjective_pairing. }
  destruct HI as [HI (tb & Htb & HT)]. split; [intros ph; exact (inv_phase c good (hx_pt pc) (rx_pt pc) m0 (okv c args P) w ph HI)|].
  exists L_temp, tb. split; [|exact HT]. split; [|exact Htb]. destruct HI as [HS _ _ _ _]. exact (obj_fixed c (hx_pt pc) (rx_pt pc) m0 w "temperatures"%string L_temp HS eq_refl).
Qed.
End Final.
