(** C72: final forms. *)
From Coq Require Import Permutation.
From Verif Require Import Prelude Num M_Core M_Kernels M_Strategies M_PT M_Bundle P_Lists
  Spec Spec_Core Spec_Sampler Spec_Steps Spec_Kernels Spec_Train Spec_PT Spec_Bundle Spec_Kinds Spec_Hist P_Hist4.

Section Final.
Context {N : Num} {G : Rng} {NF : NFOps}.
Definition phase_of (ph : bool) : string := (if ph then "training" else "production")%string.

Lemma honest_impl c w p (ok ok' : vec -> F -> Prop) : (forall x v, ok x v -> ok' x v) -> phase_honest c w p ok -> phase_honest c w p ok'.
Proof.
  intros H (sl & pl & pb & ll & lb & al & ab & gl & gb & A1 & A2 & A3 & A4 & A5 & A6 & A7 & A8 & A9).
  exists sl, pl, pb, ll, lb, al, ab, gl, gb. repeat (split; [assumption|]). intros i s0 Hi Hs. destruct (A9 i s0 Hi Hs) as [[U|U] Q]; split; auto.
Qed.

Lemma base_seen c h bd n nc k o kw s args P good w : rqspline_mala_bundle c = Ok (h, bd) -> sampler_init n nc k None None o (Some bd) kw = Ok s ->
  history_ok c args good -> confined c args P -> starts_in args P -> seen s h bd args w ->
  forall ph : bool, phase_honest c w (phase_of ph) (okv c args P).
Proof. intros Hb Hs HK HP Hin (args1 & init & d & j & k' & A & B & ->) ph. exact (base_history c h bd n nc k o kw s args P good Hb Hs HK HP Hin args1 init d j k' A B ph). Qed.
Lemma pt_seen pc h bd n nc k o kw s args P good (T : list F -> Prop) w : let c := p_base pc in
  rqspline_mala_pt_bundle pc = Ok (h, bd) -> sampler_init n nc k None None o (Some bd) kw = Ok s -> history_ok c args good ->
  (forall init d, In (init, d) args -> grad_shape (p_prior pc) d (c_n_dims c)) -> confined c args P ->
  T (linspace f1 (p_max_temp pc) (p_n_temps pc)) -> (forall temps accs, T temps -> T (adapt_temperature temps accs)) ->
  ((forall x, P x) \/ (NumLaws /\ forall init d temps temp, In (init, d) args -> T temps -> In temp temps -> impossible_outside (tempered_lpdf (pt_tempered pc) temp) d (c_n_dims c) P)) ->
  starts_in args P -> seen s h bd args w -> forall ph : bool, phase_honest c w (phase_of ph) (okv c args P).
Proof. intros c Hb Hs HK Hpr HP T0 T1 HPt Hin (args1 & init & d & j & k' & A & B & ->) ph.
  exact (proj1 (pt_history pc h bd n nc k o kw s args P good T Hb Hs HK Hpr HP T0 T1 HPt Hin args1 init d j k' A B) ph). Qed.
Lemma pt_seen_temps pc h bd n nc k o kw s args good (T : list F -> Prop) w : let c := p_base pc in
  rqspline_mala_pt_bundle pc = Ok (h, bd) -> sampler_init n nc k None None o (Some bd) kw = Ok s -> history_ok c args good ->
  (forall init d, In (init, d) args -> grad_shape (p_prior pc) d (c_n_dims c)) ->
  T (linspace f1 (p_max_temp pc) (p_n_temps pc)) -> (forall temps accs, T temps -> T (adapt_temperature temps accs)) ->
  seen s h bd args w -> exists tl tb, buffer_named w "temperatures" tl tb /\ T (temps_of tb).
Proof. intros c Hb Hs HK Hpr T0 T1 (args1 & init & d & j & k' & A & B & ->).
  exact (proj2 (pt_history pc h bd n nc k o kw s args (fun _ => True) good T Hb Hs HK Hpr (or_introl (fun _ => I)) T0 T1 (or_introl (fun _ => I)) (fun _ _ _ _ _ => I) args1 init d j k' A B)). Qed.

Lemma base_honest c h bd n nc k o kw s args good w : rqspline_mala_bundle c = Ok (h, bd) -> sampler_init n nc k None None o (Some bd) kw = Ok s ->
  history_ok c args good -> seen s h bd args w ->
  phase_honest c w "training" (target_value c args) /\ phase_honest c w "production" (target_value c args).
Proof.
  intros Hb Hs HK Hw. assert (Q : forall ph, phase_honest c w (phase_of ph) (okv c args (fun _ => True))).
  { intros ph. eapply base_seen; eauto; [left; auto|]. intros ? ? ? ? ?; exact I. }
  split; [apply (honest_impl _ _ _ _ _ (fun x v (H : okv c args (fun _ => True) x v) => proj1 H) (Q true))|apply (honest_impl _ _ _ _ _ (fun x v (H : okv c args (fun _ => True) x v) => proj1 H) (Q false))].
Qed.
Lemma pt_honest pc h bd n nc k o kw s args good w : let c := p_base pc in
  rqspline_mala_pt_bundle pc = Ok (h, bd) -> sampler_init n nc k None None o (Some bd) kw = Ok s ->
  history_ok c args good -> (forall init d, In (init, d) args -> grad_shape (p_prior pc) d (c_n_dims c)) -> seen s h bd args w ->
  phase_honest c w "training" (target_value c args) /\ phase_honest c w "production" (target_value c args).
Proof.
  intros c Hb Hs HK Hpr Hw. assert (Q : forall ph, phase_honest c w (phase_of ph) (okv c args (fun _ => True))).
  { intros ph. eapply (pt_seen pc h bd n nc k o kw s args (fun _ => True) good (fun _ => True)); eauto; [left; auto|]. intros ? ? ? ? ?; exact I. }
  split; [apply (honest_impl _ _ _ _ _ (fun x v (H : okv c args (fun _ => True) x v) => proj1 H) (Q true))|apply (honest_impl _ _ _ _ _ (fun x v (H : okv c args (fun _ => True) x v) => proj1 H) (Q false))].
Qed.

Lemma exact_value c args x v : ignores_n_steps (c_logpdf c) -> target_value c args x v -> exists init d, In (init, d) args /\ v = lp_val (c_logpdf c) x d.
Proof. intros Hi (i & d & A & [B|B]); exists i, d; (split; [exact A|]); [exact B|]. rewrite B. unfold with_n_steps. apply Hi. Qed.

Lemma base_support c h bd n nc k o kw s args P good w : NumLaws -> rqspline_mala_bundle c = Ok (h, bd) -> sampler_init n nc k None None o (Some bd) kw = Ok s ->
  history_ok c args good ->
  (forall init d, In (init, d) args -> impossible_outside (c_logpdf c) d (c_n_dims c) P /\ impossible_outside (c_logpdf c) (with_n_steps d (c_global c)) (c_n_dims c) P) ->
  starts_in args P -> seen s h bd args w ->
  phase_honest c w "training" (fun x _ => P x) /\ phase_honest c w "production" (fun x _ => P x).
Proof.
  intros NL Hb Hs HK HP Hin Hw. assert (Q : forall ph, phase_honest c w (phase_of ph) (okv c args P)).
  { intros ph. eapply base_seen; eauto. right; auto. }
  split; [apply (honest_impl _ _ _ _ _ (fun x v (H : okv c args P x v) => proj2 H) (Q true))|apply (honest_impl _ _ _ _ _ (fun x v (H : okv c args P x v) => proj2 H) (Q false))].
Qed.
Lemma prior_outside t d dim temp P : NumLaws -> impossible_outside (t_prior t) d dim P -> impossible_outside (tempered_lpdf t temp) d dim P.
Proof.
  intros NL H x Hx. destruct (H x Hx) as [Q|[Q|Q]]; [left; exact Q|right; left|right]; cbn [lp_val tempered_lpdf]; unfold tempered_log_pdf.
  - apply (nl_nan_add NL); auto.
  - rewrite Q. match goal with |- impossible (?z +. fninf) => destruct (nl_add_ninf NL z) as [R|R] end; [right|left]; exact R.
Qed.
Lemma pt_support pc h bd n nc k o kw s args P good w : let c := p_base pc in NumLaws ->
  rqspline_mala_pt_bundle pc = Ok (h, bd) -> sampler_init n nc k None None o (Some bd) kw = Ok s ->
  history_ok c args good -> (forall init d, In (init, d) args -> grad_shape (p_prior pc) d (c_n_dims c)) ->
  (forall init d, In (init, d) args -> impossible_outside (c_logpdf c) d (c_n_dims c) P /\ impossible_outside (c_logpdf c) (with_n_steps d (c_global c)) (c_n_dims c) P /\
     impossible_outside (p_prior pc) d (c_n_dims c) P) ->
  starts_in args P -> seen s h bd args w ->
  phase_honest c w "training" (fun x _ => P x) /\ phase_honest c w "production" (fun x _ => P x).
Proof.
  intros c NL Hb Hs HK Hpr HP Hin Hw. assert (Q : forall ph, phase_honest c w (phase_of ph) (okv c args P)).
  { intros ph. eapply (pt_seen pc h bd n nc k o kw s args P good (fun _ => True)); eauto.
    - right. split; [exact NL|]. intros i d H. destruct (HP i d H) as (A & B & _). auto.
    - right. split; [exact NL|]. intros i d temps temp H _ _. apply prior_outside; [exact NL|]. apply (HP i d H). }
  split; [apply (honest_impl _ _ _ _ _ (fun x v (H : okv c args P x v) => proj2 H) (Q true))|apply (honest_impl _ _ _ _ _ (fun x v (H : okv c args P x v) => proj2 H) (Q false))].
Qed.
End Final.
