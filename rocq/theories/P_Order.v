(** C73: temperature ladders in floating point. *)
From Verif Require Import Prelude Num M_Core M_Kernels M_Strategies M_PT M_Bundle P_Lists
  Spec Spec_Core Spec_Sampler Spec_Steps Spec_Kernels Spec_Train Spec_PT P_PT P_PT2 Spec_Bundle Spec_Kinds Spec_Hist Spec_Order P_Hist4 P_Hist5.

Section Order.
Context {N : Num}.
Hypothesis NL : NumLaws.
Hypothesis OL : OrderLaws.
Hypothesis EX : exp_nonneg.

Lemma one_nan : fnan f1 = false. Proof. apply (nl_lt_nan NL f0 f1), (ol_one OL). Qed.
Lemma at_least_trans a b c : at_least a b -> at_least b c -> at_least a c.
Proof.
  intros [H|H] [Q|Q]; try (right; exact Q).
  - left. exact (nl_le_trans NL _ _ _ H Q).
  - apply (nl_le_nan NL) in Q as [Q _]. congruence.
Qed.
Lemma step_up t t' e x : at_least t t' -> at_least x (x +. (t' -. t) *. fexp e).
Proof.
  intros H. destruct (fnan x) eqn:Ex; [right; apply (nl_nan_add NL); auto|].
  assert (G : at_least f0 (t' -. t)). { destruct H as [H|H]; [apply (ol_sub OL), H|]. right. apply (nl_nan_sub NL). auto. }
  assert (M : at_least f0 ((t' -. t) *. fexp e)).
  { destruct G as [G|G]; [|right; apply (nl_nan_mul NL); auto]. destruct (EX e) as [H1|H1]; [apply (ol_mul OL); auto|right; apply (nl_nan_mul NL); auto]. }
  destruct M as [M|M]; [|right; apply (nl_nan_add NL); auto]. destruct (ol_add OL x _ M) as [Q|Q]; [exact Q|congruence].
Qed.
Lemma nth_d (l : list F) i : i < length l -> nth i l f1 = nth i l f0. Proof. intros. now apply nth_indep. Qed.
Lemma ladder_adapt temps accs : ladder_from_one temps -> ladder_from_one (adapt_temperature temps accs).
Proof.
  intros [H0 Hr]. destruct (le_lt_dec (length temps) 2) as [Hs|Hl]; [rewrite adapt_small by auto; split; auto|].
  destruct (adapt_ends temps accs) as (L & E0 & _). unfold adapt_temperature, adapt_loop in * .
  match type of L with context [damping ?a ?b] => set (damp := damping a b) in * end.
  destruct (adapt_fold temps damp (length temps - 2) ltac:(lia)) as (A1 & A2 & A3 & A4).
  set (new := fold_left _ (seq 1 (length temps - 2)) temps) in * . split.
  - rewrite nth_d by lia. rewrite E0, <- nth_d by lia. exact H0.
  - intros i Hi. rewrite L in Hi. rewrite (A4 (i + 1) ltac:(lia)). rewrite Nat.add_sub. apply step_up, Hr, Hi.
Qed.
Lemma ladder_adaptations hist temps : ladder_from_one temps -> ladder_from_one (adaptations temps hist).
Proof. revert temps. induction hist as [|a hist IH]; intros temps H; [exact H|]. cbn. apply IH, ladder_adapt, H. Qed.
Lemma ladder_ge temps i : ladder_from_one temps -> i + 1 < length temps -> at_least f1 (nth i temps f0).
Proof.
  intros [H0 Hr]. induction i as [|i IH]; intros Hi.
  - rewrite <- nth_d by lia. rewrite H0. left. apply (nl_le_refl NL), one_nan.
  - eapply at_least_trans; [apply IH; lia|]. rewrite <- Nat.add_1_r. apply Hr. lia.
Qed.
Lemma between a b i j temps : ladder_from_one temps -> a = nth i temps f0 -> b = nth j temps f0 -> i <= j -> j + 1 < length temps -> fnan a = false -> at_least a b.
Proof.
  intros HL -> -> Hij. induction Hij as [|j Hij IH]; intros Hj Ha.
  - left. apply (nl_le_refl NL), Ha.
  - eapply at_least_trans; [apply IH; [lia|exact Ha]|]. rewrite <- Nat.add_1_r. apply HL. lia.
Qed.
(** Every temperature of a ladder whose last one is positive is positive or NaN. *)
Lemma ladder_pos temps : ladder_from_one temps -> (f0 <.? nth (length temps - 1) temps f0) = true -> forall t, In t temps -> (f0 <.? t) = true \/ fnan t = true.
Proof.
  intros HL Hp t Ht. apply (In_nth _ _ f0) in Ht as (i & Hi & <-). destruct (Nat.eq_dec i (length temps - 1)) as [->|Hn]; [auto|].
  destruct (ladder_ge temps i HL ltac:(lia)) as [Q|Q]; [left|auto]. apply (nl_le_lt NL).
  - eapply (nl_le_trans NL); [|exact Q]. apply (nl_lt_le NL), (ol_one OL).
  - destruct (nth i temps f0 <=.? f0) eqn:E; [|reflexivity]. pose proof (nl_le_trans NL _ _ _ Q E) as X. destruct (nl_lt_le NL _ _ (ol_one OL)) as [_ Y]. congruence.
Qed.
Lemma target_outside t d dim temp P : (f0 <.? temp) = true \/ fnan temp = true ->
  impossible_outside (l_pdf (t_base t)) d dim P -> impossible_outside (tempered_lpdf t temp) d dim P.
Proof.
  intros Ht H x Hx. destruct (H x Hx) as [Q|Q]; [left; exact Q|right]. cbn [lp_val tempered_lpdf]. unfold tempered_log_pdf.
  assert (M : impossible ((f1 /. temp) *. lp_val (l_pdf (t_base t)) x d)).
  { destruct Ht as [Ht|Ht]; [|left; apply (nl_nan_mul NL); left; apply (nl_nan_div NL); auto].
    destruct Q as [Q|Q]; [left; apply (nl_nan_mul NL); auto|]. rewrite Q. apply (ol_scale OL), Ht. }
  change (logpdf_call (t_base t) x d) with (lp_val (l_pdf (t_base t)) x d). destruct M as [M|M]; [left; apply (nl_nan_add NL); auto|]. rewrite M. destruct (nl_ninf_add NL (lp_val (t_prior t) x d)) as [R|R]; [right|left]; exact R.
Qed.
Context {G : Rng} {NF : NFOps}.
Lemma linspace_last b n : 0 < n -> (f0 <.? f1) = true -> (f0 <.? b) = true -> (f0 <.? nth (length (linspace f1 b n) - 1) (linspace f1 b n) f0) = true.
Proof.
  intros Hn H1 Hb. destruct n as [|[|n]]; [lia|exact H1|]. unfold linspace.
  match goal with |- context [map ?f (seq 0 (S n))] => set (l := map f (seq 0 (S n))) end.
  rewrite app_length. cbn [length]. rewrite Nat.add_sub, app_nth2, Nat.sub_diag by lia. exact Hb.
Qed.
Lemma pt_support_target pc h bd n nc k o kw s args P good w : let c := p_base pc in
  rqspline_mala_pt_bundle pc = Ok (h, bd) -> sampler_init n nc k None None o (Some bd) kw = Ok s ->
  history_ok c args good -> (forall init d, In (init, d) args -> grad_shape (p_prior pc) d (c_n_dims c)) ->
  ladder_from_one (linspace f1 (p_max_temp pc) (p_n_temps pc)) -> (f0 <.? p_max_temp pc) = true ->
  (forall init d, In (init, d) args -> impossible_outside (c_logpdf c) d (c_n_dims c) P /\ impossible_outside (c_logpdf c) (with_n_steps d (c_global c)) (c_n_dims c) P) ->
  starts_in args P -> seen s h bd args w ->
  phase_honest c w "training" (fun x _ => P x) /\ phase_honest c w "production" (fun x _ => P x).
Proof.
  intros c Hb Hs HK Hpr HL Hm HP Hin Hw.
  pose (T := fun temps => ladder_from_one temps /\ (f0 <.? nth (length temps - 1) temps f0) = true).
  assert (Q : forall ph, phase_honest c w (phase_of ph) (okv c args P)).
  { intros ph. eapply (pt_seen pc h bd n nc k o kw s args P good T); eauto.
    - right. split; [exact NL|]. intros i d H. exact (HP i d H).
    - split; [exact HL|]. apply linspace_last; [|exact (ol_one OL)|exact Hm].
      unfold rqspline_mala_pt_bundle in Hb. destruct (_ || _); [discriminate|]. destruct (p_n_temps pc); [discriminate|lia].
    - intros temps accs [A B]. destruct (adapt_ends temps accs) as (L & _ & E). split; [apply ladder_adapt, A|]. rewrite L, E. exact B.
    - right. split; [exact NL|]. intros i d temps temp H [A B] Ht. apply target_outside; [eapply ladder_pos; eauto|]. apply (HP i d H). }
  split; [apply (honest_impl _ _ _ _ _ (fun x v (H : okv c args P x v) => proj2 H) (Q true))|apply (honest_impl _ _ _ _ _ (fun x v (H : okv c args P x v) => proj2 H) (Q false))].
Qed.
End Order.
