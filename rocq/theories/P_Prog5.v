(** Runs of the parallel-tempering bundle whose target and prior rule out non-finite positions do not stop. *)
From Coq Require Import Permutation.
From Verif Require Import Prelude Num M_Core M_Kernels M_Strategies M_PT M_Bundle P_Lists P_Buffer
  Spec Spec_Core P_Core Spec_Sampler P_Sampler Spec_Steps P_Steps Spec_Kernels P_Kernels P_StepsK P_Steps2 Spec_Train P_Train P_Train2
  P_Kernels2 Spec_PT P_PT P_PT2 P_PT3 P_PT4 P_PT5 P_Tree13 Spec_Bundle P_Bundle P_Bundle2 P_Bundle3 P_Bundle4 P_Bundle5 P_Bundle6 Spec_Prog P_Prog1 P_Prog2 P_Prog3 P_Prog4.

Section Prog.
Context {N : Num} {G : Rng} {NF : NFOps}.
Hypothesis NL : NumLaws.

Lemma tempered_rules_out t d dim temp : rules_out_nonfinite (t_prior t) d dim -> rules_out_nonfinite (tempered_lpdf t temp) d dim.
Proof.
  intros H x Hx Hf. cbn [lp_val tempered_lpdf]. unfold tempered_log_pdf.
  destruct (H x Hx Hf) as [Hn| ->]; [left; apply (nl_nan_add NL); auto|].
  match goal with |- impossible (?z +. fninf) => destruct (nl_add_ninf NL z) as [Q|Q] end; [right|left]; exact Q.
Qed.
Lemma scan_okpos c f d n k x lp co : normal_shape -> grad_shape f d (c_n_dims c) -> rules_out_nonfinite f d (c_n_dims c) ->
  okpos c x -> serial_scan (mala_kernel (c_step c)) f d n k x lp = Ok co -> forall o, In o co -> okpos c (s_pos o).
Proof.
  intros Hn Hg R Hx H o Ho.
  apply (serial_scan_inv (fun x lp => okpos c x) (mala_kernel (c_step c)) f d) with (3 := H); auto.
  intros q z l o' [Hl Hf] Ho'. pose proof (mala_shape _ _ _ _ Hn Hg _ _ _ _ Hl Ho') as Hl'.
  destruct (s_acc o') eqn:Ea.
  - split; [exact Hl'|]. destruct (finite_row (s_pos o')) eqn:E; [reflexivity|]. exfalso. eapply (mala_possible NL); eauto.
  - rewrite (repo_kernel_reject (mala_kernel (c_step c)) (c_n_dims c) f d ltac:(right; left; eauto) _ _ _ _ Ho' Ea). split; auto.
Qed.
Lemma last_in {A} (l : list A) x : last l x = x \/ In (last l x) l.
Proof. induction l as [|a l IH]; [auto|]. right. destruct l as [|b l]; [left; reflexivity|]. cbn [last]. destruct IH as [E|E]; [|right; exact E].
  right. change (In (last (b :: l) x) (b :: l)). destruct (@exists_last _ (b :: l) ltac:(discriminate)) as (l' & y & ->). rewrite last_last. apply in_app_iff. right. left. auto. Qed.
Lemma sweep_forall (P : vec -> Prop) temps lp k xs ys accs ens : sweep_of temps lp k xs ys accs ens ->
  (forall x, In x xs -> P x) -> (forall y, In y ys -> P y).
Proof.
  intros (S1 & S2 & S3 & S4 & S5) Hx.
  assert (A : forall i, i <= length accs -> forall y, In y (nth i ens []) -> P y).
  { induction i as [|i IH]; intros Hi y Hy; [rewrite S3 in Hy; auto|]. specialize (IH ltac:(lia)).
    destruct (S5 i ltac:(lia)) as (_ & Hs). rewrite Nat.add_1_r in Hs. destruct (nth i accs false).
    - destruct Hs as (X1 & X2 & X3 & X4 & X5). apply In_nth_error in Hy as (j & Hj).
      destruct (Nat.eq_dec j i) as [->|]; [rewrite X3 in Hj; apply IH; eapply nth_error_In; eauto|].
      destruct (Nat.eq_dec j (i + 1)) as [->|]; [rewrite X4 in Hj; apply IH; eapply nth_error_In; eauto|].
      rewrite X5 in Hj by auto. apply IH; eapply nth_error_In; eauto.
    - rewrite Hs in Hy. auto. }
  intros y Hy. apply (A (length accs)); [lia|]. rewrite S4. exact Hy.
Qed.

Definition walkers_ok (pc : pt_config) (e : buffer * buffer) : Prop :=
  pt_fit pc e /\ forall i j, i < c_n_chains (p_base pc) -> j < p_n_temps pc - 1 ->
    okpos (p_base pc) (brow (fst e) (c_n_dims (p_base pc)) i j).

Lemma tempering_okpos pc d e k xs e' k' xs' : normal_shape ->
  grad_shape (c_logpdf (p_base pc)) d (c_n_dims (p_base pc)) -> grad_shape (p_prior pc) d (c_n_dims (p_base pc)) ->
  rules_out_nonfinite (p_prior pc) d (c_n_dims (p_base pc)) -> 0 < p_n_temps pc ->
  tempering pc d true e k xs e' k' xs' -> walkers_ok pc e -> length xs = c_n_chains (p_base pc) ->
  (forall x, In x xs -> okpos (p_base pc) x) ->
  walkers_ok pc e' /\ length xs' = c_n_chains (p_base pc) /\ (forall x, In x xs' -> okpos (p_base pc) x).
Proof.
  intros Hn Hg Hp R Ht HT [HF HW] Hl Hx. pose proof (fit_keep _ _ _ _ _ _ _ _ _ HT HF) as HF'.
  destruct HT as (after & accs & L1 & L2 & L3 & _ & HC & _ & _ & HB & _).
  destruct HF as (F1 & F2 & F3 & F4).
  assert (Lt : length (temps_of (snd e)) = p_n_temps pc) by (unfold temps_of; rewrite map_length, seq_length, F3; reflexivity).
  assert (HA : forall i, i < length xs -> length (nth i after []) = p_n_temps pc /\ (forall y, In y (nth i after []) -> okpos (p_base pc) y) /\
            nth i xs' [] = nth 0 (nth i after []) []).
  { intros i Hi. destruct (HC i Hi) as (C1 & C2 & stepped & ens & C3 & C4 & C5 & C6). split; [congruence|]. split; [|exact C6].
    refine (sweep_forall _ _ _ _ _ _ _ _ C5 _). intros y Hy. apply (In_nth _ _ []) in Hy as (j & Hj & <-). rewrite C3 in Hj.
    assert (Hb : okpos (p_base pc) (nth j (ensemble_before (fst e) xs i) [])).
    { unfold ensemble_before. rewrite F1. cbn [nth]. destruct j as [|j]; [apply Hx, nth_In; auto|].
      rewrite nth_map_seq by lia. apply HW; lia. }
    destruct (C4 j Hj) as (tr & Htr & ->).
    assert (Hin : forall o, In o tr -> okpos (p_base pc) (s_pos o)).
    { eapply scan_okpos with (5 := Htr); auto; [apply tempered_grad_shape; auto|apply tempered_rules_out; auto]. }
    match goal with |- okpos _ (last ?l ?x) => destruct (last_in l x) as [->|Q] end; [exact Hb|].
    apply in_map_iff in Q as (o & Eo & Q). rewrite <- Eo. exact (Hin o Q). }
  split; [|split; [congruence|]].
  - split; [exact HF'|]. intros i j Hi Hj. rewrite HB by lia. destruct (HA i ltac:(lia)) as (A1 & A2 & _). apply A2, nth_In. lia.
  - intros x Hin. apply (In_nth _ _ []) in Hin as (i & Hi & <-). rewrite L3 in Hi. destruct (HA i Hi) as (A1 & A2 & ->). apply A2, nth_In. lia.
Qed.

Lemma pt_never_raises pc h bd n nc k o kw s d xs good :
  rqspline_mala_pt_bundle pc = Ok (h, bd) -> sampler_init n nc k None None o (Some bd) kw = Ok s ->
  run_ok (p_base pc) d xs good -> grad_shape (p_prior pc) d (c_n_dims (p_base pc)) -> counts_ok (p_base pc) ->
  rules_out_nonfinite (c_logpdf (p_base pc)) d (c_n_dims (p_base pc)) ->
  rules_out_nonfinite (c_logpdf (p_base pc)) (with_n_steps d (c_global (p_base pc))) (c_n_dims (p_base pc)) ->
  rules_out_nonfinite (p_prior pc) d (c_n_dims (p_base pc)) ->
  (forall x, In x xs -> finite_row x = true) ->
  exists k' xs' w', sampler_sample s (P2 xs) d h = (Ok (k', xs'), w').
Proof.
  intros Hb Hs Hok Hpr HO R1 R2 R3 Hx.
  destruct (pt_outcome _ _ _ _ _ _ _ _ _ _ _ _ Hb Hs Hok Hpr HO) as [H|(err & w' & e0 & _ & HI & HF & He)]; [exact H|exfalso].
  unfold rqspline_mala_pt_bundle in Hb. destruct (_ || _) eqn:Et; [discriminate|]. destruct (Nat.eqb_spec (p_n_temps pc) 0) as [|Hnt]; [discriminate|].
  apply orb_false_iff in Et as [T1 T2]. apply Nat.eqb_neq in T1, T2.
  destruct Hok as [O1 O2 O3 O4 O5 O6 O7 O7b O8 O9 O10 O11].
  revert He. apply (never_stops (p_base pc) d good NL O7 O8 O3 O10 R1 R2 (c_window (p_base pc)) _ (tempering pc d true) (walkers_ok pc)); auto; try lia.
  - intros e ks ys e' k' ys' HT HW HL HP. eapply tempering_okpos; eauto. lia.
  - cbn [r_ext]. split; [exact HF|]. intros i j Hi Hj. destruct HI as (_ & HI & _). rewrite HI by lia.
    assert (Hin : In (nth i xs []) xs) by (apply nth_In; lia). split; [now apply O6|now apply Hx].
  - intros x Hin. split; [now apply O6|now apply Hx].
Qed.
End Prog.
