From Coq Require Import Reals Permutation Psatz.
From Verif Require Import Prelude Num M_Core M_Kernels M_Strategies M_PT P_Lists Spec Spec_Core P_Buffer P_Core Spec_Steps P_Steps
  Spec_Kernels P_Kernels P_Sampler Spec_Train P_Train P_Train2 RNum Spec_Real P_Real1 Spec_PT P_PT P_PT2 P_PT3 P_PT4.
Close Scope R_scope.

Section Frozen.
Context {N : Num} {G : Rng} {NF : NFOps}.
(** Without training, a call changes nothing, whether it succeeds or raises. *)
Lemma pt_frozen pt k xs d w sl st v : dget (rdict w) (pt_state pt) = Some (RObj sl) ->
  hget sl w = Some (OState st) -> dget (s_data st) "training" = Some v -> truthy v = false ->
  snd (parallel_tempering pt k xs d w) = w.
Proof.
  intros H1 H2 H3 H4. destruct (parallel_tempering pt k xs d w) as [r w'] eqn:E. cbn [snd].
  unfold parallel_tempering in E.
  assert (Hpure : forall A (m : M world A) f w0 (r0 : res (key * pos_t)) wf, mbind m f w0 = (r0, wf) -> snd (m w0) = w0 ->
     wf = w0 \/ exists a, m w0 = (Ok a, w0) /\ f a w0 = (r0, wf)).
  { intros A m f w0 r0 wf Hm Hs. apply mbind_cases in Hm as [(e & Ha & ->)|(a & w1 & Ha & Hm)]; rewrite Ha in Hs; cbn in Hs; subst; eauto. }
  apply Hpure in E as [->|(kr & Ea & E)]; [auto| |apply res_get_snd].
  apply Hpure in E as [->|(u & Eb & E)]; [auto| |destruct kr; reflexivity].
  apply Hpure in E as [->|(tr & Ec & E)]; [auto| |apply res_get_snd].
  apply Hpure in E as [->|(t & Ed & E)]; [auto| |destruct tr; reflexivity].
  apply Hpure in E as [->|([tpl tpb] & Ee & E)]; [auto| |apply get_buffer_snd].
  apply Hpure in E as [->|([tml tmb] & Ef & E)]; [auto| |apply get_buffer_snd].
  apply Hpure in E as [->|([sl' st'] & Eg & E)]; [auto| |apply get_state_snd].
  apply get_state_inv in Eg as (_ & Hst1 & Hst2). rewrite H1 in Hst1. injection Hst1 as <-. rewrite H2 in Hst2. injection Hst2 as <-.
  apply Hpure in E as [->|(kern & Eh & E)]; [auto| |destruct kr; reflexivity].
  apply Hpure in E as [->|(u0 & Ei & E)]; [auto| |].
  2:{ destruct (ashape (b_data tpb)) as [|? [|? [|? [|? ?]]]]; try reflexivity. destruct (_ && _); reflexivity. }
  apply Hpure in E as [->|(stepped & Ej & E)]; [auto| |reflexivity].
  cbn zeta in E.
  apply Hpure in E as [->|(tg & Ek & E)]; [auto| |rewrite H3; reflexivity].
  rewrite H3 in Ek. unfold mret in Ek. injection Ek as <-. rewrite H4 in E.
  apply Hpure in E as [->|(u1 & El & E)]; [auto| |reflexivity].
  unfold mret in E. injection E as _ <-. reflexivity.
Qed.
Lemma C41_frozen_proof pt d w sl st v : dget (rdict w) (pt_state pt) = Some (RObj sl) ->
  hget sl w = Some (OState st) -> dget (s_data st) "training" = Some v -> truthy v = false ->
  forall calls : list (key * pos_t),
  fold_left (fun w1 kx => snd (parallel_tempering pt (fst kx) (snd kx) d w1)) calls w = w.
Proof.
  intros H1 H2 H3 H4. induction calls as [|[k xs] calls IH]; [reflexivity|]. cbn [fold_left fst snd].
  rewrite (pt_frozen _ _ _ _ _ _ _ _ H1 H2 H3 H4). exact IH.
Qed.
End Frozen.

(* ------------------------------------------------------------------------------------ *)
Section Lost.
Context {G : @Rng RNum} {NF : @NFOps RNum G}.
Local Open Scope R_scope.

Definition qlp : @lpdf RNum := @mkLpdf RNum (fun x d => - (nth 0 x 0 * nth 0 x 0)) (fun x d => map (fun a => - 2 * a) x).
Definition qt : @tempered RNum := mkTempered (mkLogPDF qlp [mkVar "x" true]) (@mkLpdf RNum (fun _ _ => 0) (fun x _ => map (fun _ => 0) x)).
Definition qpb : @buffer RNum := @mkBuffer RNum "tp" (@mkArr RNum [1;1;1]%nat (fun _ => 0)) 0 2.
Definition qtb : @buffer RNum := @mkBuffer RNum "tm" (@mkArr RNum [2]%nat (fun ix => match ix with [O] => 1 | _ => 2 end)) 0 0.
Definition qworld (training : bool) : world := mkWorld
  [OBuf qpb; OBuf qtb; OState (mkState "st" [("training"%string, SBool training)])]
  [("tp", RObj 0%nat); ("tm", RObj 1%nat); ("st", RObj 2%nat); ("k", RSer (grw_kernel (SScalar (1%R:R)))); ("t", RTemp qt)]%string.
Definition qpt (n : nat) : ptemp := mkPtemp n "t" "k" "tp" "tm" "st".
Definition qxs : @list (list R) := [[9]].

Lemma q_setup training n : pt_setup (qworld training) (qpt n) (grw_kernel (SScalar (1%R:R))) qt 0%nat qpb 1%nat qtb training.
Proof. split; try reflexivity; try (split; reflexivity). exists 2%nat, (mkState "st" [("training"%string, SBool training)]), (SBool training). repeat split. Qed.

Lemma q_exchange (HU : uniform_law G) k d :
  fst (fst (@exchange RNum G qt d [1; 2] k [[9]; [0]])) = [[0]; [9]].
Proof.
  unfold exchange. cbn [length Nat.sub exchange_scan].
  replace (mh_accept (split k 2 1) _) with true; [reflexivity|]. symmetry.
  unfold mh_accept. apply flt_R.
  change (ln (uniform (split k 2 1)) < (1 / 2 - 1 / 1) * (- (9 * 9) - - (0 * 0))).
  pose proof (HU (split k 2 1)) as Hu.
  assert (ln (uniform (split k 2 1)) < 0). { rewrite <- ln_1. apply ln_increasing; apply Hu. }
  lra.
Qed.

Lemma q_ensemble k d kern : @ensemble_step RNum G 0 kern qt d [1; 2] k [[9]; [0]] = Ok [[9]; [0]].
Proof. reflexivity. Qed.
Lemma mbind_eq {W A B} (m : M W A) (f : A -> M W B) w a w1 : m w = (Ok a, w1) -> mbind m f w = f a w1.
Proof. intros H. unfold mbind. rewrite H. reflexivity. Qed.
Lemma q_exch_len (HU : uniform_law G) k d : exists lps accs,
  @exchange RNum G qt d [1; 2] k [[9]; [0]] = ([[0]; [9]], lps, accs).
Proof. pose proof (q_exchange HU k d) as H. destruct (exchange _ _ _ _ _) as [[xs lps] accs]. cbn in H. subst. eauto. Qed.

Lemma q_run (HU : uniform_law G) k d : exists k',
  parallel_tempering (qpt 0) k qxs d (qworld false) = (Ok (k', [[0]]), qworld false).
Proof.
  eexists. unfold parallel_tempering.
  erewrite mbind_eq by reflexivity. erewrite mbind_eq by reflexivity. erewrite mbind_eq by reflexivity.
  erewrite mbind_eq by reflexivity. erewrite mbind_eq by reflexivity. cbv beta iota. erewrite mbind_eq by reflexivity.
  cbv beta iota. erewrite mbind_eq by reflexivity. cbv beta iota. erewrite mbind_eq by reflexivity.
  erewrite mbind_eq by reflexivity. cbv zeta.
  erewrite mbind_eq by reflexivity.
  erewrite mbind_eq by reflexivity.
  change (truthy (SBool false)) with false. cbv iota.
  erewrite mbind_eq by reflexivity.
  cbn [map combine split_keys seq length qxs].
  destruct (q_exch_len HU (split (split (split (split k 2 0) 2 0) 2 1) 1 0) d) as (lps & accs & E).
  match goal with |- context [exchange qt d ?t ?kk ?x] =>
    change (exchange qt d t kk x) with (exchange qt d [1; 2] (split (split (split (split k 2 0) 2 0) 2 1) 1 0) [[9]; [0]]) end.
  rewrite E. reflexivity.
Qed.

Lemma C41_preserved_refuted_proof (HU : uniform_law G) k d :
  exists w pt kern t pl pb tl tb xs k' xs',
    pt_setup w pt kern t pl pb tl tb false /\ pt_n_steps pt = 0%nat /\
    parallel_tempering pt k xs d w = (Ok (k', xs'), w) /\
    ~ Permutation (ensemble_before pb xs 0) (ensemble_before pb xs' 0).
Proof.
  destruct (q_run HU k d) as [k' E].
  exists (qworld false), (qpt 0), (grw_kernel (SScalar (1%R:R))), qt, 0%nat, qpb, 1%nat, qtb, qxs, k', [[0]].
  split; [apply q_setup|]. split; [reflexivity|]. split; [exact E|].
  intros P. assert (H : In [9] (ensemble_before qpb [[0]] 0)).
  { apply (Permutation_in [9] P). left. reflexivity. }
  cbn in H. destruct H as [H|[H|[]]]; injection H; lra.
Qed.
End Lost.

Lemma nth_error_ext' {A} (l m : list A) : (forall j, nth_error l j = nth_error m j) -> l = m.
Proof.
  revert m. induction l as [|a l IH]; intros [|b m] H; auto; try (specialize (H 0); discriminate).
  pose proof (H 0) as H0. cbn in H0. injection H0 as ->. f_equal. apply IH. intros j. apply (H (S j)).
Qed.
Lemma exchanged_swap {A} i (xs ys : list A) : exchanged i xs ys -> ys = swap_at i xs.
Proof.
  intros (H1 & H2 & H3 & H4 & H5). destruct (swap_at_spec i xs H2) as (_ & _ & S3 & S4 & S5).
  apply nth_error_ext'. intros j. destruct (Nat.eq_dec j i) as [->|Hi]; [congruence|].
  destruct (Nat.eq_dec j (i + 1)) as [->|Hj]; [congruence|]. rewrite H5, S5; auto.
Qed.
Lemma C39_pair_proof (t : @tempered RNum) d temps (xs ys : list (list R)) i : exchanged i xs ys ->
  exists a b, swap_prob temps t d xs i a /\ swap_prob temps t d ys i b /\ (0 < a)%R /\ (0 < b)%R /\
    (ensemble_density t d temps xs * a = ensemble_density t d temps ys * b)%R.
Proof.
  intros H. pose proof (exchanged_swap _ _ _ H) as ->. destruct H as (H1 & H2 & _).
  exists (Rmin 1 (exp (ratioR t d temps xs i))), (Rmin 1 (exp (ratioR t d temps (swap_at i xs) i))).
  assert (A := swap_prob_value t d temps xs i H2). assert (B := swap_prob_value t d temps (swap_at i xs) i ltac:(lia)).
  split; auto. split; auto. split; [apply Rmin_glb_lt; [lra|apply exp_pos]|]. split; [apply Rmin_glb_lt; [lra|apply exp_pos]|].
  apply (C39_proof t d temps xs i); auto.
Qed.
Lemma C39_stationary_proof (t : @tempered RNum) d temps m (S : list (list (list R))) (h : list (list R) -> R) : 0 < m ->
  NoDup S -> (forall xs, In xs S -> length xs = m) ->
  (forall xs ys i, In xs S -> exchanged i xs ys -> In ys S) ->
  exists E : list (list R) -> R,
    (forall xs, In xs S -> is_expect (m - 1) (fun us => h (fst (fst (@exchange RNum tape t d temps us xs)))) (E xs)) /\
    Rsum_list (fun xs => (ensemble_density t d temps xs * E xs)%R) S =
    Rsum_list (fun xs => (ensemble_density t d temps xs * h xs)%R) S.
Proof.
  intros Hm Hnd Hlen Hcl. apply C39_sweep_proof; auto.
  intros i Hi. apply NoDup_Permutation_bis.
  - apply FinFun.Injective_map_NoDup; auto. intros a b E. rewrite <- (swap_at_invol i a), E, swap_at_invol. reflexivity.
  - rewrite map_length. auto.
  - intros y Hy. apply in_map_iff in Hy as (x & <- & Hx). apply (Hcl x _ i Hx). apply swap_at_spec. rewrite (Hlen x Hx). auto.
Qed.

Section KD.
Context {N : Num} {G : Rng} {NF : NFOps}.
Lemma tempered_grad_shape (t : tempered) d dim temp : grad_shape (l_pdf (t_base t)) d dim -> grad_shape (t_prior t) d dim ->
  grad_shape (tempered_lpdf t temp) d dim.
Proof.
  intros H1 H2 x Hx. cbn [lp_grad tempered_lpdf]. unfold tempered_grad, vadd, vscale. rewrite map2_length, map_length, H1, H2 by auto. lia.
Qed.
Lemma C41_kernels_proof (t : tempered) d dim : normal_shape -> grad_shape (l_pdf (t_base t)) d dim -> grad_shape (t_prior t) d dim ->
  (forall ss, keeps_dim (grw_kernel ss) t d dim) /\ (forall ss, keeps_dim (mala_kernel ss) t d dim) /\
  (forall h, length (h_chol h) = dim -> keeps_dim (hmc_kernel h) t d dim).
Proof.
  intros Hn H1 H2. pose proof (fun temp => tempered_grad_shape t d dim temp H1 H2) as Hg.
  split; [|split].
  - intros ss temp k x lp o Hx Ho. eapply (grw_shape ss _ d dim Hn); eauto.
  - intros ss temp k x lp o Hx Ho. eapply (mala_shape ss _ d dim Hn (Hg temp)); eauto.
  - intros h Hc temp k x lp o Hx Ho. eapply (hmc_shape h _ d dim (Hg temp) Hc); eauto.
Qed.
End KD.
