(** Adding a constant to the log-density: kernels, chains, tempering. *)
From Verif Require Import Prelude Num M_Core M_Kernels M_Strategies M_PT M_Bundle M_Net M_Mala P_Lists P_Kernels
  Spec_Shift.

Section Shift.
Context {N : Num} {G : Rng} {NF : NFOps}.
Hypothesis LAWS : ShiftLaws N.

(** Related results. *)
Definition rrel {A B} (V : A -> B -> Prop) (r : res A) (r' : res B) : Prop :=
  match r, r' with Ok a, Ok b => V a b | Raise e, Raise e' => e' = e | _, _ => False end.
Definition orel (c : F) (o o' : vec * F * bool) : Prop :=
  fst (fst o') = fst (fst o) /\ snd (fst o') = snd (fst o) +. c /\ snd o' = snd o.
Lemma same_step_rrel c r r' : same_step c r r' <-> rrel (orel c) r r'.
Proof. destruct r as [[[x l] a]|e], r' as [[[x' l'] a']|e']; cbn; unfold orel; cbn; tauto. Qed.

Lemma rrel_bind {A B A' B'} (V : A -> A' -> Prop) (U : B -> B' -> Prop) r r' f f' :
  rrel V r r' -> (forall a a', V a a' -> rrel U (f a) (f' a')) -> rrel U (rbind r f) (rbind r' f').
Proof. destruct r, r'; cbn; intros H K; auto; tauto. Qed.
Lemma rrel_map {A B A' B'} (V : A -> A' -> Prop) (U : B -> B' -> Prop) r r' (f : A -> B) (f' : A' -> B') :
  rrel V r r' -> (forall a a', V a a' -> U (f a) (f' a')) -> rrel U (rmap f r) (rmap f' r').
Proof. destruct r, r'; cbn; intros H K; auto; tauto. Qed.
Lemma rrel_mapM {A A' B B'} (V : B -> B' -> Prop) (f : A -> res B) (f' : A' -> res B') l l' :
  Forall2 (fun a a' => rrel V (f a) (f' a')) l l' -> rrel (Forall2 V) (rmapM f l) (rmapM f' l').
Proof.
  induction 1 as [|a a' l l' H _ IH]; cbn [rmapM]; [constructor|].
  eapply rrel_bind; [exact H|]. intros b b' Hb. eapply rrel_bind; [exact IH|]. intros bs bs' Hbs. cbn. now constructor.
Qed.
Lemma rrel_refl_eq {A} (r : res A) : rrel eq r r. Proof. destruct r; cbn; auto. Qed.
Lemma rrel_eq {A} (r r' : res A) : rrel (fun a b => b = a) r r' <-> r' = r.
Proof. destruct r, r'; cbn; split; intros H; try discriminate; try contradiction; congruence. Qed.

(* ------------------------------------------------------------------ kernels *)
Definition kshift (kern : skernel) : Prop := forall c f g k x lp d, plus_constant c f g ->
  rrel (orel c) (kern k x lp f d) (kern k x (lp +. c) g d).

Lemma grw_shift ss : kshift (grw_kernel ss).
Proof.
  intros c f g k x lp d H. unfold grw_kernel. destruct (grw_move ss _) as [mv|e]; [|reflexivity]. cbn [rbind].
  rewrite (proj1 (H _ _)), (sl_diff LAWS). destruct (mh_accept _ _); cbn; unfold orel; auto.
Qed.
Lemma mala_ratio_shift c f g ss d x y : plus_constant c f g -> mala_ratio ss g d x y = mala_ratio ss f d x y.
Proof.
  intros H. unfold mala_ratio. rewrite !(proj2 (H _ _)), !(proj1 (H _ _)), (sl_diff LAWS). reflexivity.
Qed.
Lemma mala_shift ss : kshift (mala_kernel ss).
Proof.
  intros c f g k x lp d H. unfold mala_kernel.
  assert (A : forall y, mala_ratio ss g d x y = mala_ratio ss f d x y) by (intros; eapply mala_ratio_shift; eauto).
  rewrite (proj2 (H x d)).
  assert (K : rrel (orel c)
    (let* ratio := mala_ratio ss f d x (mala_propose ss x (lp_grad f x d) (normal (split k 2 0) (length x))) in
     Ok (if mh_accept (split k 2 1) ratio then mala_propose ss x (lp_grad f x d) (normal (split k 2 0) (length x)) else x,
         if mh_accept (split k 2 1) ratio then lp_val f (mala_propose ss x (lp_grad f x d) (normal (split k 2 0) (length x))) d else lp_val f x d,
         mh_accept (split k 2 1) ratio))
    (let* ratio := mala_ratio ss g d x (mala_propose ss x (lp_grad f x d) (normal (split k 2 0) (length x))) in
     Ok (if mh_accept (split k 2 1) ratio then mala_propose ss x (lp_grad f x d) (normal (split k 2 0) (length x)) else x,
         if mh_accept (split k 2 1) ratio then lp_val g (mala_propose ss x (lp_grad f x d) (normal (split k 2 0) (length x))) d else lp_val g x d,
         mh_accept (split k 2 1) ratio))).
  { rewrite A. destruct (mala_ratio _ _ _ _ _) as [r|e]; [|reflexivity]. cbn [rbind].
    rewrite !(proj1 (H _ _)). destruct (mh_accept _ _); cbn; unfold orel; auto. }
  destruct ss as [s|v|v]; [|reflexivity|]; cbn beta iota.
  - exact K.
  - destruct (negb _); [reflexivity|exact K].
Qed.
Lemma leapfrog_shift c f g h m d : plus_constant c f g -> forall qp, leapfrog h m g d qp = leapfrog h m f d qp.
Proof.
  intros H. unfold leapfrog. generalize (leapfrog_coefs (h_leap h)). induction l as [|a l IH]; intros qp; [reflexivity|].
  cbn [fold_left]. assert (A : leapfrog_one h m g d a qp = leapfrog_one h m f d a qp).
  { unfold leapfrog_one. now rewrite (proj2 (H _ _)). } rewrite A. apply IH.
Qed.
Lemma hmc_shift h : kshift (hmc_kernel h).
Proof.
  intros c f g k x lp d H. unfold hmc_kernel. destruct (h_cond h) as [s|m]; [reflexivity|].
  destruct (square m (length x)); [|reflexivity]. rewrite (leapfrog_shift _ _ _ _ _ _ H).
  unfold hmc_ratio. rewrite (proj1 (H _ _)), (sl_energy LAWS), (sl_neg LAWS). destruct (mh_accept _ _); cbn; unfold orel; auto.
Qed.
Lemma mat_mala_shift chol dt : kshift (mat_mala_kernel chol dt).
Proof.
  intros c f g k x lp d H. unfold mat_mala_kernel. destruct (square dt (length x)); [|reflexivity].
  unfold mat_mala_ratio. rewrite !(proj2 (H _ _)), !(proj1 (H _ _)), (sl_diff LAWS). destruct (mh_accept _ _); cbn; unfold orel; auto.
Qed.

(* ------------------------------------------------------------------ chains *)
Lemma serial_scan_shift c f g kern d n : kshift kern -> plus_constant c f g -> forall k x lp,
  rrel (Forall2 (orel c)) (serial_scan kern f d n k x lp) (serial_scan kern g d n k x (lp +. c)).
Proof.
  intros HK H. induction n as [|n IH]; intros k x lp; cbn [serial_scan]; [constructor|].
  eapply rrel_bind; [apply HK; exact H|]. intros [[x1 l1] a1] [[x2 l2] a2] (E1 & E2 & E3). cbn in E1, E2, E3. subst x2 l2 a2.
  eapply rrel_bind; [apply IH|]. intros r r' Hr. cbn. constructor; [|exact Hr]. unfold orel; auto.
Qed.
Lemma nfp_scan_shift c : forall (props : list (vec * F * F)) props',
  Forall2 (fun p p' => fst (fst p') = fst (fst p) /\ snd (fst p') = snd (fst p) +. c /\ snd p' = snd p) props props' ->
  forall k x lp nf, Forall2 (orel c) (nfp_scan k x lp nf props) (nfp_scan k x (lp +. c) nf props').
Proof.
  induction 1 as [|[[y l] q] [[y' l'] q'] r r' (E1 & E2 & E3) _ IH]; intros k x lp nf; cbn [nfp_scan]; [constructor|].
  cbn in E1, E2, E3. subst y' l' q'. assert (A : nfp_ratio (l +. c) (lp +. c) q nf = nfp_ratio l lp q nf).
  { unfold nfp_ratio. now rewrite (sl_diff LAWS). }
  rewrite A. destruct (mh_accept _ _); constructor; try (unfold orel; cbn; auto); apply IH.
Qed.
(** Every flow returns as many samples as it is asked for. *)
Hypothesis HS : forall m k n, length (m_sample m k n) = n.
Lemma sample_flow_len p k n props nfs : sample_flow p k n = Ok (props, nfs) -> length props = n /\ length nfs = n.
Proof.
  unfold sample_flow. destruct (nfp_bs p <? n) eqn:E.
  - apply Nat.ltb_lt in E. destruct (nfp_bs p =? 0) eqn:E0; [discriminate|]. apply Nat.eqb_neq in E0. intros H. injection H as <- <-.
    destruct (flow_plan (nfp_bs p) n ltac:(lia)) as [HN HM]. revert HN HM.
    set (nb := cdiv n (nfp_bs p)). set (ns := cdiv n nb). intros HN HM.
    assert (FB : forall nb k, Forall (fun r : list vec => length r = ns) (flow_batches (nfp_model p) k nb ns)).
    { induction nb0 as [|j IH]; intros q; cbn [flow_batches]; constructor; auto. }
    assert (LC : length (concat (flow_batches (nfp_model p) k nb ns)) = nb * ns).
    { rewrite (concat_length_uniform _ ns), flow_batches_length; auto. }
    rewrite <- concat_map, !firstn_length, map_length, LC. lia.
  - intros H. injection H as <- <-. rewrite map_length, HS. auto.
Qed.
Lemma nfp_shift c f g p k x lp d n : plus_constant c f g -> dget d "n_steps" = Some (DInt (Z.of_nat n)) ->
  rrel (fun l l' => Forall2 (orel c) l l' /\ length l = n) (nfp_kernel p k x lp f d) (nfp_kernel p k x (lp +. c) g d).
Proof.
  intros H Hd. unfold nfp_kernel. rewrite Hd, Nat2Z.id. destruct (sample_flow p (split k 2 1) n) as [[props nfs]|e] eqn:E; [|reflexivity].
  cbn [rbind rrel]. destruct (sample_flow_len _ _ _ _ _ E) as [L1 L2].
  assert (B : forall h, batched_logpdf (nfp_bs p) n h props = map h props).
  { intros h. destruct (nfp_bs p) as [|b] eqn:Eb; [|apply batched_logpdf_spec; [lia|exact L1]].
    unfold sample_flow in E. rewrite Eb in E. unfold batched_logpdf. destruct (0 <? n); [discriminate|reflexivity]. }
  rewrite !B. split; [|rewrite nfp_scan_length, !combine_length, map_length; lia].
  apply nfp_scan_shift. clear B E L1 L2. revert nfs. induction props as [|y r IH]; intros [|q nfs]; cbn; constructor.
  - cbn. rewrite (proj1 (H _ _)). auto.
  - apply IH.
Qed.

(* ------------------------------------------------------------------ tempering *)
(** The tempered densities of two pairs of densities. *)
Definition trel (c q : F) (t t' : tempered) : Prop :=
  plus_constant c (l_pdf (t_base t)) (l_pdf (t_base t')) /\ plus_constant q (t_prior t) (t_prior t').
Lemma tempered_shift c q t t' T : trel c q t t' -> plus_constant (f1 /. T *. c +. q) (tempered_lpdf t T) (tempered_lpdf t' T).
Proof.
  intros [H1 H2] x d. cbn [tempered_lpdf lp_val lp_grad]. unfold tempered_log_pdf, tempered_grad, logpdf_call.
  rewrite (proj1 (H1 _ _)), (proj1 (H2 _ _)), (proj2 (H1 _ _)), (proj2 (H2 _ _)), (sl_temper LAWS). auto.
Qed.
Lemma last_rel {A B} (V : A -> B -> Prop) l l' : Forall2 V l l' ->
  match last_opt l, last_opt l' with Some a, Some b => V a b | None, None => True | _, _ => False end.
Proof.
  intros H. destruct H as [|a b l l' Hab H]; [exact I|]. cbn [last_opt]. revert a b Hab. induction H; intros x0 y0 Hxy; cbn [last]; auto.
  destruct H0; auto.
Qed.
Lemma individual_shift c q t t' n kern d k x T : kshift kern -> trel c q t t' ->
  rrel (fun o o' => fst (fst o') = fst (fst o) /\ snd o' = snd o) (individual_step n kern t d k x T) (individual_step n kern t' d k x T).
Proof.
  intros HK H. unfold individual_step. pose proof (tempered_shift c q t t' T H) as HT.
  assert (E : tempered_log_pdf t' T x d = tempered_log_pdf t T x d +. (f1 /. T *. c +. q)) by exact (proj1 (HT x d)).
  rewrite E. eapply rrel_bind; [apply serial_scan_shift; eassumption|].
  intros tr tr' Htr. pose proof (last_rel _ _ _ Htr) as HL.
  assert (M : map snd tr' = map snd tr).
  { clear -Htr. induction Htr as [|a b l l' (_ & _ & A) _ IH]; cbn; congruence. }
  rewrite M. destruct (last_opt tr) as [[[x1 l1] a1]|], (last_opt tr') as [[[x2 l2] a2]|]; cbn in HL |- * ; try contradiction; auto.
  destruct HL as (A & _). cbn in A. auto.
Qed.
Lemma ensemble_shift c q t t' n kern d temps k xs : kshift kern -> trel c q t t' ->
  ensemble_step n kern t' d temps k xs = ensemble_step n kern t d temps k xs.
Proof.
  intros HK H. unfold ensemble_step. destruct (length xs =? length temps); [|reflexivity].
  apply rmapM_ext. intros [[k0 x] T] _. cbn [fst snd]. apply rrel_eq.
  eapply rrel_map; [eapply individual_shift; eassumption|]. intros a b [A _]. exact A.
Qed.
Lemma swap_at_map {A B} (h : A -> B) : forall l i, swap_at i (map h l) = map h (swap_at i l).
Proof.
  induction l as [|a l IH]; intros [|i]; cbn [map swap_at]; auto.
  - destruct l; reflexivity.
  - f_equal. apply IH.
Qed.
Lemma swap_at_length {A} : forall (l : list A) i, length (swap_at i l) = length l.
Proof. induction l as [|a l IH]; intros [|i]; cbn [swap_at]; auto. - destruct l; reflexivity. - cbn. now rewrite IH. Qed.
Lemma exchange_scan_shift c temps : forall n i k xs lps, i + n < length lps \/ n = 0 ->
  let r := exchange_scan temps n i k xs lps in let r' := exchange_scan temps n i k xs (map (fun v => v +. c) lps) in
  fst (fst r') = fst (fst r) /\ snd r' = snd r.
Proof.
  induction n as [|n IH]; intros i k xs lps HL; cbn [exchange_scan]; [auto|].
  assert (A : exchange_ratio temps (map (fun v => v +. c) lps) i = exchange_ratio temps lps i).
  { unfold exchange_ratio. f_equal. rewrite !(nth_indep (map _ lps) f0 (f0 +. c)) by (rewrite map_length; lia).
    rewrite !(map_nth (fun v => v +. c)). apply (sl_diff LAWS). }
  rewrite A. set (acc := mh_accept _ _).
  assert (M : (if acc then swap_at i (map (fun v => v +. c) lps) else map (fun v => v +. c) lps) = map (fun v => v +. c) (if acc then swap_at i lps else lps)).
  { destruct acc; [apply swap_at_map|reflexivity]. }
  rewrite M. specialize (IH (i + 1) (split k 2 0) (if acc then swap_at i xs else xs) (if acc then swap_at i lps else lps)).
  cbv zeta in IH.
  destruct IH as [I1 I2]. { left. destruct acc; rewrite ?swap_at_length; lia. }
  destruct (exchange_scan temps n (i + 1) (split k 2 0) _ (if acc then swap_at i lps else lps)) as [[xf lf] accs].
  destruct (exchange_scan temps n (i + 1) (split k 2 0) _ (map _ _)) as [[xf' lf'] accs']. cbn in I1, I2 |- * . subst. auto.
Qed.
Lemma exchange_shift c q t t' d temps k xs : trel c q t t' ->
  let r := exchange t d temps k xs in let r' := exchange t' d temps k xs in fst (fst r') = fst (fst r) /\ snd r' = snd r.
Proof.
  intros [H _]. unfold exchange.
  assert (M : map (fun x => tempered_call t' x d) xs = map (fun v => v +. c) (map (fun x => tempered_call t x d) xs)).
  { rewrite map_map. apply map_ext. intros x. unfold tempered_call, logpdf_call. apply (proj1 (H _ _)). }
  rewrite M. apply exchange_scan_shift. rewrite map_length. lia.
Qed.

(** AdamOptimization reads only the gradient. *)
Lemma adam_shift a obj obj' d k x : (forall y, lp_grad obj' y d = lp_grad obj y d) -> single_optimize a obj' d k x = single_optimize a obj d k x.
Proof.
  intros H. unfold single_optimize. f_equal. f_equal.
  assert (E : forall n s, iter n (adam_step a obj' d) s = iter n (adam_step a obj d) s).
  { induction n as [|n IH]; intros s; [reflexivity|]. cbn [iter].
    assert (E1 : adam_step a obj' d s = adam_step a obj d s). { destruct s as [[k0 y] st]. unfold adam_step. now rewrite H. }
    rewrite E1. apply IH. }
  apply E.
Qed.
End Shift.
