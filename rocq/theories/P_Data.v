(** The run sees the data only through the target. *)
From Verif Require Import Prelude Num M_Core M_Kernels M_Strategies M_PT M_Bundle M_Net M_Mala P_Lists P_Kernels P_Steps
  Spec_Kinds Spec_Bundle Spec_Shift Spec_Data P_Shift1.
Open Scope nat_scope.

Section Kern.
Context {N : Num} {G : Rng} {NF : NFOps}.
Definition kdata (kern : skernel) : Prop := forall f g d d' k x lp, same_target f g d d' -> kern k x lp g d' = kern k x lp f d.

Lemma grw_data ss : kdata (grw_kernel ss).
Proof. intros f g d d' k x lp H. unfold grw_kernel. destruct (grw_move ss _); [|reflexivity]. cbn [rbind]. now rewrite (proj1 (H _)). Qed.
Lemma mala_data ss : kdata (mala_kernel ss).
Proof.
  intros f g d d' k x lp H. unfold mala_kernel. unfold mala_ratio. rewrite !(proj2 (H _)), !(proj1 (H _)).
  destruct ss as [s|v|v]; reflexivity.
Qed.
Lemma leapfrog_data f g d d' h m : same_target f g d d' -> forall qp, leapfrog h m g d' qp = leapfrog h m f d qp.
Proof.
  intros H. unfold leapfrog. generalize (leapfrog_coefs (h_leap h)). induction l as [|a l IH]; intros qp; [reflexivity|].
  cbn [fold_left]. assert (A : leapfrog_one h m g d' a qp = leapfrog_one h m f d a qp).
  { unfold leapfrog_one. now rewrite (proj2 (H _)). } rewrite A. apply IH.
Qed.
Lemma hmc_data h : kdata (hmc_kernel h).
Proof.
  intros f g d d' k x lp H. unfold hmc_kernel. destruct (h_cond h) as [s|m]; [reflexivity|].
  destruct (square m (length x)); [|reflexivity]. rewrite (leapfrog_data _ _ _ _ _ _ H). unfold hmc_ratio. now rewrite (proj1 (H _)).
Qed.
Lemma mat_mala_data chol dt : kdata (mat_mala_kernel chol dt).
Proof.
  intros f g d d' k x lp H. unfold mat_mala_kernel. destruct (square dt (length x)); [|reflexivity].
  unfold mat_mala_ratio. now rewrite !(proj2 (H _)), !(proj1 (H _)).
Qed.
Lemma one_step_data kern : one_step_kernel kern -> kdata kern.
Proof.
  intros [[ss ->]|[[ss ->]|[(chol & dt & ->)|[h ->]]]]; [now apply grw_data|now apply mala_data|now apply mat_mala_data|now apply hmc_data].
Qed.
Lemma serial_scan_data f g d d' kern n : kdata kern -> same_target f g d d' -> forall k x lp,
  serial_scan kern g d' n k x lp = serial_scan kern f d n k x lp.
Proof.
  intros HK H. induction n as [|n IH]; intros k x lp; cbn [serial_scan]; [reflexivity|].
  rewrite (HK _ _ _ _ _ _ _ H). destruct (kern _ _ _ _ _) as [[[x1 l1] a1]|e]; [|reflexivity]. cbn [rbind]. now rewrite IH.
Qed.
Lemma serial_data f g d d' kern n k x : kdata kern -> same_target f g d d' -> serial_sample kern g d' n k x = serial_sample kern f d n k x.
Proof. intros HK H. unfold serial_sample. rewrite (proj1 (H x)). now apply serial_scan_data. Qed.
Lemma batched_ext bs n (h h' : vec -> F) props : (forall x, h' x = h x) -> batched_logpdf bs n h' props = batched_logpdf bs n h props.
Proof.
  intros H. unfold batched_logpdf. destruct (bs <? n); [|now apply map_ext].
  rewrite ?(map_ext h' h H). f_equal. f_equal. apply map_ext. intros. now apply map_ext.
Qed.
Lemma group_data f g d d' p n k x : interchangeable f g d d' -> group_sample p g d' n k x = group_sample p f d n k x.
Proof.
  intros [H1 H2]. unfold group_sample, nfp_kernel. rewrite (proj1 (H1 x)).
  assert (E : forall e, dget (with_n_steps e n) "n_steps" = Some (DInt (Z.of_nat n))) by (intros; apply dget_dset_eq).
  rewrite !E. destruct (sample_flow _ _ _) as [[props nfs]|e]; [|reflexivity]. cbn [rbind].
  rewrite (batched_ext _ _ (fun x => lp_val f x (with_n_steps d n)) (fun x => lp_val g x (with_n_steps d' n))); [reflexivity|].
  intros y. apply (H2 n).
Qed.
Lemma adam_data a g k xs d d' w : same_target (ad_logpdf a) g d d' -> adam_strategy (adam_with a g) k xs d' w = adam_strategy a k xs d w.
Proof.
  intros H. unfold adam_strategy, adam_optimize. change (ad_bounds (adam_with a g)) with (ad_bounds a).
  destruct (_ || _); [|reflexivity]. unfold mbind, mlift, mret. f_equal. f_equal. f_equal. apply map_ext. intros kx.
  unfold single_optimize. f_equal. f_equal.
  assert (E : forall n s, iter n (adam_step (adam_with a g) (neg_lpdf (ad_logpdf (adam_with a g))) d') s = iter n (adam_step a (neg_lpdf (ad_logpdf a)) d) s).
  { induction n as [|n IH]; intros s; [reflexivity|]. cbn [iter].
    assert (E1 : adam_step (adam_with a g) (neg_lpdf (ad_logpdf (adam_with a g))) d' s = adam_step a (neg_lpdf (ad_logpdf a)) d s).
    { destruct s as [[k0 y] st]. unfold adam_step. cbn. now rewrite (proj2 (H y)). }
    rewrite E1. apply IH. }
  apply E.
Qed.

(* tempering *)
Definition tdata (d d' : datad) (t t' : tempered) : Prop :=
  same_target (l_pdf (t_base t)) (l_pdf (t_base t')) d d' /\ same_target (t_prior t) (t_prior t') d d'.
Lemma tempered_data d d' t t' T : tdata d d' t t' -> same_target (tempered_lpdf t T) (tempered_lpdf t' T) d d'.
Proof.
  intros [H1 H2] x. cbn [tempered_lpdf lp_val lp_grad]. unfold tempered_log_pdf, tempered_grad, logpdf_call.
  rewrite (proj1 (H1 _)), (proj1 (H2 _)), (proj2 (H1 _)), (proj2 (H2 _)). auto.
Qed.
Lemma ensemble_data d d' t t' n kern temps k xs : kdata kern -> tdata d d' t t' ->
  ensemble_step n kern t' d' temps k xs = ensemble_step n kern t d temps k xs.
Proof.
  intros HK H. unfold ensemble_step. destruct (length xs =? length temps); [|reflexivity].
  apply rmapM_ext. intros [[k0 x] T] _. cbn [fst snd]. f_equal. unfold individual_step. pose proof (tempered_data d d' t t' T H) as HT.
  assert (E : tempered_log_pdf t' T x d' = tempered_log_pdf t T x d) by exact (proj1 (HT x)). rewrite E.
  now rewrite (serial_scan_data _ _ _ _ _ _ HK HT).
Qed.
Lemma exchange_data d d' t t' temps k xs : tdata d d' t t' -> exchange t' d' temps k xs = exchange t d temps k xs.
Proof.
  intros [H _]. unfold exchange. f_equal. apply map_ext. intros x. unfold tempered_call, logpdf_call. apply (proj1 (H _)).
Qed.
End Kern.

Section Sim.
Context {N : Num} {G : Rng} {NF : NFOps}.
(** Target and prior of the two runs. *)
Variables f g p p' : lpdf.
Definition entdata (name : string) (r r' : resource) : Prop :=
  match r with
  | RLog a => exists b, r' = RLog b /\ l_pdf a = f /\ l_pdf b = g /\ name = "logpdf"%string
  | RTemp a => exists b, r' = RTemp b /\ l_pdf (t_base a) = f /\ l_pdf (t_base b) = g /\ t_prior a = p /\ t_prior b = p' /\ name = "tempered_logpdf"%string
  | RSer k => r' = r /\ kdata k
  | _ => r' = r /\ True
  end.
Definition optrel {A B} (V : A -> B -> Prop) (a : option A) (b : option B) : Prop :=
  match a, b with Some x, Some y => V x y | None, None => True | _, _ => False end.
Record drel (w w' : world) : Prop := mkDrel {
  dr_heap : heap w' = heap w;
  dr_dict : forall name, optrel (entdata name) (dget (rdict w) name) (dget (rdict w') name) }.
Definition sim {A B} (V : A -> B -> Prop) (m : M world A) (m' : M world B) : Prop := forall w w', drel w w' ->
  rrel V (fst (m w)) (fst (m' w')) /\ drel (snd (m w)) (snd (m' w')).
Lemma sim_ret {A B} (V : A -> B -> Prop) a b : V a b -> sim V (mret a) (mret b).
Proof. intros H w w' R. cbn. auto. Qed.
Lemma sim_raise {A B} (V : A -> B -> Prop) e : sim V (mraise e) (mraise e).
Proof. intros w w' R. cbn. auto. Qed.
Lemma sim_lift {A} (r r' : res A) : r' = r -> sim eq (mlift r) (mlift r').
Proof. intros -> w w' R. cbn. split; [apply rrel_refl_eq|exact R]. Qed.
Lemma sim_bind {A B A' B'} (V : A -> A' -> Prop) (U : B -> B' -> Prop) m m' h h' :
  sim V m m' -> (forall a a', V a a' -> sim U (h a) (h' a')) -> sim U (mbind m h) (mbind m' h').
Proof.
  intros H K w w' R. destruct (H w w' R) as [H1 H2]. unfold mbind. destruct (m w) as [[a|e] w1], (m' w') as [[a'|e'] w1']; cbn in H1, H2; try contradiction.
  - apply K; auto.
  - cbn. auto.
Qed.
Lemma sim_beq {A B B'} (U : B -> B' -> Prop) (m m' : M world A) h h' :
  sim eq m m' -> (forall a, sim U (h a) (h' a)) -> sim U (mbind m h) (mbind m' h').
Proof. intros H K. eapply sim_bind; [exact H|]. intros a a' <-. apply K. Qed.
Lemma hget_same l w w' : drel w w' -> hget l w' = hget l w.
Proof. intros R. unfold hget. now rewrite (dr_heap _ _ R). Qed.
Lemma sim_res_get name : sim (entdata name) (res_get name) (res_get name).
Proof.
  intros w w' R. unfold res_get. pose proof (dr_dict _ _ R name) as H.
  destruct (dget (rdict w) name), (dget (rdict w') name); cbn in H |- * ; try contradiction; auto.
Qed.
Lemma sim_get_state name : sim eq (get_state name) (get_state name).
Proof.
  unfold get_state. eapply sim_bind; [apply sim_res_get|]. intros r r' H w w' R.
  destruct r as [l|a|a|k|pp|m]; cbn [entdata] in H; try (destruct H as (b & -> & _)); try (destruct H as [-> H]); subst; cbn; auto.
  rewrite (hget_same l _ _ R). destruct (hget l w) as [[]|]; cbn; auto.
Qed.
Lemma sim_get_buffer name : sim eq (get_buffer name) (get_buffer name).
Proof.
  unfold get_buffer. eapply sim_bind; [apply sim_res_get|]. intros r r' H w w' R.
  destruct r as [l|a|a|k|pp|m]; cbn [entdata] in H; try (destruct H as (b & -> & _)); try (destruct H as [-> H]); subst; cbn; auto.
  rewrite (hget_same l _ _ R). destruct (hget l w) as [[]|]; cbn; auto.
Qed.
Lemma sim_get_optimizer name : sim eq (get_optimizer name) (get_optimizer name).
Proof.
  unfold get_optimizer. eapply sim_bind; [apply sim_res_get|]. intros r r' H w w' R.
  destruct r as [l|a|a|k|pp|m]; cbn [entdata] in H; try (destruct H as (b & -> & _)); try (destruct H as [-> H]); subst; cbn; auto.
  rewrite (hget_same l _ _ R). destruct (hget l w) as [[]|]; cbn; auto.
Qed.
Lemma sim_get_cursor l : sim eq (get_cursor l) (get_cursor l).
Proof. intros w w' R. unfold get_cursor. rewrite (hget_same l _ _ R). destruct (hget l w) as [[]|]; cbn; auto. Qed.
Lemma drel_hset l o w w' : drel w w' -> drel (hset l o w) (hset l o w').
Proof. intros R. constructor; [|exact (dr_dict _ _ R)]. unfold hset. cbn. now rewrite (dr_heap _ _ R). Qed.
Lemma sim_heap_set l o : sim eq (heap_set l o) (heap_set l o).
Proof. intros w w' R. unfold heap_set. cbn. split; [reflexivity|]. now apply drel_hset. Qed.
Lemma sim_res_set name r r' : entdata name r r' -> sim eq (res_set name r) (res_set name r').
Proof.
  intros H w w' R. unfold res_set. cbn. split; [reflexivity|]. constructor; [exact (dr_heap _ _ R)|].
  intros n0. cbn. destruct (String.string_dec name n0) as [<-|Hne].
  - rewrite !dget_dset_eq. exact H.
  - rewrite !dget_dset_neq by auto. apply (dr_dict _ _ R).
Qed.
Lemma sim_buf_update l a z : sim eq (buf_update l a z) (buf_update l a z).
Proof.
  intros w w' R. unfold buf_update. rewrite (hget_same l _ _ R). destruct (hget l w) as [[b|s|op|z0]|]; cbn; auto.
  destruct (update_buffer b a z); cbn; [|auto]. split; [reflexivity|]. now apply drel_hset.
Qed.

Definition samp_data (samp : resource -> resource -> datad -> nat -> key -> vec -> res (list (vec * F * bool))) : Prop :=
  forall n1 n2 r r' t t' d d' n k x, entdata n1 r r' -> entdata n2 t t' -> interchangeable f g d d' -> samp r' t' d' n k x = samp r t d n k x.
Lemma as_lpdf_data n2 t t' : entdata n2 t t' -> optrel (fun a b => a = f /\ b = g) (as_lpdf t) (as_lpdf t').
Proof. destruct t as [l|a|a|k|pp|m]; cbn; try (intros (b & -> & H)); try (intros [-> H]); cbn; tauto. Qed.
Lemma samp_serial_data : samp_data samp_serial.
Proof.
  intros n1 n2 r r' t t' d d' n k x Hr Ht HD. unfold samp_serial. pose proof (as_lpdf_data _ _ _ Ht) as A.
  destruct (as_lpdf t) as [u|], (as_lpdf t') as [u'|]; cbn in A; try contradiction; [|reflexivity]. destruct A as [-> ->].
  destruct r as [l|a|a|kf|pp|m]; cbn [entdata] in Hr; try (destruct Hr as (b & -> & _)); try (destruct Hr as [-> Hr]); subst; try reflexivity.
  apply serial_data; [exact Hr|exact (proj1 HD)].
Qed.
Lemma samp_group_data : samp_data samp_group.
Proof.
  intros n1 n2 r r' t t' d d' n k x Hr Ht HD. unfold samp_group. pose proof (as_lpdf_data _ _ _ Ht) as A.
  destruct (as_lpdf t) as [u|], (as_lpdf t') as [u'|]; cbn in A; try contradiction; [|reflexivity]. destruct A as [-> ->].
  destruct r as [l|a|a|kf|pp|m]; cbn [entdata] in Hr; try (destruct Hr as (b & -> & _)); try (destruct Hr as [-> Hr]); subst; try reflexivity.
  now apply group_data.
Qed.
Definition okd (d d' : datad) : Prop := interchangeable f g d d' /\ same_target p p' d d'.
Lemma sim_take_steps samp ts : samp_data samp -> forall k xs d d', okd d d' -> sim eq (take_steps samp ts k xs d) (take_steps samp ts k xs d').
Proof.
  intros HSamp k xs d d' [HD _]. unfold take_steps. cbv zeta.
  apply sim_beq; [apply sim_get_state|]. intros [sl s].
  apply sim_beq; [now apply sim_lift|]. intros pn. apply sim_beq; [now apply sim_lift|]. intros ln. apply sim_beq; [now apply sim_lift|]. intros an.
  apply sim_beq; [apply sim_get_buffer|]. intros [pl pb]. apply sim_beq; [apply sim_get_buffer|]. intros [ll lb]. apply sim_beq; [apply sim_get_buffer|]. intros [al ab].
  eapply sim_bind; [apply sim_res_get|]. intros kr kr' Hk. eapply sim_bind; [apply sim_res_get|]. intros fr fr' Hf.
  apply sim_beq.
  { apply sim_lift. rewrite !run_chains_batch by apply split_keys_length. unfold vmap_chains. apply rmapM_ext. intros kx _. eapply HSamp; eassumption. }
  intros out. apply sim_beq; [destruct (ts_thinning ts =? 0); [apply sim_raise|now apply sim_ret]|]. intros _.
  apply sim_beq; [apply sim_get_cursor|]. intros cur.
  apply sim_beq; [apply sim_buf_update|]. intros _. apply sim_beq; [apply sim_buf_update|]. intros _. apply sim_beq; [apply sim_buf_update|]. intros _.
  apply sim_beq; [apply sim_heap_set|]. intros _. apply sim_beq; [now apply sim_lift|]. intros ls. now apply sim_ret.
Qed.
Lemma sim_train_model tm k xs d d' : sim eq (train_model tm k xs d) (train_model tm k xs d').
Proof.
  unfold train_model. cbv zeta. eapply sim_bind; [apply sim_res_get|]. intros r r' Hr.
  apply sim_beq.
  { destruct r as [l|a|a|kf|pp|m]; cbn [entdata] in Hr; try (destruct Hr as (b & -> & _)); try (destruct Hr as [-> Hr]); subst; try apply sim_raise. now apply sim_ret. }
  intros m. apply sim_beq; [apply sim_get_buffer|]. intros [dl db]. apply sim_beq; [apply sim_get_optimizer|]. intros [ol op].
  apply sim_beq; [now apply sim_lift|]. intros pool. apply sim_beq; [now apply sim_lift|]. intros ex. apply sim_beq; [now apply sim_lift|]. intros [[k3 [m' st']] losses].
  apply sim_beq.
  { destruct (String.eqb (tm_loss tm) ""); [now apply sim_ret|].
    apply sim_beq; [apply sim_get_buffer|]. intros [l0 lb]. apply sim_beq; [apply sim_buf_update|]. intros _. apply sim_beq; [apply sim_get_buffer|]. intros [l1 lb1].
    apply sim_beq; [apply sim_heap_set|]. intros _. apply sim_res_set. cbn. auto. }
  intros _. apply sim_beq; [apply sim_heap_set|]. intros _. apply sim_beq; [apply sim_res_set; cbn; auto|]. intros _.
  apply sim_beq; [apply sim_res_set; cbn; auto|]. intros _. now apply sim_ret.
Qed.
Definition strat_data (st : strategy) : Prop := forall k xs d d', okd d d' -> sim eq (st k xs d) (st k xs d').
Lemma sim_lambda h : (forall k xs d d', sim eq (h k xs d) (h k xs d')) -> strat_data (lambda h).
Proof. intros H k xs d d' _. unfold lambda. apply sim_beq; [apply H|]. intros _. now apply sim_ret. Qed.
Lemma base_data cf win name st : dget (base_strategies cf win) name = Some st -> strat_data st.
Proof.
  unfold base_strategies. cbn [dget].
  destruct (String.eqb name "local_stepper"). { intros E; injection E as <-. intros k xs d d' D. now apply sim_take_steps; [apply samp_serial_data|]. }
  destruct (String.eqb name "global_stepper"). { intros E; injection E as <-. intros k xs d d' D. now apply sim_take_steps; [apply samp_group_data|]. }
  destruct (String.eqb name "model_trainer"). { intros E; injection E as <-. intros k xs d d' _. apply sim_train_model. }
  destruct (String.eqb name "update_state").
  { intros E; injection E as <-. intros k xs d d' _. unfold update_state. apply sim_beq; [apply sim_get_state|]. intros [l s]. apply sim_beq; [apply sim_heap_set|]. intros _. now apply sim_ret. }
  destruct (String.eqb name "update_global_step").
  { intros E; injection E as <-. apply sim_lambda. intros _ _ _ _. apply sim_beq; [apply sim_get_cursor|]. intros z. apply sim_heap_set. }
  destruct (String.eqb name "update_local_step").
  { intros E; injection E as <-. apply sim_lambda. intros _ _ _ _. apply sim_beq; [apply sim_get_cursor|]. intros z. apply sim_heap_set. }
  destruct (String.eqb name "reset_steppers").
  { intros E; injection E as <-. apply sim_lambda. intros _ _ _ _. apply sim_beq; [apply sim_heap_set|]. intros z. apply sim_heap_set. }
  destruct (String.eqb name "update_model"); [|discriminate]. intros E; injection E as <-. apply sim_lambda. intros _ _ _ _.
  eapply sim_bind; [apply sim_res_get|]. intros r r' Hr. eapply sim_bind; [apply sim_res_get|]. intros u u' Hg.
  destruct r as [l|a|a|kf|pp|m]; cbn [entdata] in Hr; try (destruct Hr as (b & -> & _)); try (destruct Hr as [-> Hr]); subst; try apply sim_raise.
  destruct u as [l|a|a|kf|pp|m0]; cbn [entdata] in Hg; try (destruct Hg as (b & -> & _)); try (destruct Hg as [-> Hg]); subst; try apply sim_raise.
  apply sim_res_set. cbn. auto.
Qed.
Lemma sim_pt pc : strat_data (parallel_tempering (pt_strat pc)).
Proof.
  intros k xs d d' [HD HP]. unfold parallel_tempering. cbv zeta. cbn [pt_strat pt_kernel pt_logpdf pt_pos_buf pt_temp_buf pt_state].
  eapply sim_bind; [apply sim_res_get|]. intros kr kr' Hk.
  assert (Ek : kr' = kr \/ (exists a b, kr = RLog a /\ kr' = RLog b) \/ (exists a b, kr = RTemp a /\ kr' = RTemp b)).
  { destruct kr as [l|a|a|kf|pp|m]; cbn [entdata] in Hk; try (destruct Hk as (b & -> & _)); try (destruct Hk as [-> Hk]); eauto 6. }
  eapply (sim_bind (fun _ _ => kr' = kr)).
  { destruct Ek as [->|[(a & b & -> & ->)|(a & b & -> & ->)]]; try apply sim_raise. destruct kr; try apply sim_raise; now apply sim_ret. }
  intros _ _ ->. clear Ek.
  eapply sim_bind; [apply sim_res_get|]. intros tr tr' Ht.
  eapply (sim_bind (tdata d d')).
  { destruct tr as [l|a|a|kf|pp|m]; cbn [entdata] in Ht; try (destruct Ht as (b & -> & Ht)); try (destruct Ht as [-> Ht]); subst; try apply sim_raise. apply sim_ret.
    destruct Ht as (E1 & E2 & E3 & E4 & _). split; [rewrite E1, E2; exact (proj1 HD)|rewrite E3, E4; exact HP]. }
  intros t t' HT.
  apply sim_beq; [apply sim_get_buffer|]. intros [tpl tpb]. apply sim_beq; [apply sim_get_buffer|]. intros [tml tmb]. apply sim_beq; [apply sim_get_state|]. intros [sl s].
  eapply (sim_bind (fun a b => b = a /\ kdata a)).
  { destruct kr as [l|a|a|kf|pp|m]; try apply sim_raise. destruct Hk as [_ Hk]. now apply sim_ret. }
  intros kern b (-> & HK).
  apply sim_beq.
  { destruct (ashape (b_data tpb)) as [|c0 [|c1 [|c2 [|]]]]; try apply sim_raise. destruct (_ && _); [now apply sim_ret|apply sim_raise]. }
  intros _.
  apply sim_beq. { apply sim_lift. apply rmapM_ext. intros kx _. now apply ensemble_data. }
  intros stepped. set (sub' := split_keys _ _). set (temps := unstack1 (b_data tmb)).
  assert (EX : map (fun kx => exchange t' d' temps (fst kx) (snd kx)) (combine sub' stepped) = map (fun kx => exchange t d temps (fst kx) (snd kx)) (combine sub' stepped)).
  { apply map_ext. intros kx. now apply exchange_data. }
  rewrite EX. apply sim_beq. { destruct (dget (s_data s) "training") as [v|]; [now apply sim_ret|apply sim_raise]. }
  intros tr0. apply sim_beq.
  { destruct tr0; [|now apply sim_ret]. apply sim_beq; [apply sim_buf_update|]. intros _. apply sim_buf_update. }
  intros _. now apply sim_ret.
Qed.
Lemma pt_data pc name st : dget (pt_strategies pc) name = Some st -> strat_data st.
Proof.
  unfold pt_strategies. intros H.
  assert (D : dget (base_strategies (p_base pc) (c_window (p_base pc))) name = Some st \/
    dget [("parallel_tempering", parallel_tempering (pt_strat pc)); ("initialize_tempered_positions", initialize_tempered_positions pc)]%string name = Some st).
  { revert H. generalize (base_strategies (p_base pc) (c_window (p_base pc))) as S0. induction S0 as [|[k v] S0 IH]; [now right|].
    cbn [app dget]. destruct (String.eqb name k); auto. }
  destruct D as [D|D]; [eapply base_data; eassumption|]. cbn [dget] in D.
  destruct (String.eqb name "parallel_tempering"). { injection D as <-. apply sim_pt. }
  destruct (String.eqb name "initialize_tempered_positions"); [|discriminate]. injection D as <-. apply sim_lambda. intros _ ys _ _. apply sim_buf_update.
Qed.
Lemma sim_run (S0 : dict strategy) : (forall name st, dget S0 name = Some st -> strat_data st) -> forall order k xs d d', okd d d' ->
  sim eq (run_order S0 order k xs d) (run_order S0 order k xs d').
Proof.
  intros H. induction order as [|name order IH]; intros k xs d d' D; cbn [run_order]; [now apply sim_ret|].
  destruct (dget S0 name) as [st|] eqn:E; [|apply sim_raise]. apply sim_beq; [eapply H; eassumption|]. intros [k' xs']. now apply IH.
Qed.
Lemma sim_calls (S0 : dict strategy) : (forall name st, dget S0 name = Some st -> strat_data st) ->
  forall args args', same_calls okd args args' -> forall s s' h h', sm_strategies s = S0 -> sm_strategies s' = S0 -> sm_order s' = sm_order s -> sm_key s' = sm_key s ->
  drel (mkWorld h (sm_resources s)) (mkWorld h' (sm_resources s')) -> drel (calls_of s h args) (calls_of s' h' args').
Proof.
  intros HSt. induction 1 as [|[init d] [init' d'] args args' [Ei Hd] _ IH]; intros s s' h h' E1 E2 E3 E4 R; cbn [calls_of]; [exact R|]. cbn in Ei, Hd. subst init'.
  assert (K : drel (snd (sampler_sample s init d h)) (snd (sampler_sample s' init d' h'))).
  { unfold sampler_sample. rewrite E3, E4, E1, E2. destruct (sm_order s); try exact R. apply (sim_run S0 HSt); [exact Hd|exact R]. }
  apply IH; cbn; auto. revert K. destruct (snd (sampler_sample s init d h)), (snd (sampler_sample s' init d' h')). auto.
Qed.
Lemma drel_same w w' : drel w w' -> same_but_target w w'.
Proof.
  intros R. split; [exact (dr_heap _ _ R)|]. intros name Hn. pose proof (dr_dict _ _ R name) as D.
  destruct (dget (rdict w) name) as [r|], (dget (rdict w') name) as [r'|]; cbn [optrel] in D; try contradiction; [|reflexivity].
  destruct r as [l|a|a|kf|pp|m]; cbn [entdata] in D; try (destruct D as [-> _]; reflexivity).
  - exfalso. destruct D as (b & _ & _ & _ & ->). apply Hn. cbn. tauto.
  - exfalso. destruct D as (b & _ & _ & _ & _ & _ & ->). apply Hn. cbn. tauto.
Qed.
Ltac names := repeat match goal with |- context [String.eqb ?n ?s] => let E := fresh in destruct (String.eqb n s) eqn:E;
  [apply String.eqb_eq in E; subst n; cbn [optrel entdata]; try (split; [reflexivity|]); auto|] end.
Lemma base_dict cf m : c_logpdf cf = f -> forall name,
  optrel (entdata name) (dget (base_resources cf m) name) (dget (base_resources (with_target cf g) m) name).
Proof.
  intros H name. unfold base_resources. cbn [dget]. names.
  - eexists; split; [reflexivity|]. split; [exact H|split; reflexivity].
  - apply mala_data.
  - exact I.
Qed.
Lemma dget_app' {V} (a b : dict V) n : dget (a ++ b) n = match dget a n with Some v => Some v | None => dget b n end.
Proof. induction a as [|[k v] a IH]; cbn; auto. destruct (String.eqb n k); auto. Qed.
Lemma pt_dict pc m : c_logpdf (p_base pc) = f -> p_prior pc = p -> forall name,
  optrel (entdata name) (dget (pt_resources pc m) name) (dget (pt_resources (with_targets pc g p') m) name).
Proof.
  intros H Hp name. unfold pt_resources. rewrite !dget_app'. pose proof (base_dict (p_base pc) m H name) as K.
  change (p_base (with_targets pc g p')) with (with_target (p_base pc) g).
  destruct (dget (base_resources (p_base pc) m) name), (dget (base_resources (with_target (p_base pc) g) m) name); cbn [optrel] in K; try contradiction; [exact K|].
  cbn [dget]. names; [|exact I]. eexists; split; [reflexivity|]. cbn. auto 6.
Qed.
End Sim.

Section Top.
Context {N : Num} {G : Rng} {NF : NFOps}.
Lemma same_calls_weaken (P Q : datad -> datad -> Prop) args args' : (forall d d', P d d' -> Q d d') -> same_calls P args args' -> same_calls Q args args'.
Proof. intros H K. induction K as [|a b l l' [A B] _ IH]; constructor; auto. Qed.
Lemma base_top cf g h bd h' bd' n nc k o kw s s' args args' init d d' j k0 :
  same_calls (interchangeable (c_logpdf cf) g) args args' -> interchangeable (c_logpdf cf) g d d' ->
  rqspline_mala_bundle cf = Ok (h, bd) -> rqspline_mala_bundle (with_target cf g) = Ok (h', bd') ->
  sampler_init n nc k None None o (Some bd) kw = Ok s -> sampler_init n nc k None None o (Some bd') kw = Ok s' ->
  let r := run_order (bd_strategies bd) (firstn j (bd_order bd)) k0 (atleast_2d init) d (calls_of s h args) in
  let r' := run_order (bd_strategies bd') (firstn j (bd_order bd')) k0 (atleast_2d init) d' (calls_of s' h' args') in
  fst r' = fst r /\ same_but_target (snd r) (snd r').
Proof.
  intros HA HD B B' I I'. unfold rqspline_mala_bundle in B, B'.
  change (c_local_th (with_target cf g)) with (c_local_th cf) in B'. change (c_global_th (with_target cf g)) with (c_global_th cf) in B'.
  destruct (_ || _); [discriminate|]. injection B as <- <-. injection B' as <- <-. cbn [sampler_init] in I, I'. injection I as <-. injection I' as <-.
  cbn [bd_strategies bd_order]. set (f := c_logpdf cf) in * .
  set (p := mkLpdf (fun _ _ => f0) (fun _ _ => [])).
  assert (W : forall d d', interchangeable f g d d' -> okd f g p p d d'). { intros e e' E. split; [exact E|]. intros x. cbn. auto. }
  assert (HSt : forall name st, dget (base_strategies cf 100) name = Some st -> strat_data f g p p st) by (intros; eapply base_data; eauto).
  assert (R0 : drel f g p p (mkWorld (base_heap cf (c_model cf (split (c_key cf) 2 1))) (base_resources cf (c_model cf (split (c_key cf) 2 1))))
                    (mkWorld (base_heap cf (c_model cf (split (c_key cf) 2 1))) (base_resources (with_target cf g) (c_model cf (split (c_key cf) 2 1))))).
  { constructor; [reflexivity|]. cbn [rdict]. now apply base_dict. }
  destruct (sim_run f g p p _ HSt (firstn j (base_order cf)) k0 (atleast_2d init) d d' (W _ _ HD) _ _
    (sim_calls f g p p _ HSt args args' (same_calls_weaken _ _ _ _ W HA)
      (mkSampler n nc k (base_resources cf (c_model cf (split (c_key cf) 2 1))) (base_strategies cf 100) (OList (base_order cf)) (apply_kwargs kw))
      (mkSampler n nc k (base_resources (with_target cf g) (c_model cf (split (c_key cf) 2 1))) (base_strategies cf 100) (OList (base_order cf)) (apply_kwargs kw))
      _ _ eq_refl eq_refl eq_refl eq_refl R0)) as [R1 R2].
  split; [|exact (drel_same f g p p _ _ R2)].
  revert R1. match goal with |- rrel eq ?a ?b -> _ => change (rrel eq a b -> b = a); destruct a, b; cbn; try contradiction; congruence end.
Qed.
Lemma pt_top pc g p' h bd h' bd' n nc k o kw s s' args args' init d d' j k0 :
  let P := fun d d' => interchangeable (c_logpdf (p_base pc)) g d d' /\ same_target (p_prior pc) p' d d' in
  same_calls P args args' -> P d d' ->
  rqspline_mala_pt_bundle pc = Ok (h, bd) -> rqspline_mala_pt_bundle (with_targets pc g p') = Ok (h', bd') ->
  sampler_init n nc k None None o (Some bd) kw = Ok s -> sampler_init n nc k None None o (Some bd') kw = Ok s' ->
  let r := run_order (bd_strategies bd) (firstn j (bd_order bd)) k0 (atleast_2d init) d (calls_of s h args) in
  let r' := run_order (bd_strategies bd') (firstn j (bd_order bd')) k0 (atleast_2d init) d' (calls_of s' h' args') in
  fst r' = fst r /\ same_but_target (snd r) (snd r').
Proof.
  intros P HA HD B B' I I'. unfold rqspline_mala_pt_bundle in B, B'. cbv zeta in B, B'.
  change (c_local_th (p_base (with_targets pc g p'))) with (c_local_th (p_base pc)) in B'. change (c_global_th (p_base (with_targets pc g p'))) with (c_global_th (p_base pc)) in B'.
  change (p_n_temps (with_targets pc g p')) with (p_n_temps pc) in B'.
  destruct (_ || _); [discriminate|]. destruct (p_n_temps pc =? 0); [discriminate|].
  injection B as <- <-. injection B' as <- <-. cbn [sampler_init] in I, I'. injection I as <-. injection I' as <-.
  cbn [bd_strategies bd_order]. set (f := c_logpdf (p_base pc)) in * . set (p := p_prior pc) in * .
  set (m := c_model (p_base pc) (split (c_key (p_base pc)) 2 1)).
  assert (HSt : forall name st, dget (pt_strategies pc) name = Some st -> strat_data f g p p' st) by (intros; eapply pt_data; eauto).
  assert (R0 : drel f g p p' (mkWorld (pt_heap pc m) (pt_resources pc m)) (mkWorld (pt_heap (with_targets pc g p') m) (pt_resources (with_targets pc g p') m))).
  { constructor; [reflexivity|]. cbn [rdict]. now apply pt_dict. }
  destruct (sim_run f g p p' _ HSt (firstn j (pt_order pc)) k0 (atleast_2d init) d d' HD _ _
    (sim_calls f g p p' _ HSt args args' HA
      (mkSampler n nc k (pt_resources pc m) (pt_strategies pc) (OList (pt_order pc)) (apply_kwargs kw))
      (mkSampler n nc k (pt_resources (with_targets pc g p') m) (pt_strategies pc) (OList (pt_order pc)) (apply_kwargs kw))
      _ _ eq_refl eq_refl eq_refl eq_refl R0)) as [R1 R2].
  split; [|exact (drel_same f g p p' _ _ R2)].
  revert R1. match goal with |- rrel eq ?a ?b -> _ => change (rrel eq a b -> b = a); destruct a, b; cbn; try contradiction; congruence end.
Qed.
Lemma closed_ok f d : (forall x v, lp_val f x (dset d "n_steps" v) = lp_val f x d /\ lp_grad f x (dset d "n_steps" v) = lp_grad f x d) ->
  forall e, interchangeable f (closed_over f d) d e.
Proof.
  intros H e. split; [intros x; cbn; auto|]. intros n x. cbn. unfold with_n_steps. rewrite (proj1 (H _ _)), (proj2 (H _ _)). auto.
Qed.
Lemma closed_target f d e : same_target f (closed_over f d) d e.
Proof. intros x. cbn. auto. Qed.
Lemma closed_calls (P : datad -> datad -> Prop) (d : datad) (l : list (initpos * datad)) : (forall e, P d e) -> same_calls P (map (fun a => (fst a, d)) l) l.
Proof. intros H. induction l as [|[i e] l IH]; constructor; auto. Qed.
End Top.
