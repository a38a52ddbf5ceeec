(** Production phase of the bundle: invariance of one chain's marginal. *)
From Coq Require Import Reals Lra Lia Permutation Classical.
From Verif Require Import Prelude Num M_Core M_Kernels M_Strategies M_PT M_Bundle P_Lists P_Buffer
  Spec Spec_Core P_Core Spec_Sampler P_Sampler Spec_Steps P_Steps Spec_Kernels P_Kernels P_StepsK P_Steps2 Spec_Train P_Train P_Train2
  P_Kernels2 Spec_Bundle P_Bundle P_Bundle2 P_Bundle3 P_Bundle4 P_Bundle5 Spec_Prog P_Prog1 P_Prog2 RNum Spec_Real Spec_Inv P_Inv1 P_Inv2 P_Inv3 P_Inv4 P_Inv5 P_Inv6.
Open Scope R_scope.

Section Prod.
Context {G : @Rng RNum} {NF : @NFOps RNum G}.
Variables (c : @config RNum G NF) (d : @datad RNum) (good : mdl -> Prop) (xs0 : list (list R)).
Hypothesis OK : run_ok c d xs0 good.
Hypothesis HTl : (0 < c_local_th c)%nat.
Hypothesis HTg : (0 < c_global_th c)%nat.
Hypothesis HO : counts_ok c.
Notation St := (base_strategies c 100).
Definition w0 : world := mkWorld (base_heap c (c_model c (split (c_key c) 2 1))) (base_resources c (c_model c (split (c_key c) 2 1))).

Lemma trained k0 k1 xs1 w1 :
  run_order St (repeat_phase (c_train_loops c) training_phase ++ ["reset_steppers"; "update_state"]%string) k0 xs0 d w0 = (Ok (k1, xs1), w1) ->
  exists m ost tr loss, good m /\ shaped c xs1 /\
    w1 = bworld c [] [] m m false tr (empty_bufs c (phase_slots c (c_prod_loops c)) "production") loss ost 0 0.
Proof.
  intros H. set (m0 := c_model c (split (c_key c) 2 1)) in * . apply run_order_app in H as (k & xs & w & H1 & H2).
  destruct OK as [O1 O2 O3 O4 O5 O6 O7 O7b O8 O9 O10 O11].
  destruct (training_run_w c [] d 100 St [] unit (fun _ => []) (fun _ => nothing_before) good O7b O7 O8 O1 O2 O3 O4 O9 O10
    eq_refl eq_refl eq_refl eq_refl eq_refl eq_refl
    (fun ph e m mg tr pr loss ost lc gc k xs k' xs' w' => nothing_pre St c [] d ph m mg tr pr loss ost lc gc k xs k' xs' w' e)
    (c_train_loops c) tt m0 (empty_bufs c (phase_slots c (c_train_loops c)) "training")
     (empty_bufs c (phase_slots c (c_prod_loops c)) "production") (fresh_loss c) (c_opt c m0) k0 xs0 k xs w (phase_slots c (c_train_loops c)) (c_train_loops c * c_epochs c)%nat)
    as (ls & e1 & m1 & st1 & tr1 & loss1 & Hn & Hrun & Hll & Hg1 & Hx1 & Hs1 & Hh1 & Hlo1 & ->); auto.
  - split; auto.
  - apply empty_fresh.
  - apply empty_shape.
  - rewrite phase_slots_eq. lia.
  - split; [reflexivity|]. split; [reflexivity|]. split; [reflexivity|]. intros [|j] v Hv; discriminate.
  - assert (S1 : dget St "reset_steppers" = Some (reset_steppers c)) by reflexivity.
    assert (S2 : dget St "update_state" = Some (update_state "sampler_state" prod_keys prod_values)) by reflexivity.
    apply (run_order_cons _ _ _ _ _ _ _ _ _ _ _ S1) in H2 as (k2 & xs2 & w2 & H2 & H3). rewrite reset_w in H2. injection H2 as <- <- <-.
    apply (run_order_cons _ _ _ _ _ _ _ _ _ _ _ S2) in H3 as (k2 & xs2 & w2 & H2 & H3). rewrite ustate_w in H2. injection H2 as <- <- <-.
    cbn [run_order] in H3. unfold mret in H3. injection H3 as <- <- <-.
    exists m1, st1, tr1, loss1. auto.
Qed.

Lemma produced m ost tr loss k xs i : good m -> shaped c xs -> (i < c_n_chains c)%nat ->
  let w1 := bworld c [] [] m m false tr (empty_bufs c (phase_slots c (c_prod_loops c)) "production") loss ost 0 0 in
  let r := run_order St (repeat_phase (c_prod_loops c) production_phase) k xs d w1 in
  (forall s, (s < phase_slots c (c_prod_loops c))%nat ->
     recorded_row (snd r) "positions_production" (c_n_dims c) i s = prow c d m i (c_prod_loops c) k (nth i xs []) s) /\
  returned_row r i = pend c d m i (c_prod_loops c) k (nth i xs []).
Proof.
  intros Hg Hx Hi w1 r. pose proof OK as [O1 O2 O3 O4 O5 O6 O7 O7b O8 O9 O10 O11].
  assert (GO : forall (ph : bool) (e : unit) m mg tr pr loss ost lc gc k xs, shaped c xs -> True ->
    exists k' xs' w', run_order St [] k xs d (bworld c [] ((fun _ : unit => []) e) m mg ph tr pr loss ost lc gc) = (Ok (k', xs'), w')).
  { intros. cbn [run_order]. unfold mret. eauto. }
  destruct (production_run_progress c [] d St [] unit (fun _ => []) (fun _ => nothing_before) (fun _ => True) good xs0 OK HTl HTg HO
    eq_refl eq_refl eq_refl eq_refl
    (fun ph e m mg tr pr loss ost lc gc k xs k' xs' w' => nothing_pre St c [] d ph m mg tr pr loss ost lc gc k xs k' xs' w' e)
    GO (fun _ _ _ _ _ _ _ _ _ _ => I)
    (c_prod_loops c) tt m tr (empty_bufs c (phase_slots c (c_prod_loops c)) "production") loss ost k xs (phase_slots c (c_prod_loops c)) I Hg Hx (empty_shape _ _ _))
    as (k2 & xs2 & w2 & _ & _ & _ & H2 & _).
  { rewrite phase_slots_eq. lia. }
  cbn [app] in H2. assert (Er : r = (Ok (k2, xs2), w2)) by exact H2.
  destruct (production_run_w c [] d St [] unit (fun _ => []) (fun _ => nothing_before) good O7 O8 O1 O2 O3 O4 O10 eq_refl eq_refl eq_refl eq_refl
    (fun ph e m mg tr pr loss ost lc gc k xs k' xs' w' => nothing_pre St c [] d ph m mg tr pr loss ost lc gc k xs k' xs' w' e)
    (c_prod_loops c) tt m tr (empty_bufs c (phase_slots c (c_prod_loops c)) "production") loss ost k xs k2 xs2 w2 (phase_slots c (c_prod_loops c)) Hg Hx (empty_shape _ _ _))
    as (ls & e' & pr' & Hn & Hrun & Hx2 & Hs2 & Hh2 & Ew).
  { rewrite phase_slots_eq. lia. } { exact H2. }
  destruct (prun_rows c d m i _ _ _ Hrun eq_refl (proj1 Hx) Hi) as [A B]. cbn [r_key r_pos] in A, B. rewrite Hn in A, B. rewrite Er. split.
  - intros s Hs. cbn [snd]. 
    destruct (recorded_w c [] [] m m false tr pr' loss ost (c_prod_loops c * per_loop c) (c_prod_loops c * per_loop c) false pr' ls (phase_slots c (c_prod_loops c)) eq_refl Hs2 Hh2)
      as (slots & pl & pb & ll & lb & al & ab & gl & gb & (N1 & N2) & _ & _ & _ & _ & _ & _ & _ & Q).
    { rewrite Hn, phase_slots_eq. reflexivity. }
    destruct (Q i Hi) as [Ls Qs].
    rewrite history_length, Hn, <- phase_slots_eq in Ls.
    destruct (nth_error (chain_history c ls i) s) as [[b o]|] eqn:En.
    + rewrite <- (A s b o En). rewrite <- (proj1 (Qs s b o En)). unfold recorded_row, content_of. rewrite Ew.
      change (append "positions_" (phase_name false)) with "positions_production"%string in N1. rewrite N1, N2. reflexivity.
    + exfalso. apply nth_error_None in En. rewrite history_length, Hn, <- phase_slots_eq in En. lia.
  - cbn [returned_row fst]. exact B.
Qed.
End Prod.

(* ------------------------------------------------------------------ putting it together *)
Section Final.
Context {G : @Rng RNum} {NF : @NFOps RNum G}.
Variables (c : @config RNum G NF) (d : @datad RNum) (good : mdl -> Prop) (xs0 : list (list R)).
Hypothesis OK : run_ok c d xs0 good.
Hypothesis HTl : (0 < c_local_th c)%nat.
Hypothesis HTg : (0 < c_global_th c)%nat.
Hypothesis HO : counts_ok c.
Variables (X Y : list (list R)) (m : mdl) (q : list R -> R) (a : R) (i : nat).
Notation f := (c_logpdf c).
Hypothesis SX : states X (c_n_dims c).
Hypothesis NY : NoDup Y.
Hypothesis XY : forall x, In x X -> In x Y.
Hypothesis A0 : 0 < a.
Hypothesis HQ : forall y, q y = a * exp (m_logp m y).
Hypothesis S0 : forall j, (j < c_n_dims c)%nat -> step_of (c_step c) j <> 0.
Hypothesis IG : ignores_n_steps f.
Hypothesis GM : good m.
Definition Pl (E : expect key) : Prop := key_chain (step_source X (c_n_dims c) (fun k x z => mala_run (c_step c) k f d x z) (back (fun k x z => mala_run (c_step c) k f d x z))) (c_local c) E.
Definition Pg (E : expect key) : Prop := exists Ea Ed, splits2 E Ea Ed /\
  key_chain (flow_tests X Y (density f d) q) (c_global c) Ea /\ flow_source m Y q (c_nf_bs c) (c_global c) Ed.

Lemma at_pos j g (r : res (list (list R * R * bool))) l : r = Ok l -> (j < length l)%nat -> at_step j g r = g (pos j r).
Proof.
  intros -> Hj. cbn [at_step pos]. destruct (nth_error l j) as [[[x v] b]|] eqn:E.
  - now rewrite (nth_error_nth l j ([], 0, false) E).
  - apply nth_error_None in E. lia.
Qed.
Lemma local_binv j E : (j < c_local c)%nat -> Pl E -> binv X (wt f d) (sloc c d) j E.
Proof.
  intros Hj HP g. pose proof OK as [O1 O2 O3 O4 O5 O6 O7 O7b O8 O9 O10 O11]. pose proof (co_step _ HO) as CS. destruct SX as [ND LX].
  assert (MO : mala_ok_step (c_step c) (c_n_dims c)) by (destruct (c_step c); exact CS).
  pose proof (langevin_consistent (c_n_dims c) f d O8 (c_step c) MO O7) as CO.
  refine (eq_trans _ (chain_inv (c_n_dims c) X f d (mala_kernel (c_step c)) LX CO _ (langevin_inv (c_n_dims c) X f d SX (c_step c) MO S0 O7) (c_local c) j g E Hj HP)).
  unfold expected_under. apply total_ext. intros x Hx. f_equal. apply ex_ext. intros k.
  destruct (scan_ok (c_n_dims c) f d (mala_kernel (c_step c)) CO (c_local c) k x (LX x Hx)) as (l & El & Ll).
  symmetry. apply (at_pos j g _ l); [exact El|exact (eq_ind_r (fun t => (j < t)%nat) Hj Ll)].
Qed.
Lemma global_binv j E : (j < c_global c)%nat -> Pg E -> binv X (wt f d) (sglo c d m) j E.
Proof.
  intros Hj (Ea & Ed & SP & CA & FD) g. pose proof OK as [O1 O2 O3 O4 O5 O6 O7 O7b O8 O9 O10 O11]. destruct SX as [ND LX].
  assert (HS : samples_shape m (c_n_dims c)) by (apply O10; exact GM).
  assert (EQ : forall y, P_Inv4.q m a y = q y) by (intros y; symmetry; apply HQ).
  assert (IE : forall s h, iid Y (P_Inv4.q m a) s h = iid Y q s h).
  { induction s as [|s IH]; intros h; cbn [iid]; [reflexivity|]. apply total_ext. intros y _. rewrite EQ, IH. reflexivity. }
  refine (eq_trans _ (group_inv (mkNfp m (c_nf_bs c)) X Y f d a (c_n_dims c) HS O3 IG A0 ND NY XY (c_global c) j g E Ea Ed Hj SP _ _)).
  - unfold expected_under. apply total_ext. intros x Hx. f_equal. apply ex_ext. intros k. unfold sglo.
    destruct (group_is (mkNfp m (c_nf_bs c)) f d (c_n_dims c) HS O3 IG (c_global c) k x) as (props & _ & Lp & E1).
    symmetry. apply (at_pos j g _ _ E1). rewrite scan_length, Lp. exact Hj.
  - revert CA. apply chain_imp. intros E' H x y Hx Hy. specialize (H x y Hx Hy). cbv zeta in * . rewrite !EQ. exact H.
  - destruct FD as [D1 D2]. split.
    + intros s Hs h. etransitivity; [exact (D1 s Hs h)|]. symmetry. apply IE.
    + revert D2. apply chain_imp. intros E' H s Hs h. etransitivity; [exact (H s Hs h)|]. symmetry. apply IE.
Qed.

Hypothesis HI : (i < c_n_chains c)%nat.
Variables (k0 k1 : key) (xs1 : list (list R)) (w1 : world).
Hypothesis TR : run_order (base_strategies c 100) (repeat_phase (c_train_loops c) training_phase ++ ["reset_steppers"; "update_state"]%string) k0 xs0 d (w0 c) = (Ok (k1, xs1), w1).
Hypothesis HM : content_of w1 "model" = CPlain (RModel m).
Variable E : expect key.
Hypothesis LS : loops_source (c_n_chains c) i Pl Pg (c_prod_loops c) E.
Definition prod_run (k : key) (x : list R) := run_order (base_strategies c 100) (repeat_phase (c_prod_loops c) production_phase) k (set_nth i x xs1) d w1.
Lemma production_rows k x : length x = c_n_dims c ->
  (forall s, (s < phase_slots c (c_prod_loops c))%nat ->
     recorded_row (snd (prod_run k x)) "positions_production" (c_n_dims c) i s = prow c d m i (c_prod_loops c) k x s) /\
  returned_row (prod_run k x) i = pend c d m i (c_prod_loops c) k x.
Proof.
  intros Lx. destruct (trained c d good xs0 OK HTl HTg k0 k1 xs1 w1 TR) as (m' & ost & tr & loss & Hg & (Hl & Hd) & Ew).
  assert (m' = m) by (pose proof (f_equal (fun t => match t with CPlain (RModel y) => y | _ => m end) HM) as E'; rewrite Ew in E'; exact E'). subst m'.
  assert (SH : shaped c (set_nth i x xs1)).
  { split; [rewrite set_nth_length; exact Hl|]. intros y Hy. apply (In_nth _ _ []) in Hy as (j & Hj & <-). rewrite set_nth_length in Hj.
    destruct (Nat.eq_dec j i) as [->|Hn]; [rewrite nth_set_nth_eq by exact Hj; exact Lx|]. rewrite nth_set_nth_neq by auto. apply Hd, nth_In, Hj. }
  pose proof (produced c d good xs0 OK HTl HTg HO m ost tr loss k (set_nth i x xs1) i Hg SH HI) as Q. cbv zeta in Q. rewrite <- Ew in Q.
  rewrite nth_set_nth_eq in Q by (rewrite Hl; exact HI). exact Q.
Qed.
Lemma counts : (forall j, (j < pl c)%nat -> (j * c_local_th c < c_local c)%nat) /\ (el c < c_local c)%nat /\
  (forall j, (j < pg c)%nat -> (j * c_global_th c < c_global c)%nat) /\ (eg c < c_global c)%nat.
Proof.
  pose proof (co_local _ HO). pose proof (co_global _ HO). assert (A : forall n th j, (0 < th)%nat -> (j < n / th)%nat -> (j * th < n)%nat).
  { intros n th j H1 H2. pose proof (Nat.mul_div_le n th). nia. }
  assert (B : forall n th, (0 < th)%nat -> (0 < n)%nat -> ((n - 1) / th * th < n)%nat).
  { intros n th H1 H2. pose proof (Nat.mul_div_le (n - 1) th). nia. }
  unfold el, eg, pl, pg. repeat split; intros; auto.
Qed.
Lemma blocks : (forall E, Pl E -> (forall j, (j < pl c)%nat -> binv X (wt f d) (sloc c d) (j * c_local_th c) E) /\ binv X (wt f d) (sloc c d) (el c) E) /\
  (forall E, Pg E -> (forall j, (j < pg c)%nat -> binv X (wt f d) (sglo c d m) (j * c_global_th c) E) /\ binv X (wt f d) (sglo c d m) (eg c) E).
Proof.
  destruct counts as (C1 & C2 & C3 & C4). split; intros E' H; (split; [intros j Hj|]).
  - apply local_binv; auto.
  - apply local_binv; auto.
  - apply global_binv; auto.
  - apply global_binv; auto.
Qed.
Lemma production_inv s g : (s < phase_slots c (c_prod_loops c))%nat ->
  expected_under X (density f d) (fun x => ex E (fun k => g (recorded_row (snd (prod_run k x)) "positions_production" (c_n_dims c) i s))) = expected_under X (density f d) g.
Proof.
  intros Hs. destruct blocks as [B1 B2].
  refine (eq_trans _ (crow_inv X (wt f d) (c_n_chains c) i (sloc c d) (sglo c d m) (pl c) (c_local_th c) (el c) (pg c) (c_global_th c) (eg c) Pl Pg B1 B2 (c_prod_loops c) E s g LS _)).
  - unfold expected_under. apply total_ext. intros x Hx. f_equal. apply ex_ext. intros k. f_equal. apply production_rows; [apply (proj2 SX), Hx|exact Hs].
  - rewrite phase_slots_eq in Hs. exact Hs.
Qed.
Lemma production_end_inv g :
  expected_under X (density f d) (fun x => ex E (fun k => g (returned_row (prod_run k x) i))) = expected_under X (density f d) g.
Proof.
  destruct blocks as [B1 B2].
  refine (eq_trans _ (cend_inv X (wt f d) (c_n_chains c) i (sloc c d) (sglo c d m) (pl c) (c_local_th c) (el c) (pg c) (c_global_th c) (eg c) Pl Pg B1 B2 (c_prod_loops c) E g LS)).
  unfold expected_under. apply total_ext. intros x Hx. f_equal. apply ex_ext. intros k. f_equal. apply (production_rows k x (proj2 SX x Hx)).
Qed.
End Final.

Section Bun.
Context {G : @Rng RNum} {NF : @NFOps RNum G}.
Lemma bundle_is (c : config) h bd : rqspline_mala_bundle c = Ok (h, bd) ->
  let m0 := c_model c (split (c_key c) 2 1) in
  (0 < c_local_th c)%nat /\ (0 < c_global_th c)%nat /\ h = base_heap c m0 /\ bd_resources bd = base_resources c m0 /\
  bd_order bd = base_order c /\ bd_strategies bd = base_strategies c 100.
Proof.
  intros Hb. unfold rqspline_mala_bundle in Hb. destruct (c_local_th c =? 0)%nat eqn:E1; [discriminate|]. destruct (c_global_th c =? 0)%nat eqn:E2; [discriminate|].
  apply Nat.eqb_neq in E1, E2. injection Hb as <- <-. cbn. repeat split; lia.
Qed.
Lemma pre_is (c : @config RNum G NF) pre : base_order c = pre ++ repeat_phase (c_prod_loops c) production_phase ->
  pre = repeat_phase (c_train_loops c) training_phase ++ ["reset_steppers"; "update_state"]%string.
Proof. intros H. unfold base_order in H. rewrite app_assoc in H. symmetry. exact (app_inv_tail _ _ _ H). Qed.
Lemma good_is (c : @config RNum G NF) (d : datad) good xs0 : run_ok c d xs0 good -> (0 < c_local_th c)%nat -> (0 < c_global_th c)%nat -> forall k0 k1 xs1 w1 m,
  run_order (base_strategies c 100) (repeat_phase (c_train_loops c) training_phase ++ ["reset_steppers"; "update_state"]%string) k0 xs0 d (w0 c) = (Ok (k1, xs1), w1) ->
  content_of w1 "model" = CPlain (RModel m) -> good m.
Proof.
  intros OK HTl HTg k0 k1 xs1 w1 m TR HM. destruct (trained c d good xs0 OK HTl HTg k0 k1 xs1 w1 TR) as (m' & ost & tr & loss & Hg & _ & Ew).
  assert (m' = m) by (pose proof (f_equal (fun t => match t with CPlain (RModel y) => y | _ => m end) HM) as E'; rewrite Ew in E'; exact E'). now subst m'.
Qed.
End Bun.
