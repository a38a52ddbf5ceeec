(** Proofs about Sampler (C04, C05, C06). *)
From Verif Require Import Prelude Num M_Core M_Kernels M_Strategies M_PT M_Bundle Spec Spec_Sampler P_Lists P_Core.

Lemma last_value_snoc {V} l k k' (v : V) :
  last_value (l ++ [(k', v)]) k = if String.eqb k k' then Some v else last_value l k.
Proof. rewrite last_value_app. unfold last_value at 1. simpl. destruct (String.eqb k k'); reflexivity. Qed.

Lemma apply_kwargs_get kw name :
  dget (apply_kwargs kw) name
  = if existsb (String.eqb name) class_keys && negb (starts_dunder name)
    then last_value kw name else None.
Proof.
  unfold apply_kwargs. induction kw as [|[k v] kw IH] using rev_ind.
  - simpl. destruct (_ && _); reflexivity.
  - rewrite fold_left_app. cbn [fold_left fst snd]. rewrite last_value_snoc.
    match goal with |- context [fold_left ?g kw []] => set (a := fold_left g kw []) in * end.
    destruct (String.eqb_spec name k) as [->|Hn].
    + destruct (existsb (String.eqb k) class_keys) eqn:E; simpl.
      * destruct (starts_dunder k) eqn:E2; simpl. { rewrite IH, ?E2. reflexivity. } apply dget_dset_eq.
      * rewrite IH. reflexivity.
    + destruct (existsb (String.eqb k) class_keys) eqn:E; simpl; [|exact IH].
      destruct (starts_dunder k) eqn:E2; simpl; [exact IH|].
      rewrite dget_dset_neq by congruence. exact IH.
Qed.

Lemma settable_iff name :
  existsb (String.eqb name) class_keys && negb (starts_dunder name) = true <-> In name settable.
Proof.
  split.
  - intros H. apply andb_prop in H as [H1 H2]. apply existsb_exists in H1 as (x & Hx & He).
    apply String.eqb_eq in He. subst x. unfold settable. simpl in Hx.
    repeat (destruct Hx as [<-|Hx]; [vm_compute in H2; first [discriminate | simpl; tauto]|]). tauto.
  - intros H. simpl in H. repeat (destruct H as [<-|H]; [reflexivity|]). tauto.
Qed.

Section Sampler.
Context {N : Num} {G : Rng} {NF : NFOps}.

Lemma C04_kwargs_proof n c k r s o b kw sm :
  sampler_init n c k r s o b kw = Ok sm ->
  sm_n_dim sm = n /\ sm_n_chains sm = c /\ sm_key sm = k /\
  (forall name, In name settable -> dget (sm_attrs sm) name = last_value kw name) /\
  (forall name, ~ In name settable -> dget (sm_attrs sm) name = None) /\
  (forall name dflt, In name settable ->
     attr sm name dflt = match last_value kw name with Some v => v | None => dflt end) /\
  (forall kw', exists sm', sampler_init n c k r s o b kw' = Ok sm' /\
     sm_resources sm' = sm_resources sm /\ sm_strategies sm' = sm_strategies sm /\
     sm_order sm' = sm_order sm).
Proof.
  assert (HA : forall name, In name settable -> dget (apply_kwargs kw) name = last_value kw name).
  { intros name H. rewrite apply_kwargs_get. apply settable_iff in H. now rewrite H. }
  assert (HB : forall name, ~ In name settable -> dget (apply_kwargs kw) name = None).
  { intros name H. rewrite apply_kwargs_get. destruct (_ && _) eqn:E; auto. apply settable_iff in E. tauto. }
  unfold sampler_init. intros H.
  destruct r, s, b; try discriminate; injection H as <-; unfold attr; simpl; repeat split; auto;
    try (intros kw'; eexists; (split; [reflexivity|auto])); intros name dflt Hn; now rewrite HA.
Qed.

Lemma C04_precedence_proof n c k r s o b kw :
  match r, s, b with
  | Some rr, Some ss, _ => exists sm, sampler_init n c k r s o b kw = Ok sm /\
        sm_resources sm = rr /\ sm_strategies sm = ss /\ sm_order sm = o
  | _, _, Some bb => exists sm, sampler_init n c k r s o b kw = Ok sm /\
        sm_resources sm = bd_resources bb /\ sm_strategies sm = bd_strategies bb /\
        sm_order sm = OList (bd_order bb)
  | _, _, None => sampler_init n c k r s o b kw = Raise ValueError
  end.
Proof. destruct r, s, b; simpl; auto; eexists; repeat split; reflexivity. Qed.

Lemma run_order_runs S d order k xs w :
  exists tr, runs S d order k xs w tr (fst (run_order S order k xs d w)) (snd (run_order S order k xs d w)).
Proof.
  revert k xs w; induction order as [|n rest IH]; intros k xs w; simpl.
  - eexists. constructor.
  - destruct (dget S n) as [st|] eqn:E.
    + unfold mbind. destruct (st k xs d w) as [[[k1 xs1]|e] w1] eqn:E1.
      * destruct (IH k1 xs1 w1) as [tr Htr]. eexists. eapply runs_next; eauto.
      * eexists. simpl. eapply runs_raise; eauto.
    + eexists. simpl. now apply runs_unknown.
Qed.

Lemma runs_fun S d order k xs w tr r w' tr2 r2 w2 :
  runs S d order k xs w tr r w' -> runs S d order k xs w tr2 r2 w2 -> tr = tr2 /\ r = r2 /\ w' = w2.
Proof.
  intros H; revert tr2 r2 w2.
  induction H as [k xs w|n rest k xs w E|n rest st k xs w e w1 E E1|n rest st k xs w k1 xs1 w1 tr r w' E E1 H IH];
    intros tr2 r2 w2 H2; inversion H2; subst; auto; try congruence.
  - assert (st0 = st) by congruence. subst. assert (e0 = e /\ w2 = w1) as [-> ->] by (split; congruence). auto.
  - assert (st0 = st) by congruence. subst.
    match goal with E2 : st k xs d w = (Ok (?a, ?b), ?c), HR : runs _ _ rest ?a ?b ?c ?t _ _ |- _ =>
      lazymatch a with k1 => fail | _ =>
      assert (a = k1 /\ b = xs1 /\ c = w1) as (-> & -> & ->) by (repeat split; congruence);
      destruct (IH _ _ _ HR) as (-> & -> & ->) end end. auto.
Qed.

Lemma run_order_iff S d order k xs w r w' :
  run_order S order k xs d w = (r, w') <-> exists tr, runs S d order k xs w tr r w'.
Proof.
  destruct (run_order_runs S d order k xs w) as [tr0 H0]. split.
  - intros H. rewrite H in H0. simpl in H0. eauto.
  - intros [tr H]. destruct (runs_fun _ _ _ _ _ _ _ _ _ _ _ _ H0 H) as (_ & H1 & H2).
    rewrite (surjective_pairing (run_order S order k xs d w)). congruence.
Qed.

Lemma C05_runs_proof (s : sampler) init d h order r w' :
  sm_order s = OList order ->
  (sampler_sample s init d h = (r, w') <->
   exists tr, runs (sm_strategies s) d order (sm_key s)
                   (match init with P1 v => [v] | P2 m => m end)
                   (mkWorld h (sm_resources s)) tr r w').
Proof. intros E. unfold sampler_sample. rewrite E. apply run_order_iff. Qed.

Lemma runs_app S d pre post k xs w tr k1 xs1 w1 tr2 r w' :
  runs S d pre k xs w tr (Ok (k1, xs1)) w1 -> runs S d post k1 xs1 w1 tr2 r w' ->
  runs S d (pre ++ post) k xs w (tr ++ tr2) r w'.
Proof.
  intros H. remember (Ok (k1, xs1)) as r1 eqn:Er. revert Er.
  induction H; intros Er H2; try discriminate; simpl.
  - injection Er as -> ->. auto.
  - eapply runs_next; eauto.
Qed.

Lemma C05_unknown_proof (s : sampler) init d h pre name post k1 xs1 w1 tr :
  sm_order s = OList (pre ++ name :: post) -> dget (sm_strategies s) name = None ->
  runs (sm_strategies s) d pre (sm_key s) (match init with P1 v => [v] | P2 m => m end)
       (mkWorld h (sm_resources s)) tr (Ok (k1, xs1)) w1 ->
  sampler_sample s init d h = (Raise ValueError, w1).
Proof.
  intros E En H. apply (C05_runs_proof s init d h _ _ _ E). exists (tr ++ []).
  eapply runs_app; eauto. now constructor.
Qed.

Lemma runs_trace_names S d order k xs w tr r w' :
  runs S d order k xs w tr r w' ->
  map (fun t => fst (fst t)) tr = firstn (length tr) order /\
  (forall k' xs', r = Ok (k', xs') -> length tr = length order).
Proof.
  induction 1 as [| | |n rest st k xs w k1 xs1 w1 tr r w' E E1 H [IH1 IH2]]; simpl; split; try congruence; auto.
  intros k' xs' ->. f_equal. eauto.
Qed.

Lemma C05_notlist_proof (s : sampler) init d h :
  (forall order, sm_order s <> OList order) ->
  sampler_sample s init d h = (Raise AssertionError, mkWorld h (sm_resources s)).
Proof. intros H. unfold sampler_sample. destruct (sm_order s); auto. now destruct (H l). Qed.

(* ------------------------------------------------------------------ C06 *)
Lemma C06_key_kept_proof (s : sampler) (ws : list world) :
  sm_key (fold_left sampler_after ws s) = sm_key s /\
  sm_strategies (fold_left sampler_after ws s) = sm_strategies s /\
  sm_order (fold_left sampler_after ws s) = sm_order s.
Proof. revert s; induction ws as [|w ws IH]; intros s; simpl; auto. destruct (IH (sampler_after s w)) as (-> & -> & ->). auto. Qed.

Lemma runs_keys_equal S d d' order :
  (forall n st, In n order -> dget S n = Some st -> key_deterministic st) ->
  forall k xs w tr o w' xs2 w2 tr2 o2 w2',
  runs S d order k xs w tr (Ok o) w' ->
  runs S d' order k xs2 w2 tr2 (Ok o2) w2' ->
  map (fun t => (fst (fst t), snd (fst t))) tr = map (fun t => (fst (fst t), snd (fst t))) tr2
  /\ fst o = fst o2.
Proof.
  intros HK. induction order as [|n rest IH]; intros k xs w tr o w' xs2 w2 tr2 o2 w2' H1 H2;
    inversion H1; inversion H2; subst; auto.
  match goal with
  | E1 : dget S n = Some ?a, E2 : dget S n = Some ?b |- _ =>
      assert (b = a) by congruence; subst b; destruct (HK n a (or_introl eq_refl) E1) as [g Hg]
  end.
  repeat match goal with
  | E : ?a ?kk ?x ?dd ?ww = (Ok (?k1, ?x1), ?w1), Hg : forall _ _ _ _ _ _ _, ?a _ _ _ _ = _ -> _ |- _ =>
      lazymatch goal with
      | _ : k1 = g kk |- _ => fail
      | _ => pose proof (Hg _ _ _ _ _ _ _ E)
      end
  end. subst.
  destruct (IH ltac:(intros; eapply HK; [right|]; eauto) _ _ _ _ _ _ _ _ _ _ _ ltac:(eassumption) ltac:(eassumption)) as [I1 I2].
  split; [simpl; now rewrite I1|auto].
Qed.

Lemma C06_same_keys_proof (s : sampler) w1 init1 init2 d1 d2 h1 h2 order o1 o2 wf1 wf2 :
  sm_order s = OList order ->
  (forall n st, In n order -> dget (sm_strategies s) n = Some st -> key_deterministic st) ->
  sampler_sample s init1 d1 h1 = (Ok o1, wf1) ->
  sampler_sample (sampler_after s w1) init2 d2 h2 = (Ok o2, wf2) ->
  exists tr1 tr2,
    runs (sm_strategies s) d1 order (sm_key s) (match init1 with P1 v => [v] | P2 m => m end)
         (mkWorld h1 (sm_resources s)) tr1 (Ok o1) wf1 /\
    runs (sm_strategies s) d2 order (sm_key s) (match init2 with P1 v => [v] | P2 m => m end)
         (mkWorld h2 (rdict w1)) tr2 (Ok o2) wf2 /\
    map (fun t => (fst (fst t), snd (fst t))) tr1 = map (fun t => (fst (fst t), snd (fst t))) tr2 /\
    fst o1 = fst o2.
Proof.
  intros E HK H1 H2.
  apply (C05_runs_proof _ _ _ _ _ _ _ E) in H1 as [tr1 R1].
  apply (C05_runs_proof (sampler_after s w1) _ _ _ order) in H2 as [tr2 R2]; [|exact E].
  exists tr1, tr2. split; [exact R1|]. split; [exact R2|].
  eapply runs_keys_equal; eauto.
Qed.
End Sampler.

(** The repository's strategies are key-deterministic. *)
Section KeyDet.
Context {N : Num} {G : Rng} {NF : NFOps}.

Lemma mbind_Ok {W A B} (m : M W A) (f : A -> M W B) w b w' :
  mbind m f w = (Ok b, w') -> exists a w1, m w = (Ok a, w1) /\ f a w1 = (Ok b, w').
Proof. unfold mbind. destruct (m w) as [[a|e] w1]; intros H; [eauto|discriminate]. Qed.

Ltac peel H :=
  let a := fresh "a" in let wa := fresh "w" in let Ha := fresh "Ha" in
  apply mbind_Ok in H as (a & wa & Ha & H).

Lemma take_steps_keydet samp ts : key_deterministic (take_steps samp ts).
Proof.
  exists (fun k => split k 2 0). intros k xs d w k' xs' w' H. unfold take_steps in H.
  do 17 (peel H; repeat match goal with x : _ * _ |- _ => destruct x end).
  unfold mret in H. congruence.
Qed.

Lemma best_epoch_loop_key {T} (epoch : key -> T -> res (F * T)) n k cur best bl kf b losses :
  best_epoch_loop epoch n k cur best bl = Ok (kf, b, losses) -> kf = iter n (fun k => split k 2 0) k.
Proof.
  revert k cur best bl b losses; induction n as [|n IH]; intros k cur best bl b losses H; simpl in H.
  - injection H as <- _ _. reflexivity.
  - destruct (epoch _ cur) as [[v c']|e]; [|discriminate]. simpl in H.
    destruct (best_epoch_loop epoch n _ _ _ _) as [[[kf' b'] ls']|e] eqn:E; [|discriminate].
    simpl in H. injection H as -> _ _. apply IH in E. exact E.
Qed.

Lemma train_model_keydet tm : key_deterministic (train_model tm).
Proof.
  exists (fun k => iter (tm_epochs tm) (fun k => split k 2 0) (split (split k 2 0) 2 1)).
  intros k xs d w k' xs' w' H. unfold train_model in H.
  do 6 (peel H; repeat match goal with x : _ * _ |- _ => destruct x end).
  apply mbind_Ok in H as ([[k3 [m' st']] ls] & wt & HT & H). unfold mlift in HT.
  injection HT as HT _. apply best_epoch_loop_key in HT.
  do 4 (peel H; repeat match goal with x : _ * _ |- _ => destruct x end).
  unfold mret in H. injection H as H _ _. congruence.
Qed.

Lemma update_state_keydet n ks vs : key_deterministic (update_state n ks vs).
Proof.
  exists (fun k => k). intros k xs d w k' xs' w' H. unfold update_state in H.
  do 2 (peel H; repeat match goal with x : _ * _ |- _ => destruct x end). unfold mret in H. congruence.
Qed.

Lemma lambda_keydet f : key_deterministic (lambda f).
Proof.
  exists (fun k => k). intros k xs d w k' xs' w' H. unfold lambda in H.
  peel H. unfold mret in H. congruence.
Qed.

Lemma pt_keydet pt : key_deterministic (parallel_tempering pt).
Proof.
  exists (fun k => split (split (split k 2 0) 2 0) 2 0). intros k xs d w k' xs' w' H.
  unfold parallel_tempering in H.
  do 12 (peel H; repeat match goal with x : _ * _ |- _ => destruct x end).
  unfold mret in H. congruence.
Qed.

Lemma adam_keydet a : key_deterministic (adam_strategy a).
Proof.
  exists (fun k => split k 2 0). intros k xs d w k' xs' w' H. unfold adam_strategy in H.
  peel H. destruct a0 as [[k1 ys] z]. unfold mlift, adam_optimize in Ha.
  destruct (_ || _); [|discriminate]. injection Ha as <- _ _ _. unfold mret in H. congruence.
Qed.

Lemma dict_forall_keydet (S : dict strategy) :
  Forall (fun p => key_deterministic (snd p)) S ->
  forall n st, dget S n = Some st -> key_deterministic st.
Proof. intros H n st E. apply dget_In in E. rewrite Forall_forall in H. apply (H _ E). Qed.

Lemma base_strategies_keydet c w n st :
  dget (base_strategies c w) n = Some st -> key_deterministic st.
Proof.
  apply dict_forall_keydet. unfold base_strategies.
  repeat constructor; cbn [snd]; first [apply take_steps_keydet|apply train_model_keydet|apply update_state_keydet|apply lambda_keydet].
Qed.

Lemma pt_strategies_keydet pc n st :
  dget (pt_strategies pc) n = Some st -> key_deterministic st.
Proof.
  apply dict_forall_keydet. unfold pt_strategies, base_strategies.
  repeat constructor; cbn [snd]; first [apply take_steps_keydet|apply train_model_keydet|apply update_state_keydet|apply lambda_keydet|apply pt_keydet].
Qed.

Lemma C06_bundle_strategies_proof c pc win a n st :
  dget (base_strategies c win) n = Some st \/ dget (pt_strategies pc) n = Some st \/ st = adam_strategy a ->
  key_deterministic st.
Proof.
  intros [H|[H| ->]]; [eapply base_strategies_keydet|eapply pt_strategies_keydet|apply adam_keydet]; eauto.
Qed.
End KeyDet.
