(** C69: strategies never create, remove, resize or retype resources. *)
From Verif Require Import Prelude Num M_Core M_Kernels M_Strategies M_PT M_Bundle Spec Spec_Core Spec_Steps Spec_Kinds P_Lists P_Core P_Steps.

Section Kinds.
Context {N : Num} {G : Rng} {NF : NFOps}.
Lemma obj_like_refl o : obj_like o o.
Proof. destruct o; cbn; auto. split; [reflexivity|]. eauto. Qed.
Lemma obj_like_trans o1 o2 o3 : obj_like o1 o2 -> obj_like o2 o3 -> obj_like o1 o3.
Proof.
  destruct o1, o2, o3; cbn; try contradiction; try (intros _ HX; contradiction).
  - intros (-> & -> & ->) (-> & -> & ->); auto.
  - intros (E1 & H1) (E2 & H2). split; [congruence|]. intros key v Hv. destruct (H1 _ _ Hv) as [v' Hv']. eauto.
  - congruence.
  - auto.
Qed.
Lemma entry_like_refl r : entry_like r r.
Proof. destruct r; cbn; auto. Qed.
Lemma entry_like_trans r1 r2 r3 : entry_like r1 r2 -> entry_like r2 r3 -> entry_like r1 r3.
Proof. destruct r1, r2; cbn; try discriminate; auto; try (now intros ->); destruct r3; cbn; congruence. Qed.
Lemma same_refl w : same_resources w w.
Proof. split; [auto|]. split; [intros l o H; exists o; split; [auto|apply obj_like_refl]|]. split; [auto|]. intros n r H. exists r. split; [auto|apply entry_like_refl]. Qed.
Lemma same_trans w1 w2 w3 : same_resources w1 w2 -> same_resources w2 w3 -> same_resources w1 w3.
Proof.
  intros (A1 & B1 & C1 & D1) (A2 & B2 & C2 & D2). split; [congruence|]. split.
  - intros l o H. destruct (B1 _ _ H) as (o' & H' & L'). destruct (B2 _ _ H') as (o2 & H2 & L2). exists o2. split; [auto|eapply obj_like_trans; eauto].
  - split; [congruence|]. intros n r H. destruct (D1 _ _ H) as (r' & H' & L'). destruct (D2 _ _ H') as (r2 & H2 & L2). exists r2. split; [auto|eapply entry_like_trans; eauto].
Qed.
Lemma same_hset w l o o' : hget l w = Some o -> obj_like o o' -> same_resources w (hset l o' w).
Proof.
  intros H L. split; [cbn; apply set_nth_length|]. split.
  - intros l1 o1 H1. destruct (Nat.eq_dec l l1) as [<-|Hne].
    + exists o'. split; [eapply hget_hset_eq; eauto|]. assert (o1 = o) by congruence. now subst.
    + exists o1. split; [rewrite hget_hset_neq by auto; exact H1|apply obj_like_refl].
  - split; [reflexivity|]. intros n r Hr. exists r. split; [exact Hr|apply entry_like_refl].
Qed.
Lemma dset_keys {V} (d : dict V) k v v' : dget d k = Some v -> map fst (dset d k v') = map fst d.
Proof. induction d as [|[k1 v1] d IH]; cbn; [discriminate|]. destruct (String.eqb k k1); cbn; [auto|]. intros H. now rewrite IH. Qed.
Lemma same_rset w n r r' : dget (rdict w) n = Some r -> entry_like r r' -> same_resources w {| heap := heap w; rdict := dset (rdict w) n r' |}.
Proof.
  intros H L. split; [reflexivity|]. split; [intros l o Ho; exists o; split; [exact Ho|apply obj_like_refl]|]. split; [cbn; eapply dset_keys; eauto|].
  intros n1 r1 H1. cbn [rdict]. destruct (string_dec n n1) as [<-|Hne].
  - exists r'. split; [apply dget_dset_eq|]. assert (r1 = r) by congruence. now subst.
  - exists r1. split; [rewrite dget_dset_neq by auto; exact H1|apply entry_like_refl].
Qed.
Lemma same_cursor w w' l : same_resources w w' -> has_cursor w l -> has_cursor w' l.
Proof. intros (_ & B & _) [z H]. destruct (B _ _ H) as (o' & H' & L). destruct o'; cbn in L; try contradiction. eexists; eauto. Qed.
Lemma same_buf_update l u z w : same_resources w (snd (buf_update l u z w)).
Proof.
  unfold buf_update. destruct (hget l w) as [[b| | |]|] eqn:E; try apply same_refl. destruct (update_buffer b u z) as [b'|e] eqn:U; [|apply same_refl].
  eapply same_hset; eauto. destruct (C02_shape_proof _ _ _ _ U) as (S1 & S2 & S3 & S4). cbn. auto.
Qed.
Lemma same_set_cursor w l z : has_cursor w l -> same_resources w (snd (heap_set l (OCursor z) w)).
Proof. intros [z0 H]. cbn. eapply same_hset; eauto. exact I. Qed.

(** Peel one monadic operation that does not change the world. *)
Lemma peel {A B} (m : M world A) (f : A -> M world B) w :
  snd (m w) = w -> (forall a, m w = (Ok a, w) -> same_resources w (snd (f a w))) -> same_resources w (snd (mbind m f w)).
Proof.
  intros H1 H2. unfold mbind. destruct (m w) as [[a|e] w1] eqn:E; cbn in H1; subst w1; [apply H2; reflexivity|apply same_refl].
Qed.
Lemma chain {A B} (m : M world A) (f : A -> M world B) w w0 :
  same_resources w0 (snd (m w)) -> (forall a w1, m w = (Ok a, w1) -> same_resources w0 w1 -> same_resources w0 (snd (f a w1))) -> same_resources w0 (snd (mbind m f w)).
Proof. intros H1 H2. unfold mbind. destruct (m w) as [[a|e] w1] eqn:E; cbn in H1; [eapply H2; eauto|exact H1]. Qed.
Lemma snd_res_get n w : snd (res_get n w) = w.
Proof. unfold res_get. now destruct (dget (rdict w) n). Qed.

Lemma take_steps_kinds samp ts : preserving [] (take_steps samp ts).
Proof.
  intros k xs d w _. unfold take_steps.
  apply peel; [apply get_state_snd|]. intros [sl st] _.
  apply peel; [reflexivity|]. intros pn _. apply peel; [reflexivity|]. intros ln _. apply peel; [reflexivity|]. intros an _.
  apply peel; [apply get_buffer_snd|]. intros [pl pb] _. apply peel; [apply get_buffer_snd|]. intros [ll lb] _. apply peel; [apply get_buffer_snd|]. intros [al ab] _.
  apply peel; [apply snd_res_get|]. intros kern _. apply peel; [apply snd_res_get|]. intros lp _. apply peel; [reflexivity|]. intros out _.
  apply peel; [destruct (ts_thinning ts =? 0); reflexivity|]. intros _ _.
  apply peel; [apply get_cursor_snd|]. intros cur Hc. apply get_cursor_inv in Hc as [_ Hc].
  apply chain; [apply same_buf_update|]. intros _ w1 _ S1. apply chain; [eapply same_trans; [exact S1|apply same_buf_update]|]. intros _ w2 _ S2.
  apply chain; [eapply same_trans; [exact S2|apply same_buf_update]|]. intros _ w3 _ S3.
  apply chain; [eapply same_trans; [exact S3|apply same_set_cursor]; eapply same_cursor; [exact S3|eexists; eauto]|]. intros _ w4 _ S4.
  apply chain; [exact S4|]. intros l w5 E S5. exact S5.
Qed.
Lemma train_model_kinds tm : preserving [] (train_model tm).
Proof.
  intros k xs d w _. unfold train_model.
  apply peel; [apply snd_res_get|]. intros mr Hm. apply res_get_inv in Hm as [_ Hm].
  apply peel; [destruct mr; reflexivity|]. intros m Hm'. assert (mr = RModel m) as ->. { destruct mr; try discriminate Hm'. now injection Hm' as ->. }
  apply peel; [apply get_buffer_snd|]. intros [dl db] _.
  apply peel; [apply get_optimizer_snd|]. intros [ol opt] Ho. apply get_optimizer_inv in Ho as (_ & Ho1 & Ho2).
  apply peel; [reflexivity|]. intros pool _. apply peel; [reflexivity|]. intros ex _. apply peel; [reflexivity|]. intros [[k3 [m' st']] losses] _.
  apply chain.
  - destruct (String.eqb (tm_loss tm) ""); [apply same_refl|]. apply peel; [apply get_buffer_snd|]. intros [ll lb] Hl. apply get_buffer_inv in Hl as (_ & Hl1 & Hl2).
    apply chain; [apply same_buf_update|]. intros _ w1 _ S1. apply chain; [rewrite get_buffer_snd; exact S1|]. intros [l2 b2] w2 H2 S2. apply get_buffer_inv in H2 as (-> & H2 & H3).
    assert (l2 = ll). { destruct S1 as (_ & _ & _ & D). destruct (D _ _ Hl1) as (r' & Hr' & L). rewrite H2 in Hr'. injection Hr' as <-. cbn in L. now injection L. } subst l2.
    apply chain; [eapply same_trans; [exact S2|]; cbn; eapply same_hset; [exact H3|]; cbn; auto|]. intros _ w3 _ S3.
    eapply same_trans; [exact S3|]. unfold res_set. cbn. destruct S3 as (_ & _ & _ & D). destruct (D _ _ Hl1) as (r' & Hr' & L).
    cbn in L. subst r'. eapply same_rset; [exact Hr'|reflexivity].
  - intros _ w1 _ S1. apply chain.
    { eapply same_trans; [exact S1|]. cbn. destruct S1 as (_ & B & _). destruct (B _ _ Ho2) as (o' & Ho' & L). destruct o'; cbn in L; try contradiction.
      eapply same_hset; [exact Ho'|]. cbn. congruence. }
    intros _ w2 _ S2. apply chain.
    { eapply same_trans; [exact S2|]. unfold res_set. cbn. destruct S2 as (_ & _ & _ & D). destruct (D _ _ Hm) as (r' & Hr' & L). cbn in L.
      eapply same_rset; [exact Hr'|]. destruct r'; try discriminate L. exact I. }
    intros _ w3 _ S3. apply chain; [|intros _ w4 _ S4; exact S4].
    eapply same_trans; [exact S3|]. unfold res_set. cbn. destruct S3 as (_ & _ & _ & D). destruct (D _ _ Ho1) as (r' & Hr' & L). cbn in L. subst r'.
    eapply same_rset; [exact Hr'|reflexivity].
Qed.
Lemma state_update_keys s ks vs k v : dget (s_data s) k = Some v -> exists v', dget (s_data (state_update s ks vs)) k = Some v'.
Proof.
  unfold state_update. cbn [s_data]. generalize (s_data s) as dd. intros dd. revert v dd.
  generalize (combine ks vs). intros l. induction l as [|[k1 v1] l IH]; intros v dd H; [eauto|]. cbn [fold_left fst snd].
  destruct (string_dec k1 k) as [->|Hne]; [apply (IH v1); apply dget_dset_eq|apply (IH v); rewrite dget_dset_neq by auto; exact H].
Qed.
Lemma update_state_kinds name ks vs : preserving [] (update_state name ks vs).
Proof.
  intros k xs d w _. unfold update_state. apply peel; [apply get_state_snd|]. intros [l s] H. apply get_state_inv in H as (_ & H1 & H2).
  apply chain; [|intros _ w1 _ S1; exact S1]. cbn. eapply same_hset; [exact H2|]. split; [reflexivity|]. intros key v Hv. eapply state_update_keys; eauto.
Qed.
Lemma adam_kinds a : preserving [] (adam_strategy a).
Proof. intros k xs d w _. unfold adam_strategy. apply peel; [reflexivity|]. intros [[k' ys] l] _. apply same_refl. Qed.
Lemma pt_kinds pt : preserving [] (parallel_tempering pt).
Proof.
  intros k xs d w _. unfold parallel_tempering. apply peel; [apply snd_res_get|]. intros kr _. apply peel; [destruct kr; reflexivity|]. intros _ _.
  apply peel; [apply snd_res_get|]. intros tr _. apply peel; [destruct tr; reflexivity|]. intros t _.
  apply peel; [apply get_buffer_snd|]. intros [tpl tpb] _. apply peel; [apply get_buffer_snd|]. intros [tml tmb] _. apply peel; [apply get_state_snd|]. intros [sl st] _.
  apply peel; [destruct kr; reflexivity|]. intros kern _. apply peel.
  { destruct (ashape (b_data tpb)) as [|c [|c2 [|c3 [|? ?]]]]; try reflexivity. destruct (_ && _); reflexivity. } intros _ _.
  apply peel; [reflexivity|]. intros stepped _. apply peel; [destruct (dget (s_data st) "training"); reflexivity|]. intros tr' _.
  apply chain; [|intros _ w1 _ S1; exact S1]. destruct tr'; [|apply same_refl].
  apply chain; [apply same_buf_update|]. intros _ w1 _ S1. eapply same_trans; [exact S1|apply same_buf_update].
Qed.
Lemma lambda_kinds cs f : (forall k xs d w, (forall l, In l cs -> has_cursor w l) -> same_resources w (snd (f k xs d w))) -> preserving cs (lambda f).
Proof. intros H k xs d w Hc. unfold lambda. apply chain; [apply H, Hc|]. intros _ w1 _ S1. exact S1. Qed.
Lemma weaken cs st : preserving [] st -> preserving cs st.
Proof. intros H k xs d w _. apply H. intros l []. Qed.
Lemma base_kinds c window n st : dget (base_strategies c window) n = Some st -> preserving (stepper_cursors c) st.
Proof.
  unfold base_strategies. cbn [dget].
  destruct (String.eqb n "local_stepper"); [intros H; injection H as <-; apply weaken, take_steps_kinds|].
  destruct (String.eqb n "global_stepper"); [intros H; injection H as <-; apply weaken, take_steps_kinds|].
  destruct (String.eqb n "model_trainer"); [intros H; injection H as <-; apply weaken, train_model_kinds|].
  destruct (String.eqb n "update_state"); [intros H; injection H as <-; apply weaken, update_state_kinds|].
  assert (C1 : forall w, (forall l, In l (stepper_cursors c) -> has_cursor w l) -> has_cursor w (ts_cur (local_ts c))) by (intros w H; apply H; now left).
  assert (C2 : forall w, (forall l, In l (stepper_cursors c) -> has_cursor w l) -> has_cursor w (ts_cur (global_ts c))) by (intros w H; apply H; right; now left).
  destruct (String.eqb n "update_global_step"); [intros H; injection H as <-; apply lambda_kinds; intros k xs d w Hc;
    apply peel; [apply get_cursor_snd|]; intros z _; apply same_set_cursor; auto|].
  destruct (String.eqb n "update_local_step"); [intros H; injection H as <-; apply lambda_kinds; intros k xs d w Hc;
    apply peel; [apply get_cursor_snd|]; intros z _; apply same_set_cursor; auto|].
  destruct (String.eqb n "reset_steppers"); [intros H; injection H as <-; apply lambda_kinds; intros k xs d w Hc;
    apply chain; [apply same_set_cursor; auto|]; intros _ w1 _ S1; eapply same_trans; [exact S1|]; apply same_set_cursor; eapply same_cursor; [exact S1|auto]|].
  destruct (String.eqb n "update_model"); [|discriminate]. intros H; injection H as <-. apply lambda_kinds. intros k xs d w _.
  apply peel; [apply snd_res_get|]. intros mr _. apply peel; [apply snd_res_get|]. intros gr Hg. apply res_get_inv in Hg as [_ Hg].
  destruct mr; try apply same_refl. destruct gr; try apply same_refl. cbn. eapply same_rset; [exact Hg|reflexivity].
Qed.
Lemma dget_app {V} (d1 d2 : dict V) n v : dget (d1 ++ d2) n = Some v -> dget d1 n = Some v \/ dget d2 n = Some v.
Proof. induction d1 as [|[k1 v1] d1 IH]; cbn; [auto|]. destruct (String.eqb n k1); auto. Qed.
Lemma pt_all_kinds pc n st : dget (pt_strategies pc) n = Some st -> preserving (stepper_cursors (p_base pc)) st.
Proof.
  unfold pt_strategies. intros H. apply dget_app in H as [H|H]; [eapply base_kinds; eauto|]. cbn [dget] in H.
  destruct (String.eqb n "parallel_tempering"); [injection H as <-; apply weaken, pt_kinds|].
  destruct (String.eqb n "initialize_tempered_positions"); [|discriminate]. injection H as <-. apply weaken, lambda_kinds. intros; apply same_buf_update.
Qed.
Lemma run_kinds cs strats order : (forall n st, In n order -> dget strats n = Some st -> preserving cs st) ->
  preserving cs (fun k xs d => run_order strats order k xs d).
Proof.
  intros H k xs d w Hc. assert (G0 : forall w1 k xs, same_resources w w1 -> same_resources w (snd (run_order strats order k xs d w1))); [|apply G0, same_refl].
  induction order as [|n order IH]; intros w1 k1 xs1 S1; [exact S1|]. cbn [run_order].
  destruct (dget strats n) as [st|] eqn:E; [|exact S1].
  apply chain; [eapply same_trans; [exact S1|]; apply (H n st); auto; [now left|]; intros l Hl; eapply same_cursor; eauto|].
  intros [k2 xs2] w2 _ S2. apply IH; auto. intros n' st' Hn'. apply H. now right.
Qed.
Lemma sample_kinds cs s init d h order : sm_order s = OList order ->
  (forall n st, In n order -> dget (sm_strategies s) n = Some st -> preserving cs st) ->
  (forall l, In l cs -> has_cursor (mkWorld h (sm_resources s)) l) ->
  same_resources (mkWorld h (sm_resources s)) (snd (sampler_sample s init d h)).
Proof. intros E H Hc. unfold sampler_sample. rewrite E. exact (run_kinds cs (sm_strategies s) order H (sm_key s) (atleast_2d init) d _ Hc). Qed.
Lemma calls_kinds cs order args : forall s h w0, sm_order s = OList order ->
  (forall n st, In n order -> dget (sm_strategies s) n = Some st -> preserving cs st) ->
  (forall l, In l cs -> has_cursor w0 l) -> same_resources w0 (mkWorld h (sm_resources s)) -> same_resources w0 (calls_of s h args).
Proof.
  induction args as [|[init d] args IH]; intros s h w0 E H Hc S0; [exact S0|]. cbn [calls_of].
  apply IH; auto. cbn [sampler_after sm_resources]. eapply same_trans; [exact S0|].
  replace (mkWorld (heap (snd (sampler_sample s init d h))) (rdict (snd (sampler_sample s init d h)))) with (snd (sampler_sample s init d h)) by now destruct (snd (sampler_sample s init d h)).
  eapply sample_kinds; eauto. intros l Hl. eapply same_cursor; eauto.
Qed.
Lemma bundle_init n nc k o bd kw s : sampler_init n nc k None None o (Some bd) kw = Ok s ->
  sm_resources s = bd_resources bd /\ sm_strategies s = bd_strategies bd /\ sm_order s = OList (bd_order bd).
Proof. intros H. unfold sampler_init in H. injection H as <-. auto. Qed.
Lemma base_calls c h bd n nc k o kw s args :
  rqspline_mala_bundle c = Ok (h, bd) -> sampler_init n nc k None None o (Some bd) kw = Ok s ->
  same_resources (mkWorld h (bd_resources bd)) (calls_of s h args).
Proof.
  intros Hb Hs. destruct (bundle_init _ _ _ _ _ _ _ Hs) as (E1 & E2 & E3). unfold rqspline_mala_bundle in Hb. destruct (_ || _); [discriminate|]. injection Hb as <- <-.
  cbn [bd_resources bd_strategies bd_order] in * .
  apply (calls_kinds (stepper_cursors c) (base_order c)); auto.
  - rewrite E2. intros n0 st _ H. eapply base_kinds; eauto.
  - intros l [<-|[<-|[]]]; (exists 0%Z; reflexivity).
  - rewrite E1. apply same_refl.
Qed.
Lemma pt_calls pc h bd n nc k o kw s args :
  rqspline_mala_pt_bundle pc = Ok (h, bd) -> sampler_init n nc k None None o (Some bd) kw = Ok s ->
  same_resources (mkWorld h (bd_resources bd)) (calls_of s h args).
Proof.
  intros Hb Hs. destruct (bundle_init _ _ _ _ _ _ _ Hs) as (E1 & E2 & E3). unfold rqspline_mala_pt_bundle in Hb. destruct (_ || _); [discriminate|].
  destruct (_ =? 0); [discriminate|]. injection Hb as <- <-.
  cbn [bd_resources bd_strategies bd_order] in * .
  apply (calls_kinds (stepper_cursors (p_base pc)) (pt_order pc)); auto.
  - rewrite E2. intros n0 st _ H. eapply pt_all_kinds; eauto.
  - intros l [<-|[<-|[]]]; (exists 0%Z; reflexivity).
  - rewrite E1. apply same_refl.
Qed.
End Kinds.
