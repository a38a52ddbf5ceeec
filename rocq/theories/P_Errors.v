(** Proofs of C75. *)
From Verif Require Import Prelude Num M_Core M_Kernels M_Strategies M_PT Spec_Errors P_Lists P_Steps.

Section P.
Context {N : Num} {G : Rng} {NF : NFOps}.
Lemma mbind_raise {A B} (m : M world A) (f : A -> M world B) w e : m w = (Raise e, w) -> mbind m f w = (Raise e, w).
Proof. intros H. unfold mbind. now rewrite H. Qed.
Lemma mbind_go {A B} (m : M world A) (f : A -> M world B) w a : m w = (Ok a, w) -> mbind m f w = f a w.
Proof. intros H. unfold mbind. now rewrite H. Qed.
Lemma state_get n w : match lookup_error w n (is_state w) with
  | Some e => get_state n w = (Raise e, w)
  | None => exists l s, get_state n w = (Ok (l, s), w) /\ forall key, state_entry w n key = Some (dget (s_data s) key) end.
Proof.
  unfold lookup_error, get_state, res_get, mbind, state_entry, is_state. destruct (dget (rdict w) n) as [[]|] eqn:E; auto.
  destruct (hget l w) as [[]|] eqn:E1; auto. eauto.
Qed.
Lemma buffer_get n w : match lookup_error w n (is_buffer w) with
  | Some e => get_buffer n w = (Raise e, w)
  | None => exists l b, get_buffer n w = (Ok (l, b), w) end.
Proof.
  unfold lookup_error, get_buffer, res_get, mbind, is_buffer. destruct (dget (rdict w) n) as [[]|] eqn:E; auto.
  destruct (hget l w) as [[]|] eqn:E1; auto. eauto.
Qed.
Lemma optimizer_get n w : match lookup_error w n (is_optimizer w) with
  | Some e => get_optimizer n w = (Raise e, w)
  | None => exists l b, get_optimizer n w = (Ok (l, b), w) end.
Proof.
  unfold lookup_error, get_optimizer, res_get, mbind, is_optimizer. destruct (dget (rdict w) n) as [[]|] eqn:E; auto.
  destruct (hget l w) as [[]|] eqn:E1; auto. eauto.
Qed.
Lemma any_get n w : match lookup_error w n anything with
  | Some e => res_get n w = (Raise e, w)
  | None => exists r, dget (rdict w) n = Some r /\ res_get n w = (Ok r, w) end.
Proof. unfold lookup_error, res_get, anything. destruct (dget (rdict w) n); eauto. Qed.
Lemma kind_get n w right : match lookup_error w n right with
  | Some e => (res_get n w = (Raise e, w) /\ dget (rdict w) n = None) \/ (e = AssertionError /\ exists r, res_get n w = (Ok r, w) /\ right r = false)
  | None => exists r, res_get n w = (Ok r, w) /\ right r = true end.
Proof. unfold lookup_error, res_get. destruct (dget (rdict w) n) as [r|]; [destruct (right r) eqn:E|]; eauto. Qed.
Lemma entry_get w st (s : state) key : state_entry w st key = Some (dget (s_data s) key) -> match entry_error w st key with
  | Some e => mlift (state_str s key) w = (Raise e, w)
  | None => exists n, mlift (state_str s key) w = (Ok n, w) /\ entry_buffer_error w st key = lookup_error w n (is_buffer w) end.
Proof.
  intros E. unfold entry_error, entry_buffer_error, state_str, mlift. rewrite E. destruct (dget (s_data s) key) as [[]|]; eauto.
Qed.
Lemma steps_error samp ts k xs d w e :
  first_error [lookup_error w (ts_state ts) (is_state w);
    entry_error w (ts_state ts) (ts_pos_key ts); entry_error w (ts_state ts) (ts_lp_key ts); entry_error w (ts_state ts) (ts_acc_key ts);
    entry_buffer_error w (ts_state ts) (ts_pos_key ts); entry_buffer_error w (ts_state ts) (ts_lp_key ts); entry_buffer_error w (ts_state ts) (ts_acc_key ts);
    lookup_error w (ts_kernel ts) anything; lookup_error w (ts_logpdf ts) anything] = Some e ->
  take_steps samp ts k xs d w = (Raise e, w).
Proof.
  unfold take_steps. cbn [first_error].
  pose proof (state_get (ts_state ts) w) as H0. destruct (lookup_error w (ts_state ts) (is_state w)) as [x|]; [intros [= ->]; now apply mbind_raise|].
  destruct H0 as (l & s & H0 & HE). rewrite (mbind_go _ _ _ _ H0).
  pose proof (entry_get w _ s _ (HE (ts_pos_key ts))) as H1. destruct (entry_error w (ts_state ts) (ts_pos_key ts)) as [x|]; [intros [= ->]; now apply mbind_raise|].
  destruct H1 as (n1 & H1 & ->). rewrite (mbind_go _ _ _ _ H1).
  pose proof (entry_get w _ s _ (HE (ts_lp_key ts))) as H2. destruct (entry_error w (ts_state ts) (ts_lp_key ts)) as [x|]; [intros [= ->]; now apply mbind_raise|].
  destruct H2 as (n2 & H2 & ->). rewrite (mbind_go _ _ _ _ H2).
  pose proof (entry_get w _ s _ (HE (ts_acc_key ts))) as H3. destruct (entry_error w (ts_state ts) (ts_acc_key ts)) as [x|]; [intros [= ->]; now apply mbind_raise|].
  destruct H3 as (n3 & H3 & ->). rewrite (mbind_go _ _ _ _ H3).
  pose proof (buffer_get n1 w) as B1. destruct (lookup_error w n1 (is_buffer w)) as [x|]; [intros [= ->]; now apply mbind_raise|].
  destruct B1 as (l1 & b1 & B1). rewrite (mbind_go _ _ _ _ B1).
  pose proof (buffer_get n2 w) as B2. destruct (lookup_error w n2 (is_buffer w)) as [x|]; [intros [= ->]; now apply mbind_raise|].
  destruct B2 as (l2 & b2 & B2). rewrite (mbind_go _ _ _ _ B2).
  pose proof (buffer_get n3 w) as B3. destruct (lookup_error w n3 (is_buffer w)) as [x|]; [intros [= ->]; now apply mbind_raise|].
  destruct B3 as (l3 & b3 & B3). rewrite (mbind_go _ _ _ _ B3).
  pose proof (any_get (ts_kernel ts) w) as K. destruct (lookup_error w (ts_kernel ts) anything) as [x|]; [intros [= ->]; now apply mbind_raise|].
  destruct K as (kr & _ & K). rewrite (mbind_go _ _ _ _ K).
  pose proof (any_get (ts_logpdf ts) w) as L. destruct (lookup_error w (ts_logpdf ts) anything) as [x|]; [intros [= ->]; now apply mbind_raise|discriminate].
Qed.
Lemma train_error tm k xs d w e :
  first_error [lookup_error w (tm_model tm) is_model; lookup_error w (tm_data tm) (is_buffer w); lookup_error w (tm_opt tm) (is_optimizer w)] = Some e ->
  train_model tm k xs d w = (Raise e, w).
Proof.
  unfold train_model. cbn [first_error]. pose proof (kind_get (tm_model tm) w is_model) as H. destruct (lookup_error w (tm_model tm) is_model) as [x|].
  - intros [= ->]. destruct H as [[H _]|(-> & r & H & Hr)]; [now apply mbind_raise|]. rewrite (mbind_go _ _ _ _ H). apply mbind_raise. now destruct r.
  - destruct H as (r & H & Hr). rewrite (mbind_go _ _ _ _ H). destruct r; try discriminate Hr. erewrite mbind_go by reflexivity.
    pose proof (buffer_get (tm_data tm) w) as B1. destruct (lookup_error w (tm_data tm) (is_buffer w)) as [x|]; [intros [= ->]; now apply mbind_raise|].
    destruct B1 as (l1 & b1 & B1). rewrite (mbind_go _ _ _ _ B1).
    pose proof (optimizer_get (tm_opt tm) w) as B2. destruct (lookup_error w (tm_opt tm) (is_optimizer w)) as [x|]; [intros [= ->]; now apply mbind_raise|discriminate].
Qed.
Lemma tempering_error pt k xs d w e :
  first_error [lookup_error w (pt_kernel pt) is_kernel; lookup_error w (pt_logpdf pt) is_tempered;
    lookup_error w (pt_pos_buf pt) (is_buffer w); lookup_error w (pt_temp_buf pt) (is_buffer w); lookup_error w (pt_state pt) (is_state w)] = Some e ->
  parallel_tempering pt k xs d w = (Raise e, w).
Proof.
  unfold parallel_tempering. cbn [first_error]. pose proof (kind_get (pt_kernel pt) w is_kernel) as H. destruct (lookup_error w (pt_kernel pt) is_kernel) as [x|].
  { intros [= ->]. destruct H as [[H _]|(-> & r & H & Hr)]; [now apply mbind_raise|]. rewrite (mbind_go _ _ _ _ H). apply mbind_raise. now destruct r. }
  destruct H as (r & H & Hr). rewrite (mbind_go _ _ _ _ H). rewrite (mbind_go (match r with RSer _ | RNFP _ => mret tt | _ => mraise AssertionError end) _ w tt) by (now destruct r).
  pose proof (kind_get (pt_logpdf pt) w is_tempered) as T. destruct (lookup_error w (pt_logpdf pt) is_tempered) as [x|].
  { intros [= ->]. destruct T as [[T _]|(-> & q & T & Tr)]; [now apply mbind_raise|]. rewrite (mbind_go _ _ _ _ T). apply mbind_raise. now destruct q. }
  destruct T as (q & T & Tr). rewrite (mbind_go _ _ _ _ T). destruct q; try discriminate Tr. erewrite mbind_go by reflexivity.
  pose proof (buffer_get (pt_pos_buf pt) w) as B1. destruct (lookup_error w (pt_pos_buf pt) (is_buffer w)) as [x|]; [intros [= ->]; now apply mbind_raise|].
  destruct B1 as (l1 & b1 & B1). rewrite (mbind_go _ _ _ _ B1).
  pose proof (buffer_get (pt_temp_buf pt) w) as B2. destruct (lookup_error w (pt_temp_buf pt) (is_buffer w)) as [x|]; [intros [= ->]; now apply mbind_raise|].
  destruct B2 as (l2 & b2 & B2). rewrite (mbind_go _ _ _ _ B2).
  pose proof (state_get (pt_state pt) w) as H0. destruct (lookup_error w (pt_state pt) (is_state w)) as [x|]; [intros [= ->]; now apply mbind_raise|discriminate].
Qed.
Lemma update_error name keys values k xs d w e : lookup_error w name (is_state w) = Some e ->
  update_state name keys values k xs d w = (Raise e, w).
Proof. intros E. unfold update_state. pose proof (state_get name w) as H0. rewrite E in H0. now apply mbind_raise. Qed.
End P.
Section Kinds.
Context {N : Num} {G : Rng} {NF : NFOps}.
Lemma run_chains_raise f cb (keys : list key) (xs : list vec) e : xs <> [] -> length keys = length xs -> (forall k x, f k x = Raise e) ->
  run_chains f cb keys xs = Raise e.
Proof.
  intros Hx Hk Hf. rewrite run_chains_batch by auto. unfold vmap_chains. destruct xs as [|x xs]; [congruence|]. destruct keys as [|k keys]; [discriminate|].
  cbn. now rewrite Hf.
Qed.
Lemma steps_kind samp ts k xs d w kr lr e : xs <> [] ->
  dget (rdict w) (ts_kernel ts) = Some kr -> dget (rdict w) (ts_logpdf ts) = Some lr -> (forall k x, samp kr lr d (ts_n_steps ts) k x = Raise e) ->
  exists e', take_steps samp ts k xs d w = (Raise e', w).
Proof.
  intros Hx Hk Hl Hs.
  destruct (first_error [lookup_error w (ts_state ts) (is_state w);
    entry_error w (ts_state ts) (ts_pos_key ts); entry_error w (ts_state ts) (ts_lp_key ts); entry_error w (ts_state ts) (ts_acc_key ts);
    entry_buffer_error w (ts_state ts) (ts_pos_key ts); entry_buffer_error w (ts_state ts) (ts_lp_key ts); entry_buffer_error w (ts_state ts) (ts_acc_key ts);
    lookup_error w (ts_kernel ts) anything; lookup_error w (ts_logpdf ts) anything]) as [x|] eqn:E; [exists x; now apply steps_error|].
  unfold take_steps. cbn [first_error] in E.
  pose proof (state_get (ts_state ts) w) as H0. destruct (lookup_error w (ts_state ts) (is_state w)); [discriminate|].
  destruct H0 as (l & s & H0 & HE). rewrite (mbind_go _ _ _ _ H0).
  pose proof (entry_get w _ s _ (HE (ts_pos_key ts))) as H1. destruct (entry_error w (ts_state ts) (ts_pos_key ts)); [discriminate|].
  destruct H1 as (n1 & H1 & Q1). rewrite Q1 in E. rewrite (mbind_go _ _ _ _ H1).
  pose proof (entry_get w _ s _ (HE (ts_lp_key ts))) as H2. destruct (entry_error w (ts_state ts) (ts_lp_key ts)); [discriminate|].
  destruct H2 as (n2 & H2 & Q2). rewrite Q2 in E. rewrite (mbind_go _ _ _ _ H2).
  pose proof (entry_get w _ s _ (HE (ts_acc_key ts))) as H3. destruct (entry_error w (ts_state ts) (ts_acc_key ts)); [discriminate|].
  destruct H3 as (n3 & H3 & Q3). rewrite Q3 in E. rewrite (mbind_go _ _ _ _ H3).
  pose proof (buffer_get n1 w) as B1. destruct (lookup_error w n1 (is_buffer w)); [discriminate|]. destruct B1 as (l1 & b1 & B1). rewrite (mbind_go _ _ _ _ B1).
  pose proof (buffer_get n2 w) as B2. destruct (lookup_error w n2 (is_buffer w)); [discriminate|]. destruct B2 as (l2 & b2 & B2). rewrite (mbind_go _ _ _ _ B2).
  pose proof (buffer_get n3 w) as B3. destruct (lookup_error w n3 (is_buffer w)); [discriminate|]. destruct B3 as (l3 & b3 & B3). rewrite (mbind_go _ _ _ _ B3).
  rewrite (mbind_go (res_get (ts_kernel ts)) _ w kr) by (unfold res_get; now rewrite Hk). rewrite (mbind_go (res_get (ts_logpdf ts)) _ w lr) by (unfold res_get; now rewrite Hl).
  exists e. apply mbind_raise. unfold mlift. rewrite (run_chains_raise _ _ _ _ e Hx); auto. unfold split_keys. now rewrite map_length, seq_length.
Qed.
Lemma serial_kind ts k xs d w kr lr : xs <> [] -> dget (rdict w) (ts_kernel ts) = Some kr -> dget (rdict w) (ts_logpdf ts) = Some lr ->
  ((forall kf, kr <> RSer kf) \/ (forall l, lr <> RLog l) /\ (forall t, lr <> RTemp t)) ->
  exists e, take_serial_steps ts k xs d w = (Raise e, w).
Proof.
  intros Hx Hk Hl H. apply (steps_kind samp_serial ts k xs d w kr lr TypeError Hx Hk Hl). intros k0 x. unfold samp_serial, as_lpdf.
  destruct H as [H|[H1 H2]]; [destruct kr; try (destruct lr; reflexivity); now edestruct H|destruct lr; try reflexivity; [now edestruct H1|now edestruct H2]].
Qed.
Lemma group_kind ts k xs d w kr lr : xs <> [] -> dget (rdict w) (ts_kernel ts) = Some kr -> dget (rdict w) (ts_logpdf ts) = Some lr ->
  ((forall p, kr <> RNFP p) \/ (forall l, lr <> RLog l) /\ (forall t, lr <> RTemp t)) ->
  exists e, take_group_steps ts k xs d w = (Raise e, w).
Proof.
  intros Hx Hk Hl H. apply (steps_kind samp_group ts k xs d w kr lr TypeError Hx Hk Hl). intros k0 x. unfold samp_group, as_lpdf.
  destruct H as [H|[H1 H2]]; [destruct kr; try (destruct lr; reflexivity); now edestruct H|destruct lr; try reflexivity; [now edestruct H1|now edestruct H2]].
Qed.
End Kinds.
