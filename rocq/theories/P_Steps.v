(** Proofs about stepping strategies (C07-C10, C12). *)
From Verif Require Import Prelude Num M_Core M_Kernels M_Strategies Spec Spec_Core Spec_Steps
  P_Lists P_Buffer P_Core P_Sampler.

Section Steps.
Context {N : Num} {G : Rng} {NF : NFOps}.

(* ------------------------------------------------------------------ world lemmas *)
Lemma hget_hset_eq l o o0 w : hget l w = Some o0 -> hget l (hset l o w) = Some o.
Proof.
  unfold hget, hset. simpl. intros H. apply nth_error_set_nth_eq.
  apply nth_error_Some. congruence.
Qed.
Lemma hget_hset_neq l l' o w : l <> l' -> hget l' (hset l o w) = hget l' w.
Proof. intros. unfold hget, hset. simpl. now apply nth_error_set_nth_neq. Qed.
Lemma rdict_hset l o w : rdict (hset l o w) = rdict w.
Proof. reflexivity. Qed.

Lemma res_get_inv n w r w' : res_get n w = (Ok r, w') -> w' = w /\ dget (rdict w) n = Some r.
Proof. unfold res_get. destruct (dget (rdict w) n); intros H; [injection H as -> ->; auto|discriminate]. Qed.

Lemma res_get_snd n w : snd (res_get n w) = w.
Proof. unfold res_get. destruct (dget (rdict w) n); reflexivity. Qed.

Lemma get_state_inv n w l s w' : get_state n w = (Ok (l, s), w') ->
  w' = w /\ dget (rdict w) n = Some (RObj l) /\ hget l w = Some (OState s).
Proof.
  unfold get_state. intros H. apply mbind_Ok in H as (r & w1 & H1 & H2).
  apply res_get_inv in H1 as [-> H1]. destruct r; try discriminate.
  destruct (hget l0 w) as [[| | |]|] eqn:E; try discriminate. injection H2 as -> -> ->. auto.
Qed.
Lemma get_buffer_inv n w l b w' : get_buffer n w = (Ok (l, b), w') ->
  w' = w /\ dget (rdict w) n = Some (RObj l) /\ hget l w = Some (OBuf b).
Proof.
  unfold get_buffer. intros H. apply mbind_Ok in H as (r & w1 & H1 & H2).
  apply res_get_inv in H1 as [-> H1]. destruct r; try discriminate.
  destruct (hget l0 w) as [[| | |]|] eqn:E; try discriminate. injection H2 as -> -> ->. auto.
Qed.
Lemma get_optimizer_inv n w l o w' : get_optimizer n w = (Ok (l, o), w') ->
  w' = w /\ dget (rdict w) n = Some (RObj l) /\ hget l w = Some (OOpt o).
Proof.
  unfold get_optimizer. intros H. apply mbind_Ok in H as (r & w1 & H1 & H2).
  apply res_get_inv in H1 as [-> H1]. destruct r; try discriminate.
  destruct (hget l0 w) as [[| | |]|] eqn:E; try discriminate. injection H2 as -> -> ->. auto.
Qed.
Lemma get_state_snd n w : snd (get_state n w) = w.
Proof. unfold get_state, mbind. pose proof (res_get_snd n w). destruct (res_get n w) as [[r|e] w1]; simpl in *; subst; auto.
  destruct r; auto. destruct (hget l w) as [[| | |]|]; auto. Qed.
Lemma get_buffer_snd n w : snd (get_buffer n w) = w.
Proof. unfold get_buffer, mbind. pose proof (res_get_snd n w). destruct (res_get n w) as [[r|e] w1]; simpl in *; subst; auto.
  destruct r; auto. destruct (hget l w) as [[| | |]|]; auto. Qed.
Lemma get_optimizer_snd n w : snd (get_optimizer n w) = w.
Proof. unfold get_optimizer, mbind. pose proof (res_get_snd n w). destruct (res_get n w) as [[r|e] w1]; simpl in *; subst; auto.
  destruct r; auto. destruct (hget l w) as [[| | |]|]; auto. Qed.
Lemma get_cursor_snd n w : snd (get_cursor n w) = w.
Proof. unfold get_cursor. destruct (hget n w) as [[| | |]|]; auto. Qed.
Lemma get_cursor_inv l w z w' : get_cursor l w = (Ok z, w') -> w' = w /\ hget l w = Some (OCursor z).
Proof. unfold get_cursor. destruct (hget l w) as [[| | |]|] eqn:E; intros H; try discriminate. injection H as -> ->. auto. Qed.

Lemma buf_update_inv l u s w x w' : buf_update l u s w = (Ok x, w') ->
  exists b b', hget l w = Some (OBuf b) /\ update_buffer b u s = Ok b' /\ w' = hset l (OBuf b') w.
Proof.
  unfold buf_update. destruct (hget l w) as [[b| | |]|] eqn:E; intros H; try discriminate.
  destruct (update_buffer b u s) as [b'|e] eqn:E2; try discriminate. injection H as <- <-.
  exists b, b'. auto.
Qed.
Lemma buf_update_raise l u s w e w' : buf_update l u s w = (Raise e, w') -> w' = w.
Proof.
  unfold buf_update. destruct (hget l w) as [[b| | |]|] eqn:E; intros H; try congruence.
  destruct (update_buffer b u s) as [b'|e'] eqn:E2; congruence.
Qed.

Lemma mlift_inv {W A} (r : res A) (w : W) a w' : mlift r w = (Ok a, w') -> w' = w /\ r = Ok a.
Proof. unfold mlift. intros H; injection H; auto. Qed.

Lemma mbind_cases {W A B} (m : M W A) (f : A -> M W B) w r w' :
  mbind m f w = (r, w') ->
  (exists e, m w = (Raise e, w') /\ r = Raise e) \/
  (exists a w1, m w = (Ok a, w1) /\ f a w1 = (r, w')).
Proof. unfold mbind. destruct (m w) as [[a|e] w1] eqn:E; intros H; [right|left]; eauto.
  injection H as <- <-. eauto. Qed.

Lemma state_str_inv st k x : state_str st k = Ok x -> dget (s_data st) k = Some (SStr x).
Proof. unfold state_str. destruct (dget (s_data st) k) as [[| |s]|]; intros H; try discriminate. congruence. Qed.

(* ------------------------------------------------------------------ inversion of take_steps *)
Section Inv.
Variable samp : resource -> resource -> datad -> nat -> key -> vec -> res (list (vec * F * bool)).
Variable ts : takesteps.

Definition ts_positions (th : nat) (out : list chain_out) : list (list vec) :=
  map (map s_pos) (map (stride th) out).
Definition ts_logprobs (th : nat) (out : list chain_out) : list (list F) :=
  map (map s_lp) (map (stride th) out).
Definition ts_accs (th : nat) (out : list chain_out) : list (list F) :=
  map (map (fun o => b2f (s_acc o))) (map (stride th) out).

(** Prefix of the call: all lookups. *)
Definition ts_lookup (w : world) (pl ll al : loc) (kern lp : resource) : Prop :=
  (exists b, target w (ts_state ts) (ts_pos_key ts) pl b) /\
  (exists b, target w (ts_state ts) (ts_lp_key ts) ll b) /\
  (exists b, target w (ts_state ts) (ts_acc_key ts) al b) /\
  dget (rdict w) (ts_kernel ts) = Some kern /\ dget (rdict w) (ts_logpdf ts) = Some lp.

(** The part of the call after the lookups and the chain computation. *)
Definition ts_finish (k' : key) (pl ll al : loc) (out : list chain_out) : M world (key * pos_t) :=
  do! _ <- (if ts_thinning ts =? 0 then mraise ValueError else mret tt);
  do! cur <- get_cursor (ts_cur ts);
  do! _ <- buf_update pl (stack3 (ts_positions (ts_thinning ts) out)) cur;
  do! _ <- buf_update ll (stack2 (ts_logprobs (ts_thinning ts) out)) cur;
  do! _ <- buf_update al (stack2 (ts_accs (ts_thinning ts) out)) cur;
  do! _ <- heap_set (ts_cur ts)
             (OCursor (cur + Z.of_nat (ts_n_steps ts / ts_thinning ts)));
  do! lasts <- mlift (rmapM (fun ps => match last_opt ps with
                                       | Some p => Ok p | None => Raise IndexError end)
                            (ts_positions (ts_thinning ts) out));
  mret (k', lasts).

Lemma take_steps_split k xs d w :
  (exists e, take_steps samp ts k xs d w = (Raise e, w) /\ ~ ready w ts) \/
  (exists pl ll al kern lp, ts_lookup w pl ll al kern lp /\
     take_steps samp ts k xs d w =
       mbind (mlift (run_chains (samp kern lp d (ts_n_steps ts)) (ts_batch ts)
                       (split_keys (split k 2 1) (length xs)) xs))
             (ts_finish (split k 2 0) pl ll al) w).
Proof.
  remember (take_steps samp ts k xs d w) as R eqn:HR. unfold take_steps in HR.
  (* state *)
  unfold mbind at 1 in HR. pose proof (get_state_snd (ts_state ts) w) as Hw.
  destruct (get_state (ts_state ts) w) as [[[sl st]|e] w1] eqn:E; simpl in Hw; subst w1.
  2: { left. exists e. split; auto. intros ((l & b & sl & st & bn & H1 & H2 & _) & _).
       unfold get_state, mbind, res_get in E. rewrite H1, H2 in E. discriminate. }
  apply get_state_inv in E as (_ & Es1 & Es2).
  assert (Htar : forall key l b, target w (ts_state ts) key l b <->
     exists bn, dget (s_data st) key = Some (SStr bn) /\ dget (rdict w) bn = Some (RObj l) /\ hget l w = Some (OBuf b)).
  { intros key l b. split.
    - intros (sl' & st' & bn & H1 & H2 & H3). assert (sl' = sl) by congruence. subst.
      assert (st' = st) by congruence. subst. eauto.
    - intros (bn & H). exists sl, st, bn. auto. }
  assert (Hget : forall key bn, dget (s_data st) key = Some (SStr bn) ->
      forall e, get_buffer bn w = (Raise e, w) -> forall l b, ~ target w (ts_state ts) key l b).
  { intros key bn H e He l b Ht. apply Htar in Ht as (bn' & H1 & H2 & H3).
    assert (bn' = bn) by congruence. subst. unfold get_buffer, mbind, res_get in He.
    rewrite H2, H3 in He. discriminate. }
  assert (Hstr : forall key e, state_str st key = Raise e -> forall l b, ~ target w (ts_state ts) key l b).
  { intros key e He l b Ht. apply Htar in Ht as (bn' & H1 & H2 & H3).
    unfold state_str in He. rewrite H1 in He. discriminate. }
  unfold mbind at 1, mlift at 1 in HR. destruct (state_str st (ts_pos_key ts)) as [pn|e] eqn:Ep.
  2: { left. exists e. split; auto. intros ((l & b & H) & _). eapply Hstr; eauto. }
  unfold mbind at 1, mlift at 1 in HR. destruct (state_str st (ts_lp_key ts)) as [ln|e] eqn:El.
  2: { left. exists e. split; auto. intros (_ & (l & b & H) & _). eapply Hstr; eauto. }
  unfold mbind at 1, mlift at 1 in HR. destruct (state_str st (ts_acc_key ts)) as [an|e] eqn:Ea.
  2: { left. exists e. split; auto. intros (_ & _ & (l & b & H) & _). eapply Hstr; eauto. }
  apply state_str_inv in Ep, El, Ea.
  unfold mbind at 1 in HR. pose proof (get_buffer_snd pn w) as Hw.
  destruct (get_buffer pn w) as [[[pl pb]|e] w1] eqn:E; simpl in Hw; subst w1.
  2: { left. exists e. split; auto. intros ((l & b & H) & _). exact (Hget _ _ Ep _ E _ _ H). }
  apply get_buffer_inv in E as (_ & Ep1 & Ep2).
  unfold mbind at 1 in HR. pose proof (get_buffer_snd ln w) as Hw.
  destruct (get_buffer ln w) as [[[ll lb]|e] w1] eqn:E; simpl in Hw; subst w1.
  2: { left. exists e. split; auto. intros (_ & (l & b & H) & _). exact (Hget _ _ El _ E _ _ H). }
  apply get_buffer_inv in E as (_ & El1 & El2).
  unfold mbind at 1 in HR. pose proof (get_buffer_snd an w) as Hw.
  destruct (get_buffer an w) as [[[al ab]|e] w1] eqn:E; simpl in Hw; subst w1.
  2: { left. exists e. split; auto. intros (_ & _ & (l & b & H) & _). exact (Hget _ _ Ea _ E _ _ H). }
  apply get_buffer_inv in E as (_ & Ea1 & Ea2).
  unfold mbind at 1, res_get at 1 in HR. destruct (dget (rdict w) (ts_kernel ts)) as [kern|] eqn:Ek.
  2: { left. exists KeyError. split; auto. intros (_ & _ & _ & H & _). congruence. }
  unfold mbind at 1, res_get at 1 in HR. destruct (dget (rdict w) (ts_logpdf ts)) as [lp|] eqn:Elp.
  2: { left. exists KeyError. split; auto. intros (_ & _ & _ & _ & H). congruence. }
  right. exists pl, ll, al, kern, lp. split; [|exact HR].
  repeat split; auto.
  - exists pb. apply Htar. eauto.
  - exists lb. apply Htar. eauto.
  - exists ab. apply Htar. eauto.
Qed.

Lemma ts_lookup_ready w pl ll al kern lp : ts_lookup w pl ll al kern lp -> ready w ts.
Proof. intros ([b1 T1] & [b2 T2] & [b3 T3] & T4 & T5). repeat split; eauto; congruence. Qed.

Lemma C07_missing_proof k xs d w : ~ ready w ts ->
  exists e, take_steps samp ts k xs d w = (Raise e, w).
Proof.
  intros H. destruct (take_steps_split k xs d w) as [(e & H1 & _)|(pl & ll & al & kern & lp & H1 & _)]; eauto.
  exfalso. apply H. eapply ts_lookup_ready; eauto.
Qed.

(** Buffers stay buffers with the same header. *)
Definition obj_evolves (a b : option obj) : Prop :=
  match a, b with
  | Some (OBuf x), Some (OBuf y) => same_header x y
  | Some (OCursor _), Some (OCursor _) => True
  | _, _ => a = b
  end.
Lemma obj_evolves_refl a : obj_evolves a a.
Proof. destruct a as [[| | |]|]; simpl; auto. repeat split; auto. Qed.

Definition frame_ok (S : loc -> Prop) (w w' : world) : Prop :=
  rdict w' = rdict w /\ length (heap w') = length (heap w) /\
  (forall l, ~ S l -> hget l w' = hget l w) /\
  (forall l, obj_evolves (hget l w) (hget l w')).

Lemma frame_refl S w : frame_ok S w w.
Proof. repeat split; auto. intros. apply obj_evolves_refl. Qed.

Lemma obj_evolves_trans a b c : obj_evolves a b -> obj_evolves b c -> obj_evolves a c.
Proof.
  destruct a as [[x|s1|o1|z1]|], b as [[y|s2|o2|z2]|], c as [[z|s3|o3|z3]|]; simpl; try congruence; auto; try discriminate.
  intros (A1&A2&A3&A4) (B1&B2&B3&B4). repeat split; congruence.
Qed.

Lemma frame_trans S w w1 w2 : frame_ok S w w1 -> frame_ok S w1 w2 -> frame_ok S w w2.
Proof.
  intros (A1&A2&A3&A4) (B1&B2&B3&B4). repeat split; try congruence.
  - intros l Hl. rewrite B3, A3; auto.
  - intros l. eapply obj_evolves_trans; eauto.
Qed.

Lemma frame_buf_update (S : loc -> Prop) l u s w r w' : S l -> buf_update l u s w = (r, w') -> frame_ok S w w'.
Proof.
  intros Hl H. destruct r as [x|e].
  - apply buf_update_inv in H as (b & b' & H1 & H2 & ->). repeat split.
    + simpl. apply set_nth_length.
    + intros l' Hl'. apply hget_hset_neq. intros ->. tauto.
    + intros l'. destruct (Nat.eq_dec l l') as [<-|Hn].
      * rewrite H1, (hget_hset_eq _ _ _ _ H1). simpl. eapply C02_shape_proof; eauto.
      * rewrite hget_hset_neq by auto. apply obj_evolves_refl.
  - apply buf_update_raise in H. subst. apply frame_refl.
Qed.

Lemma frame_cursor (S : loc -> Prop) l z z0 w : S l -> hget l w = Some (OCursor z0) -> frame_ok S w (hset l (OCursor z) w).
Proof.
  intros Hl H. repeat split.
  - simpl. apply set_nth_length.
  - intros l' Hl'. apply hget_hset_neq. intros ->. tauto.
  - intros l'. destruct (Nat.eq_dec l l') as [<-|Hn].
    + rewrite H, (hget_hset_eq _ _ _ _ H). simpl. auto.
    + rewrite hget_hset_neq by auto. apply obj_evolves_refl.
Qed.

Lemma frame_cursor_at S l w w' z : frame_ok S w w' -> hget l w = Some (OCursor z) ->
  exists z', hget l w' = Some (OCursor z').
Proof. intros (_ & _ & _ & H) E. specialize (H l). rewrite E in H. destruct (hget l w') as [[| | |]|]; simpl in H; try discriminate; eauto. Qed.

Lemma ts_finish_frame k' pl ll al out w r w' :
  ts_finish k' pl ll al out w = (r, w') ->
  frame_ok (fun l => l = pl \/ l = ll \/ l = al \/ l = ts_cur ts) w w'.
Proof.
  unfold ts_finish. intros H.
  apply mbind_cases in H as [(e & H & _)|(a0 & w0 & H0 & H)].
  { destruct (ts_thinning ts =? 0); unfold mraise, mret in H; inversion H. apply frame_refl. }
  assert (w0 = w) by (destruct (ts_thinning ts =? 0); unfold mraise, mret in H0; congruence). subst w0.
  apply mbind_cases in H as [(e & H & _)|(cur & w0 & Hc & H)].
  { pose proof (get_cursor_snd (ts_cur ts) w). rewrite H in H1. simpl in H1. subst. apply frame_refl. }
  apply get_cursor_inv in Hc as [-> Hc].
  set (S := fun l => l = pl \/ l = ll \/ l = al \/ l = ts_cur ts).
  apply mbind_cases in H as [(e & H & _)|(a1 & w1 & H1 & H)].
  { eapply frame_buf_update; [|exact H]. unfold S; auto. }
  apply (frame_buf_update S) in H1; [|unfold S; auto].
  apply mbind_cases in H as [(e & H & _)|(a2 & w2 & H2 & H)].
  { eapply frame_trans; [exact H1|]. eapply frame_buf_update; [|exact H]. unfold S; auto. }
  apply (frame_buf_update S) in H2; [|unfold S; auto].
  apply mbind_cases in H as [(e & H & _)|(a3 & w3 & H3 & H)].
  { eapply frame_trans; [exact H1|]. eapply frame_trans; [exact H2|]. eapply frame_buf_update; [|exact H]. unfold S; auto. }
  apply (frame_buf_update S) in H3; [|unfold S; auto].
  assert (HF : frame_ok S w w3) by (eapply frame_trans; [exact H1|]; eapply frame_trans; eauto).
  destruct (frame_cursor_at _ _ _ _ _ HF Hc) as [z Hz].
  apply mbind_cases in H as [(e & H & _)|(a4 & w4 & H4 & H)]; [discriminate|].
  injection H4 as _ <-.
  assert (HF2 : frame_ok S w (hset (ts_cur ts) (OCursor (cur + Z.of_nat (ts_n_steps ts / ts_thinning ts))) w3)).
  { eapply frame_trans; [exact HF|]. eapply frame_cursor; eauto. unfold S; auto. }
  apply mbind_cases in H as [(e & H & _)|(a5 & w5 & H5 & H)].
  { unfold mlift in H. injection H as _ <-. exact HF2. }
  apply mlift_inv in H5 as [-> _]. unfold mret in H. injection H as _ <-. exact HF2.
Qed.

Lemma C07_frame_proof k xs d w r w' :
  take_steps samp ts k xs d w = (r, w') ->
  rdict w' = rdict w /\ length (heap w') = length (heap w) /\
  (forall l, l <> ts_cur ts ->
     (forall b, ~ target w (ts_state ts) (ts_pos_key ts) l b) ->
     (forall b, ~ target w (ts_state ts) (ts_lp_key ts) l b) ->
     (forall b, ~ target w (ts_state ts) (ts_acc_key ts) l b) ->
     hget l w' = hget l w) /\
  (forall l b, hget l w = Some (OBuf b) -> exists b', hget l w' = Some (OBuf b') /\ same_header b b') /\
  (forall l z, hget l w = Some (OCursor z) -> exists z', hget l w' = Some (OCursor z')).
Proof.
  intros H.
  assert (HF : exists S, frame_ok S w w' /\ forall l, S l -> l = ts_cur ts \/
     (exists b, target w (ts_state ts) (ts_pos_key ts) l b) \/
     (exists b, target w (ts_state ts) (ts_lp_key ts) l b) \/
     (exists b, target w (ts_state ts) (ts_acc_key ts) l b)).
  { destruct (take_steps_split k xs d w) as [(e & H1 & _)|(pl & ll & al & kern & lp & (T1&T2&T3&_&_) & H1)].
    - exists (fun _ => False). rewrite H in H1. injection H1 as _ ->. split; [apply frame_refl|]. tauto.
    - rewrite H in H1. symmetry in H1. apply mbind_cases in H1 as [(e & H1 & _)|(out & w1 & H1 & H2)].
      + exists (fun _ => False). unfold mlift in H1. injection H1 as _ ->. split; [apply frame_refl|]. tauto.
      + apply mlift_inv in H1 as [-> _]. apply ts_finish_frame in H2. eexists; split; [exact H2|].
        simpl. intros l [->|[->|[->|]]]; auto. }
  destruct HF as (S & (F1&F2&F3&F4) & HS). repeat split; auto.
  - intros l Hc Hp Hl Ha. apply F3. intros HSl. destruct (HS l HSl) as [|[[b]|[[b]|[b]]]]; eauto.
    + eapply Hp; eauto. + eapply Hl; eauto. + eapply Ha; eauto.
  - intros l b Hb. specialize (F4 l). rewrite Hb in F4. simpl in F4.
    destruct (hget l w') as [[b'| | |]|]; try discriminate. eauto.
  - intros l z Hz. specialize (F4 l). rewrite Hz in F4. simpl in F4.
    destruct (hget l w') as [[b'| | |]|]; try discriminate. eauto.
Qed.

(* ------------------------------------------------------------------ C09 *)
Lemma run_chains_batch f cb keys xs :
  length keys = length xs ->
  run_chains f cb keys xs = vmap_chains f keys xs.
Proof.
  intros HL. unfold run_chains. destruct ((1 <? cb) && (cb <? length xs)) eqn:E; auto.
  apply andb_prop in E as [E1 E2]. apply Nat.ltb_lt in E1, E2.
  unfold vmap_chains at 2.
  set (g := fun kx : key * vec => f (fst kx) (snd kx)).
  set (cs := combine keys xs).
  assert (Hcs : length cs = length xs) by (unfold cs; rewrite combine_length; lia).
  assert (E : cs = concat (map (fun i => slice i (Nat.min (i + cb) (length xs)) cs) (range_step (length xs) cb))).
  { unfold range_step. rewrite map_map. rewrite <- Hcs. symmetry. apply concat_slices; [lia|].
    apply cdiv_mul_ge. lia. }
  rewrite E at 1. rewrite rmapM_concat, rmapM_map. f_equal. apply rmapM_ext.
  intros i _. unfold vmap_chains. rewrite combine_slice. reflexivity.
Qed.

Lemma split_keys_length k n : length (split_keys k n) = n.
Proof. unfold split_keys. now rewrite map_length, seq_length. Qed.

End Inv.

Definition with_batch (ts : takesteps) (cb : nat) : takesteps :=
  mkTakeSteps (ts_logpdf ts) (ts_kernel ts) (ts_state ts) (ts_pos_key ts) (ts_lp_key ts)
    (ts_acc_key ts) (ts_n_steps ts) (ts_thinning ts) cb (ts_cur ts).

Lemma C09_proof samp ts cb cb' k xs d w :
  take_steps samp (with_batch ts cb) k xs d w = take_steps samp (with_batch ts cb') k xs d w.
Proof.
  unfold take_steps, with_batch.
  cbn [ts_state ts_pos_key ts_lp_key ts_acc_key ts_kernel ts_logpdf ts_n_steps ts_thinning ts_batch ts_cur].
  unfold mbind.
  repeat (match goal with
  | |- context [run_chains _ cb _ _] => rewrite !run_chains_batch by apply split_keys_length
  | |- match ?m with (_, _) => _ end = _ => destruct m as [[?|?] ?]; try reflexivity
  | x : _ * _ |- _ => destruct x
  end).
Qed.

(* ------------------------------------------------------------------ C08 *)
Lemma take_steps_success samp ts k xs d w k' xs' w' :
  take_steps samp ts k xs d w = (Ok (k', xs'), w') ->
  exists pl ll al kern lp out cur w1 w2 w3,
    ts_lookup ts w pl ll al kern lp /\
    vmap_chains (samp kern lp d (ts_n_steps ts)) (split_keys (split k 2 1) (length xs)) xs = Ok out /\
    0 < ts_thinning ts /\
    hget (ts_cur ts) w = Some (OCursor cur) /\
    buf_update pl (stack3 (ts_positions (ts_thinning ts) out)) cur w = (Ok tt, w1) /\
    buf_update ll (stack2 (ts_logprobs (ts_thinning ts) out)) cur w1 = (Ok tt, w2) /\
    buf_update al (stack2 (ts_accs (ts_thinning ts) out)) cur w2 = (Ok tt, w3) /\
    w' = hset (ts_cur ts) (OCursor (cur + Z.of_nat (ts_n_steps ts / ts_thinning ts))) w3 /\
    rmapM (fun ps => match last_opt ps with Some p => Ok p | None => Raise IndexError end)
          (ts_positions (ts_thinning ts) out) = Ok xs' /\
    k' = split k 2 0.
Proof.
  intros H. destruct (take_steps_split samp ts k xs d w) as [(e & H1 & _)|(pl & ll & al & kern & lp & HL & H1)].
  { rewrite H in H1. discriminate. }
  rewrite H in H1. symmetry in H1. apply mbind_Ok in H1 as (out & w0 & H1 & H2).
  apply mlift_inv in H1 as [-> H1]. rewrite run_chains_batch in H1 by apply split_keys_length.
  unfold ts_finish in H2. apply mbind_Ok in H2 as (x0 & w0 & H0 & H2).
  assert (0 < ts_thinning ts /\ w0 = w) as [Hth ->].
  { destruct (Nat.eqb_spec (ts_thinning ts) 0) as [E0|E0]; unfold mret, mraise in H0; [discriminate|].
    injection H0 as _ ->. split; [lia|reflexivity]. }
  apply mbind_Ok in H2 as (cur & w0 & Hc & H2). apply get_cursor_inv in Hc as [-> Hc].
  apply mbind_Ok in H2 as ([] & w1 & Hu1 & H2).
  apply mbind_Ok in H2 as ([] & w2 & Hu2 & H2).
  apply mbind_Ok in H2 as ([] & w3 & Hu3 & H2).
  apply mbind_Ok in H2 as ([] & w4 & Hu4 & H2). injection Hu4 as <-.
  apply mbind_Ok in H2 as (lasts & w5 & Hl & H2). apply mlift_inv in Hl as [-> Hl].
  unfold mret in H2. injection H2 as <- <- <-.
  exists pl, ll, al, kern, lp, out, cur, w1, w2, w3. repeat split; auto; apply HL.
Qed.

Lemma vmap_chains_nth f keys xs out dk c :
  length keys = length xs -> vmap_chains f keys xs = Ok out ->
  length out = length xs /\
  (c < length xs -> f (nth c keys dk) (nth c xs []) = Ok (nth c out [])).
Proof.
  intros HL H. unfold vmap_chains in H. pose proof (rmapM_length _ _ _ H) as Hlen.
  rewrite combine_length, HL, Nat.min_id in Hlen. split; [exact Hlen|]. intros Hc.
  apply rmapM_Ok in H. eapply (Forall2_nth' _ _ _ (dk, []) [] c) in H; [|rewrite combine_length, HL, Nat.min_id; exact Hc].
  rewrite combine_nth' in H by (rewrite ?HL; exact Hc). exact H.
Qed.

Lemma nth_split_keys k n c d : c < n -> nth c (split_keys k n) d = split k n c.
Proof. intros. unfold split_keys. now apply (nth_map_seq (split k n)). Qed.

Lemma target_fun w s key l b l' b' : target w s key l b -> target w s key l' b' -> l = l' /\ b = b'.
Proof.
  intros (a1&a2&a3&A1&A2&A3&A4&A5) (b1&b2&b3&B1&B2&B3&B4&B5).
  assert (a1 = b1) by congruence. subst. assert (a2 = b2) by congruence. subst.
  assert (a3 = b3) by congruence. subst. assert (l = l') by congruence. subst. split; congruence.
Qed.
Lemma target_buf w s key l b : target w s key l b -> hget l w = Some (OBuf b).
Proof. intros (a1&a2&a3&A1&A2&A3&A4&A5). exact A5. Qed.

(** Shape and entries of the kept samples. *)
Lemma rect_kept n dim th (out : list chain_out) c :
  0 < th -> rectangular n dim out -> c < length out ->
  length (stride th (nth c out [])) = cdiv n th.
Proof. intros Hth HR Hc. rewrite length_stride by auto. destruct (HR (nth c out [])) as [-> _]; auto. now apply nth_In. Qed.

Definition odef : vec * F * bool := ([], f0, false).

Lemma ts_positions_shape n dim th out : 0 < th -> 0 < n -> rectangular n dim out -> out <> [] ->
  ashape (stack3 (ts_positions th out)) = [length out; cdiv n th; dim].
Proof.
  intros Hth Hn HR Hne. unfold stack3, ts_positions. cbn [ashape].
  rewrite !map_length. assert (Hc : 0 < length out) by (destruct out; simpl; [congruence|lia]).
  rewrite map_map. rewrite (nth_map' _ out 0 [] []) by auto.
  rewrite map_length, (rect_kept n dim) by auto. f_equal. f_equal. f_equal.
  pose proof (cdiv_pos n th Hth Hn).
  rewrite (nth_map' s_pos _ 0 odef []) by (rewrite (rect_kept n dim); auto).
  rewrite nth_stride by auto. destruct (HR (nth 0 out [])) as [HL HD]; [apply nth_In; auto|].
  apply HD. apply nth_In. lia.
Qed.
Lemma ts_2d_shape n dim th (g : vec * F * bool -> F) (out : list chain_out) :
  0 < th -> rectangular n dim out -> out <> [] ->
  ashape (stack2 (map (map g) (map (stride th) out))) = [length out; cdiv n th].
Proof.
  intros Hth HR Hne. unfold stack2. cbn [ashape]. rewrite !map_length.
  assert (Hc : 0 < length out) by (destruct out; simpl; [congruence|lia]).
  rewrite map_map, (nth_map' _ out 0 [] []) by auto. rewrite map_length, (rect_kept n dim) by auto. reflexivity.
Qed.

Lemma ts_positions_get n dim th out c j i : 0 < th -> rectangular n dim out -> c < length out -> j * th < n ->
  aget (stack3 (ts_positions th out)) [c; j; i] = nth i (s_pos (nth (j * th) (nth c out []) odef)) f0.
Proof.
  intros Hth HR Hc Hj. unfold stack3, ts_positions. cbn [aget]. rewrite map_map.
  rewrite (nth_map' _ out c [] []) by auto.
  rewrite (nth_map' s_pos _ j odef []) by (rewrite (rect_kept n dim); auto; apply cdiv_lt; auto).
  rewrite nth_stride by auto. reflexivity.
Qed.
Lemma ts_2d_get n dim th (g : vec * F * bool -> F) (out : list chain_out) c j : 0 < th -> rectangular n dim out -> c < length out -> j * th < n ->
  aget (stack2 (map (map g) (map (stride th) out))) [c; j] = g (nth (j * th) (nth c out []) odef).
Proof.
  intros Hth HR Hc Hj. unfold stack2. cbn [aget]. rewrite map_map.
  rewrite (nth_map' _ out c [] []) by auto.
  rewrite (nth_map' _ _ j odef f0) by (rewrite (rect_kept n dim); auto; apply cdiv_lt; auto).
  rewrite nth_stride by auto. reflexivity.
Qed.

(** Writing along axis 1. *)
Lemma valid_index3 a b c i j k : valid_index [a; b; c] [i; j; k] <-> i < a /\ j < b /\ k < c.
Proof.
  rewrite valid_index_iff. simpl. rewrite !andb_true_iff, !Nat.ltb_lt. tauto.
Qed.
Lemma valid_index2 a b i j : valid_index [a; b] [i; j] <-> i < a /\ j < b.
Proof. rewrite valid_index_iff. simpl. rewrite !andb_true_iff, !Nat.ltb_lt. tauto. Qed.
Lemma valid_index1 a i : valid_index [a] [i] <-> i < a.
Proof. rewrite valid_index_iff. simpl. rewrite !andb_true_iff, !Nat.ltb_lt. tauto. Qed.

Lemma write_axis1_3 b u cur b' nc kept dim :
  update_buffer b u (Z.of_nat cur) = Ok b' -> b_cursor_dim b = 1 -> ashape u = [nc; kept; dim] ->
  cur + kept <= nth 1 (ashape (b_data b)) 0 ->
  (forall c j i, c < nc -> j < kept -> i < dim -> aget (b_data b') [c; cur + j; i] = aget u [c; j; i]) /\
  (forall c s i, s < cur \/ cur + kept <= s -> aget (b_data b') [c; s; i] = aget (b_data b) [c; s; i]).
Proof.
  intros H Hd Hs Hf. pose proof (update_buffer_fits _ _ _ _ H) as HF.
  destruct (C01_proof b u cur HF) as (b'' & E & _ & W1 & W2).
  { rewrite Hd, Hs. simpl. lia. }
  assert (b'' = b') by congruence. subst b''. rewrite Hd in * . rewrite Hs in * . split.
  - intros c j i Hc Hj Hi. apply W1; [now apply valid_index3|]. apply shifted_iff. unfold shift_ix. simpl. f_equal. f_equal. lia.
  - intros c s i Hsl. apply W2. intros jx Hv Hsh. apply shifted_iff in Hsh.
    pose proof (proj1 Hv) as Hl. destruct jx as [|x [|y [|z [|]]]]; try discriminate Hl.
    apply valid_index3 in Hv. unfold shift_ix in Hsh. simpl in Hsh. injection Hsh as -> -> ->. lia.
Qed.
Lemma write_axis1_2 b u cur b' nc kept :
  update_buffer b u (Z.of_nat cur) = Ok b' -> b_cursor_dim b = 1 -> ashape u = [nc; kept] ->
  cur + kept <= nth 1 (ashape (b_data b)) 0 ->
  (forall c j, c < nc -> j < kept -> aget (b_data b') [c; cur + j] = aget u [c; j]) /\
  (forall c s, s < cur \/ cur + kept <= s -> aget (b_data b') [c; s] = aget (b_data b) [c; s]).
Proof.
  intros H Hd Hs Hf. pose proof (update_buffer_fits _ _ _ _ H) as HF.
  destruct (C01_proof b u cur HF) as (b'' & E & _ & W1 & W2).
  { rewrite Hd, Hs. simpl. lia. }
  assert (b'' = b') by congruence. subst b''. rewrite Hd in * . rewrite Hs in * . split.
  - intros c j Hc Hj. apply W1; [now apply valid_index2|]. apply shifted_iff. unfold shift_ix. simpl. f_equal. f_equal. lia.
  - intros c s Hsl. apply W2. intros jx Hv Hsh. apply shifted_iff in Hsh.
    pose proof (proj1 Hv) as Hl. destruct jx as [|x [|y [|]]]; try discriminate Hl.
    apply valid_index2 in Hv. unfold shift_ix in Hsh. simpl in Hsh. injection Hsh as -> ->. lia.
Qed.

Lemma last_kept_index n th : 0 < th -> 0 < n -> cdiv n th - 1 = (n - 1) / th.
Proof.
  intros. unfold cdiv. replace (n + th - 1) with ((n - 1) + 1 * th) by lia.
  rewrite Nat.div_add by lia. lia.
Qed.

Lemma C08_proof samp ts k xs d w k' xs' w' pl pb ll lb al ab kern lp cur dim :
  take_steps samp ts k xs d w = (Ok (k', xs'), w') ->
  target w (ts_state ts) (ts_pos_key ts) pl pb ->
  target w (ts_state ts) (ts_lp_key ts) ll lb ->
  target w (ts_state ts) (ts_acc_key ts) al ab ->
  pl <> ll -> pl <> al -> ll <> al ->
  b_cursor_dim pb = 1 -> b_cursor_dim lb = 1 -> b_cursor_dim ab = 1 ->
  dget (rdict w) (ts_kernel ts) = Some kern -> dget (rdict w) (ts_logpdf ts) = Some lp ->
  hget (ts_cur ts) w = Some (OCursor (Z.of_nat cur)) ->
  (forall q x co, In x xs -> samp kern lp d (ts_n_steps ts) q x = Ok co ->
     length co = ts_n_steps ts /\ forall o, In o co -> length (s_pos o) = dim) ->
  let kept := cdiv (ts_n_steps ts) (ts_thinning ts) in
  cur + kept <= nth 1 (ashape (b_data pb)) 0 ->
  cur + kept <= nth 1 (ashape (b_data lb)) 0 ->
  cur + kept <= nth 1 (ashape (b_data ab)) 0 ->
  exists out pb' lb' ab',
    length out = length xs /\
    (forall c, c < length xs ->
       samp kern lp d (ts_n_steps ts) (split (split k 2 1) (length xs) c) (nth c xs []) = Ok (nth c out [])) /\
    hget pl w' = Some (OBuf pb') /\ hget ll w' = Some (OBuf lb') /\ hget al w' = Some (OBuf ab') /\
    holds_samples pb' lb' ab' cur (ts_n_steps ts) (ts_thinning ts) dim out /\
    (forall c s i, s < cur \/ cur + kept <= s ->
       aget (b_data pb') [c; s; i] = aget (b_data pb) [c; s; i] /\
       aget (b_data lb') [c; s] = aget (b_data lb) [c; s] /\
       aget (b_data ab') [c; s] = aget (b_data ab) [c; s]) /\
    length xs' = length xs /\
    (forall c, c < length xs -> 0 < ts_n_steps ts /\
       last_kept (ts_n_steps ts) (ts_thinning ts) (nth c out []) (nth c xs' [])) /\
    hget (ts_cur ts) w' = Some (OCursor (Z.of_nat (cur + ts_n_steps ts / ts_thinning ts))) /\
    k' = split k 2 0.
Proof.
  intros H T1 T2 T3 N1 N2 N3 D1 D2 D3 HK HLp HC HR kept B1 B2 B3.
  destruct (take_steps_success _ _ _ _ _ _ _ _ _ H) as
    (pl' & ll' & al' & kern' & lp' & out & cz & w1 & w2 & w3 & (L1 & L2 & L3 & L4 & L5) & HV & Hth & Hcz & U1 & U2 & U3 & Hw' & HL & Hk').
  destruct L1 as [pb0 L1], L2 as [lb0 L2], L3 as [ab0 L3].
  destruct (target_fun _ _ _ _ _ _ _ T1 L1) as [<- <-].
  destruct (target_fun _ _ _ _ _ _ _ T2 L2) as [<- <-].
  destruct (target_fun _ _ _ _ _ _ _ T3 L3) as [<- <-].
  assert (kern' = kern) by congruence. assert (lp' = lp) by congruence. assert (cz = Z.of_nat cur) by congruence. subst kern' lp' cz.
  pose proof (target_buf _ _ _ _ _ T1) as P1. pose proof (target_buf _ _ _ _ _ T2) as P2. pose proof (target_buf _ _ _ _ _ T3) as P3.
  apply buf_update_inv in U1 as (b1 & pb' & Q1 & E1 & ->). assert (b1 = pb) by congruence. subst b1.
  apply buf_update_inv in U2 as (b2 & lb' & Q2 & E2 & ->).
  rewrite hget_hset_neq in Q2 by auto. assert (b2 = lb) by congruence. subst b2.
  apply buf_update_inv in U3 as (b3 & ab' & Q3 & E3 & ->).
  rewrite !hget_hset_neq in Q3 by auto. assert (b3 = ab) by congruence. subst b3.
  assert (C1 : ts_cur ts <> pl) by congruence. assert (C2 : ts_cur ts <> ll) by congruence. assert (C3 : ts_cur ts <> al) by congruence.
  exists out, pb', lb', ab'.
  pose proof (split_keys_length (split k 2 1) (length xs)) as HSK.
  assert (Hout : length out = length xs) by (eapply (vmap_chains_nth _ _ _ _ k 0); eauto).
  assert (Hchain : forall c, c < length xs ->
       samp kern lp d (ts_n_steps ts) (split (split k 2 1) (length xs) c) (nth c xs []) = Ok (nth c out [])).
  { intros c Hc. destruct (vmap_chains_nth _ _ _ _ k c HSK HV) as [_ HH]. rewrite <- (nth_split_keys _ _ c k) by auto. auto. }
  assert (Hrect : rectangular (ts_n_steps ts) dim out).
  { intros co Hco. destruct (In_nth _ _ [] Hco) as (c & Hc & <-). rewrite Hout in Hc.
    eapply HR; [|apply Hchain; auto]. apply nth_In; auto. }
  assert (HLast : length xs' = length xs).
  { apply rmapM_length in HL. unfold ts_positions in HL. rewrite !map_length in HL. congruence. }
  assert (HLc : forall c, c < length xs -> 0 < ts_n_steps ts /\
       last_kept (ts_n_steps ts) (ts_thinning ts) (nth c out []) (nth c xs' [])).
  { intros c Hc. apply rmapM_Ok in HL. eapply (Forall2_nth' _ _ _ [] [] c) in HL.
    2: { unfold ts_positions. rewrite !map_length. congruence. }
    unfold ts_positions in HL. rewrite map_map in HL. rewrite (nth_map' _ out c [] []) in HL by congruence.
    assert (Hlen : length (stride (ts_thinning ts) (nth c out [])) = cdiv (ts_n_steps ts) (ts_thinning ts))
      by (apply (rect_kept (ts_n_steps ts) dim); [exact Hth|exact Hrect|exact (eq_ind_r (fun n => c < n) Hc Hout)]).
    destruct (Nat.eq_dec (ts_n_steps ts) 0) as [Z0|NZ].
    - exfalso. rewrite Z0 in Hlen. unfold cdiv in Hlen. rewrite Nat.div_small in Hlen by lia.
      destruct (stride (ts_thinning ts) (nth c out [])); simpl in *; discriminate.
    - split; [lia|]. rewrite (last_opt_nth (A:=vec) _ []) in HL.
      2: { intros E. apply (f_equal (@length _)) in E. rewrite map_length, Hlen in E. pose proof (cdiv_pos (ts_n_steps ts) (ts_thinning ts)). simpl in E. lia. }
      injection HL as HL.
      exists (nth ((ts_n_steps ts - 1) / ts_thinning ts * ts_thinning ts) (nth c out []) odef). split.
      { apply nth_error_nth'. destruct (Hrect (nth c out [])) as [-> _].
        - apply nth_In. exact (eq_ind_r (fun n => c < n) Hc Hout).
        - pose proof (Nat.mul_div_le (ts_n_steps ts - 1) (ts_thinning ts)). lia. }
      refine (eq_trans (eq_sym HL) _). rewrite map_length, Hlen, last_kept_index by lia.
      pose proof (cdiv_pos (ts_n_steps ts) (ts_thinning ts) Hth ltac:(lia)).
      rewrite (nth_map' s_pos _ _ odef []) by (rewrite Hlen, <- last_kept_index by lia; lia).
      now rewrite nth_stride. }
  split; [auto|]. split; [auto|].
  split. { subst w'. rewrite hget_hset_neq by auto. rewrite !hget_hset_neq by auto. eapply hget_hset_eq; eauto. }
  split. { subst w'. rewrite hget_hset_neq by auto. rewrite hget_hset_neq by auto. eapply hget_hset_eq. rewrite hget_hset_neq by auto. eauto. }
  split. { subst w'. rewrite hget_hset_neq by auto. eapply hget_hset_eq. rewrite !hget_hset_neq by auto. eauto. }
  assert (HCur : hget (ts_cur ts) w' = Some (OCursor (Z.of_nat (cur + ts_n_steps ts / ts_thinning ts)))).
  { subst w'. rewrite (hget_hset_eq _ _ (OCursor (Z.of_nat cur))). 2: { rewrite !hget_hset_neq by auto. auto. }
    rewrite Nat2Z.inj_add. reflexivity. }
  destruct out as [|o0 out0] eqn:Eout.
  { (* no chains: empty update *)
    assert (SH3 : ashape (stack3 (ts_positions (ts_thinning ts) [])) = [0; 0; 0]) by reflexivity.
    destruct (write_axis1_3 _ _ _ _ 0 0 0 E1 D1 SH3) as [_ X1]; [lia|].
    destruct (write_axis1_2 _ _ _ _ 0 0 E2 D2 eq_refl) as [_ X2]; [lia|].
    destruct (write_axis1_2 _ _ _ _ 0 0 E3 D3 eq_refl) as [_ X3]; [lia|].
    split. { intros c j o Hc. simpl in Hc. lia. }
    split. { intros c s i _. repeat split; [apply X1|apply X2|apply X3]; lia. }
    split; [exact HLast|]. split; [exact HLc|]. split; [exact HCur|exact Hk']. }
  rewrite <- Eout in * . assert (Hne : out <> []) by (rewrite Eout; discriminate).
  assert (Hn : 0 < ts_n_steps ts). { apply (HLc 0). rewrite <- Hout, Eout. simpl. lia. }
  destruct (write_axis1_3 _ _ _ _ (length out) kept dim E1 D1) as [W1 X1]; [apply ts_positions_shape; auto|auto|].
  destruct (write_axis1_2 _ _ _ _ (length out) kept E2 D2) as [W2 X2]; [eapply ts_2d_shape; eauto|auto|].
  destruct (write_axis1_2 _ _ _ _ (length out) kept E3 D3) as [W3 X3]; [eapply ts_2d_shape; eauto|auto|].
  split.
  { intros c j o Hc Hj Ho. assert (Hj' : j < kept) by (apply cdiv_lt; auto).
    assert (Hnth : nth (j * ts_thinning ts) (nth c out []) odef = o) by (apply nth_error_nth; auto).
    repeat split.
    - intros i Hi. rewrite W1 by auto. rewrite (ts_positions_get (ts_n_steps ts) dim) by auto. exact (f_equal (fun z => nth i (s_pos z) f0) Hnth).
    - rewrite W2 by auto. unfold ts_logprobs. rewrite (ts_2d_get (ts_n_steps ts) dim) by auto. exact (f_equal s_lp Hnth).
    - rewrite W3 by auto. unfold ts_accs. rewrite (ts_2d_get (ts_n_steps ts) dim) by auto. exact (f_equal (fun z => b2f (s_acc z)) Hnth). }
  split. { intros c s i Hs. repeat split; [apply X1|apply X2|apply X3]; auto. }
  split; [exact HLast|]. split; [exact HLc|]. split; [exact HCur|exact Hk'].
Qed.

Lemma C08_setup_proof samp ts k xs d w k' xs' w' pl pb ll lb al ab kern lp cur dim good :
  setup w ts pl pb ll lb al ab kern lp cur ->
  sampler_shape (samp kern lp d) (ts_n_steps ts) dim good -> (forall x, In x xs -> good x) ->
  let n := ts_n_steps ts in let th := ts_thinning ts in let kept := cdiv n th in
  room pb cur kept -> room lb cur kept -> room ab cur kept ->
  take_steps samp ts k xs d w = (Ok (k', xs'), w') ->
  exists out pb' lb' ab',
    length out = length xs /\
    (forall c, c < length xs ->
       samp kern lp d n (split (split k 2 1) (length xs) c) (nth c xs []) = Ok (nth c out [])) /\
    rectangular n dim out /\
    setup w' ts pl pb' ll lb' al ab' kern lp (cur + n / th) /\
    same_header pb pb' /\ same_header lb lb' /\ same_header ab ab' /\
    holds_samples pb' lb' ab' cur n th dim out /\
    (forall c s i, s < cur \/ cur + kept <= s ->
       aget (b_data pb') [c; s; i] = aget (b_data pb) [c; s; i] /\
       aget (b_data lb') [c; s] = aget (b_data lb) [c; s] /\
       aget (b_data ab') [c; s] = aget (b_data ab) [c; s]) /\
    length xs' = length xs /\
    (forall c, c < length xs -> 0 < n /\ last_kept n th (nth c out []) (nth c xs' [])) /\
    (forall x, In x xs' -> good x) /\ 0 < th /\
    k' = split k 2 0.
Proof.
  intros [T1 T2 T3 (N1 & N2 & N3) (D1 & D2 & D3) HK HL HC] HS Hg n th kept R1 R2 R3 H.
  destruct (C08_proof samp ts k xs d w k' xs' w' pl pb ll lb al ab kern lp cur dim) as
    (out & pb' & lb' & ab' & A1 & A2 & A3 & A4 & A5 & A6 & A7 & A8 & A9 & A10 & A11); auto.
  { intros q x co Hx E. destruct (HS q x co (Hg x Hx) E) as [Q1 Q2]. split; [auto|]. intros o Ho. now apply Q2. }
  destruct (C07_frame_proof _ _ _ _ _ _ _ _ H) as (F1 & F2 & F3 & F4 & F5).
  assert (Hrg : forall co, In co out -> length co = n /\ forall o, In o co -> length (s_pos o) = dim /\ good (s_pos o)).
  { intros co Hco. destruct (In_nth _ _ [] Hco) as (c & Hc & <-). rewrite A1 in Hc.
    eapply HS; [|apply A2; auto]. apply Hg, nth_In; auto. }
  assert (Hsh : same_header pb pb' /\ same_header lb lb' /\ same_header ab ab').
  { repeat split; (match goal with |- _ (b_data ?b') = _ (b_data ?b) => idtac | |- _ => idtac end).
    all: try (destruct (F4 _ _ (target_buf _ _ _ _ _ T1)) as (z & Z1 & (z1 & z2 & z3 & z4)); assert (z = pb') by congruence; subst z; congruence).
    all: try (destruct (F4 _ _ (target_buf _ _ _ _ _ T2)) as (z & Z1 & (z1 & z2 & z3 & z4)); assert (z = lb') by congruence; subst z; congruence).
    all: try (destruct (F4 _ _ (target_buf _ _ _ _ _ T3)) as (z & Z1 & (z1 & z2 & z3 & z4)); assert (z = ab') by congruence; subst z; congruence). }
  destruct Hsh as (S1 & S2 & S3).
  assert (Htar : forall key l b b', target w (ts_state ts) key l b -> hget l w' = Some (OBuf b') ->
            target w' (ts_state ts) key l b').
  { intros key l b b' (sl & st & bn & E1 & E2 & E3 & E4 & E5) Hb'.
    exists sl, st, bn. rewrite F1. repeat split; auto. rewrite F3; auto.
    - intros ->. congruence.
    - intros bb Ht. apply target_buf in Ht. congruence.
    - intros bb Ht. apply target_buf in Ht. congruence.
    - intros bb Ht. apply target_buf in Ht. congruence. }
  exists out, pb', lb', ab'. split; [auto|]. split; [auto|].
  split. { intros co Hco. destruct (Hrg co Hco) as [Q1 Q2]. split; [auto|]. intros o Ho. now apply Q2. }
  split.
  { constructor; eauto; try (rewrite F1; auto).
    destruct S1 as (?&?&?&->), S2 as (?&?&?&->), S3 as (?&?&?&->). auto. }
  split; [auto|]. split; [auto|]. split; [auto|]. split; [auto|]. split; [auto|]. split; [auto|]. split; [auto|].
  assert (Hth : 0 < th).
  { destruct (take_steps_success _ _ _ _ _ _ _ _ _ H) as (?&?&?&?&?&?&?&?&?&?&?&?&?&_). auto. }
  split; [|auto].
  intros x Hx. destruct (In_nth _ _ [] Hx) as (c & Hc & <-). rewrite A8 in Hc.
  destruct (A9 c Hc) as (Hn & o & Ho & ->). apply nth_error_In in Ho.
  eapply (Hrg (nth c out [])); eauto. apply nth_In. rewrite A1. auto.
Qed.

(* ------------------------------------------------------------------ C10 *)
Lemma holds_at_eq pb lb ab pb2 lb2 ab2 dim c s o :
  holds_at pb lb ab dim c s o -> holds_at pb2 lb2 ab2 dim c s o ->
  (forall i, i < dim -> aget (b_data pb) [c; s; i] = aget (b_data pb2) [c; s; i]) /\
  aget (b_data lb) [c; s] = aget (b_data lb2) [c; s] /\ aget (b_data ab) [c; s] = aget (b_data ab2) [c; s].
Proof.
  intros (A1 & A2 & A3) (B1 & B2 & B3). repeat split; try congruence.
  intros i Hi. rewrite A1, B1; auto.
Qed.

Lemma C10_proof samp ts k xs ys d w k1 xs1 w1 k2 ys2 w2 pl pb ll lb al ab kern lp cur dim good c :
  setup w ts pl pb ll lb al ab kern lp cur ->
  sampler_shape (samp kern lp d) (ts_n_steps ts) dim good ->
  (forall x, In x xs -> good x) -> (forall x, In x ys -> good x) ->
  let kept := cdiv (ts_n_steps ts) (ts_thinning ts) in
  room pb cur kept -> room lb cur kept -> room ab cur kept ->
  length ys = length xs -> c < length xs -> nth c ys [] = nth c xs [] ->
  take_steps samp ts k xs d w = (Ok (k1, xs1), w1) ->
  take_steps samp ts k ys d w = (Ok (k2, ys2), w2) ->
  nth c ys2 [] = nth c xs1 [] /\
  exists pb1 lb1 ab1 pb2 lb2 ab2,
    hget pl w1 = Some (OBuf pb1) /\ hget ll w1 = Some (OBuf lb1) /\ hget al w1 = Some (OBuf ab1) /\
    hget pl w2 = Some (OBuf pb2) /\ hget ll w2 = Some (OBuf lb2) /\ hget al w2 = Some (OBuf ab2) /\
    forall s, (forall i, i < dim -> aget (b_data pb1) [c; s; i] = aget (b_data pb2) [c; s; i]) /\
              aget (b_data lb1) [c; s] = aget (b_data lb2) [c; s] /\
              aget (b_data ab1) [c; s] = aget (b_data ab2) [c; s].
Proof.
  intros Hsu HS Hg1 Hg2 kept R1 R2 R3 Hlen Hc Hx H1 H2.
  destruct (C08_setup_proof _ _ _ _ _ _ _ _ _ _ _ _ _ _ _ _ _ _ _ _ Hsu HS Hg1 R1 R2 R3 H1) as
    (o1 & pb1 & lb1 & ab1 & A1 & A2 & A3 & A4 & _ & _ & _ & A5 & A6 & A7 & A8 & _ & Hth & _).
  destruct (C08_setup_proof _ _ _ _ _ _ _ _ _ _ _ _ _ _ _ _ _ _ _ _ Hsu HS Hg2 R1 R2 R3 H2) as
    (o2 & pb2 & lb2 & ab2 & B1 & B2 & B3 & B4 & _ & _ & _ & B5 & B6 & B7 & B8 & _ & _ & _).
  pose proof (A2 c Hc) as E1. pose proof (B2 c ltac:(rewrite Hlen; auto)) as E2. rewrite Hlen, Hx in E2.
  assert (Ho : nth c o2 [] = nth c o1 []) by congruence.
  destruct (A8 c Hc) as (_ & u1 & U1 & V1). destruct (B8 c ltac:(rewrite Hlen; auto)) as (_ & u2 & U2 & V2).
  split. { rewrite V1, V2. rewrite Ho in U2. congruence. }
  exists pb1, lb1, ab1, pb2, lb2, ab2.
  destruct A4 as [Y1 Y2 Y3 _ _ _ _ _], B4 as [Z1 Z2 Z3 _ _ _ _ _].
  split; [exact (target_buf _ _ _ _ _ Y1)|]. split; [exact (target_buf _ _ _ _ _ Y2)|]. split; [exact (target_buf _ _ _ _ _ Y3)|].
  split; [exact (target_buf _ _ _ _ _ Z1)|]. split; [exact (target_buf _ _ _ _ _ Z2)|]. split; [exact (target_buf _ _ _ _ _ Z3)|].
  intros s. destruct (Nat.lt_ge_cases s cur) as [Hs|Hs]; [|destruct (Nat.lt_ge_cases s (cur + kept)) as [Hs2|Hs2]].
  - repeat split; intros; destruct (A6 c s i0 ltac:(auto)) as (->&->&->) || (destruct (A6 c s 0 ltac:(auto)) as (?&?&?), (B6 c s 0 ltac:(auto)) as (?&?&?); try congruence).
    destruct (A6 c s i ltac:(auto)) as (?&?&?), (B6 c s i ltac:(auto)) as (?&?&?); congruence.
  - set (j := s - cur). replace s with (cur + j) by lia.
    assert (Hj : j * ts_thinning ts < ts_n_steps ts) by (apply cdiv_lt; [auto|fold kept; lia]).
    destruct (A3 (nth c o1 [])) as [HL1 _]. { apply nth_In. rewrite A1; auto. }
    destruct (nth_error (nth c o1 []) (j * ts_thinning ts)) as [o|] eqn:Eo.
    2: { apply nth_error_None in Eo. lia. }
    eapply holds_at_eq; [apply A5|apply B5]; eauto; try congruence.
  - repeat split; intros; try (destruct (A6 c s 0 ltac:(auto)) as (?&?&?), (B6 c s 0 ltac:(auto)) as (?&?&?); congruence).
    destruct (A6 c s i ltac:(auto)) as (?&?&?), (B6 c s i ltac:(auto)) as (?&?&?); congruence.
Qed.

(* ------------------------------------------------------------------ C12 *)
Lemma holds_at_ext pb lb ab pb' lb' ab' dim c s o :
  (forall i, aget (b_data pb') [c; s; i] = aget (b_data pb) [c; s; i] /\
     aget (b_data lb') [c; s] = aget (b_data lb) [c; s] /\
     aget (b_data ab') [c; s] = aget (b_data ab) [c; s]) ->
  holds_at pb lb ab dim c s o -> holds_at pb' lb' ab' dim c s o.
Proof.
  intros H (A1 & A2 & A3). unfold holds_at. destruct (H 0) as (_ & -> & ->). repeat split; auto.
  intros i Hi. destruct (H i) as (-> & _). auto.
Qed.

Lemma C12_calls_proof samp ts m : forall k xs d w k' xs' w' pl pb ll lb al ab kern lp cur dim good,
  setup w ts pl pb ll lb al ab kern lp cur ->
  sampler_shape (samp kern lp d) (ts_n_steps ts) dim good -> (forall x, In x xs -> good x) ->
  let n := ts_n_steps ts in let th := ts_thinning ts in
  let kept := cdiv n th in let adv := n / th in
  room pb cur (m * adv + (kept - adv)) -> room lb cur (m * adv + (kept - adv)) ->
  room ab cur (m * adv + (kept - adv)) ->
  calls m (take_steps samp ts) k xs d w = (Ok (k', xs'), w') ->
  exists (outs : nat -> list chain_out) (pos : nat -> pos_t) pb' lb' ab',
    pos 0 = xs /\ pos m = xs' /\ k' = iter m (fun q => split q 2 0) k /\
    (forall i c, i < m -> c < length xs ->
       length (outs i) = length xs /\ length (nth c (outs i) []) = n /\
       samp kern lp d n (split (split (iter i (fun q => split q 2 0) k) 2 1) (length xs) c)
            (nth c (pos i) []) = Ok (nth c (outs i) []) /\
       last_kept n th (nth c (outs i) []) (nth c (pos (S i)) [])) /\
    setup w' ts pl pb' ll lb' al ab' kern lp (cur + m * adv) /\
    (forall i c j o, i < m -> c < length xs -> j * th < n -> (j < adv \/ S i = m) ->
       nth_error (nth c (outs i) []) (j * th) = Some o ->
       holds_at pb' lb' ab' dim c (cur + i * adv + j) o) /\
    (forall c s i, s < cur \/ cur + (m * adv + (kept - adv)) <= s ->
       aget (b_data pb') [c; s; i] = aget (b_data pb) [c; s; i] /\
       aget (b_data lb') [c; s] = aget (b_data lb) [c; s] /\
       aget (b_data ab') [c; s] = aget (b_data ab) [c; s]) /\
    same_header pb pb' /\ same_header lb lb' /\ same_header ab ab'.
Proof.
  induction m as [|m IH]; intros k xs d w k' xs' w' pl pb ll lb al ab kern lp cur dim good Hsu HS Hg n th kept adv R1 R2 R3 H.
  - simpl in H. unfold mret in H. injection H as <- <- <-.
    exists (fun _ => []), (fun _ => xs), pb, lb, ab. simpl.
    split; [auto|]. split; [auto|]. split; [auto|]. split; [lia|]. split; [now rewrite Nat.add_0_r|].
    split; [lia|]. split; [auto|]. repeat split.
  - cbn [calls] in H.
    destruct (take_steps samp ts k xs d w) as [[[k1 xs1]|e] w1] eqn:E; [|discriminate].
    assert (HK : kept <= S adv) .
    { destruct (Nat.eq_dec th 0) as [Z0|NZ]; [unfold kept; rewrite Z0; simpl; lia|].
      destruct (Nat.eq_dec (n mod th) 0); [unfold kept; rewrite cdiv_exact by lia; fold adv; lia|].
      unfold kept. rewrite cdiv_notexact by lia. auto. }
    assert (HK2 : adv <= kept).
    { destruct (Nat.eq_dec th 0) as [Z0|NZ]; [unfold adv; rewrite Z0; simpl; lia|].
      destruct (Nat.eq_dec (n mod th) 0); [unfold kept; rewrite cdiv_exact by lia; fold adv; lia|].
      unfold kept. rewrite cdiv_notexact by lia. auto. }
    assert (Q : room pb cur kept /\ room lb cur kept /\ room ab cur kept) by (unfold room in * ; nia).
    destruct Q as (Q1 & Q2 & Q3).
    destruct (C08_setup_proof samp ts k xs d w k1 xs1 w1 pl pb ll lb al ab kern lp cur dim good Hsu HS Hg Q1 Q2 Q3 E) as
      (o1 & pb1 & lb1 & ab1 & A1 & A2 & A3 & A4 & S1 & S2 & S3 & A5 & A6 & A7 & A8 & A9 & Hth & ->).
    fold n th in A2, A3, A4, A5, A6, A8, Hth. fold kept in A6. fold adv in A4.
    assert (Rm : forall b b', same_header b b' -> room b cur (S m * adv + (kept - adv)) -> room b' (cur + adv) (m * adv + (kept - adv))).
    { intros b b' (Hs & _) Hr. unfold room in * . rewrite <- ?Hs, ?Hs in * . nia. }
    destruct (IH (split k 2 0) xs1 d w1 k' xs' w' pl pb1 ll lb1 al ab1 kern lp (cur + adv) dim good A4 HS A9 (Rm _ _ S1 R1) (Rm _ _ S2 R2) (Rm _ _ S3 R3) H) as
      (outs & pos & pb' & lb' & ab' & B0 & B1 & B2 & B3 & B4 & B5 & B6 & T1 & T2 & T3).
    fold n th in B3, B4, B5, B6. fold kept in B6. fold adv in B4, B5, B6.
    exists (fun i => match i with O => o1 | S i' => outs i' end),
           (fun i => match i with O => xs | S i' => pos i' end), pb', lb', ab'.
    split; [auto|]. split; [auto|]. split; [auto|].
    split.
    { intros [|i] c Hi Hc.
      - split; [auto|]. split. { apply A3, nth_In. rewrite A1; auto. } split; [apply A2; auto|]. rewrite B0. apply A8; auto.
      - rewrite A7 in B3. apply (B3 i c); auto; lia. }
    split. { replace (cur + S m * adv) with (cur + adv + m * adv) by lia. exact B4. }
    split.
    { intros [|i] c j o Hi Hc Hj Hlast Ho.
      - rewrite Nat.mul_0_l, Nat.add_0_r. 
        assert (Hb : holds_at pb1 lb1 ab1 dim c (cur + j) o) by (apply A5; auto; rewrite A1; auto).
        destruct Hlast as [Hlast|Hlast].
        + eapply holds_at_ext; [|exact Hb]. intros i. apply B6. lia.
        + assert (m = 0) by lia. subst m. simpl in B6.
          assert (w' = w1) by (simpl in H; unfold mret in H; congruence). subst w'.
          destruct A4 as [Y1 Y2 Y3 _ _ _ _ _], B4 as [Z1 Z2 Z3 _ _ _ _ _].
          apply target_buf in Y1, Y2, Y3, Z1, Z2, Z3.
          assert (pb' = pb1) by congruence. assert (lb' = lb1) by congruence. assert (ab' = ab1) by congruence. subst. auto.
      - replace (cur + S i * adv + j) with (cur + adv + i * adv + j) by lia.
        apply B5; auto; lia. }
    split.
    { intros c s i Hs. destruct (B6 c s i) as (E1 & E2 & E3); [nia|]. rewrite E1, E2, E3.
      apply A6. nia. }
    assert (Ht : forall a b c : buffer, same_header a b -> same_header b c -> same_header a c).
    { intros a b c (?&?&?&?) (?&?&?&?). repeat split; congruence. }
    split; [exact (Ht _ _ _ S1 T1)|]. split; [exact (Ht _ _ _ S2 T2)|exact (Ht _ _ _ S3 T3)].
Qed.
End Steps.
