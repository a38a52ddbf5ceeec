(** Pairs of position and log-probability buffers stay honest under stepping calls, whatever their outcome. *)
From Verif Require Import Prelude Num M_Core M_Kernels M_Strategies M_PT M_Bundle P_Lists P_Buffer
  Spec Spec_Core P_Core Spec_Steps P_Steps Spec_Kernels P_StepsK Spec_Train Spec_Bundle Spec_Hist.

Section Hist.
Context {N : Num} {G : Rng} {NF : NFOps}.

Lemma write3 b u cur b' nc kept dm : update_buffer b u cur = Ok b' -> b_cursor_dim b = 1 -> ashape u = [nc; kept; dm] ->
  let s0 := norm_start cur (nth 1 (ashape (b_data b)) 0) kept in
  (forall c j i, c < nc -> j < kept -> i < dm -> aget (b_data b') [c; s0 + j; i] = aget u [c; j; i]) /\
  (forall c s i, ~ (c < nc /\ s0 <= s < s0 + kept /\ i < dm) -> aget (b_data b') [c; s; i] = aget (b_data b) [c; s; i]).
Proof.
  intros H Hd Hs s0. pose proof (update_buffer_fits _ _ _ _ H) as HF.
  destruct (update_written b u cur HF) as (b'' & E & _ & W1 & W2).
  assert (b'' = b') by congruence. subst b''. rewrite Hd in * . rewrite Hs in * . cbn [nth] in W1, W2. fold s0 in W1, W2. split.
  - intros c j i Hc Hj Hi. apply W1; [now apply valid_index3|]. apply shifted_iff. unfold shift_ix. simpl. f_equal. f_equal. lia.
  - intros c s i Hn. apply W2. intros jx Hv Hsh. apply shifted_iff in Hsh.
    pose proof (proj1 Hv) as Hl. destruct jx as [|x [|y [|z [|]]]]; try discriminate Hl.
    apply valid_index3 in Hv. unfold shift_ix in Hsh. simpl in Hsh. injection Hsh as -> -> ->. apply Hn. lia.
Qed.
Lemma write2 b u cur b' nc kept : update_buffer b u cur = Ok b' -> b_cursor_dim b = 1 -> ashape u = [nc; kept] ->
  let s0 := norm_start cur (nth 1 (ashape (b_data b)) 0) kept in
  (forall c j, c < nc -> j < kept -> aget (b_data b') [c; s0 + j] = aget u [c; j]) /\
  (forall c s, ~ (c < nc /\ s0 <= s < s0 + kept) -> aget (b_data b') [c; s] = aget (b_data b) [c; s]).
Proof.
  intros H Hd Hs s0. pose proof (update_buffer_fits _ _ _ _ H) as HF.
  destruct (update_written b u cur HF) as (b'' & E & _ & W1 & W2).
  assert (b'' = b') by congruence. subst b''. rewrite Hd in * . rewrite Hs in * . cbn [nth] in W1, W2. fold s0 in W1, W2. split.
  - intros c j Hc Hj. apply W1; [now apply valid_index2|]. apply shifted_iff. unfold shift_ix. simpl. f_equal. f_equal. lia.
  - intros c s Hn. apply W2. intros jx Hv Hsh. apply shifted_iff in Hsh.
    pose proof (proj1 Hv) as Hl. destruct jx as [|x [|y [|]]]; try discriminate Hl.
    apply valid_index2 in Hv. unfold shift_ix in Hsh. simpl in Hsh. injection Hsh as -> ->. apply Hn. lia.
Qed.

Definition pair_ok (ok : vec -> F -> Prop) (C slots dim : nat) (pb lb : buffer) : Prop :=
  forall i s, i < C -> s < slots -> unwritten pb lb dim i s \/ ok (brow pb dim i s) (aget (b_data lb) [i; s]).
Definition flags_ok (C slots : nat) (ab : buffer) : Prop :=
  forall i s, i < C -> s < slots -> aget (b_data ab) [i; s] = fninf \/ exists flag, aget (b_data ab) [i; s] = b2f flag.

Lemma shape3_empty n dim th (out : list chain_out) : 0 < th -> rectangular n dim out -> out = [] \/ n = 0 ->
  exists a b c, ashape (stack3 (ts_positions th out)) = [a; b; c] /\ (a = 0 \/ b = 0).
Proof.
  intros Ht HR [->|Hn]; [exists 0, 0, 0; cbn; auto|]. subst n. unfold stack3, ts_positions. cbn [ashape]. eexists _, _, _. split; [reflexivity|].
  destruct out as [|co out]; [left; reflexivity|right]. cbn [map nth]. rewrite map_length, length_stride by auto. destruct (HR co (or_introl eq_refl)) as [-> _].
  unfold cdiv. apply Nat.div_small. lia.
Qed.
Lemma shape2_empty n dim th g (out : list chain_out) : 0 < th -> rectangular n dim out -> out = [] \/ n = 0 ->
  exists a b, ashape (stack2 (map (map g) (map (stride th) out))) = [a; b] /\ (a = 0 \/ b = 0).
Proof.
  intros Ht HR [->|Hn]; [exists 0, 0; cbn; auto|]. subst n. unfold stack2. cbn [ashape]. eexists _, _. split; [reflexivity|].
  destruct out as [|co out]; [left; reflexivity|right]. cbn [map nth]. rewrite map_length, length_stride by auto. destruct (HR co (or_introl eq_refl)) as [-> _].
  unfold cdiv. apply Nat.div_small. lia.
Qed.

Lemma pair_write (ok : vec -> F -> Prop) C slots dim pb lb pb' lb' n th out cur : 0 < th -> rectangular n dim out ->
  (forall co o, In co out -> In o co -> ok (s_pos o) (s_lp o)) ->
  b_cursor_dim pb = 1 -> b_cursor_dim lb = 1 -> ashape (b_data pb) = [C; slots; dim] -> ashape (b_data lb) = [C; slots] ->
  update_buffer pb (stack3 (ts_positions th out)) cur = Ok pb' -> update_buffer lb (stack2 (ts_logprobs th out)) cur = Ok lb' ->
  pair_ok ok C slots dim pb lb -> pair_ok ok C slots dim pb' lb'.
Proof.
  intros Ht HR Ho D1 D2 S1 S2 U1 U2 HP.
  assert (Hsame : forall i s, (forall j, aget (b_data pb') [i; s; j] = aget (b_data pb) [i; s; j]) -> aget (b_data lb') [i; s] = aget (b_data lb) [i; s] ->
     i < C -> s < slots -> unwritten pb' lb' dim i s \/ ok (brow pb' dim i s) (aget (b_data lb') [i; s])).
  { intros i s E1 E2 Hi Hs. destruct (HP i s Hi Hs) as [[Hu1 Hu2]|Hok]; [left; split; [intros j Hj; rewrite E1; auto|rewrite E2; auto]|right].
    rewrite E2. replace (brow pb' dim i s) with (brow pb dim i s); [exact Hok|]. unfold brow. apply map_ext. intros j. now rewrite E1. }
  destruct (Nat.eq_dec n 0) as [En|En]; [|destruct out as [|co0 out0] eqn:Eo].
  3: rewrite <- Eo in * ; assert (Hne : out <> []) by congruence.
  1,2: (destruct (shape3_empty n dim th _ Ht HR ltac:(auto)) as (a & b & cc & E3 & Z3);
    destruct (shape2_empty n dim th s_lp _ Ht HR ltac:(auto)) as (a' & b' & E2 & Z2);
    destruct (write3 _ _ _ _ _ _ _ U1 D1 E3) as [_ W3]; destruct (write2 _ _ _ _ _ _ U2 D2 E2) as [_ W2];
    intros i s Hi Hs; apply Hsame; auto; [intros j; apply W3; lia|apply W2; lia]).
  pose proof (ts_positions_shape n dim th out Ht ltac:(lia) HR Hne) as E3. pose proof (ts_2d_shape n dim th s_lp out Ht HR Hne) as E2.
  destruct (write3 _ _ _ _ _ _ _ U1 D1 E3) as [V3 W3]. destruct (write2 _ _ _ _ _ _ U2 D2 E2) as [V2 W2].
  rewrite S1 in V3, W3. rewrite S2 in V2, W2. cbn [nth] in V3, W3, V2, W2. set (s0 := norm_start cur slots (cdiv n th)) in * .
  intros i s Hi Hs. destruct (le_lt_dec (length out) i) as [Hi'|Hi']; [apply Hsame; auto; [intros j; apply W3; lia|apply W2; lia]|].
  destruct (le_lt_dec s0 s) as [Hs1|Hs1]; [|apply Hsame; auto; [intros j; apply W3; lia|apply W2; lia]].
  destruct (le_lt_dec (s0 + cdiv n th) s) as [Hs2|Hs2]; [apply Hsame; auto; [intros j; apply W3; lia|apply W2; lia]|].
  right. replace s with (s0 + (s - s0)) by lia. set (j := s - s0). assert (Hj : j < cdiv n th) by lia.
  assert (Hjn : j * th < n) by (apply cdiv_lt; auto).
  rewrite V2 by auto. unfold ts_logprobs. rewrite (ts_2d_get n dim) by auto.
  set (o := nth (j * th) (nth i out []) odef).
  assert (Hco : In (nth i out []) out) by (apply nth_In; auto). destruct (HR _ Hco) as [Hl Hd].
  assert (Hin : In o (nth i out [])) by (apply nth_In; lia).
  replace (brow pb' dim i (s0 + j)) with (s_pos o); [apply (Ho _ _ Hco Hin)|].
  unfold brow. apply (list_eq_nth f0); [rewrite map_length, seq_length; apply Hd, Hin|].
  intros q Hq. rewrite (Hd _ Hin) in Hq. rewrite nth_map_seq by auto. rewrite V3 by auto. rewrite (ts_positions_get n dim) by auto. reflexivity.
Qed.
Lemma flags_write C slots dim ab ab' n th out cur : 0 < th -> rectangular n dim out ->
  b_cursor_dim ab = 1 -> ashape (b_data ab) = [C; slots] ->
  update_buffer ab (stack2 (ts_accs th out)) cur = Ok ab' -> flags_ok C slots ab -> flags_ok C slots ab'.
Proof.
  intros Ht HR D2 S2 U2 HP.
  destruct (Nat.eq_dec n 0) as [En|En]; [|destruct out as [|co0 out0] eqn:Eo].
  3: rewrite <- Eo in * ; assert (Hne : out <> []) by congruence.
  1,2: (destruct (shape2_empty n dim th (fun o => b2f (s_acc o)) _ Ht HR ltac:(auto)) as (a' & b' & E2 & Z2);
    destruct (write2 _ _ _ _ _ _ U2 D2 E2) as [_ W2]; intros i s Hi Hs; rewrite W2 by lia; auto).
  pose proof (ts_2d_shape n dim th (fun o => b2f (s_acc o)) out Ht HR Hne) as E2.
  destruct (write2 _ _ _ _ _ _ U2 D2 E2) as [V2 W2]. rewrite S2 in V2, W2. cbn [nth] in V2, W2. set (s0 := norm_start cur slots (cdiv n th)) in * .
  intros i s Hi Hs. destruct (le_lt_dec (length out) i) as [Hi'|Hi']; [rewrite W2 by lia; auto|].
  destruct (le_lt_dec s0 s) as [Hs1|Hs1]; [|rewrite W2 by lia; auto].
  destruct (le_lt_dec (s0 + cdiv n th) s) as [Hs2|Hs2]; [rewrite W2 by lia; auto|].
  right. replace s with (s0 + (s - s0)) by lia. assert (Hj : s - s0 < cdiv n th) by lia.
  rewrite V2 by auto. unfold ts_accs. rewrite (ts_2d_get n dim) by (auto; apply cdiv_lt; auto). eauto.
Qed.
(** The log-probabilities fit whenever the positions do. *)
Lemma fits_too C slots dim pb lb n th g out cur pb' : 0 < th -> rectangular n dim out ->
  b_cursor_dim pb = 1 -> b_cursor_dim lb = 1 -> ashape (b_data pb) = [C; slots; dim] -> ashape (b_data lb) = [C; slots] ->
  update_buffer pb (stack3 (ts_positions th out)) cur = Ok pb' ->
  exists lb', update_buffer lb (stack2 (map (map g) (map (stride th) out))) cur = Ok lb'.
Proof.
  intros Ht HR D1 D2 S1 S2 U1. apply update_buffer_fits in U1 as (_ & F1 & F2).
  assert (HF : fits_shape lb (stack2 (map (map g) (map (stride th) out)))).
  { unfold fits_shape. rewrite D2, S2. cbn [length]. split; [lia|]. split; [reflexivity|].
    rewrite S1 in F2. unfold stack3, ts_positions in F2. unfold stack2. cbn [ashape length] in * . rewrite !map_length in F2. rewrite !map_length.
    intros [|[|k]] Hk; [exact (F2 0 ltac:(lia))| |lia]. specialize (F2 1 ltac:(lia)). cbn [nth] in F2 |- * .
    destruct out as [|co out]; [cbn; lia|]. cbn [map nth] in F2 |- * . rewrite map_length in F2 |- * . exact F2. }
  destruct (update_written _ _ cur HF) as (b' & E & _). eauto.
Qed.

(** All effects of a stepping call. *)
Lemma take_steps_world samp ts k xs d w r w' : take_steps samp ts k xs d w = (r, w') ->
  (w' = w /\ exists e, r = Raise e) \/
  exists pl ll al kern lp out cur w1,
    ts_lookup ts w pl ll al kern lp /\
    vmap_chains (samp kern lp d (ts_n_steps ts)) (split_keys (split k 2 1) (length xs)) xs = Ok out /\
    0 < ts_thinning ts /\ hget (ts_cur ts) w = Some (OCursor cur) /\
    buf_update pl (stack3 (ts_positions (ts_thinning ts) out)) cur w = (Ok tt, w1) /\
    ((exists e, buf_update ll (stack2 (ts_logprobs (ts_thinning ts) out)) cur w1 = (Raise e, w1)) \/
     exists w2, buf_update ll (stack2 (ts_logprobs (ts_thinning ts) out)) cur w1 = (Ok tt, w2) /\
       ((exists e, buf_update al (stack2 (ts_accs (ts_thinning ts) out)) cur w2 = (Raise e, w2)) \/
        exists w3, buf_update al (stack2 (ts_accs (ts_thinning ts) out)) cur w2 = (Ok tt, w3) /\
          w' = hset (ts_cur ts) (OCursor (cur + Z.of_nat (ts_n_steps ts / ts_thinning ts))) w3 /\
          forall k' xs', r = Ok (k', xs') -> rmapM (fun ps => match last_opt ps with Some p => Ok p | None => Raise IndexError end)
            (ts_positions (ts_thinning ts) out) = Ok xs')).
Proof.
  intros H. destruct (take_steps_split samp ts k xs d w) as [(e & H1 & _)|(pl & ll & al & kern & lp & HL & H1)].
  { rewrite H in H1. injection H1 as -> ->. eauto. }
  rewrite H in H1. symmetry in H1. apply mbind_cases in H1 as [(e & H1 & ->)|(out & w0 & H1 & H2)].
  { unfold mlift in H1. injection H1 as _ ->. eauto. }
  apply mlift_inv in H1 as [-> H1]. rewrite run_chains_batch in H1 by apply split_keys_length.
  unfold ts_finish in H2. apply mbind_cases in H2 as [(e & H0 & ->)|(x0 & w0 & H0 & H2)].
  { destruct (ts_thinning ts =? 0); unfold mret, mraise in H0; [|discriminate]. injection H0 as _ ->. eauto. }
  assert (0 < ts_thinning ts /\ w0 = w) as [Hth ->].
  { destruct (Nat.eqb_spec (ts_thinning ts) 0) as [E0|E0]; unfold mret, mraise in H0; [discriminate|].
    injection H0 as _ ->. split; [lia|reflexivity]. }
  apply mbind_cases in H2 as [(e & Hc & ->)|(cur & w0 & Hc & H2)].
  { left. pose proof (get_cursor_snd (ts_cur ts) w) as Q. rewrite Hc in Q. cbn in Q. eauto. }
  apply get_cursor_inv in Hc as [-> Hc].
  apply mbind_cases in H2 as [(e & Hu1 & ->)|([] & w1 & Hu1 & H2)].
  { left. apply buf_update_raise in Hu1. eauto. }
  right. exists pl, ll, al, kern, lp, out, cur, w1. do 5 (split; [auto|]).
  apply mbind_cases in H2 as [(e & Hu2 & ->)|([] & w2 & Hu2 & H2)].
  { left. exists e. pose proof (buf_update_raise _ _ _ _ _ _ Hu2). subst. exact Hu2. }
  right. exists w2. split; [auto|].
  apply mbind_cases in H2 as [(e & Hu3 & ->)|([] & w3 & Hu3 & H2)].
  { left. exists e. pose proof (buf_update_raise _ _ _ _ _ _ Hu3). subst. exact Hu3. }
  right. exists w3. split; [auto|].
  apply mbind_cases in H2 as [(e & Hu4 & _)|([] & w4 & Hu4 & H2)]; [discriminate|]. unfold heap_set in Hu4. injection Hu4 as <-.
  apply mbind_cases in H2 as [(e & Hl & ->)|(lasts & w5 & Hl & H2)].
  { unfold mlift in Hl. injection Hl as _ ->. split; [reflexivity|]. intros; discriminate. }
  apply mlift_inv in Hl as [-> Hl]. unfold mret in H2. injection H2 as <- <-. split; [reflexivity|]. intros k' xs' E. injection E as _ <-. exact Hl.
Qed.
End Hist.
