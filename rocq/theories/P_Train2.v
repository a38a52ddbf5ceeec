From Coq Require Import Permutation.
From Verif Require Import Prelude Num M_Core M_Kernels M_Strategies P_Lists P_Buffer Spec Spec_Core P_Core
  Spec_Steps P_Steps Spec_Kernels P_Kernels P_Sampler Spec_Train P_Train Toy.

Section TM.
Context {N : Num} {G : Rng} {NF : NFOps}.

Lemma train_losses_length m k data tx st n bs kf s losses :
  train m k data tx st n bs = Ok (kf, s, losses) -> length losses = n.
Proof.
  intros H. unfold train in H. apply best_loop_hist in H as (hist & Hl & _ & -> & _).
  rewrite map_length. auto.
Qed.

Lemma hget_some_lt l (w : world) o : hget l w = Some o -> l < length (heap w).
Proof. unfold hget. intros H. apply nth_error_Some. congruence. Qed.

Definition tm_key (k : key) : key := split (split k 2 0) 2 1.

Lemma C37_proof tm k xs d w k' xs' w' :
  train_model tm k xs d w = (Ok (k', xs'), w') ->
  xs' = xs /\
  exists ex losses ol opt,
    optimizer_named w (tm_opt tm) ol opt /\
    trained_on tm w w' (tm_key k) ex losses /\ length losses = tm_epochs tm /\
    (forall n, n <> tm_model tm -> dget (rdict w') n = dget (rdict w) n) /\
    (forall l, l <> ol -> (forall ll lb, tm_loss tm <> ""%string -> buffer_named w (tm_loss tm) ll lb -> l <> ll) ->
       hget l w' = hget l w) /\
    (tm_loss tm <> ""%string -> exists ll lb lb' s size,
       buffer_named w (tm_loss tm) ll lb /\ buffer_named w' (tm_loss tm) ll lb' /\
       ashape (b_data lb) = [size] /\ tm_epochs tm <= size /\ b_cursor_dim lb = 0 /\
       recorded lb lb' losses s /\
       ((0 <= b_cursor lb)%Z -> Z.of_nat s = Z.min (b_cursor lb) (Z.of_nat (size - tm_epochs tm)))).
Proof.
  intros H. apply train_model_inv in H as (m & dl & db & ol & opt & pool & ex & m' & st' & losses & Hm & Hd & Ho &
    Hp & He & Ht & -> & w1 & d1 & -> & Hloss).
  split; auto. exists ex, losses, ol, opt. split; [auto|].
  pose proof (train_losses_length _ _ _ _ _ _ _ _ _ _ Ht) as Hlen.
  assert (Hmo : tm_model tm <> tm_opt tm). { intros E. destruct Ho as [Ho _]. rewrite <- E in Ho. congruence. }
  assert (Hol : exists o, hget ol w1 = Some o).
  { destruct Hloss as [(_ & -> & _)|(_ & ll & lb & lb' & Hl & _ & -> & _)]; [destruct Ho; eauto|].
    destruct (Nat.eq_dec ll ol) as [->|Hne]; [eexists; eapply hget_hset_eq; apply Hl|].
    rewrite hget_hset_neq by auto. destruct Ho; eauto. }
  destruct Hol as [oo Hol].
  assert (Hd1 : forall n, n <> tm_model tm -> dget d1 n = dget (rdict w) n).
  { intros n Hn. destruct Hloss as [(_ & _ & ->)|(_ & ll & lb & lb' & Hl & _ & _ & ->)]; auto.
    destruct (string_dec n (tm_loss tm)) as [->|Hn2]; [rewrite dget_dset_eq; symmetry; apply Hl|].
    apply dget_dset_neq; auto. }
  assert (Hopt' : hget ol (mkWorld (heap (hset ol (OOpt (mkOptimizer (o_tx opt) st')) w1))
     (dset (dset d1 (tm_model tm) (RModel m')) (tm_opt tm) (RObj ol))) = Some (OOpt (mkOptimizer (o_tx opt) st'))).
  { unfold hget. cbn [heap]. apply (hget_hset_eq _ _ _ _ Hol). }
  split; [|split; [auto|split; [|split]]].
  - exists m, ol, opt, m', st', k'. split; [auto|]. split; [auto|]. split; [exact Ht|]. cbn [rdict]. split.
    + rewrite dget_dset_neq by auto. apply dget_dset_eq.
    + split; [cbn [rdict]; apply dget_dset_eq|exact Hopt'].
  - intros n Hn. cbn [rdict]. destruct (string_dec n (tm_opt tm)) as [->|Hn2].
    + rewrite dget_dset_eq. symmetry. apply Ho.
    + rewrite !dget_dset_neq by auto. auto.
  - intros l Hl Hl2. change (hget l (hset ol (OOpt (mkOptimizer (o_tx opt) st')) w1) = hget l w).
    rewrite hget_hset_neq by auto.
    destruct Hloss as [(_ & -> & _)|(Hne & ll & lb & lb' & Hb & _ & -> & _)]; auto.
    rewrite hget_hset_neq; auto. intros E. eapply Hl2; eauto.
  - intros Hne. destruct Hloss as [(E & _)|(_ & ll & lb & lb' & Hb & Hu & -> & ->)]; [congruence|].
    pose proof (update_buffer_fits _ _ _ _ Hu) as Hf. pose proof Hf as (Hf1 & Hf2 & Hf3). cbn [ashape stack1] in Hf2, Hf3.
    destruct (ashape (b_data lb)) as [|size [|]] eqn:Es; cbn in Hf2; try discriminate.
    cbn in Hf1.
    destruct (update_written lb (stack1 losses) (b_cursor lb) Hf) as (b2 & Hu2 & Hh & Hw).
    rewrite Hu in Hu2. injection Hu2 as <-. destruct Hh as (Hh1 & Hh2 & Hh3 & Hh4).
    exists ll, lb, (mkBuffer (b_name lb') (b_data lb') (b_cursor lb' + Z.of_nat (length losses)) (b_cursor_dim lb')).
    exists (norm_start (b_cursor lb) (nth (b_cursor_dim lb) (ashape (b_data lb)) 0)
             (nth (b_cursor_dim lb) (ashape (stack1 losses)) 0)), size.
    assert (Hcd : b_cursor_dim lb = 0) by lia.
    assert (Hol2 : ll <> ol). { intros ->. destruct Hb as [_ Hb], Ho as [_ Ho]. congruence. }
    split; [auto|]. split; [split|].
    + cbn [rdict]. assert (tm_loss tm <> tm_model tm). { intros E. destruct Hb as [Hb _]. rewrite E in Hb. congruence. }
      destruct (string_dec (tm_loss tm) (tm_opt tm)) as [E|E].
      * exfalso. destruct Hb as [Hb _], Ho as [Ho _]. rewrite E in Hb. congruence.
      * rewrite !dget_dset_neq by auto. apply dget_dset_eq.
    + match goal with |- hget _ {| heap := heap ?W; rdict := _ |} = _ => change (hget ll W = Some (OBuf (mkBuffer (b_name lb') (b_data lb') (b_cursor lb' + Z.of_nat (length losses)) (b_cursor_dim lb')))) end.
      rewrite hget_hset_neq by auto. eapply hget_hset_eq. apply Hb.
    + split; [auto|]. assert (Hsz : tm_epochs tm <= size). { specialize (Hf3 0 ltac:(cbn; lia)). cbn in Hf3. lia. }
      split; [auto|]. split; [auto|]. split.
      * unfold recorded. cbn [b_data b_name b_cursor_dim b_cursor]. 
        split; [congruence|]. split; [congruence|]. split; [congruence|]. split; [congruence|]. exact Hw.
      * intros Hc. rewrite Hcd, Es. cbn [nth stack1 ashape]. rewrite Hlen. unfold norm_start.
        replace (b_cursor lb <? 0)%Z with false by (symmetry; apply Z.ltb_ge; auto).
        rewrite Z2Nat.id by lia. lia.
Qed.

Lemma C37_raise_proof tm k xs d w e w' :
  train_model tm k xs d w = (Raise e, w') -> w' = w.
Proof.
  intros H. unfold train_model in H.
  apply mbind_cases in H as [(e0 & H & _)|(mr & w1 & H1 & H)].
  { pose proof (res_get_snd (tm_model tm) w) as E. rewrite H in E. exact E. }
  apply res_get_inv in H1 as [-> Hm].
  apply mbind_cases in H as [(e0 & H & _)|(m & w1 & H1 & H)].
  { destruct mr; unfold mret, mraise in H; congruence. }
  assert (w1 = w) as ->. { destruct mr; unfold mret, mraise in H1; congruence. } clear H1.
  apply mbind_cases in H as [(e0 & H & _)|([dl db] & w1 & H1 & H)].
  { pose proof (get_buffer_snd (tm_data tm) w) as E. rewrite H in E. exact E. }
  apply get_buffer_inv in H1 as (-> & _).
  apply mbind_cases in H as [(e0 & H & _)|([ol opt] & w1 & H1 & H)].
  { pose proof (get_optimizer_snd (tm_opt tm) w) as E. rewrite H in E. exact E. }
  apply get_optimizer_inv in H1 as (-> & _).
  apply mbind_cases in H as [(e0 & H & _)|(pool & w1 & H1 & H)]; [unfold mlift in H; congruence|].
  apply mlift_inv in H1 as [-> _].
  apply mbind_cases in H as [(e0 & H & _)|(ex & w1 & H1 & H)]; [unfold mlift in H; congruence|].
  apply mlift_inv in H1 as [-> _].
  apply mbind_cases in H as [(e0 & H & _)|([[k3 [m' st']] losses] & w1 & H1 & H)]; [unfold mlift in H; congruence|].
  apply mlift_inv in H1 as [-> _].
  apply mbind_cases in H as [(e0 & H & _)|(u & w1 & H1 & H)]; [|cbn in H; discriminate].
  destruct (String.eqb (tm_loss tm) ""); [cbn in H; discriminate|].
  apply mbind_cases in H as [(e1 & H & _)|([ll lb] & w1 & H1 & H)].
  { pose proof (get_buffer_snd (tm_loss tm) w) as E. rewrite H in E. exact E. }
  apply get_buffer_inv in H1 as (-> & Hl1 & Hl2).
  apply mbind_cases in H as [(e1 & H & _)|(u & w1 & H1 & H)]; [eapply buf_update_raise; eauto|].
  apply buf_update_inv in H1 as (b0 & b1 & Hb0 & Hb1 & ->).
  exfalso. apply mbind_cases in H as [(e1 & H & _)|(u2 & w1 & H1 & H)].
  - unfold get_buffer, mbind, res_get in H. rewrite rdict_hset, Hl1 in H.
    rewrite (hget_hset_eq _ _ _ _ Hl2) in H. discriminate.
  - destruct u2. cbn in H. discriminate.
Qed.

Lemma C36_pool_proof tm k xs d w k' xs' w' dl db C S D : choice_law ->
  train_model tm k xs d w = (Ok (k', xs'), w') ->
  buffer_named w (tm_data tm) dl db -> ashape (b_data db) = [C; S; D] ->
  exists blocks pool ex losses n,
    concat blocks = concat (map (finite_rows db S D) (seq 0 C)) /\
    length blocks = C /\ (forall b, In b blocks -> length b = n) /\
    pool = concat (map (recent (tm_window tm)) blocks) /\
    ex = map (fun i => nth i pool []) (choice (split k 2 1) (length pool) (tm_max tm)) /\
    length ex = tm_max tm /\ trained_on tm w w' (tm_key k) ex losses /\
    (forall r, In r ex -> exists c s, c < C /\ s < S /\ r = brow db D c s /\ finite_row r = true) /\
    ((forall c c', c < C -> c' < C -> length (finite_rows db S D c) = length (finite_rows db S D c')) ->
      blocks = map (finite_rows db S D) (seq 0 C)).
Proof.
  intros HC H Hdb Hs.
  apply train_model_inv in H as (m & dl' & db' & ol' & opt' & pool & ex & m' & st' & losses & Hm & Hd & Ho &
    Hp & He & Ht & -> & w1 & d1 & Hw' & Hloss).
  assert (db' = db) as ->. { destruct Hd as [A B], Hdb as [A' B']. rewrite A in A'. injection A' as ->. congruence. }
  destruct (draw_examples_spec _ _ _ _ HC He) as (Hex & Hl & Hin).
  pose proof Hp as Hp'. rewrite (training_pool_spec _ _ _ _ _ Hs) in Hp'.
  destruct ((C =? 0) || negb (length (all_finite_rows db C S D) mod C =? 0)) eqn:E; [discriminate|].
  injection Hp' as Hp'. apply orb_false_iff in E as [E1 E2]. apply Nat.eqb_neq in E1.
  apply negb_false_iff, Nat.eqb_eq in E2.
  set (n := length (all_finite_rows db C S D) / C) in * .
  assert (Hn : length (all_finite_rows db C S D) = C * n). { unfold n. apply Nat.div_exact; auto. }
  exists (reshape_rows C n (all_finite_rows db C S D)), pool, ex, losses, n.
  split; [apply concat_reshape_rows; auto|]. split; [apply reshape_rows_length|].
  split. { pose proof (Forall_reshape_rows C n _ Hn) as HF. rewrite Forall_forall in HF. auto. }
  split; [auto|]. split; [auto|]. split; [auto|]. split; [|split].
  - exists m, ol', opt', m', st', k'. repeat split; auto; try apply Ho.
    + subst w'. cbn [rdict]. assert (tm_model tm <> tm_opt tm). { intros E. destruct Ho as [Ho _]. rewrite <- E in Ho. congruence. }
      rewrite dget_dset_neq by auto. apply dget_dset_eq.
    + subst w'. cbn [rdict]. apply dget_dset_eq.
    + subst w'. change (hget ol' (hset ol' (OOpt (mkOptimizer (o_tx opt') st')) w1) = Some (OOpt (mkOptimizer (o_tx opt') st'))).
      assert (exists o, hget ol' w1 = Some o) as [o Ho1].
      { destruct Hloss as [(_ & -> & _)|(_ & ll & lb & lb' & Hl' & _ & -> & _)]; [destruct Ho; eauto|].
        destruct (Nat.eq_dec ll ol') as [->|Hne]; [eexists; eapply hget_hset_eq; apply Hl'|].
        rewrite hget_hset_neq by auto. destruct Ho; eauto. }
      eapply hget_hset_eq; eauto.
  - intros r Hr. eapply pool_In; eauto.
  - intros Heq.
    assert (Hall : forall l, In l (map (finite_rows db S D) (seq 0 C)) -> length l = length (finite_rows db S D 0)).
    { intros l Hl'. apply in_map_iff in Hl' as (c & <- & Hc). apply in_seq in Hc. apply Heq; lia. }
    pose proof (concat_length_eq _ _ Hall) as Hlen. rewrite map_length, seq_length in Hlen.
    fold (all_finite_rows db C S D) in Hlen. rewrite Hn in Hlen.
    assert (n = length (finite_rows db S D 0)) by nia.
    pose proof (reshape_concat _ _ Hall) as R. rewrite map_length, seq_length, <- H in R. exact R.
Qed.

Lemma train_model_prefix tm k xs d w m dl db ol opt :
  dget (rdict w) (tm_model tm) = Some (RModel m) -> buffer_named w (tm_data tm) dl db ->
  optimizer_named w (tm_opt tm) ol opt ->
  (forall e, training_pool (b_data db) (tm_window tm) = Raise e -> train_model tm k xs d w = (Raise e, w)) /\
  (forall pool e, training_pool (b_data db) (tm_window tm) = Ok pool ->
     draw_examples (split k 2 1) pool (tm_max tm) = Raise e -> train_model tm k xs d w = (Raise e, w)).
Proof.
  intros Hm [Hd1 Hd2] [Ho1 Ho2].
  split.
  - intros e He. unfold train_model, get_buffer, get_optimizer, res_get, mbind, mret, mlift.
    rewrite Hm, Hd1, Hd2, Ho1, Ho2, He. reflexivity.
  - intros pool e Hp He. unfold train_model, get_buffer, get_optimizer, res_get, mbind, mret, mlift.
    rewrite Hm, Hd1, Hd2, Ho1, Ho2, Hp, He. reflexivity.
Qed.

Lemma no_finite_rows (db : buffer) S D c :
  (forall s, s < S -> finite_row (brow db D c s) = false) -> finite_rows db S D c = [].
Proof.
  intros Hall. unfold finite_rows.
  assert (forall l, (forall s, In s l -> s < S) -> filter finite_row (map (brow db D c) l) = []).
  { induction l as [|s l IH]; intros Hl; cbn [map filter]; auto. rewrite Hall by (apply Hl; left; auto).
    apply IH. intros; apply Hl; right; auto. }
  apply H. intros s Hin. apply in_seq in Hin. lia.
Qed.

Lemma C36_refused_proof tm k xs d w m dl db ol opt C S D :
  dget (rdict w) (tm_model tm) = Some (RModel m) -> buffer_named w (tm_data tm) dl db ->
  optimizer_named w (tm_opt tm) ol opt -> ashape (b_data db) = [C; S; D] -> 0 < C ->
  (length (concat (map (finite_rows db S D) (seq 0 C))) mod C <> 0 ->
     train_model tm k xs d w = (Raise TypeError, w)) /\
  (0 < tm_max tm -> (forall c s, c < C -> s < S -> finite_row (brow db D c s) = false) ->
     train_model tm k xs d w = (Raise ValueError, w)).
Proof.
  intros Hm Hd Ho Hs HC. destruct (train_model_prefix tm k xs d w m dl db ol opt Hm Hd Ho) as [P1 P2].
  split.
  - intros Hmod. apply P1. rewrite (training_pool_spec _ _ _ _ _ Hs).
    unfold all_finite_rows. apply Nat.eqb_neq in Hmod. rewrite Hmod. rewrite orb_true_r. reflexivity.
  - intros Hmax Hall. apply (P2 []).
    + rewrite (training_pool_equal _ _ _ _ _ 0 Hs HC).
      * f_equal.
        assert (forall l, (forall c, In c l -> c < C) -> concat (map (fun c => recent (tm_window tm) (finite_rows db S D c)) l) = []).
        { induction l as [|c l IH]; intros Hl; cbn [map concat]; auto.
          rewrite no_finite_rows by (intros; apply Hall; auto; apply Hl; left; auto).
          rewrite IH by (intros; apply Hl; right; auto). unfold recent, last_elements.
          destruct (tm_window tm); reflexivity. }
        apply H. intros c Hin. apply in_seq in Hin. lia.
      * intros c Hc. rewrite no_finite_rows; auto.
    + unfold draw_examples. cbn [length Nat.eqb]. destruct (tm_max tm); [lia|]. reflexivity.
Qed.

Lemma C36_unwritten_proof (L : NumLaws) name C S D cd c s : 0 < D ->
  let db := buffer_init name [C; S; D] cd in
  ashape (b_data db) = [C; S; D] /\ (forall i, aget (b_data db) [c; s; i] = fninf) /\
  finite_row (brow db D c s) = false.
Proof.
  intros HD db. split; [reflexivity|]. split; [reflexivity|].
  destruct D as [|D]; [lia|]. unfold finite_row, brow. cbn [seq map forallb].
  change (aget (b_data db) [c; s; 0]) with fninf.
  destruct (ffinite fninf) eqn:E; [|reflexivity]. apply (nl_finite L) in E as (_ & E & _). congruence.
Qed.
Lemma C36_fresh_proof (L : NumLaws) tm k xs d w m dl name ol opt C S D cd :
  dget (rdict w) (tm_model tm) = Some (RModel m) ->
  buffer_named w (tm_data tm) dl (buffer_init name [C; S; D] cd) ->
  optimizer_named w (tm_opt tm) ol opt -> 0 < C -> 0 < D -> 0 < tm_max tm ->
  train_model tm k xs d w = (Raise ValueError, w).
Proof.
  intros Hm Hb Ho HC HD Hx.
  apply (proj2 (C36_refused_proof tm k xs d w m dl _ ol opt C S D Hm Hb Ho eq_refl HC)); auto.
  intros c s _ _. apply C36_unwritten_proof; auto.
Qed.

Lemma C37_calls_proof tm d ll : tm_loss tm <> ""%string -> forall n k xs w k' xs' w' lb (c0 : nat) size,
  buffer_named w (tm_loss tm) ll lb -> b_cursor lb = Z.of_nat c0 -> ashape (b_data lb) = [size] ->
  c0 + n * tm_epochs tm <= size ->
  calls n (train_model tm) k xs d w = (Ok (k', xs'), w') ->
  xs' = xs /\
  exists ls ws lb', length ls = n /\ length ws = Datatypes.S n /\ nth 0 ws w = w /\ nth n ws w = w' /\
    (forall i, i < n -> length (nth i ls []) = tm_epochs tm /\
       exists q ex, trained_on tm (nth i ws w) (nth (Datatypes.S i) ws w) q ex (nth i ls [])) /\
    buffer_named w' (tm_loss tm) ll lb' /\ ashape (b_data lb') = [size] /\
    b_cursor lb' = Z.of_nat (c0 + n * tm_epochs tm) /\
    (forall j, j < n * tm_epochs tm -> aget (b_data lb') [c0 + j] = nth j (concat ls) f0) /\
    (forall j, j < c0 \/ c0 + n * tm_epochs tm <= j -> aget (b_data lb') [j] = aget (b_data lb) [j]).
Proof.
  intros Hne. induction n as [|n IH]; intros k xs w k' xs' w' lb c0 size Hb Hc Hs Hle H.
  - cbn in H. injection H as <- <- <-. split; auto. exists [], [w], lb. cbn. rewrite Nat.add_0_r.
    split; [auto|]. split; [auto|]. split; [auto|]. split; [auto|]. split; [intros; lia|].
    repeat split; auto; try apply Hb. intros; lia.
  - cbn in H. destruct (train_model tm k xs d w) as [[[k1 xs1]|e] w1] eqn:E; [|discriminate].
    apply C37_proof in E as (-> & ex & losses & ol & opt & Ho & Ht & Hlen & _ & _ & Hrec).
    destruct (Hrec Hne) as (ll' & lb0 & lb1 & s & size' & Hb0 & Hb1 & Hs0 & Hsz & Hcd & Hr & Hstart).
    assert (ll' = ll /\ lb0 = lb) as [-> ->].
    { destruct Hb as [A B], Hb0 as [A' B']. rewrite A in A'. injection A' as <-. split; auto. congruence. }
    rewrite Hs in Hs0. injection Hs0 as <-.
    destruct Hr as (Hr1 & Hr2 & Hr3 & Hr4 & Hr5a & Hr5b).
    assert (Hs' : s = c0). { rewrite Hc in Hstart. specialize (Hstart ltac:(lia)). cbn in Hle. lia. } subst s.
    specialize (IH k1 xs w1 k' xs' w' lb1 (c0 + tm_epochs tm) size Hb1
      ltac:(rewrite Hr4, Hc, Hlen; lia) ltac:(congruence) ltac:(cbn in Hle; lia) H).
    destruct IH as (-> & ls & ws & lb' & Hls & Hws & Hw0 & Hwn & Hi & Hb' & Hs2 & Hc2 & Hin & Hout).
    split; auto. exists (losses :: ls), (w :: ws), lb'.
    assert (Hsh : forall i j, i = j + c0 -> shifted (b_cursor_dim lb) c0 [j] [i]).
    { intros i j ->. rewrite Hcd. split; auto. intros [|[|k0]]; cbn; auto. }
    split; [cbn; lia|]. split; [cbn; lia|]. split; [reflexivity|].
    split. { cbn. rewrite (nth_indep ws w w1) by lia. exact Hwn. }
    split.
    { intros [|i] Hi'; cbn [nth].
      - split; auto. exists (tm_key k), ex. destruct ws as [|w0 ws]; [cbn in Hws; lia|]. cbn in Hw0. subst w0. exact Ht.
      - destruct (Hi i ltac:(lia)) as (A & q & ex' & B). split; auto. exists q, ex'.
        rewrite (nth_indep ws w w1) by lia. destruct ws as [|w0 ws]; [cbn in Hws; lia|].
        cbn [nth]. cbn [nth] in B. rewrite (nth_indep ws w w1) by (cbn in Hws; lia). exact B. }
    split; [auto|]. split; [auto|]. split; [rewrite Hc2; f_equal; cbn; lia|]. split.
    + intros j Hj. cbn [concat]. destruct (Nat.lt_ge_cases j (tm_epochs tm)) as [Hlt|Hge].
      * rewrite app_nth1 by lia. rewrite Hout by lia.
        rewrite (Hr5a [j] [c0 + j]); [reflexivity| |apply Hsh; lia].
        cbn. apply valid_index1. lia.
      * rewrite app_nth2 by lia. rewrite Hlen. rewrite <- Hin by (cbn in Hj; lia). f_equal. f_equal. lia.
    + intros j Hj. rewrite Hout by (cbn in Hj |- *; lia). apply Hr5b.
      intros jx Hv [Hl Hk]. cbn in Hv. destruct jx as [|j0 [|]]; try (destruct Hv; discriminate).
      apply valid_index1 in Hv. specialize (Hk 0). rewrite Hcd in Hk. cbn in Hk. cbn in Hj. lia.
Qed.
End TM.

(* ------------------------------------------------------------------------------------ *)
(** * Concrete runs *)

(** 2 chains, 10 slots, 2 dimensions; the first [fill0] (chain 0) and [fill1] (chain 1) slots
    are filled, the others hold the initial -inf. *)
Definition tdata (fill0 fill1 : nat) : @arr ZNum :=
  @mkArr ZNum [2; 10; 2] (fun ix => match ix with
    | [c; s; i] => if s <? (if c =? 0 then fill0 else fill1) then Z.of_nat (100 * c + 10 * s + i) else (-1000000)%Z
    | _ => 0%Z end).
Definition tbuf (fill0 fill1 : nat) : @buffer ZNum := @mkBuffer ZNum "P" (tdata fill0 fill1) 0 1.
Definition tworld (fill0 fill1 : nat) : @world ZNum ZRng ZNF := @mkWorld ZNum ZRng ZNF
  [OBuf (tbuf fill0 fill1); OBuf (@buffer_init ZNum "loss" [6] 0);
   OOpt (@mkOptimizer ZNum ZRng ZNF (-1)%Z 0%Z)]
  [("P", RObj 0); ("loss", RObj 1); ("opt", RObj 2); ("model", RModel (1%Z : @mdl ZNum ZRng ZNF))]%string.
Definition ttm : trainmodel := mkTrainModel "model" "P" "opt" "loss" 3 2 5 2.

Lemma znf_choice : @choice_law ZNum ZRng.
Proof.
  intros k n c. cbn [choice ZRng]. split; [rewrite map_length, seq_length; auto|].
  intros Hn i Hi. apply in_map_iff in Hi as (j & <- & _). apply Nat.mod_upper_bound. lia.
Qed.
Lemma znf_permutation : @permutation_law ZNum ZRng.
Proof.
  intros k n. cbn [permutation ZRng]. destruct n as [|n]; [constructor|].
  change (seq 0 (S n)) with (0 :: seq 1 n) at 2. rewrite seq_S, map_app. cbn [map].
  replace ((0 + n + 1) mod S n) with 0 by (replace (0 + n + 1) with (1 * S n) by lia; rewrite Nat.mod_mul; lia).
  eapply perm_trans; [apply Permutation_app_comm|]. cbn [app]. apply perm_skip.
  rewrite <- seq_shift. erewrite map_ext_in; [apply Permutation_refl|].
  intros i Hi. cbn beta. apply in_seq in Hi. rewrite Nat.mod_small by lia. lia.
Qed.
