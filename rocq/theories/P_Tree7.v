(** Leaves whose gradient is stopped only decay. *)
From Coq Require Import Reals Psatz.
From Coquelicot Require Import Coquelicot.
From Verif Require Import Prelude Num M_Core M_Kernels M_Strategies M_Flow M_Net M_Model M_Tree P_Lists RNum Spec_Kernels Spec_Train Spec_FM P_Real1 P_FM3 P_Decay Spec_Net Spec_Tree P_Tree1 P_Tree2 P_Tree3.
Open Scope R_scope.

Section Pair.
Context {N : Num} {G : Rng} {NF : NFOps}.
Variables I J : mdl -> optst -> Prop.
Variable tx : gtx.
Hypothesis Hweak : forall m st, J m st -> I m st.
Hypothesis Hstep : forall m xs st v m' st', I m st -> m_step m xs tx st = (v, m', st') -> J m' st'.
Lemma loop_inv2 : forall batches m st v0 v m' st', I m st -> epoch_loop m tx st v0 batches = (v, m', st') -> (batches = [] \/ J m' st') /\ I m' st'.
Proof.
  induction batches as [|b r IH]; intros m st v0 v m' st' Hm H; cbn in H.
  - injection H as _ <- <-. auto.
  - destruct (m_step m b tx st) as [[v1 m1] st1] eqn:E. assert (J1 : J m1 st1) by (eapply Hstep; eauto).
    destruct r as [|b' r]; [cbn in H; injection H as _ <- <-; auto|].
    destruct (IH _ _ _ _ _ _ (Hweak _ _ J1) H) as [[K|K] K2]; [discriminate|auto].
Qed.
Lemma epoch_inv2 m k st data bs v m' st' : I m st -> train_epoch m k tx st data bs = Ok (v, m', st') -> J m' st'.
Proof.
  intros Hm. unfold train_epoch. destruct (bs =? 0)%nat; [discriminate|]. destruct (0 <? length data / bs)%nat eqn:Hb.
  - intros H. destruct (epoch_loop m tx st big_loss (epoch_batches k data bs)) as [[v1 m1] st1] eqn:E. injection H as _ <- <-.
    destruct (loop_inv2 _ _ _ _ _ _ _ Hm E) as [[K|K] _]; [|exact K]. exfalso. apply Nat.ltb_lt in Hb. apply (f_equal (@length _)) in K.
    unfold epoch_batches in K. rewrite !map_length in K. cbn in K. repeat rewrite ?reshape_rows_length, ?seq_length in K. lia.
  - intros H. destruct (m_step m data tx st) as [[v1 m1] st1] eqn:E. injection H as _ <- <-. eapply Hstep; eauto.
Qed.
Lemma train_inv2 m k data st n bs kf m' st' losses : I (m_stats m data) st ->
  train m k data tx st n bs = Ok (kf, (m', st'), losses) -> (m', st') = (m, st) \/ J m' st'.
Proof.
  intros Hs. unfold train.
  assert (K : forall n k cur best bl kf b losses, I (fst cur) (snd cur) -> best = (m, st) \/ J (fst best) (snd best) ->
    best_epoch_loop (fun k' ms => rmap (fun o => (fst (fst o), (snd (fst o), snd o))) (train_epoch (fst ms) k' tx (snd ms) data bs)) n k cur best bl = Ok (kf, b, losses) -> b = (m, st) \/ J (fst b) (snd b)).
  { clear n k kf losses. induction n as [|n IH]; intros k cur best bl kf b losses Hc Hb H; cbn in H.
    - injection H as _ <- _. exact Hb.
    - destruct (train_epoch (fst cur) (split k 2 1) tx (snd cur) data bs) as [[[v m1] st1]|] eqn:E; [|discriminate]. cbn in H.
      pose proof (epoch_inv2 _ _ _ _ _ _ _ _ Hc E) as H1.
      match type of H with context [best_epoch_loop ?f n ?kk ?c ?bb ?l] => destruct (best_epoch_loop f n kk c bb l) as [[[kf' b'] ls']|] eqn:E2; [|discriminate] end.
      injection H as _ <- _. refine (IH _ (m1, st1) _ _ _ _ _ (Hweak _ _ H1) _ E2). destruct (v <.? bl)%num; auto. }
  intros H. exact (K n k (m_stats m data, st) (m, st) big_loss kf (m', st') losses Hs (or_introl eq_refl) H).
Qed.
End Pair.

Section Gen.
Context {N : Num}.
Lemma ravel_app (a b : list leaf) : ravel (a ++ b) = (ravel a ++ ravel b)%list.
Proof. unfold ravel. now rewrite flat_map_app. Qed.
Lemma ravel_at lv i d sh v j : (i < length lv)%nat -> lv_at lv i = LArr d sh v -> d <> DBool -> (j < length v)%nat ->
  nth (length (ravel (firstn i lv)) + j) (ravel lv) f0 = nth j v f0 /\ (length (ravel (firstn i lv)) + j < length (ravel lv))%nat.
Proof.
  intros Hi E Hd Hj.
  assert (S0 : lv = (firstn i lv ++ LArr d sh v :: skipn (S i) lv)%list).
  { rewrite <- E. unfold lv_at. clear - Hi. revert i Hi. induction lv as [|l lv IH]; intros [|i] Hi; cbn in Hi; try lia; [reflexivity|]. cbn [firstn nth skipn app]. f_equal. apply IH. lia. }
  assert (T : trainable (LArr d sh v) = true) by (destruct d; auto; congruence).
  assert (R0 : ravel lv = (ravel (firstn i lv) ++ v ++ ravel (skipn (S i) lv))%list).
  { rewrite S0 at 1. rewrite ravel_app, ravel_cons, T. reflexivity. }
  rewrite R0. split; [|rewrite !app_length; lia]. rewrite app_nth2 by lia. replace (length (ravel (firstn i lv)) + j - length (ravel (firstn i lv)))%nat with j by lia.
  now rewrite app_nth1.
Qed.
Lemma ofd_ravel_len : forall a b, Forall2 fl_rel a b -> length (ravel b) = length (ravel a).
Proof.
  intros a b H. induction H as [|x y a b H HF IH]; [reflexivity|]. rewrite !ravel_cons, !app_length, IH. f_equal.
  destruct x as [d sh v| | | |]; cbn [fl_rel] in H; try (subst y; reflexivity). destruct d; try (subst y; reflexivity); destruct H as (v' & -> & E); exact E.
Qed.
Lemma ofd_firstn i : forall a b, Forall2 fl_rel a b -> Forall2 fl_rel (firstn i a) (firstn i b).
Proof. induction i as [|i IH]; intros a b H; [constructor|]. destruct H; cbn; constructor; auto. Qed.
Lemma ofd_off i a b : only_floats_differ a b -> length (ravel (firstn i b)) = length (ravel (firstn i a)).
Proof. intros H. apply ofd_iff in H. now apply ofd_ravel_len, ofd_firstn. Qed.
Lemma leaf_in lv i d sh v : lv_at lv i = LArr d sh v -> (i < length lv)%nat.
Proof. intros E. destruct (le_lt_dec (length lv) i) as [H|H]; auto. unfold lv_at in E. rewrite nth_overflow in E by auto. discriminate. Qed.
End Gen.

Section Decay.
Context {G : @Rng RNum}.
Variables (logp : list (@leaf RNum) -> list R -> R) (sample : list (@leaf RNum) -> key -> nat -> list (list R)) (grad : list (@leaf RNum) -> list (list R) -> list R).
Variables (lv0 : list (@leaf RNum)) (i : nat) (d : dtype) (sh : list nat) (v0 : list R) (a : @adamw RNum).
Hypothesis Hd : d <> DBool.
Hypothesis Hst : @stopped RNum lv0 grad i.
Let q := 1 - aw_lr a * aw_decay a.
Definition decayed (T : nat) : list R := map (fun v => v * q ^ T) v0.
Definition dec_inv (lv : list (@leaf RNum)) (s : @adamw_state RNum) : Prop :=
  only_floats_differ lv0 lv /\ (exists T, lv_at lv i = LArr d sh (decayed T)) /\ @no_momentum RNum lv0 i s.
Lemma range_ofd lv j : only_floats_differ lv0 lv -> @leaf_range RNum lv i j <-> @leaf_range RNum lv0 i j.
Proof.
  intros H. pose proof (ofd_off i _ _ H) as E. unfold leaf_range. rewrite E.
  assert (L0 : length (leaf_vals (lv_at lv i)) = length (leaf_vals (lv_at lv0 i))).
  { destruct H as [_ H]. specialize (H i). destruct (lv_at lv0 i) as [dd s0 v| | | |]; try (now rewrite H). destruct dd; try (now rewrite H); destruct H as (v' & -> & EE); exact EE. }
  rewrite L0. tauto.
Qed.
Lemma dec_step1 lv s xs T : only_floats_differ lv0 lv -> lv_at lv i = LArr d sh (decayed T) -> @no_momentum RNum lv0 i s ->
  let o := @adamw_step RNum a (grad lv xs) (ravel lv) s in
  lv_at (unravel lv (fst o)) i = LArr d sh (decayed (S T)) /\ @no_momentum RNum lv0 i (snd o).
Proof.
  intros Ho HT Hm. cbv zeta. set (o := @adamw_step RNum a (grad lv xs) (ravel lv) s).
  assert (Hi : (i < length lv)%nat) by exact (leaf_in _ _ _ _ _ HT).
  set (off := length (ravel (firstn i lv))).
  assert (K : forall j, (j < length (decayed T))%nat -> @nth R (off + j) (fst o) 0 = nth j (decayed T) 0 * q /\ @nth R (off + j) (as_mu (snd o)) 0 = 0 /\ @nth R (off + j) (as_nu (snd o)) 0 = 0).
  { intros j Hj. destruct (ravel_at lv i d sh (decayed T) j Hi HT Hd Hj) as [E1 E2].
    assert (Rg : @leaf_range RNum lv i (off + j)) by (exists j; split; [rewrite HT; exact Hj|reflexivity]).
    destruct (Hm (off + j)%nat) as [M1 M2]; [now apply (range_ofd lv)|].
    destruct (step_zero a (grad lv xs) (ravel lv) s (off + j) E2 (Hst lv xs (off + j)%nat Ho Rg) M1 M2) as (F1 & F2 & F3).
    fold o in F1, F2, F3. split; [|auto]. etransitivity; [exact F1|]. unfold q. apply (f_equal2 Rmult); [exact E1|reflexivity]. }
  split.
  - rewrite (unravel_leaf lv (fst o) i d sh (decayed T)) by (auto; apply step_length). f_equal. fold off.
    assert (Lv : length v0 = length (decayed T)) by (unfold decayed; now rewrite map_length).
    assert (Lo : (off + length (decayed T) <= length (fst o))%nat).
    { unfold o. rewrite step_length. destruct (length (decayed T)) as [|m] eqn:E.
      - rewrite Nat.add_0_r. unfold off. rewrite <- (firstn_skipn i lv) at 2. rewrite ravel_app, app_length. apply Nat.le_add_r.
      - destruct (ravel_at lv i d sh (decayed T) m Hi HT Hd) as [_ K2]; [rnorm; lia|]. fold off in K2. rnorm. lia. }
    assert (Lf : length (firstn (length (decayed T)) (skipn off (fst o))) = length (decayed T)) by (rewrite firstn_length, skipn_length; rnorm; lia).
    apply (list_eq_nth (0 : R)); [refine (eq_trans Lf _); unfold decayed; now rewrite !map_length|].
    intros j Hj. assert (Hj' : (j < length (decayed T))%nat) by (rnorm; rewrite <- Lf; exact Hj).
    rewrite nth_firstn by auto. rewrite nth_skipn. etransitivity; [exact (proj1 (K j Hj'))|].
    unfold decayed at 1 2. unfold decayed in Hj'. rewrite map_length in Hj'.
    etransitivity; [exact (f_equal (fun z => z * q) (mapRR (fun v => v * q ^ T) v0 j Hj'))|].
    symmetry. etransitivity; [exact (mapRR (fun v => v * q ^ S T) v0 j Hj')|]. cbn [pow]. ring.
  - intros j Hj. apply (range_ofd lv) in Hj; auto. destruct Hj as (j' & Hj' & ->). rewrite HT in Hj'. fold off. apply (K j' Hj').
Qed.
Lemma dec_step lv s xs v lv' s' : dec_inv lv s -> @tree_train_step RNum logp grad lv xs a s = (v, lv', s') -> dec_inv lv' s'.
Proof.
  intros (Ho & (T & HT) & Hm) E. pose proof (step_ofd logp grad _ _ _ _ _ _ _ E) as Ho'. apply step_parts in E as (_ & -> & ->).
  destruct (dec_step1 lv s xs T Ho HT Hm) as [H1 H2]. split; [eapply ofd_trans; eassumption|]. split; [exists (S T); exact H1|exact H2].
Qed.
End Decay.
