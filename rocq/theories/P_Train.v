From Coq Require Import Permutation.
From Verif Require Import Prelude Num M_Core M_Kernels M_Strategies P_Lists P_Buffer Spec Spec_Core P_Core
  Spec_Steps P_Steps Spec_Kernels P_Kernels P_Sampler Spec_Train.

Section Order.
Context {N : Num}.
Hypothesis NL : NumLaws.

Lemma flt_le_trans x y z : (x <.? y) = true -> (y <=.? z) = true -> (x <.? z) = true.
Proof.
  intros H1 H2. destruct (nl_lt_le NL _ _ H1) as [H3 H4].
  apply (nl_le_lt NL). { eapply (nl_le_trans NL); eauto. }
  destruct (z <=.? x) eqn:E; auto.
  assert ((y <=.? x) = true) by (eapply (nl_le_trans NL); eauto). congruence.
Qed.
Lemma flt_trans x y z : (x <.? y) = true -> (y <.? z) = true -> (x <.? z) = true.
Proof. intros H1 H2. eapply flt_le_trans; eauto. apply (nl_lt_le NL); auto. Qed.
Lemma flt_asym x y : (x <.? y) = true -> (y <.? x) = false.
Proof.
  intros H. destruct (y <.? x) eqn:E; auto.
  destruct (nl_lt_le NL _ _ H), (nl_lt_le NL _ _ E). congruence.
Qed.
Lemma flt_irrefl x : (x <.? x) = false.
Proof. destruct (x <.? x) eqn:E; auto. rewrite (flt_asym _ _ E) in E. auto. Qed.
Lemma not_flt_le x y : fnan x = false -> fnan y = false -> (x <.? y) = false -> (y <=.? x) = true.
Proof.
  intros Hx Hy H. destruct (y <=.? x) eqn:E; auto.
  pose proof (nl_le_total NL _ _ Hy Hx E) as H1. rewrite (nl_le_lt NL _ _ H1 E) in H. discriminate.
Qed.
End Order.

Section BestLoop.
Context {N : Num} {G : Rng}.

(** What the epochs of the generic loop produce. *)
Definition epochs_gen {S} (epoch : key -> S -> res (F * S)) (k : key) (s0 : S) (hist : list (F * S)) : Prop :=
  forall i v s, nth_error hist i = Some (v, s) ->
    epoch (scan_key k i) (match i with O => s0 | S j => snd (nth j hist (f0, s0)) end) = Ok (v, s).

Lemma best_loop_hist {S} (epoch : key -> S -> res (F * S)) n : forall k cur best bl kf b losses,
  best_epoch_loop epoch n k cur best bl = Ok (kf, b, losses) ->
  exists hist, length hist = n /\ epochs_gen epoch k cur hist /\ losses = map fst hist /\
    kf = iter n (fun q => split q 2 0) k /\
    (NumLaws ->
     (exists i v s, nth_error hist i = Some (v, s) /\ b = s /\ first_best bl losses i) \/
     ((forall u, In u losses -> (u <.? bl) = false) /\ b = best)).
Proof.
  induction n as [|n IH]; intros k cur best bl kf b losses H; cbn in H.
  - injection H as <- <- <-. exists []. repeat split; auto.
    + intros i v s Hn. destruct i; discriminate.
    + intros _. right. split; auto. intros u [].
  - destruct (epoch (split k 2 1) cur) as [[v cur']|] eqn:E1; [|discriminate]. cbn in H.
    destruct (best_epoch_loop epoch n (split k 2 0) cur' (if v <.? bl then cur' else best)
      (if v <.? bl then v else bl)) as [[[kf' b'] ls]|] eqn:E2; [|discriminate]. cbn in H.
    injection H as <- <- <-.
    apply IH in E2 as (hist & Hl & Hep & -> & -> & Hbest).
    exists ((v, cur') :: hist). repeat split; cbn; auto.
    + intros i u s Hn. destruct i as [|i]; cbn in Hn.
      * injection Hn as <- <-. exact E1.
      * pose proof (Hep i u s Hn) as He. cbn. destruct i as [|i]; cbn in He |- *; [exact He|].
        assert (Hi : i < length hist). { apply nth_error_Some_lt in Hn || idtac. assert (nth_error hist (Datatypes.S i) <> None) by congruence. apply nth_error_Some in H. lia. }
        rewrite (nth_indep hist _ (f0, cur')) by auto. exact He.
    + intros NL. destruct (v <.? bl) eqn:Eb.
      * destruct (Hbest NL) as [(i & v' & s & Hi & -> & (v'' & Hv & Hlt & Hmin & Hfst))|[Hno ->]].
        -- left. exists (Datatypes.S i), v', s. cbn. repeat split; auto.
           exists v''. cbn. repeat split; auto.
           ++ eapply flt_trans; eauto.
           ++ intros u [<-|Hu]; auto. apply (flt_asym NL); auto.
           ++ intros j u Hj Hn. destruct j; cbn in Hn; [injection Hn as <-; auto|].
              eapply Hfst; eauto. lia.
        -- left. exists 0, v, cur'. cbn. repeat split; auto.
           exists v. cbn. repeat split; auto.
           ++ intros u [<-|Hu]; auto. apply (flt_irrefl NL).
           ++ intros j u Hj; lia.
      * destruct (Hbest NL) as [(i & v' & s & Hi & -> & (v'' & Hv & Hlt & Hmin & Hfst))|[Hno ->]].
        -- left. exists (Datatypes.S i), v', s. cbn. repeat split; auto.
           exists v''. cbn. repeat split; auto.
           ++ intros u [<-|Hu]; auto. destruct (v <.? v'') eqn:E; auto.
              rewrite (flt_trans NL _ _ _ E Hlt) in Eb. auto.
           ++ intros j u Hj Hn. destruct j; cbn in Hn.
              ** injection Hn as <-. destruct (fnan v) eqn:Ev; auto. left.
                 eapply (flt_le_trans NL); eauto. apply (not_flt_le NL); auto.
                 apply (nl_lt_nan NL _ _ Hlt).
              ** eapply Hfst; eauto. lia.
        -- right. split; auto. intros u [<-|Hu]; auto.
Qed.

Lemma best_loop_ok {S} (epoch : key -> S -> res (F * S)) n : (forall k s, exists o, epoch k s = Ok o) ->
  forall k cur best bl, exists o, best_epoch_loop epoch n k cur best bl = Ok o.
Proof.
  intros Hok. induction n as [|n IH]; intros k cur best bl; cbn; eauto.
  destruct (Hok (split k 2 1) cur) as [[v c] ->]. cbn.
  destruct (IH (split k 2 0) c (if v <.? bl then c else best) (if v <.? bl then v else bl)) as [[[a b] l] ->].
  cbn. eauto.
Qed.
End BestLoop.

Lemma NoDup_app_l {A} (l m : list A) : NoDup (l ++ m) -> NoDup l.
Proof.
  induction l as [|x l IH]; intros H; constructor; inversion H; subst.
  - intros Hx. apply H2. apply in_or_app; auto.
  - auto.
Qed.

Section Train.
Context {N : Num} {G : Rng} {NF : NFOps}.

Lemma train_epoch_ok m k tx st data bs : bs <> 0 -> exists o, train_epoch m k tx st data bs = Ok o.
Proof.
  intros H. unfold train_epoch. destruct (bs =? 0) eqn:E; [apply Nat.eqb_eq in E; lia|].
  destruct (0 <? length data / bs); eauto.
Qed.

Lemma C34_proof m k data tx st n bs kf m' st' losses : NumLaws ->
  train m k data tx st n bs = Ok (kf, (m', st'), losses) ->
  exists hist, length hist = n /\ epochs_from tx data bs k (m_stats m data, st) hist /\
    losses = map fst hist /\ kf = iter n (fun q => split q 2 0) k /\
    ((exists i v, first_best big_loss losses i /\ nth_error hist i = Some (v, (m', st')) /\ fnan v = false) \/
     ((forall u, In u losses -> (u <.? big_loss) = false) /\ (m', st') = (m, st))).
Proof.
  intros NL H. unfold train in H. apply best_loop_hist in H as (hist & Hl & Hep & -> & -> & Hb).
  exists hist. repeat split; auto.
  - intros i v s Hi. specialize (Hep i v s Hi). cbv beta in Hep. cbv zeta.
    destruct (train_epoch _ _ _ _ _ _) as [[[v0 m0] s0]|]; [|discriminate]. cbn in Hep.
    injection Hep as -> <-. reflexivity.
  - destruct (Hb NL) as [(i & v & s & Hi & -> & Hf)|[Hno Heq]]; [left|right; auto].
    exists i, v. split; auto. split; auto. destruct Hf as (v' & Hv & Hlt & _).
    rewrite nth_error_map, Hi in Hv. injection Hv as <-. apply (nl_lt_nan NL _ _ Hlt).
Qed.

Lemma C34_total_proof m k data tx st n bs :
  (exists o, train m k data tx st n bs = Ok o) <-> (bs <> 0 \/ n = 0).
Proof.
  split.
  - intros [o H]. destruct bs; [|lia]. destruct n; [lia|]. discriminate.
  - intros [H| ->]; [|cbn; eauto]. unfold train. apply best_loop_ok. intros k0 s.
    destruct (train_epoch_ok (fst s) k0 tx (snd s) data bs H) as [o ->]. cbn. eauto.
Qed.

Lemma epoch_loop_updates tx : forall batches m st v0 v m' st',
  epoch_loop m tx st v0 batches = (v, m', st') ->
  exists vs, updates tx (m, st) batches vs (m', st') /\ v = last vs v0.
Proof.
  induction batches as [|b bs IH]; intros m st v0 v m' st' H; cbn in H.
  - injection H as <- <- <-. exists []. split; [constructor|reflexivity].
  - destruct (m_step m b tx st) as [[v1 m1] st1] eqn:E. apply IH in H as (vs & Hu & ->).
    exists (v1 :: vs). split.
    + econstructor; [|exact Hu]. exact E.
    + rewrite last_cons_default. reflexivity.
Qed.

Lemma updates_length tx s bs vs s' : updates tx s bs vs s' -> length vs = length bs.
Proof. induction 1; cbn; auto. Qed.

Lemma C35_proof m k tx st data bs : permutation_law -> 0 < bs <= length data ->
  exists batches ix vs v m' st',
    train_epoch m k tx st data bs = Ok (v, m', st') /\
    updates tx (m, st) batches vs (m', st') /\ v = last vs f0 /\
    length batches = length data / bs /\ (forall b, In b batches -> length b = bs) /\
    concat batches = map (fun i => nth i data []) ix /\ NoDup ix /\
    (forall i, In i ix -> i < length data) /\ length ix = length data - length data mod bs.
Proof.
  intros HP [Hb Hle]. unfold train_epoch. destruct (bs =? 0) eqn:E0; [apply Nat.eqb_eq in E0; lia|].
  set (n := length data). set (steps := n / bs).
  assert (Hst : 0 < steps). { apply Nat.div_str_pos. lia. }
  replace (0 <? steps) with true by (symmetry; apply Nat.ltb_lt; auto).
  destruct (epoch_loop m tx st big_loss (epoch_batches k data bs)) as [[v m'] st'] eqn:E.
  apply epoch_loop_updates in E as (vs & Hu & Hv).
  pose proof (Nat.div_mod n bs ltac:(lia)) as Hdm.
  assert (Hpl : length (permutation k n) = n). { rewrite (Permutation_length (HP k n)). apply seq_length. }
  assert (Hfl : length (firstn (steps * bs) (permutation k n)) = steps * bs).
  { rewrite firstn_length, Hpl. fold steps in Hdm. nia. }
  exists (epoch_batches k data bs), (firstn (steps * bs) (permutation k n)), vs, v, m', st'.
  repeat split; auto.
  - subst v. apply updates_length in Hu.
    assert (length (epoch_batches k data bs) = steps).
    { unfold epoch_batches. rewrite map_length, reshape_rows_length. reflexivity. }
    destruct vs; [cbn in Hu; lia|]. rewrite !last_cons_default. reflexivity.
  - unfold epoch_batches. rewrite map_length, reshape_rows_length. reflexivity.
  - intros b Hin. unfold epoch_batches in Hin. apply in_map_iff in Hin as (r & <- & Hr).
    unfold gather. rewrite map_length. fold n steps in Hr.
    pose proof (Forall_reshape_rows steps bs _ Hfl) as HF.
    rewrite Forall_forall in HF. auto.
  - unfold epoch_batches. fold n steps. rewrite <- (concat_reshape_rows steps bs _ Hfl) at 2.
    unfold gather. rewrite concat_map. reflexivity.
  - assert (HN : NoDup (permutation k n)). { eapply Permutation_NoDup; [symmetry; apply HP|apply seq_NoDup]. }
    rewrite <- (firstn_skipn (steps * bs) (permutation k n)) in HN. apply NoDup_app_l in HN. exact HN.
  - intros i Hi. assert (In i (permutation k n)). { rewrite <- (firstn_skipn (steps * bs)). apply in_or_app; auto. }
    apply (Permutation_in i (HP k n)) in H. apply in_seq in H. lia.
  - rewrite Hfl. fold n. fold steps in Hdm. nia.
Qed.

Lemma C35_small_proof m k tx st data bs : length data < bs ->
  train_epoch m k tx st data bs = Ok (m_step m data tx st).
Proof.
  intros H. unfold train_epoch. destruct (bs =? 0) eqn:E0; [apply Nat.eqb_eq in E0; lia|].
  rewrite Nat.div_small by auto. reflexivity.
Qed.
Lemma C35_zero_proof m k tx st data : train_epoch m k tx st data 0 = Raise ZeroDivisionError.
Proof. reflexivity. Qed.
End Train.

(* ------------------------------------------------------------------------------------ *)
(** * TrainModel *)

Lemma filter_concat {A} (p : A -> bool) ls : filter p (concat ls) = concat (map (filter p) ls).
Proof. induction ls as [|l ls IH]; cbn; auto. rewrite filter_app, IH. reflexivity. Qed.

Lemma flat_map_concat' {A B} (f : A -> list B) l : flat_map f l = concat (map f l).
Proof. apply flat_map_concat_map. Qed.

Lemma reshape_concat {A} (ls : list (list A)) n : (forall l, In l ls -> length l = n) ->
  reshape_rows (length ls) n (concat ls) = ls.
Proof.
  intros H. apply (list_eq_nth []).
  { apply reshape_rows_length. }
  intros i Hi. rewrite reshape_rows_length in Hi. unfold reshape_rows.
  rewrite nth_map_seq by auto. clear -H Hi.
  revert i Hi. induction ls as [|l ls IH]; intros i Hi; [cbn in Hi; lia|].
  assert (Hl : length l = n) by (apply H; left; auto). cbn [concat].
  destruct i as [|i].
  - unfold slice. rewrite Nat.mul_0_l, Nat.add_0_l, Nat.sub_0_r. cbn [skipn].
    rewrite firstn_app, <- Hl, firstn_all, Nat.sub_diag. cbn. apply app_nil_r.
  - cbn [nth]. unfold slice in * . replace (S i * n + n - S i * n) with n by lia.
    rewrite skipn_app. rewrite (skipn_all2 l) by (cbn; nia). cbn [app].
    replace (S i * n - length l) with (i * n) by (cbn; nia).
    specialize (IH (fun l0 Hl0 => H l0 (or_intror Hl0)) i ltac:(cbn in Hi; lia)).
    replace (i * n + n - i * n) with n in IH by lia. exact IH.
Qed.

Section TM.
Context {N : Num} {G : Rng} {NF : NFOps}.

Lemma arr_rows_3 (b : buffer) C S D : ashape (b_data b) = [C; S; D] ->
  arr_rows (b_data b) = concat (map (fun c => map (brow b D c) (seq 0 S)) (seq 0 C)).
Proof.
  intros H. unfold arr_rows. rewrite H. cbn [removelast last indices].
  rewrite flat_map_concat', concat_map, !map_map. f_equal. apply map_ext. intros c.
  rewrite flat_map_concat', !map_map. cbn [map].
  assert (E : forall l : list nat, concat (map (fun x => [[x]]) l) = map (fun x => [x]) l).
  { induction l; cbn; congruence. }
  rewrite E, !map_map. apply map_ext. intros s. unfold brow. cbn [app]. reflexivity.
Qed.

Lemma recent_eq {A} w (l : list A) : last_window w l = recent w l.
Proof. unfold recent, last_window, last_elements. destruct w; reflexivity. Qed.

Definition all_finite_rows (b : buffer) C S D : list vec :=
  concat (map (finite_rows b S D) (seq 0 C)).

Lemma pool_rows (b : buffer) C S D : ashape (b_data b) = [C; S; D] ->
  filter (fun r => forallb ffinite r) (arr_rows (b_data b)) = all_finite_rows b C S D.
Proof.
  intros H. rewrite (arr_rows_3 _ _ _ _ H), filter_concat, map_map. reflexivity.
Qed.

Lemma training_pool_spec (b : buffer) C S D w : ashape (b_data b) = [C; S; D] ->
  training_pool (b_data b) w =
  (if (C =? 0) || negb (length (all_finite_rows b C S D) mod C =? 0) then Raise TypeError
   else Ok (concat (map (recent w) (reshape_rows C (length (all_finite_rows b C S D) / C)
                                     (all_finite_rows b C S D))))).
Proof.
  intros H. unfold training_pool. rewrite (pool_rows _ _ _ _ H), H.
  destruct (_ || _); auto. f_equal. f_equal. apply map_ext. intros. apply recent_eq.
Qed.

Lemma concat_length_eq {A} (ls : list (list A)) n : (forall l, In l ls -> length l = n) ->
  length (concat ls) = length ls * n.
Proof.
  induction ls as [|l ls IH]; intros H; cbn; auto.
  rewrite app_length, IH, (H l); cbn; auto. intros; apply H; right; auto.
Qed.

Lemma training_pool_equal (b : buffer) C S D w n : ashape (b_data b) = [C; S; D] -> 0 < C ->
  (forall c, c < C -> length (finite_rows b S D c) = n) ->
  training_pool (b_data b) w = Ok (concat (map (fun c => recent w (finite_rows b S D c)) (seq 0 C))).
Proof.
  intros H HC Hn. rewrite (training_pool_spec _ _ _ _ _ H).
  assert (Hall : forall l, In l (map (finite_rows b S D) (seq 0 C)) -> length l = n).
  { intros l Hl. apply in_map_iff in Hl as (c & <- & Hc). apply in_seq in Hc. apply Hn. lia. }
  assert (Hlen : length (all_finite_rows b C S D) = C * n).
  { unfold all_finite_rows. rewrite (concat_length_eq _ _ Hall), map_length, seq_length. reflexivity. }
  rewrite Hlen. replace (C * n mod C) with 0 by (rewrite Nat.mul_comm, Nat.mod_mul; lia).
  replace (C * n / C) with n by (rewrite Nat.mul_comm, Nat.div_mul; lia).
  replace (C =? 0) with false by (symmetry; apply Nat.eqb_neq; lia). cbn [orb negb Nat.eqb].
  f_equal. f_equal. pose proof (reshape_concat _ _ Hall) as R. rewrite map_length, seq_length in R.
  unfold all_finite_rows. rewrite R, map_map. reflexivity.
Qed.

Lemma recent_In {A} w (l : list A) x : In x (recent w l) -> In x l.
Proof.
  unfold recent, last_elements. destruct (w =? 0); auto. intros H.
  rewrite <- (firstn_skipn (length l - w)). apply in_or_app; auto.
Qed.

Lemma reshape_rows_In {A} n m (l : list A) r x : In r (reshape_rows n m l) -> In x r -> In x l.
Proof.
  intros Hr Hx. apply in_map_iff in Hr as (i & <- & _). unfold slice in Hx.
  rewrite <- (firstn_skipn (i * m) l). apply in_or_app. right.
  rewrite <- (firstn_skipn (i * m + m - i * m) (skipn (i * m) l)). apply in_or_app; auto.
Qed.

Lemma pool_In (b : buffer) C S D w pool r : ashape (b_data b) = [C; S; D] ->
  training_pool (b_data b) w = Ok pool -> In r pool ->
  exists c s, c < C /\ s < S /\ r = brow b D c s /\ finite_row r = true.
Proof.
  intros H HP Hr. rewrite (training_pool_spec _ _ _ _ _ H) in HP. destruct (_ || _); [discriminate|].
  injection HP as <-. apply in_concat in Hr as (l & Hl & Hr). apply in_map_iff in Hl as (l' & <- & Hl').
  apply recent_In in Hr. eapply reshape_rows_In in Hr; [|exact Hl'].
  unfold all_finite_rows in Hr. apply in_concat in Hr as (l2 & Hl2 & Hr).
  apply in_map_iff in Hl2 as (c & <- & Hc). apply in_seq in Hc. unfold finite_rows in Hr.
  apply filter_In in Hr as [Hr Hf]. apply in_map_iff in Hr as (s & <- & Hs). apply in_seq in Hs.
  exists c, s. repeat split; auto; lia.
Qed.

Lemma draw_examples_spec k pool n ex : choice_law -> draw_examples k pool n = Ok ex ->
  ex = map (fun i => nth i pool []) (choice k (length pool) n) /\ length ex = n /\
  (forall r, In r ex -> In r pool).
Proof.
  intros HC H. unfold draw_examples in H.
  destruct ((length pool =? 0) && negb (n =? 0)) eqn:E; [discriminate|]. injection H as <-.
  unfold gather. destruct (HC k (length pool) n) as [Hl Hi]. rewrite map_length. repeat split; auto.
  intros r Hr. apply in_map_iff in Hr as (i & <- & Hin). apply nth_In.
  apply Hi; auto. destruct pool; [|cbn; lia]. cbn in E. destruct n; [|discriminate].
  exfalso. destruct (choice k (length (@nil vec)) 0); [contradiction|discriminate].
Qed.

(** Everything a successful call of TrainModel does. *)
Lemma train_model_inv tm k xs d w k' xs' w' :
  train_model tm k xs d w = (Ok (k', xs'), w') ->
  exists m dl db ol opt pool ex m' st' losses,
    dget (rdict w) (tm_model tm) = Some (RModel m) /\
    buffer_named w (tm_data tm) dl db /\ optimizer_named w (tm_opt tm) ol opt /\
    training_pool (b_data db) (tm_window tm) = Ok pool /\
    draw_examples (split k 2 1) pool (tm_max tm) = Ok ex /\
    train m (split (split k 2 0) 2 1) ex (o_tx opt) (o_state opt) (tm_epochs tm) (tm_bs tm) =
      Ok (k', (m', st'), losses) /\
    xs' = xs /\
    exists w1 d1, w' = mkWorld (heap (hset ol (OOpt (mkOptimizer (o_tx opt) st')) w1)) (dset (dset d1 (tm_model tm) (RModel m')) (tm_opt tm) (RObj ol)) /\
     ((tm_loss tm = ""%string /\ w1 = w /\ d1 = rdict w) \/
      (tm_loss tm <> ""%string /\ exists ll lb lb', buffer_named w (tm_loss tm) ll lb /\
         update_buffer lb (stack1 losses) (b_cursor lb) = Ok lb' /\
         w1 = hset ll (OBuf (mkBuffer (b_name lb') (b_data lb') (b_cursor lb' + Z.of_nat (length losses)) (b_cursor_dim lb'))) w /\
         d1 = dset (rdict w) (tm_loss tm) (RObj ll))).
Proof.
  intros H. unfold train_model in H.
  apply mbind_Ok in H as (mr & w1 & H1 & H). apply res_get_inv in H1 as [-> Hm].
  apply mbind_Ok in H as (m & w1 & H1 & H).
  assert (w1 = w /\ mr = RModel m) as [-> ->].
  { destruct mr; cbn in H1; try discriminate. injection H1 as <- <-. auto. }
  clear H1.
  apply mbind_Ok in H as ([dl db] & w1 & H1 & H). apply get_buffer_inv in H1 as (-> & Hd1 & Hd2).
  apply mbind_Ok in H as ([ol opt] & w1 & H1 & H). apply get_optimizer_inv in H1 as (-> & Ho1 & Ho2).
  apply mbind_Ok in H as (pool & w1 & H1 & H). apply mlift_inv in H1 as [-> Hp].
  apply mbind_Ok in H as (ex & w1 & H1 & H). apply mlift_inv in H1 as [-> He].
  apply mbind_Ok in H as ([[k3 [m' st']] losses] & w1 & H1 & H). apply mlift_inv in H1 as [-> Ht].
  apply mbind_Ok in H as (u & w1 & H1 & H). destruct u.
  apply mbind_Ok in H as (u & w2 & H2 & H). destruct u. cbn in H2. injection H2 as <-.
  apply mbind_Ok in H as (u & w2 & H2 & H). destruct u. cbn in H2. injection H2 as <-.
  apply mbind_Ok in H as (u & w2 & H2 & H). destruct u. cbn in H2. injection H2 as <-.
  cbn in H. injection H as <- <- <-.
  exists m, dl, db, ol, opt, pool, ex, m', st', losses.
  split; [auto|]. split; [split; auto|]. split; [split; auto|].
  do 4 (split; [auto|]).
  exists {| heap := heap w1; rdict := rdict w |}, (rdict w1). split; [reflexivity|].
  destruct (String.eqb (tm_loss tm) "") eqn:E.
  - left. apply String.eqb_eq in E. cbn in H1. injection H1 as <-. destruct w; auto.
  - right. split. { apply String.eqb_neq in E; auto. }
    apply mbind_Ok in H1 as ([ll lb] & w2 & H2 & H1). apply get_buffer_inv in H2 as (-> & Hl1 & Hl2).
    apply mbind_Ok in H1 as (u & w2 & H2 & H1). apply buf_update_inv in H2 as (b0 & b1 & Hb0 & Hb1 & ->).
    apply mbind_Ok in H1 as ([ll2 lb2] & w2 & H2 & H1). apply get_buffer_inv in H2 as (-> & Hl3 & Hl4).
    rewrite rdict_hset, Hl1 in Hl3. injection Hl3 as <-.
    rewrite (hget_hset_eq _ _ _ _ Hl2) in Hl4. injection Hl4 as <-.
    rewrite Hl2 in Hb0. injection Hb0 as <-.
    apply mbind_Ok in H1 as (u2 & w2 & H2 & H1). cbn in H2. injection H2 as <- <-.
    cbn in H1. injection H1 as <-. cbn.
    exists ll, lb, b1. repeat split; auto. unfold hset. cbn. f_equal.
    clear. generalize (heap w) as h. induction ll as [|ll IH]; intros [|x h]; cbn; auto. f_equal; auto.
Qed.
End TM.
