(** Loops and runs of a bundle refine the reference algorithm. *)
From Verif Require Import Prelude Num M_Core M_Kernels M_Strategies M_PT M_Bundle P_Lists P_Buffer
  Spec Spec_Core P_Core Spec_Sampler P_Sampler Spec_Steps P_Steps Spec_Kernels P_Kernels P_StepsK P_Steps2 Spec_Train P_Train P_Train2
  P_PT3 Spec_Bundle P_Bundle P_Bundle2.

Section Bnd.
Context {N : Num} {G : Rng} {NF : NFOps}.

Lemma history_app c ls l i : chain_history c (ls ++ [l]) i =
  (chain_history c ls i ++ map (pair true) (kept_steps (c_local c) (c_local_th c) (nth i (lo_local l) []))) ++
  map (pair false) (kept_steps (c_global c) (c_global_th c) (nth i (lo_global l) [])).
Proof. unfold chain_history. rewrite map_app, concat_app. cbn [map concat]. rewrite app_nil_r, app_assoc. reflexivity. Qed.

Definition per_loop (c : config) : nat := c_local c / c_local_th c + c_global c / c_global_th c.
Lemma history_length c ls i : length (chain_history c ls i) = length ls * per_loop c.
Proof.
  unfold chain_history, per_loop. induction ls as [|l ls IH]; [reflexivity|]. cbn [map concat length].
  rewrite !app_length, IH, !map_length, !kept_steps_length. lia.
Qed.

Lemma ph_holds_ext c slots b0 b h h' : (forall i, i < c_n_chains c -> h i = h' i) ->
  ph_holds c slots b0 b h -> ph_holds c slots b0 b h'.
Proof. intros E H i s Hi. specialize (H i s Hi). rewrite <- (E i Hi). exact H. Qed.

Definition fresh_pos (b : pbufs) : Prop := forall i s j, aget (b_data (q_pos b)) [i; s; j] = fninf.

Lemma finite_history (L : ffinite fninf = false) c S b0 b h i : ph_holds c S b0 b h -> fresh_pos b0 -> 0 < c_n_dims c ->
  i < c_n_chains c -> length (h i) <= S ->
  filter finite_row (map (brow (q_pos b) (c_n_dims c) i) (seq 0 S)) = filter finite_row (map (fun o => s_pos (snd o)) (h i)).
Proof.
  intros Hh Hf HD Hi Hl.
  replace S with (length (h i) + (S - length (h i))) by lia. rewrite seq_app, map_app, filter_app.
  assert (A : filter finite_row (map (brow (q_pos b) (c_n_dims c) i) (seq (0 + length (h i)) (S - length (h i)))) = []).
  { assert (B : forall s, In s (seq (0 + length (h i)) (S - length (h i))) -> finite_row (brow (q_pos b) (c_n_dims c) i s) = false).
    { intros s Hs. apply in_seq in Hs. specialize (Hh i s Hi).
      assert (E : nth_error (h i) s = None) by (apply nth_error_None; lia). rewrite E in Hh. destruct Hh as (A & _).
      unfold finite_row, brow. destruct (c_n_dims c) as [|D]; [lia|]. cbn [seq map forallb].
      rewrite A, Hf, L. reflexivity. }
    revert B. generalize (seq (0 + length (h i)) (S - length (h i))) as l. induction l as [|s l IH]; intros B; [reflexivity|].
    cbn [map filter]. rewrite (B s) by (left; auto). apply IH. intros; apply B; right; auto. }
  rewrite A, app_nil_r. f_equal. apply (list_eq_nth []).
  - rewrite !map_length, seq_length. reflexivity.
  - intros s Hs. rewrite map_length, seq_length in Hs. rewrite nth_map_seq by auto.
    specialize (Hh i s Hi). destruct (nth_error (h i) s) as [[t o]|] eqn:E; [|apply nth_error_None in E; lia].
    destruct Hh as (-> & _). rewrite (nth_map' (fun o => s_pos (snd o)) _ s (t, o) []) by auto.
    rewrite (nth_error_nth _ _ _ E). reflexivity.
Qed.

(* ------------------------------------------------------------------ the loss buffer *)
Definition loss_holds (size : nat) (lb : buffer) (ls : list loop) : Prop :=
  ashape (b_data lb) = [size] /\ b_cursor_dim lb = 0 /\
  b_cursor lb = Z.of_nat (length (concat (map lo_losses ls))) /\
  forall j v, nth_error (concat (map lo_losses ls)) j = Some v -> aget (b_data lb) [j] = v.

Lemma loss_step size lb ls l lb1 : loss_holds size lb ls ->
  length (concat (map lo_losses ls)) + length (lo_losses l) <= size ->
  update_buffer lb (stack1 (lo_losses l)) (b_cursor lb) = Ok lb1 ->
  loss_holds size (mkBuffer (b_name lb1) (b_data lb1) (b_cursor lb1 + Z.of_nat (length (lo_losses l))) (b_cursor_dim lb1)) (ls ++ [l]).
Proof.
  intros (A & B & C & D) Hr Hu. pose proof (update_buffer_fits _ _ _ _ Hu) as Hf.
  destruct (update_written lb (stack1 (lo_losses l)) (b_cursor lb) Hf) as (b2 & Hu2 & (H1 & H2 & H3 & H4) & W1 & W2).
  rewrite Hu in Hu2. injection Hu2 as <-.
  set (P := length (concat (map lo_losses ls))) in * .
  assert (Hs : norm_start (b_cursor lb) (nth (b_cursor_dim lb) (ashape (b_data lb)) 0)
     (nth (b_cursor_dim lb) (ashape (stack1 (lo_losses l))) 0) = P).
  { rewrite A, B, C. cbn [nth stack1 ashape]. rewrite norm_start_fit by lia. now rewrite Nat2Z.id. }
  rewrite Hs, B in W1, W2. unfold loss_holds. cbn [b_data b_cursor b_cursor_dim].
  rewrite map_app, concat_app. cbn [map concat]. rewrite app_nil_r, app_length. fold P.
  split; [congruence|]. split; [congruence|]. split; [rewrite H3, C; lia|].
  intros j v Hj. destruct (Nat.lt_ge_cases j P) as [Hlt|Hge].
  - rewrite nth_error_app1 in Hj by auto. rewrite W2; [auto|].
    intros jx Hv [Hl Hsh]. specialize (Hsh 0). destruct Hv as [Hv _]. cbn in Hl, Hv. rewrite <- Hl in Hsh. cbn in Hsh. lia.
  - rewrite nth_error_app2 in Hj by auto. fold P in Hj.
    rewrite (W1 [j - P] [j]).
    + cbn. apply nth_error_nth; auto.
    + apply valid_index1. apply nth_error_Some. congruence.
    + split; [reflexivity|]. intros [|n]; cbn; [lia|destruct n; auto].
Qed.

(* ------------------------------------------------------------------ loops *)
Section Loops.
Variables (c : config) (rx : dict resource) (d : datad) (window : nat) (S : dict strategy) (pre : list string).
Variables (E : Type) (hx : E -> list obj) (before : bool -> E -> key -> pos_t -> E -> key -> pos_t -> Prop).
Variable good : mdl -> Prop.
Hypothesis L : ffinite fninf = false.
Hypothesis Hgrad : grad_shape (c_logpdf c) d (c_n_dims c).
Hypothesis Hnormal : normal_shape.
Hypothesis HDl : c_local c mod c_local_th c = 0.
Hypothesis HDg : c_global c mod c_global_th c = 0.
Hypothesis Hbs : 0 < c_nf_bs c.
Hypothesis HD : 0 < c_n_dims c.
Hypothesis HC : choice_law.
Hypothesis Hclass : model_class good (c_n_dims c).
Hypothesis S_local : dget S "local_stepper" = Some (take_serial_steps (local_ts c)).
Hypothesis S_global : dget S "global_stepper" = Some (take_group_steps (global_ts c)).
Hypothesis S_train : dget S "model_trainer" = Some (train_model (trainer_tm c window)).
Hypothesis S_ugs : dget S "update_global_step" = Some (update_global_step c).
Hypothesis S_uls : dget S "update_local_step" = Some (update_local_step c).
Hypothesis S_um : dget S "update_model" = Some update_model.

Definition shaped (xs : pos_t) : Prop := length xs = c_n_chains c /\ forall x, In x xs -> length x = c_n_dims c.

Hypothesis Hpre : forall ph e m mg tr pr loss ost lc gc k xs k' xs' w', shaped xs ->
  run_order S pre k xs d (bworld c rx (hx e) m mg ph tr pr loss ost lc gc) = (Ok (k', xs'), w') ->
  exists e', before ph e k xs e' k' xs' /\ shaped xs' /\
    w' = bworld c rx (hx e') m mg ph tr pr loss ost lc gc.

Lemma local_shaped k xs out xs' : shaped xs -> local_run c d k xs out xs' -> (forall x, In x xs' -> length x = c_n_dims c) -> shaped xs'.
Proof. intros [A _] (_ & B & _) C. split; auto; lia. Qed.
Lemma global_shaped m k xs out xs' : shaped xs -> global_run c d m k xs out xs' -> (forall x, In x xs' -> length x = c_n_dims c) -> shaped xs'.
Proof. intros [A _] (_ & B & _) C. split; auto; lia. Qed.

Lemma good_train m k data tx st n bs kf m' st' losses : good m ->
  train m k data tx st n bs = Ok (kf, (m', st'), losses) -> good m'.
Proof.
  intros Hm H. destruct Hclass as (_ & Hst & Hsp). unfold train in H.
  assert (Hloop : forall n k cur best bl kf b ls, good (fst cur) -> good (fst best) ->
    best_epoch_loop (fun k' ms => rmap (fun o => (fst (fst o), (snd (fst o), snd o))) (train_epoch (fst ms) k' tx (snd ms) data bs))
      n k cur best bl = Ok (kf, b, ls) -> good (fst b)).
  { clear - Hsp. induction n as [|n IH]; intros k cur best bl kf b ls G1 G2 H; cbn [best_epoch_loop] in H.
    - injection H as _ <- _. auto.
    - destruct (train_epoch (fst cur) (split k 2 1) tx (snd cur) data bs) as [[[v m1] st1]|] eqn:E; [|discriminate].
      cbn [rmap rbind fst snd] in H.
      destruct (best_epoch_loop _ n _ _ _ _) as [[[kf' b'] ls']|] eqn:E2; [|discriminate].
      cbn [rbind] in H. injection H as <- <- <-.
      assert (G3 : good m1).
      { unfold train_epoch in E. destruct (bs =? 0); [discriminate|]. destruct (0 <? length data / bs).
        - injection E as E. revert E. generalize (epoch_batches (split k 2 1) data bs) as bt. generalize big_loss as v0.
          generalize (snd cur) as st0. revert G1. generalize (fst cur) as m0.
          intros m0 G1 st0 v0 bt. revert m0 st0 v0 G1. induction bt as [|x bt IHb]; intros m0 st0 v0 G1 E; cbn [epoch_loop] in E.
          + injection E as _ <- _. auto.
          + destruct (m_step m0 x tx st0) as [[v2 m2] st2] eqn:Es. eapply IHb; [|exact E].
            pose proof (Hsp m0 x tx st0 G1) as Q. rewrite Es in Q. exact Q.
        - injection E as E. pose proof (Hsp (fst cur) data tx (snd cur) G1) as Q. rewrite E in Q. exact Q. }
      eapply IH; [| |exact E2]; cbn [fst]; auto. destruct (v <.? bl); auto. }
  apply (Hloop _ _ _ _ _ _ _ _ (Hst _ _ Hm : good (fst (m_stats m data, st))) (Hm : good (fst (m, st))) H).
Qed.

Lemma training_loop_w e m tr pr loss ost lc gc k xs k' xs' w' slots b0 past size :
  good m -> shaped xs -> fresh_pos b0 ->
  ph_shape c slots tr -> ph_holds c slots b0 tr (chain_history c past) ->
  lc = length past * per_loop c -> lc + per_loop c <= slots ->
  loss_holds size loss past -> length (concat (map lo_losses past)) + c_epochs c <= size ->
  run_order S (pre ++ training_phase) k xs d (bworld c rx (hx e) m m true tr pr loss ost lc gc) = (Ok (k', xs'), w') ->
  exists l e' m' st' tr' loss',
    training_loop (before true) c window d past (mkR k xs m ost e) l (mkR k' xs' m' st' e') /\
    length (lo_losses l) = c_epochs c /\
    good m' /\ shaped xs' /\ ph_shape c slots tr' /\ ph_holds c slots b0 tr' (chain_history c (past ++ [l])) /\
    loss_holds size loss' (past ++ [l]) /\
    w' = bworld c rx (hx e') m' m' true tr' pr loss' st' (lc + per_loop c) (lc + per_loop c).
Proof.
  intros Hgm Hxs Hfr Hsh Hh Hlc Hroom Hlo Hls H. unfold per_loop in Hroom.
  apply run_order_app in H as (k0 & xs0 & w0 & H0 & H). apply Hpre in H0 as (e' & Hb & Hxs0 & ->); [|auto].
  unfold training_phase in H.
  apply (run_order_cons _ _ _ _ _ _ _ _ _ _ _ S_local) in H as (k1 & xs1 & w1 & H1 & H).
  destruct Hxs0 as [Hxs0 Hdim0].
  apply (local_step_w c rx d Hgrad Hnormal HDl HDg Hbs true (hx e') m m tr pr loss ost lc gc k0 xs0 k1 xs1 w1 slots b0 (chain_history c past)) in H1
    as (lout & tr1 & Hlr & Hdim1 & -> & Hsh1 & Hh1 & ->); auto; try lia; try (intros; rewrite history_length; lia).
  pose proof (local_shaped _ _ _ _ (conj Hxs0 Hdim0) Hlr Hdim1) as [Hxs1 _].
  apply (run_order_cons _ _ _ _ _ _ _ _ _ _ _ S_ugs) in H as (k2 & xs2 & w2 & H2 & H).
  rewrite (ugs_w c rx d) in H2. injection H2 as <- <- <-.
  apply (run_order_cons _ _ _ _ _ _ _ _ _ _ _ S_train) in H as (k3 & xs3 & w3 & H3 & H).
  apply (trainer_w c rx d) with (S := slots) in H3 as (ex & m' & st' & losses & loss1 & -> & Htr & Hts & Hup & ->);
    [|exact HC|apply (ps_pos _ _ _ Hsh1)].
  apply (run_order_cons _ _ _ _ _ _ _ _ _ _ _ S_um) in H as (k4 & xs4 & w4 & H4 & H).
  rewrite (umodel_w c rx d) in H4. injection H4 as <- <- <-.
  apply (run_order_cons _ _ _ _ _ _ _ _ _ _ _ S_global) in H as (k5 & xs5 & w5 & H5 & H).
  assert (Hgm' : good m') by (eapply good_train; eauto).
  set (h1 := fun i => chain_history c past i ++ map (pair true) (kept_steps (c_local c) (c_local_th c) (nth i lout []))) in * .
  assert (Hl1 : forall i, length (h1 i) = lc + c_local c / c_local_th c).
  { intros i. unfold h1. rewrite app_length, history_length, map_length, kept_steps_length. lia. }
  apply (global_step_w c rx d HDl HDg Hbs true (hx e') m' m' tr1 pr
     (mkBuffer (b_name loss1) (b_data loss1) (b_cursor loss1 + Z.of_nat (length losses)) (b_cursor_dim loss1)) st'
     (lc + c_local c / c_local_th c) (lc + c_local c / c_local_th c) k3 xs1 k5 xs5 w5 slots b0 h1) in H5
    as (gout & tr2 & Hgr & Hdim2 & -> & Hsh2 & Hh2 & ->); auto; try lia; try (apply Hclass; auto; fail).
  apply (run_order_cons _ _ _ _ _ _ _ _ _ _ _ S_uls) in H as (k6 & xs6 & w6 & H6 & H).
  rewrite (uls_w c rx d) in H6. injection H6 as <- <- <-. cbn [run_order] in H. unfold mret in H. injection H as <- <- <-.
  pose proof (train_losses_length _ _ _ _ _ _ _ _ _ _ Htr) as Hle.
  exists (mkLoop lout losses gout), e', m', st', tr2,
     (mkBuffer (b_name loss1) (b_data loss1) (b_cursor loss1 + Z.of_nat (length losses)) (b_cursor_dim loss1)).
  split; [|split; [|split; [|split; [|split; [|split; [|split]]]]]].
  - exists k0, xs0, xs1, ex, k3. cbn [r_key r_pos r_model r_opt r_ext lo_local lo_losses lo_global].
    split; [exact Hb|]. split; [exact Hlr|]. split; [|split; [exact Htr|split; [exact Hgr|reflexivity]]].
    eapply training_set_ext; [|exact Hts]. rewrite Hxs0, !map_map. apply map_ext_in. intros i Hi. apply in_seq in Hi.
    rewrite (finite_history L c slots b0 tr1 h1 i); auto; [|lia|rewrite Hl1; lia].
    unfold h1. rewrite map_app, map_map. cbn [snd]. f_equal.
  - auto.
  - auto.
  - exact (global_shaped m' k3 xs1 gout xs5 (conj Hxs1 Hdim1) Hgr Hdim2).
  - auto.
  - eapply ph_holds_ext; [|exact Hh2]. intros i Hi. rewrite history_app. reflexivity.
  - refine (loss_step size loss past (mkLoop lout losses gout) loss1 Hlo _ Hup). cbn [lo_losses]. lia.
  - unfold per_loop. rewrite !Nat.add_assoc. reflexivity.
Qed.

Lemma production_loop_w e m tr pr loss ost lc gc k xs k' xs' w' slots b0 past :
  good m -> shaped xs ->
  ph_shape c slots pr -> ph_holds c slots b0 pr (chain_history c past) ->
  lc = length past * per_loop c -> lc + per_loop c <= slots ->
  run_order S (pre ++ production_phase) k xs d (bworld c rx (hx e) m m false tr pr loss ost lc gc) = (Ok (k', xs'), w') ->
  exists l e' pr',
    production_loop (before false) c d (mkR k xs m ost e) l (mkR k' xs' m ost e') /\
    shaped xs' /\ ph_shape c slots pr' /\ ph_holds c slots b0 pr' (chain_history c (past ++ [l])) /\
    w' = bworld c rx (hx e') m m false tr pr' loss ost (lc + per_loop c) (lc + per_loop c).
Proof.
  intros Hgm Hxs Hsh Hh Hlc Hroom H. unfold per_loop in Hroom.
  apply run_order_app in H as (k0 & xs0 & w0 & H0 & H). apply Hpre in H0 as (e' & Hb & Hxs0 & ->); [|auto].
  unfold production_phase in H.
  apply (run_order_cons _ _ _ _ _ _ _ _ _ _ _ S_local) in H as (k1 & xs1 & w1 & H1 & H).
  destruct Hxs0 as [Hxs0 Hdim0].
  apply (local_step_w c rx d Hgrad Hnormal HDl HDg Hbs false (hx e') m m tr pr loss ost lc gc k0 xs0 k1 xs1 w1 slots b0 (chain_history c past)) in H1
    as (lout & tr1 & Hlr & Hdim1 & -> & Hsh1 & Hh1 & ->); auto; try lia; try (intros; rewrite history_length; lia).
  pose proof (local_shaped _ _ _ _ (conj Hxs0 Hdim0) Hlr Hdim1) as [Hxs1 _].
  apply (run_order_cons _ _ _ _ _ _ _ _ _ _ _ S_ugs) in H as (k2 & xs2 & w2 & H2 & H).
  rewrite (ugs_w c rx d) in H2. injection H2 as <- <- <-.
  apply (run_order_cons _ _ _ _ _ _ _ _ _ _ _ S_global) in H as (k5 & xs5 & w5 & H5 & H).
  set (h1 := fun i => chain_history c past i ++ map (pair true) (kept_steps (c_local c) (c_local_th c) (nth i lout []))) in * .
  assert (Hl1 : forall i, length (h1 i) = lc + c_local c / c_local_th c).
  { intros i. unfold h1. rewrite app_length, history_length, map_length, kept_steps_length. lia. }
  apply (global_step_w c rx d HDl HDg Hbs false (hx e') m m tr tr1 loss ost
     (lc + c_local c / c_local_th c) (lc + c_local c / c_local_th c) (split k0 2 0) xs1 k5 xs5 w5 slots b0 h1) in H5
    as (gout & tr2 & Hgr & Hdim2 & -> & Hsh2 & Hh2 & ->); auto; try lia; try (apply Hclass; auto; fail).
  apply (run_order_cons _ _ _ _ _ _ _ _ _ _ _ S_uls) in H as (k6 & xs6 & w6 & H6 & H).
  rewrite (uls_w c rx d) in H6. injection H6 as <- <- <-. cbn [run_order] in H. unfold mret in H. injection H as <- <- <-.
  exists (mkLoop lout [] gout), e', tr2.
  split; [|split; [|split; [|split]]].
  - exists k0, xs0, xs1. cbn [r_key r_pos r_model r_opt r_ext lo_local lo_losses lo_global]. auto 10.
  - exact (global_shaped m (split k0 2 0) xs1 gout xs5 (conj Hxs1 Hdim1) Hgr Hdim2).
  - auto.
  - eapply ph_holds_ext; [|exact Hh2]. intros i Hi. rewrite history_app. reflexivity.
  - unfold per_loop. rewrite !Nat.add_assoc. reflexivity.
Qed.

(* ------------------------------------------------------------------ runs *)
Lemma losses_length_le (ls : list loop) n : (forall l, In l ls -> length (lo_losses l) = n) ->
  length (concat (map lo_losses ls)) = length ls * n.
Proof.
  intros H. rewrite (concat_length_eq _ n); [now rewrite map_length|].
  intros l Hl. apply in_map_iff in Hl as (x & <- & Hx). auto.
Qed.

Lemma training_run_w n : forall e m tr pr loss ost k xs k' xs' w' slots size,
  good m -> shaped xs -> fresh_pos tr -> ph_shape c slots tr ->
  n * per_loop c <= slots -> loss_holds size loss [] -> n * c_epochs c <= size ->
  run_order S (repeat_phase n (pre ++ training_phase)) k xs d (bworld c rx (hx e) m m true tr pr loss ost 0 0) = (Ok (k', xs'), w') ->
  exists ls e' m' st' tr' loss',
    length ls = n /\ training_run (before true) c window d (mkR k xs m ost e) ls (mkR k' xs' m' st' e') /\
    (forall l, In l ls -> length (lo_losses l) = c_epochs c) /\
    good m' /\ shaped xs' /\ ph_shape c slots tr' /\ ph_holds c slots tr tr' (chain_history c ls) /\
    loss_holds size loss' ls /\
    w' = bworld c rx (hx e') m' m' true tr' pr loss' st' (n * per_loop c) (n * per_loop c).
Proof.
  induction n as [|n IH]; intros e m tr pr loss ost k xs k' xs' w' slots size Hgm Hxs Hfr Hsh Hroom Hlo Hls H.
  - cbn in H. unfold mret in H. injection H as <- <- <-. exists [], e, m, ost, tr, loss.
    split; [auto|]. split; [constructor|]. split; [intros l []|]. split; [auto|]. split; [auto|]. split; [auto|]. split; [|split; auto].
    intros i s Hi. unfold chain_history. cbn. destruct s; cbn; auto.
  - rewrite repeat_phase_snoc in H. apply run_order_app in H as (k1 & xs1 & w1 & H1 & H).
    apply IH with (slots := slots) (size := size) in H1 as (ls & e1 & m1 & st1 & tr1 & loss1 & Hn & Hrun & Hll & Hg1 & Hx1 & Hs1 & Hh1 & Hlo1 & ->); auto; try lia.
    apply training_loop_w with (slots := slots) (b0 := tr) (past := ls) (size := size) in H
      as (l & e2 & m2 & st2 & tr2 & loss2 & Hloop & Hlen & Hg2 & Hx2 & Hs2 & Hh2 & Hlo2 & ->); auto; try (rewrite Hn; lia); try lia.
    + exists (ls ++ [l]), e2, m2, st2, tr2, loss2. split; [rewrite app_length; cbn; lia|].
      split; [econstructor; eauto|]. split. { intros l' Hl. apply in_app_iff in Hl as [Hl|[<-|[]]]; auto. }
      split; [auto|]. split; [auto|]. split; [auto|]. split; [auto|]. split; [auto|].
      replace (Datatypes.S n * per_loop c) with (n * per_loop c + per_loop c) by lia. reflexivity.
    + rewrite (losses_length_le ls (c_epochs c)) by auto. lia.
Qed.

Lemma production_run_w n : forall e m tr pr loss ost k xs k' xs' w' slots,
  good m -> shaped xs -> ph_shape c slots pr -> n * per_loop c <= slots ->
  run_order S (repeat_phase n (pre ++ production_phase)) k xs d (bworld c rx (hx e) m m false tr pr loss ost 0 0) = (Ok (k', xs'), w') ->
  exists ls e' pr',
    length ls = n /\ production_run (before false) c d (mkR k xs m ost e) ls (mkR k' xs' m ost e') /\
    shaped xs' /\ ph_shape c slots pr' /\ ph_holds c slots pr pr' (chain_history c ls) /\
    w' = bworld c rx (hx e') m m false tr pr' loss ost (n * per_loop c) (n * per_loop c).
Proof.
  induction n as [|n IH]; intros e m tr pr loss ost k xs k' xs' w' slots Hgm Hxs Hsh Hroom H.
  - cbn in H. unfold mret in H. injection H as <- <- <-. exists [], e, pr.
    split; [auto|]. split; [constructor|]. split; [auto|]. split; [auto|]. split; auto.
    intros i s Hi. unfold chain_history. cbn. destruct s; cbn; auto.
  - rewrite repeat_phase_snoc in H. apply run_order_app in H as (k1 & xs1 & w1 & H1 & H).
    apply IH with (slots := slots) in H1 as (ls & e1 & pr1 & Hn & Hrun & Hx1 & Hs1 & Hh1 & ->); auto; try lia.
    apply production_loop_w with (slots := slots) (b0 := pr) (past := ls) in H
      as (l & e2 & pr2 & Hloop & Hx2 & Hs2 & Hh2 & ->); auto; try (rewrite Hn; lia); try lia.
    exists (ls ++ [l]), e2, pr2. split; [rewrite app_length; cbn; lia|].
    split; [econstructor; eauto|]. split; [auto|]. split; [auto|]. split; [auto|].
    replace (Datatypes.S n * per_loop c) with (n * per_loop c + per_loop c) by lia. reflexivity.
Qed.
End Loops.
End Bnd.
