(** Effects of the bundle's strategies on the bundle's world. *)
From Verif Require Import Prelude Num M_Core M_Kernels M_Strategies M_PT M_Bundle P_Lists P_Buffer
  Spec Spec_Core P_Core Spec_Sampler P_Sampler Spec_Steps P_Steps Spec_Kernels P_Kernels P_StepsK P_Steps2 Spec_Train P_Train P_Train2
  Spec_Bundle P_Bundle.

Section Bnd.
Context {N : Num} {G : Rng} {NF : NFOps}.

(** The four buffers of one phase. *)
Record pbufs := mkPB { q_pos : buffer; q_lp : buffer; q_la : buffer; q_ga : buffer }.

Definition bdict (c : config) (m mg : mdl) : dict resource :=
  [ ("logpdf", RLog (bundle_logpdf c));
    ("positions_training", RObj L_pos_tr);
    ("log_prob_training", RObj L_lp_tr);
    ("local_accs_training", RObj L_la_tr);
    ("global_accs_training", RObj L_ga_tr);
    ("loss_buffer", RObj L_loss);
    ("positions_production", RObj L_pos_pr);
    ("log_prob_production", RObj L_lp_pr);
    ("local_accs_production", RObj L_la_pr);
    ("global_accs_production", RObj L_ga_pr);
    ("local_sampler", RSer (mala_kernel (c_step c)));
    ("global_sampler", RNFP (mkNfp mg (c_nf_bs c)));
    ("model", RModel m);
    ("optimizer", RObj L_opt);
    ("sampler_state", RObj L_state) ]%string.

Definition prod_state : state := state_update init_state prod_keys prod_values.
Definition phase_state (ph : bool) : state := if ph then init_state else prod_state.

Definition bworld (c : config) (rx : dict resource) (hx : list obj) (m mg : mdl) (ph : bool)
  (tr pr : pbufs) (loss : buffer) (ost : optst) (lc gc : nat) : world :=
  mkWorld ([OBuf (q_pos tr); OBuf (q_lp tr); OBuf (q_la tr); OBuf (q_ga tr); OBuf loss;
            OBuf (q_pos pr); OBuf (q_lp pr); OBuf (q_la pr); OBuf (q_ga pr);
            OOpt (mkOptimizer (c_tx c) ost); OState (phase_state ph);
            OCursor (Z.of_nat lc); OCursor (Z.of_nat gc)] ++ hx)
          (bdict c m mg ++ rx).

(** Shapes of a phase's buffers. *)
Record ph_shape (c : config) (slots : nat) (b : pbufs) : Prop := mkPS {
  ps_pos : ashape (b_data (q_pos b)) = [c_n_chains c; slots; c_n_dims c];
  ps_lp : ashape (b_data (q_lp b)) = [c_n_chains c; slots];
  ps_la : ashape (b_data (q_la b)) = [c_n_chains c; slots];
  ps_ga : ashape (b_data (q_ga b)) = [c_n_chains c; slots];
  ps_dims : b_cursor_dim (q_pos b) = 1 /\ b_cursor_dim (q_lp b) = 1 /\ b_cursor_dim (q_la b) = 1 /\
            b_cursor_dim (q_ga b) = 1 }.

(** The buffers hold the history [h]; all other slots are those of [b0]. *)
Definition ph_holds (c : config) (slots : nat) (b0 b : pbufs) (h : nat -> list (bool * (vec * F * bool))) : Prop :=
  forall i s, i < c_n_chains c ->
    match nth_error (h i) s with
    | Some (tag, o) =>
        brow (q_pos b) (c_n_dims c) i s = s_pos o /\ aget (b_data (q_lp b)) [i; s] = s_lp o /\
        aget (b_data (q_la b)) [i; s] = (if tag : bool then b2f (s_acc o) else aget (b_data (q_la b0)) [i; s]) /\
        aget (b_data (q_ga b)) [i; s] = (if tag then aget (b_data (q_ga b0)) [i; s] else b2f (s_acc o))
    | None =>
        (forall j, aget (b_data (q_pos b)) [i; s; j] = aget (b_data (q_pos b0)) [i; s; j]) /\
        aget (b_data (q_lp b)) [i; s] = aget (b_data (q_lp b0)) [i; s] /\
        aget (b_data (q_la b)) [i; s] = aget (b_data (q_la b0)) [i; s] /\
        aget (b_data (q_ga b)) [i; s] = aget (b_data (q_ga b0)) [i; s]
    end.

Lemma kept_steps_length n th co : length (kept_steps n th co) = n / th.
Proof. unfold kept_steps. now rewrite map_length, seq_length. Qed.

Lemma nth_error_kept (tag : bool) n th co j : j < n / th ->
  nth_error (map (pair tag) (kept_steps n th co)) j = Some (tag, nth (j * th) co ([], f0, false)).
Proof.
  intros H. unfold kept_steps. rewrite map_map.
  rewrite (nth_error_nth' _ (tag, ([], f0, false))) by (rewrite map_length, seq_length; auto).
  rewrite (nth_map_seq (fun j => (tag, nth (j * th) co ([], f0, false)))) by auto. reflexivity.
Qed.

Lemma extend_history c slots b0 b h (tag : bool) pos' lp' acc' n th out cur :
  ph_holds c slots b0 b h -> (forall i, i < c_n_chains c -> length (h i) = cur) ->
  0 < th -> n mod th = 0 -> length out = c_n_chains c -> rectangular n (c_n_dims c) out ->
  holds_samples pos' lp' acc' cur n th (c_n_dims c) out ->
  (forall i s j, s < cur \/ cur + cdiv n th <= s ->
     aget (b_data pos') [i; s; j] = aget (b_data (q_pos b)) [i; s; j] /\
     aget (b_data lp') [i; s] = aget (b_data (q_lp b)) [i; s] /\
     aget (b_data acc') [i; s] = aget (b_data (if tag then q_la b else q_ga b)) [i; s]) ->
  ph_holds c slots b0 (if tag then mkPB pos' lp' acc' (q_ga b) else mkPB pos' lp' (q_la b) acc')
    (fun i => h i ++ map (pair tag) (kept_steps n th (nth i out []))).
Proof.
  intros HH Hlen Hth Hd Hlo Hrect Hs Hu i s Hi. specialize (HH i s Hi). specialize (Hlen i Hi).
  assert (Hk : cdiv n th = n / th) by (apply cdiv_exact; auto). rewrite Hk in Hu.
  destruct (Nat.lt_ge_cases s cur) as [Hsc|Hsc].
  - rewrite nth_error_app1 by lia. destruct (Hu i s 0 (or_introl Hsc)) as (_ & U2 & U3).
    assert (U1 : forall j, aget (b_data pos') [i; s; j] = aget (b_data (q_pos b)) [i; s; j]) by (intros j; apply (Hu i s j); auto).
    destruct (nth_error (h i) s) as [[t o]|] eqn:E; [|apply nth_error_None in E; lia].
    destruct HH as (A & B & C & D). rewrite <- A.
    destruct tag; cbn [q_pos q_lp q_la q_ga]; rewrite U2, U3; repeat split; auto; unfold brow; apply map_ext; auto.
  - rewrite nth_error_app2 by lia. rewrite Hlen.
    assert (Hn : nth_error (h i) s = None) by (apply nth_error_None; lia). rewrite Hn in HH. destruct HH as (A & B & C & D).
    destruct (Nat.lt_ge_cases s (cur + n / th)) as [Hs2|Hs2].
    + rewrite nth_error_kept by lia.
      set (o := nth ((s - cur) * th) (nth i out []) ([], f0, false)).
      assert (Hjn : (s - cur) * th < n). { apply cdiv_lt; auto. lia. }
      destruct (Hrect (nth i out [])) as [Hcl Hcd]; [apply nth_In; lia|].
      assert (Ho : nth_error (nth i out []) ((s - cur) * th) = Some o) by (apply nth_error_nth'; lia).
      destruct (Hs i (s - cur) o ltac:(lia) Hjn Ho) as (S1 & S2 & S3).
      replace (cur + (s - cur)) with s in * by lia.
      assert (Lo : length (s_pos o) = c_n_dims c) by (apply Hcd; eapply nth_error_In; eauto).
      assert (P : brow pos' (c_n_dims c) i s = s_pos o).
      { apply (list_eq_nth f0).
        - unfold brow. rewrite map_length, seq_length; auto.
        - intros j Hj. unfold brow in * . rewrite map_length, seq_length in Hj.
          rewrite (nth_map_seq (fun i0 => aget (b_data pos') [i; s; i0])) by auto. auto. }
      destruct tag; cbn [q_pos q_lp q_la q_ga]; auto.
    + assert (E : nth_error (map (pair tag) (kept_steps n th (nth i out []))) (s - cur) = None).
      { apply nth_error_None. rewrite map_length, kept_steps_length. lia. }
      rewrite E. destruct (Hu i s 0 (or_intror Hs2)) as (_ & U2 & U3).
      assert (U1 : forall j, aget (b_data pos') [i; s; j] = aget (b_data (q_pos b)) [i; s; j]) by (intros j; apply (Hu i s j); auto).
      destruct tag; cbn [q_pos q_lp q_la q_ga]; rewrite U2, U3, B; repeat split; auto; intros j; rewrite U1; auto.
Qed.

(* ------------------------------------------------------------------ the steppers *)
Section Steps.
Variables (c : config) (rx : dict resource) (d : datad).
Hypothesis Hgrad : grad_shape (c_logpdf c) d (c_n_dims c).
Hypothesis Hnormal : normal_shape.
Hypothesis HDl : c_local c mod c_local_th c = 0.
Hypothesis HDg : c_global c mod c_global_th c = 0.
Hypothesis Hbs : 0 < c_nf_bs c.

Lemma local_step_w ph hx m mg tr pr loss ost lc gc k xs k' xs' w' slots b0 h :
  let b := if ph : bool then tr else pr in
  ph_shape c slots b -> ph_holds c slots b0 b h -> (forall i, i < c_n_chains c -> length (h i) = lc) ->
  lc + c_local c / c_local_th c <= slots ->
  length xs = c_n_chains c -> (forall x, In x xs -> length x = c_n_dims c) ->
  take_serial_steps (local_ts c) k xs d (bworld c rx hx m mg ph tr pr loss ost lc gc) = (Ok (k', xs'), w') ->
  exists out b',
    local_run c d k xs out xs' /\ (forall x, In x xs' -> length x = c_n_dims c) /\ k' = split k 2 0 /\
    ph_shape c slots b' /\
    ph_holds c slots b0 b' (fun i => h i ++ map (pair true) (kept_steps (c_local c) (c_local_th c) (nth i out []))) /\
    w' = bworld c rx hx m mg ph (if ph then b' else tr) (if ph then pr else b') loss ost
           (lc + c_local c / c_local_th c) gc.
Proof.
  intros b Hsh Hh Hlen Hroom Hxs Hdim H.
  assert (Hsetup : setup (bworld c rx hx m mg ph tr pr loss ost lc gc) (local_ts c)
     (if ph then L_pos_tr else L_pos_pr) (q_pos b) (if ph then L_lp_tr else L_lp_pr) (q_lp b)
     (if ph then L_la_tr else L_la_pr) (q_la b) (RSer (mala_kernel (c_step c))) (RLog (bundle_logpdf c)) lc).
  { destruct Hsh as [_ _ _ _ (X1 & X2 & X3 & X4)]. unfold b in * .
    destruct ph; (constructor; try (eexists L_state, _, _; repeat split; reflexivity); auto; repeat split; auto; discriminate). }
  assert (HSS : sampler_shape (samp_serial (RSer (mala_kernel (c_step c))) (RLog (bundle_logpdf c)) d)
     (ts_n_steps (local_ts c)) (c_n_dims c) (fun x => length x = c_n_dims c)).
  { eapply C08_serial_shape_proof; [(left; eexists; split; reflexivity) + (right; eexists; split; reflexivity)| |auto|exact Hgrad]. right; left; eauto. }
  assert (Rm : forall l, nth 1 l 0 = slots -> lc + cdiv (c_local c) (c_local_th c) <= nth 1 l 0 \/ c_local_th c = 0).
  { intros l El. destruct (Nat.eq_dec (c_local_th c) 0) as [|Hne]; auto. left. rewrite El, cdiv_exact; auto; lia. }
  destruct (Nat.eq_dec (c_local_th c) 0) as [Eth|Hth].
  { exfalso. apply take_steps_success in H as (?&?&?&?&?&?&?&?&?&?&_&_&A&_). cbn in A. lia. }
  assert (Hk : cdiv (c_local c) (c_local_th c) = c_local c / c_local_th c) by (apply cdiv_exact; auto; lia).
  destruct Hsh as [X1 X2 X3 X4 (X5 & X6 & X7 & X8)].
  destruct (take_steps_world samp_serial (local_ts c) k xs d _ k' xs' w' _ _ _ _ _ _ _ _ _ _ _ Hsetup HSS Hdim) as
    (out & pb' & lb' & ab' & A1 & A2 & A3 & S1 & S2 & S3 & A5 & A6 & A7 & A8 & A9 & A10 & A11 & Hw).
  1-3: unfold room; cbn [local_ts ts_n_steps ts_thinning]; rewrite Hk, ?X1, ?X2, ?X3; cbn [nth]; auto.
  { exact H. }
  cbn [local_ts ts_n_steps ts_thinning ts_cur] in * .
  exists out, (mkPB pb' lb' ab' (q_ga b)). split; [|split; [exact A9|split; [exact A11|split; [|split]]]].
  - unfold local_run, chains_run. split; [auto|]. split; [auto|]. intros i Hi. destruct (A8 i Hi) as [_ L].
    split; [apply (A2 i Hi)|]. split; [|exact L]. apply A3, nth_In. rewrite A1; auto.
  - destruct S1 as (P1&P2&P3&P4), S2 as (P5&P6&P7&P8), S3 as (P9&P10&P11&P12).
    constructor; cbn [q_pos q_lp q_la q_ga]; try congruence. repeat split; congruence.
  - refine (extend_history c slots b0 b h true pb' lb' ab' (c_local c) (c_local_th c) out lc Hh Hlen A10 HDl _ A3 A5 _).
    + congruence.
    + intros i s j Hs. apply A6; auto.
  - rewrite Hw. unfold b. destruct ph; unfold bworld, hset; cbn; rewrite Nat2Z.inj_add; reflexivity.
Qed.

Lemma global_step_w ph hx m mg tr pr loss ost lc gc k xs k' xs' w' slots b0 h :
  let b := if ph : bool then tr else pr in
  samples_shape mg (c_n_dims c) ->
  ph_shape c slots b -> ph_holds c slots b0 b h -> (forall i, i < c_n_chains c -> length (h i) = gc) ->
  gc + c_global c / c_global_th c <= slots ->
  length xs = c_n_chains c -> (forall x, In x xs -> length x = c_n_dims c) ->
  take_group_steps (global_ts c) k xs d (bworld c rx hx m mg ph tr pr loss ost lc gc) = (Ok (k', xs'), w') ->
  exists out b',
    global_run c d mg k xs out xs' /\ (forall x, In x xs' -> length x = c_n_dims c) /\ k' = split k 2 0 /\
    ph_shape c slots b' /\
    ph_holds c slots b0 b' (fun i => h i ++ map (pair false) (kept_steps (c_global c) (c_global_th c) (nth i out []))) /\
    w' = bworld c rx hx m mg ph (if ph then b' else tr) (if ph then pr else b') loss ost
           lc (gc + c_global c / c_global_th c).
Proof.
  intros b Hms Hsh Hh Hlen Hroom Hxs Hdim H.
  assert (Hsetup : setup (bworld c rx hx m mg ph tr pr loss ost lc gc) (global_ts c)
     (if ph then L_pos_tr else L_pos_pr) (q_pos b) (if ph then L_lp_tr else L_lp_pr) (q_lp b)
     (if ph then L_ga_tr else L_ga_pr) (q_ga b) (RNFP (mkNfp mg (c_nf_bs c))) (RLog (bundle_logpdf c)) gc).
  { destruct Hsh as [_ _ _ _ (X1 & X2 & X3 & X4)]. unfold b in * .
    destruct ph; (constructor; try (eexists L_state, _, _; repeat split; reflexivity); auto; repeat split; auto; discriminate). }
  assert (HSS : sampler_shape (samp_group (RNFP (mkNfp mg (c_nf_bs c))) (RLog (bundle_logpdf c)) d)
     (ts_n_steps (global_ts c)) (c_n_dims c) (fun x => length x = c_n_dims c)).
  { eapply samp_group_shape; [(left; eexists; split; reflexivity) + (right; eexists; split; reflexivity)|exact Hms|exact Hbs]. }
  destruct (Nat.eq_dec (c_global_th c) 0) as [Eth|Hth].
  { exfalso. apply take_steps_success in H as (?&?&?&?&?&?&?&?&?&?&_&_&A&_). cbn in A. lia. }
  assert (Hk : cdiv (c_global c) (c_global_th c) = c_global c / c_global_th c) by (apply cdiv_exact; auto; lia).
  destruct Hsh as [X1 X2 X3 X4 (X5 & X6 & X7 & X8)].
  destruct (take_steps_world samp_group (global_ts c) k xs d _ k' xs' w' _ _ _ _ _ _ _ _ _ _ _ Hsetup HSS Hdim) as
    (out & pb' & lb' & ab' & A1 & A2 & A3 & S1 & S2 & S3 & A5 & A6 & A7 & A8 & A9 & A10 & A11 & Hw).
  1-3: unfold room; cbn [global_ts ts_n_steps ts_thinning]; rewrite Hk, ?X1, ?X2, ?X4; cbn [nth]; auto.
  { exact H. }
  cbn [global_ts ts_n_steps ts_thinning ts_cur] in * .
  exists out, (mkPB pb' lb' (q_la b) ab'). split; [|split; [exact A9|split; [exact A11|split; [|split]]]].
  - unfold global_run, chains_run. split; [auto|]. split; [auto|]. intros i Hi. destruct (A8 i Hi) as [_ L].
    split; [apply (A2 i Hi)|]. split; [|exact L]. apply A3, nth_In. rewrite A1; auto.
  - destruct S1 as (P1&P2&P3&P4), S2 as (P5&P6&P7&P8), S3 as (P9&P10&P11&P12).
    constructor; cbn [q_pos q_lp q_la q_ga]; try congruence. repeat split; congruence.
  - refine (extend_history c slots b0 b h false pb' lb' ab' (c_global c) (c_global_th c) out gc Hh Hlen A10 HDg _ A3 A5 _).
    + congruence.
    + intros i s j Hs. apply A6; auto.
  - rewrite Hw. unfold b. destruct ph; unfold bworld, hset; cbn; rewrite Nat2Z.inj_add; reflexivity.
Qed.

(* ------------------------------------------------------------------ the small strategies *)
Lemma ugs_w ph hx m mg tr pr loss ost lc gc k xs :
  update_global_step c k xs d (bworld c rx hx m mg ph tr pr loss ost lc gc) =
  (Ok (k, xs), bworld c rx hx m mg ph tr pr loss ost lc lc).
Proof. reflexivity. Qed.
Lemma uls_w ph hx m mg tr pr loss ost lc gc k xs :
  update_local_step c k xs d (bworld c rx hx m mg ph tr pr loss ost lc gc) =
  (Ok (k, xs), bworld c rx hx m mg ph tr pr loss ost gc gc).
Proof. reflexivity. Qed.
Lemma reset_w ph hx m mg tr pr loss ost lc gc k xs :
  reset_steppers c k xs d (bworld c rx hx m mg ph tr pr loss ost lc gc) =
  (Ok (k, xs), bworld c rx hx m mg ph tr pr loss ost 0 0).
Proof. reflexivity. Qed.
Lemma umodel_w ph hx m mg tr pr loss ost lc gc k xs :
  update_model k xs d (bworld c rx hx m mg ph tr pr loss ost lc gc) =
  (Ok (k, xs), bworld c rx hx m m ph tr pr loss ost lc gc).
Proof. reflexivity. Qed.
Lemma ustate_w ph hx m mg tr pr loss ost lc gc k xs :
  update_state "sampler_state" prod_keys prod_values k xs d (bworld c rx hx m mg ph tr pr loss ost lc gc) =
  (Ok (k, xs), bworld c rx hx m mg false tr pr loss ost lc gc).
Proof. destruct ph; reflexivity. Qed.

(* ------------------------------------------------------------------ the trainer *)
Lemma trainer_w ph hx m mg tr pr loss ost lc gc k xs window k' xs' w' S : choice_law ->
  ashape (b_data (q_pos tr)) = [c_n_chains c; S; c_n_dims c] ->
  train_model (trainer_tm c window) k xs d (bworld c rx hx m mg ph tr pr loss ost lc gc) = (Ok (k', xs'), w') ->
  exists ex m' st' losses loss1,
    xs' = xs /\
    train m (split (split k 2 0) 2 1) ex (c_tx c) ost (c_epochs c) (c_batch c) = Ok (k', (m', st'), losses) /\
    training_set window (c_max c) (split k 2 1)
      (map (fun i => map (brow (q_pos tr) (c_n_dims c) i) (seq 0 S)) (seq 0 (c_n_chains c))) ex /\
    update_buffer loss (stack1 losses) (b_cursor loss) = Ok loss1 /\
    w' = bworld c rx hx m' mg ph tr pr
           (mkBuffer (b_name loss1) (b_data loss1) (b_cursor loss1 + Z.of_nat (length losses)) (b_cursor_dim loss1))
           st' lc gc.
Proof.
  intros HC Hsh H.
  apply train_model_inv in H as (m0 & dl & db & ol & opt & pool & ex & m' & st' & losses & Hm & Hd & Ho &
    Hp & He & Ht & Exs & w1 & d1 & Hw & Hloss).
  cbn [trainer_tm tm_model tm_data tm_opt tm_loss tm_epochs tm_bs tm_max tm_window] in * .
  change (Some (RModel m) = Some (RModel m0)) in Hm. injection Hm as <-.
  destruct Hd as [Hd1 Hd2]. change (Some (@RObj N G NF L_pos_tr) = Some (RObj dl)) in Hd1. injection Hd1 as <-.
  change (Some (OBuf (q_pos tr)) = Some (OBuf db)) in Hd2. injection Hd2 as <-.
  destruct Ho as [Ho1 Ho2]. change (Some (@RObj N G NF L_opt) = Some (RObj ol)) in Ho1. injection Ho1 as <-.
  change (Some (OOpt (mkOptimizer (c_tx c) ost)) = Some (OOpt opt)) in Ho2. injection Ho2 as <-.
  cbn [o_tx o_state] in * .
  destruct Hloss as [(E & _)|(_ & ll & lb & lb1 & [Hl1 Hl2] & Hu & Hw1 & Hd1)]; [discriminate|].
  change (Some (@RObj N G NF L_loss) = Some (RObj ll)) in Hl1. injection Hl1 as <-.
  change (Some (OBuf loss) = Some (OBuf lb)) in Hl2. injection Hl2 as <-.
  exists ex, m', st', losses, lb1. split; [exact Exs|]. split; [exact Ht|]. split; [|split; [exact Hu|]].
  - destruct (draw_examples_spec _ _ _ _ HC He) as (Hex & Hl & Hin).
    rewrite (training_pool_spec _ _ _ _ _ Hsh) in Hp.
    set (C := c_n_chains c) in * . set (D := c_n_dims c) in * .
    destruct ((C =? 0) || negb (length (all_finite_rows (q_pos tr) C S D) mod C =? 0)) eqn:E; [discriminate|].
    injection Hp as Hp. apply orb_false_iff in E as [E1 E2]. apply Nat.eqb_neq in E1. apply negb_false_iff, Nat.eqb_eq in E2.
    set (n := length (all_finite_rows (q_pos tr) C S D) / C) in * .
    assert (Hn : length (all_finite_rows (q_pos tr) C S D) = C * n) by (apply Nat.div_exact; auto).
    exists (reshape_rows C n (all_finite_rows (q_pos tr) C S D)), n.
    split; [|split; [|split; [|split]]].
    + rewrite concat_reshape_rows by auto. rewrite map_map. reflexivity.
    + rewrite reshape_rows_length, map_length, seq_length. reflexivity.
    + pose proof (Forall_reshape_rows C n _ Hn) as HF. rewrite Forall_forall in HF. auto.
    + rewrite Hp. exact Hex.
    + split; [exact Hl|]. rewrite Hp. exact Hin.
  - rewrite Hw, Hw1, Hd1. reflexivity.
Qed.
End Steps.

Lemma training_set_ext window max k hist hist' ex :
  map (filter finite_row) hist = map (filter finite_row) hist' ->
  training_set window max k hist ex -> training_set window max k hist' ex.
Proof.
  intros E (blocks & n & A & B & C & D). exists blocks, n. rewrite <- E. split; auto. split; auto.
  rewrite B. apply (f_equal (@length _)) in E. rewrite !map_length in E. exact E.
Qed.

End Bnd.
