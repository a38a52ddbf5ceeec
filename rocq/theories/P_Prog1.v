(** Progress of the bundle's strategies. *)
From Verif Require Import Prelude Num M_Core M_Kernels M_Strategies M_PT M_Bundle P_Lists P_Buffer
  Spec Spec_Core P_Core Spec_Sampler P_Sampler Spec_Steps P_Steps Spec_Kernels P_Kernels P_StepsK P_Steps2 Spec_Train P_Train P_Train2
  P_Kernels2 P_PT3 P_PT5 P_Tree13 Spec_Bundle P_Bundle P_Bundle2 P_Bundle3 Spec_Prog.

Section Prog.
Context {N : Num} {G : Rng} {NF : NFOps}.

Lemma order_app_ok S a : forall b k xs d w k1 xs1 w1,
  run_order S a k xs d w = (Ok (k1, xs1), w1) -> run_order S (a ++ b) k xs d w = run_order S b k1 xs1 d w1.
Proof.
  induction a as [|n a IH]; intros b k xs d w k1 xs1 w1 H; cbn [app run_order] in * .
  - unfold mret in H. injection H as <- <- <-. reflexivity.
  - destruct (dget S n) as [st|]; [|discriminate H]. apply mbind_Ok in H as ([k2 xs2] & w2 & H1 & H).
    unfold mbind. rewrite H1. eapply IH; eauto.
Qed.
Lemma order_app_raise S a : forall b k xs d w e w1,
  run_order S a k xs d w = (Raise e, w1) -> run_order S (a ++ b) k xs d w = (Raise e, w1).
Proof.
  induction a as [|n a IH]; intros b k xs d w e w1 H; cbn [app run_order] in * .
  - discriminate H.
  - destruct (dget S n) as [st|]; [|exact H]. unfold mbind in * .
    destruct (st k xs d w) as [[[k2 xs2]|e2] w2]; [eapply IH; eauto|exact H].
Qed.
Lemma order_cons_ok (S : dict strategy) n (st : strategy) rest k xs d w k1 xs1 w1 : dget S n = Some st -> st k xs d w = (Ok (k1, xs1), w1) ->
  run_order S (n :: rest) k xs d w = run_order S rest k1 xs1 d w1.
Proof. intros E H. cbn [run_order]. rewrite E. unfold mbind. rewrite H. reflexivity. Qed.
Lemma order_cons_raise (S : dict strategy) n (st : strategy) rest k xs d w e w1 : dget S n = Some st -> st k xs d w = (Raise e, w1) ->
  run_order S (n :: rest) k xs d w = (Raise e, w1).
Proof. intros E H. cbn [run_order]. rewrite E. unfold mbind. rewrite H. reflexivity. Qed.

Lemma scan_total (kern : skernel) f d dim : kernel_shape kern f d dim ->
  (forall q x lp, length x = dim -> exists o, kern q x lp f d = Ok o) ->
  forall n k x lp, length x = dim -> exists co, serial_scan kern f d n k x lp = Ok co.
Proof.
  intros Hs Ht. induction n as [|n IH]; intros k x lp Hx; cbn [serial_scan]; [eauto|].
  destruct (Ht (split k 2 1) x lp Hx) as [[[y l] a] E]. pose proof (Hs _ _ _ _ Hx E) as Hy. rewrite E. cbn [rbind].
  destruct (IH (split k 2 0) y l Hy) as [co ->]. cbn. eauto.
Qed.
Lemma mala_total ss f d dim : normal_shape -> grad_shape f d dim -> step_accepted ss dim ->
  forall q x lp, length x = dim -> exists o, mala_kernel ss q x lp f d = Ok o.
Proof. intros Hn Hg Hs q x lp <-. apply mala_ok; auto. Qed.
Lemma group_total p f d n k x : 0 < nfp_bs p -> exists co, group_sample p f d n k x = Ok co.
Proof.
  intros Hb. unfold group_sample, nfp_kernel. rewrite with_n_steps_get.
  destruct (proj2 (C23_raises_proof p (split k 2 1) (Z.to_nat (Z.of_nat n))) (or_introl Hb)) as [[props nfs] ->]. cbn. eauto.
Qed.

Lemma choose_outs (samp : nat -> key -> vec -> res chain_out) n (ks : nat -> key) : forall (xs : pos_t) dim good,
  sampler_shape samp n dim good -> (forall x, In x xs -> good x) ->
  (forall q x, good x -> exists co, samp n q x = Ok co) ->
  exists out, length out = length xs /\ (forall c, c < length xs -> samp n (ks c) (nth c xs []) = Ok (nth c out [])) /\
    rectangular n dim out.
Proof.
  intros xs dim good Hsh Hg Ht.
  assert (Q : forall m, m <= length xs -> exists out, length out = m /\ (forall c, c < m -> samp n (ks c) (nth c xs []) = Ok (nth c out []))).
  { induction m as [|m IH]; intros Hm; [exists []; split; [auto|intros; lia]|].
    destruct IH as (out & L & H); [lia|]. destruct (Ht (ks m) (nth m xs [])) as [co E]; [apply Hg, nth_In; lia|].
    exists (out ++ [co]). split; [rewrite app_length; cbn; lia|]. intros c Hc.
    destruct (Nat.eq_dec c m) as [->|Hne]; [rewrite app_nth2, L, Nat.sub_diag by lia; exact E|].
    rewrite app_nth1 by lia. apply H. lia. }
  destruct (Q (length xs) (le_n _)) as (out & L & H). exists out. split; [auto|]. split; [auto|].
  intros co Hco. destruct (In_nth _ _ [] Hco) as (c & Hc & <-). rewrite L in Hc.
  destruct (Hsh _ _ _ (Hg _ (nth_In _ _ Hc)) (H c Hc)) as [A B]. split; [auto|]. intros o Ho. apply B; auto.
Qed.

Section Steps.
Variables (c : config) (rx : dict resource) (d : datad).
Hypothesis Hgrad : grad_shape (c_logpdf c) d (c_n_dims c).
Hypothesis Hnormal : normal_shape.
Hypothesis HDl : c_local c mod c_local_th c = 0.
Hypothesis HDg : c_global c mod c_global_th c = 0.
Hypothesis Hbs : 0 < c_nf_bs c.
Hypothesis HTl : 0 < c_local_th c.
Hypothesis HTg : 0 < c_global_th c.
Hypothesis HO : counts_ok c.

Lemma local_progress (ph : bool) hx m mg tr pr loss ost lc gc k xs slots :
  ph_shape c slots (if ph then tr else pr) -> c_local c / c_local_th c <= slots ->
  length xs = c_n_chains c -> (forall x, In x xs -> length x = c_n_dims c) ->
  exists xs' w', take_serial_steps (local_ts c) k xs d (bworld c rx hx m mg ph tr pr loss ost lc gc) = (Ok (split k 2 0, xs'), w').
Proof.
  intros Hsh Hroom Hxs Hdim. set (b := if ph then tr else pr) in * .
  assert (Hsetup : setup (bworld c rx hx m mg ph tr pr loss ost lc gc) (local_ts c)
     (if ph then L_pos_tr else L_pos_pr) (q_pos b) (if ph then L_lp_tr else L_lp_pr) (q_lp b)
     (if ph then L_la_tr else L_la_pr) (q_la b) (RSer (mala_kernel (c_step c))) (RLog (bundle_logpdf c)) lc).
  { destruct Hsh as [_ _ _ _ (X1 & X2 & X3 & X4)]. unfold b in * .
    destruct ph; (constructor; try (eexists L_state, _, _; repeat split; reflexivity); auto; repeat split; auto; discriminate). }
  assert (HSS : sampler_shape (samp_serial (RSer (mala_kernel (c_step c))) (RLog (bundle_logpdf c)) d)
     (ts_n_steps (local_ts c)) (c_n_dims c) (fun x => length x = c_n_dims c)).
  { eapply C08_serial_shape_proof; [(left; eexists; split; reflexivity) + (right; eexists; split; reflexivity)| |auto|exact Hgrad]. right; left; eauto. }
  destruct (choose_outs _ _ (fun i => split (split k 2 1) (length xs) i) xs _ _ HSS Hdim) as (out & L & Ho & HR).
  { intros q x Hx. cbn [samp_serial as_lpdf l_pdf bundle_logpdf]. unfold serial_sample.
    apply (scan_total _ _ _ (c_n_dims c)); auto; [apply mala_shape; auto|]. apply mala_total; auto. apply HO. }
  destruct Hsh as [X1 X2 X3 X4 _].
  eapply take_steps_total; eauto.
  - intros ->. cbn in Hxs. destruct HO. lia.
  - apply HO.
  - cbn [local_ts ts_n_steps ts_thinning]. rewrite cdiv_exact by (auto; lia).
    split; [|split]; rewrite ?X1, ?X2, ?X3; repeat eexists; lia.
Qed.
Lemma global_progress (ph : bool) hx m mg tr pr loss ost lc gc k xs slots :
  samples_shape mg (c_n_dims c) ->
  ph_shape c slots (if ph then tr else pr) -> c_global c / c_global_th c <= slots ->
  length xs = c_n_chains c -> (forall x, In x xs -> length x = c_n_dims c) ->
  exists xs' w', take_group_steps (global_ts c) k xs d (bworld c rx hx m mg ph tr pr loss ost lc gc) = (Ok (split k 2 0, xs'), w').
Proof.
  intros Hms Hsh Hroom Hxs Hdim. set (b := if ph then tr else pr) in * .
  assert (Hsetup : setup (bworld c rx hx m mg ph tr pr loss ost lc gc) (global_ts c)
     (if ph then L_pos_tr else L_pos_pr) (q_pos b) (if ph then L_lp_tr else L_lp_pr) (q_lp b)
     (if ph then L_ga_tr else L_ga_pr) (q_ga b) (RNFP (mkNfp mg (c_nf_bs c))) (RLog (bundle_logpdf c)) gc).
  { destruct Hsh as [_ _ _ _ (X1 & X2 & X3 & X4)]. unfold b in * .
    destruct ph; (constructor; try (eexists L_state, _, _; repeat split; reflexivity); auto; repeat split; auto; discriminate). }
  assert (HSS : sampler_shape (samp_group (RNFP (mkNfp mg (c_nf_bs c))) (RLog (bundle_logpdf c)) d)
     (ts_n_steps (global_ts c)) (c_n_dims c) (fun x => length x = c_n_dims c)).
  { eapply samp_group_shape; [(left; eexists; split; reflexivity) + (right; eexists; split; reflexivity)|exact Hms|exact Hbs]. }
  destruct (choose_outs _ _ (fun i => split (split k 2 1) (length xs) i) xs _ _ HSS Hdim) as (out & L & Ho & HR).
  { intros q x Hx. cbn [samp_group as_lpdf l_pdf bundle_logpdf]. apply group_total. exact Hbs. }
  destruct Hsh as [X1 X2 X3 X4 _].
  eapply take_steps_total; eauto.
  - intros ->. cbn in Hxs. destruct HO. lia.
  - apply HO.
  - cbn [global_ts ts_n_steps ts_thinning]. rewrite cdiv_exact by (auto; lia).
    split; [|split]; rewrite ?X1, ?X2, ?X4; repeat eexists; lia.
Qed.

Lemma pool_total (C w : nat) (rows : list vec) : 0 < C -> length rows mod C = 0 -> rows <> [] ->
  concat (map (recent w) (reshape_rows C (length rows / C) rows)) <> [].
Proof.
  intros HC Hm Hne He.
  assert (Hn : length rows = C * (length rows / C)) by (apply Nat.div_exact; lia).
  set (n := length rows / C) in * .
  assert (Hn0 : n <> 0) by (intros Z; rewrite Z in Hn; destruct rows; [auto|cbn in Hn; lia]).
  pose proof (Forall_reshape_rows C n rows Hn) as HF. rewrite Forall_forall in HF.
  pose proof (reshape_rows_length C n rows) as HL.
  destruct (reshape_rows C n rows) as [|b bl]; [cbn in HL; lia|].
  cbn [map concat] in He. apply app_eq_nil in He as [He _].
  pose proof (HF b (or_introl eq_refl)) as Hb. unfold recent, last_elements in He.
  destruct (Nat.eqb_spec w 0); apply (f_equal (@length _)) in He; cbn [length] in He; [lia|]. rewrite skipn_length in He. lia.
Qed.

Lemma trainer_outcome ph hx m mg tr pr loss ost lc gc k xs window slots size :
  ashape (b_data (q_pos tr)) = [c_n_chains c; slots; c_n_dims c] ->
  ashape (b_data loss) = [size] -> b_cursor_dim loss = 0 -> c_epochs c <= size ->
  let w := bworld c rx hx m mg ph tr pr loss ost lc gc in
  let total := length (concat (map (filter finite_row)
      (map (fun i => map (brow (q_pos tr) (c_n_dims c) i) (seq 0 slots)) (seq 0 (c_n_chains c))))) in
  (total mod c_n_chains c = 0 /\ (total <> 0 \/ c_max c = 0) /\
     exists k' w', train_model (trainer_tm c window) k xs d w = (Ok (k', xs), w')) \/
  exists e, train_model (trainer_tm c window) k xs d w = (Raise e, w) /\
     ((e = TypeError /\ total mod c_n_chains c <> 0) \/ (e = ValueError /\ total = 0 /\ 0 < c_max c)).
Proof.
  intros Hsh Hls Hlc Hsz w total.
  assert (HC : 0 < c_n_chains c) by apply HO.
  assert (Et : total = length (all_finite_rows (q_pos tr) (c_n_chains c) slots (c_n_dims c))).
  { unfold total, all_finite_rows, finite_rows. rewrite map_map. reflexivity. }
  destruct (C36_refused_proof (trainer_tm c window) k xs d w m L_pos_tr (q_pos tr) L_opt (mkOptimizer (c_tx c) ost) (c_n_chains c) slots (c_n_dims c))
    as [R1 R2]; try reflexivity; try (split; reflexivity); auto.
  destruct (Nat.eq_dec (total mod c_n_chains c) 0) as [Hm|Hm]; [|right; exists TypeError; split; [|left; auto]; apply R1; rewrite Et in Hm; exact Hm].
  destruct (Nat.eq_dec total 0) as [Hz|Hz]; [destruct (Nat.eq_dec (c_max c) 0) as [Hx|Hx]|].
  2: { right. exists ValueError. split; [|right; repeat split; auto; lia]. apply R2; [cbn; lia|].
    intros i s Hi Hs. destruct (finite_row (brow (q_pos tr) (c_n_dims c) i s)) eqn:Ef; [exfalso|reflexivity].
    apply length_zero_iff_nil in Hz.
    assert (In (brow (q_pos tr) (c_n_dims c) i s) []); [|auto]. rewrite <- Hz. apply in_concat.
    exists (filter finite_row (map (brow (q_pos tr) (c_n_dims c) i) (seq 0 slots))). split.
    - rewrite map_map. apply in_map_iff. exists i. split; [reflexivity|]. apply in_seq. lia.
    - apply filter_In. split; [|auto]. apply in_map. apply in_seq. lia. }
  1-2: left; split; [auto|split; [auto|]].
  all: assert (P : exists pool, training_pool (b_data (q_pos tr)) window = Ok pool /\ ((length pool =? 0) && negb (c_max c =? 0) = false)).
  1,3: rewrite (training_pool_spec _ _ _ _ _ Hsh), <- Et, Hm; destruct (Nat.eqb_spec (c_n_chains c) 0); [lia|]; cbn [orb negb Nat.eqb]; eexists; (split; [reflexivity|]).
  1: rewrite Hx; apply andb_false_r.
  1: { apply andb_false_iff. left. apply Nat.eqb_neq. intros Hp. apply length_zero_iff_nil in Hp. rewrite Et in Hp. apply pool_total in Hp; auto.
       - rewrite <- Et. exact Hm. - intros Q. rewrite Q in Et. cbn in Et. lia. }
  all: destruct P as (pool & P1 & P2).
  all: destruct (train_total m (split (split k 2 0) 2 1) (gather [] pool (choice (split k 2 1) (length pool) (c_max c))) (c_tx c) ost (c_epochs c) (c_batch c)) as (kf & m' & st' & losses & T); [apply HO|].
  all: pose proof (train_losses_length _ _ _ _ _ _ _ _ _ _ T) as TL.
  all: destruct (update_written loss (stack1 losses) (b_cursor loss)) as (l2 & U & _);
    [split; [rewrite Hls, Hlc; cbn; lia|split; [rewrite Hls; reflexivity|intros [|j] Hj; cbn in Hj |- *; [rewrite Hls; cbn; lia|lia]]]|].
  all: eexists kf, _; unfold train_model.
  all: do 4 (erewrite mbind_eq by reflexivity; cbv beta iota).
  all: cbn [trainer_tm tm_window tm_max tm_epochs tm_bs tm_loss tm_model tm_opt b_data o_tx o_state].
  all: erewrite mbind_eq; [|unfold mlift; rewrite P1; reflexivity].
  all: erewrite mbind_eq; [|unfold mlift, draw_examples; rewrite P2; reflexivity].
  all: erewrite mbind_eq; [|unfold mlift; rewrite T; reflexivity].
  all: cbv beta iota.
  all: erewrite mbind_eq; [reflexivity|].
  all: change (String.eqb "loss_buffer" "") with false; cbv iota.
  all: erewrite mbind_eq by reflexivity; cbv beta iota.
  all: erewrite mbind_eq; [|unfold buf_update; cbn; rewrite U; reflexivity].
  all: reflexivity.
Qed.
End Steps.
End Prog.
