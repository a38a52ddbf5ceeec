(** Two runs of a bundle with the same settings: common loops are the same. *)
From Verif Require Import Prelude Num M_Core M_Kernels M_Strategies M_PT M_Bundle P_Lists P_Buffer
  Spec Spec_Core P_Core Spec_Steps Spec_Kernels P_Kernels Spec_Train P_Train Spec_PT P_PT P_PT2 P_PT3 P_PT4 Spec_Bundle P_Bundle P_Bundle2 P_Bundle3 P_Bundle4 P_Bundle5 P_Bundle6 Spec_Ext.
Open Scope nat_scope.

Section Ext.
Context {N : Num} {G : Rng} {NF : NFOps}.

Lemma chains_run_det s1 s2 n th k xs o1 o2 y1 y2 : (forall k x, s1 n k x = s2 n k x) ->
  chains_run s1 n th k xs o1 y1 -> chains_run s2 n th k xs o2 y2 -> o1 = o2 /\ y1 = y2.
Proof.
  intros Hs (A1 & A2 & A3) (B1 & B2 & B3).
  assert (O : forall i, i < length xs -> nth i o1 [] = nth i o2 []).
  { intros i Hi. destruct (A3 i Hi) as (P & _), (B3 i Hi) as (Q & _). rewrite Hs, Q in P. congruence. }
  split; apply (list_eq_nth []); try congruence; intros i Hi.
  - apply O. congruence.
  - rewrite A2 in Hi. destruct (A3 i Hi) as (_ & _ & o & P1 & P2), (B3 i Hi) as (_ & _ & o' & Q1 & Q2).
    rewrite O, Q1 in P1 by auto. congruence.
Qed.

Lemma concat_length_const {A} (bs : list (list A)) n : (forall b, In b bs -> length b = n) -> length (concat bs) = length bs * n.
Proof. induction bs as [|b bs IH]; intros H; cbn; [reflexivity|]. rewrite app_length, IH, H by (intros; apply H || left; auto with datatypes). reflexivity. Qed.
Lemma blocks_det {A} (b1 b2 : list (list A)) n : length b1 = length b2 -> (forall b, In b b1 -> length b = n) -> (forall b, In b b2 -> length b = n) ->
  concat b1 = concat b2 -> b1 = b2.
Proof.
  revert b2. induction b1 as [|x b1 IH]; intros [|y b2] L H1 H2 H; try discriminate L; [reflexivity|]. cbn in L, H.
  assert (Lx : length x = length y) by (rewrite H1, H2 by (left; reflexivity); reflexivity).
  assert (E : x = y).
  { assert (Q := f_equal (firstn (length x)) H). rewrite firstn_app, Nat.sub_diag, firstn_all in Q. cbn in Q. rewrite app_nil_r in Q.
    rewrite Lx, firstn_app, Nat.sub_diag, firstn_all in Q. cbn in Q. rewrite app_nil_r in Q. exact Q. }
  subst y. f_equal. apply IH; [congruence|intros; apply H1; right; auto|intros; apply H2; right; auto|]. exact (app_inv_head _ _ _ H).
Qed.
Lemma training_set_det window max k hist e1 e2 : training_set window max k hist e1 -> training_set window max k hist e2 -> e1 = e2.
Proof.
  intros (b1 & n1 & A1 & A2 & A3 & A4 & _) (b2 & n2 & B1 & B2 & B3 & B4 & _). enough (b1 = b2) by (subst; congruence).
  destruct hist as [|h hist].
  - destruct b1, b2; try discriminate; reflexivity.
  - assert (n1 = n2).
    { pose proof (concat_length_const _ _ A3) as P. pose proof (concat_length_const _ _ B3) as Q. rewrite A1, A2 in P. rewrite B1, B2 in Q. cbn [length] in P, Q. nia. }
    subst n2. apply (blocks_det b1 b2 n1); auto; congruence.
Qed.

Section Loops.
Variables (c1 c2 : config) (d : datad).
Hypothesis SE : same_settings c1 c2.
Variables (E : Type) (same : E -> E -> Prop) (chains : nat).
Variables bef1 bef2 : bool -> E -> key -> pos_t -> E -> key -> pos_t -> Prop.
Hypothesis BD : forall ph e1 e2 k xs e1' e2' k1 k2 x1 x2, length xs = chains -> same e1 e2 -> bef1 ph e1 k xs e1' k1 x1 -> bef2 ph e2 k xs e2' k2 x2 ->
  k1 = k2 /\ x1 = x2 /\ same e1' e2' /\ length x1 = chains.

Lemma local_det k xs o1 o2 y1 y2 : local_run c1 d k xs o1 y1 -> local_run c2 d k xs o2 y2 -> o1 = o2 /\ y1 = y2.
Proof. unfold local_run. rewrite (se_step _ _ SE), (se_logpdf _ _ SE), (se_local _ _ SE), (se_local_th _ _ SE). apply chains_run_det. reflexivity. Qed.
Lemma group_bs m n k x : (c_nf_bs c1 = c_nf_bs c2 \/ (n <= c_nf_bs c1 /\ n <= c_nf_bs c2)) ->
  group_sample (mkNfp m (c_nf_bs c1)) (c_logpdf c1) d n k x = group_sample (mkNfp m (c_nf_bs c2)) (c_logpdf c2) d n k x.
Proof.
  rewrite (se_logpdf _ _ SE). intros [-> |[H1 H2]]; [reflexivity|]. unfold group_sample, nfp_kernel.
  rewrite with_n_steps_get, Nat2Z.id. unfold sample_flow, batched_logpdf. cbn [nfp_bs nfp_model].
  rewrite !(proj2 (Nat.ltb_ge _ n)) by assumption. reflexivity.
Qed.
Lemma global_det m k xs o1 o2 y1 y2 : global_run c1 d m k xs o1 y1 -> global_run c2 d m k xs o2 y2 -> o1 = o2 /\ y1 = y2.
Proof.
  unfold global_run. rewrite <- (se_global _ _ SE), <- (se_global_th _ _ SE). apply chains_run_det. intros k' x. apply group_bs.
  destruct (se_bs _ _ SE) as [H|[H1 H2]]; [left; exact H|right]. rewrite <- (se_global _ _ SE) in H2. auto.
Qed.
Lemma history_same ls i : chain_history c1 ls i = chain_history c2 ls i.
Proof. unfold chain_history. now rewrite (se_local _ _ SE), (se_global _ _ SE), (se_local_th _ _ SE), (se_global_th _ _ SE). Qed.

Definition rel (s1 s2 : rstate E) : Prop :=
  r_key s1 = r_key s2 /\ r_pos s1 = r_pos s2 /\ r_model s1 = r_model s2 /\ r_opt s1 = r_opt s2 /\ same (r_ext s1) (r_ext s2) /\ length (r_pos s1) = chains.
Lemma loop_eq (l1 l2 : loop) : lo_local l1 = lo_local l2 -> lo_losses l1 = lo_losses l2 -> lo_global l1 = lo_global l2 -> l1 = l2.
Proof. destruct l1, l2. cbn. congruence. Qed.
Lemma training_loop_det win past s1 s2 l1 l2 s1' s2' : rel s1 s2 -> training_loop (bef1 true) c1 win d past s1 l1 s1' -> training_loop (bef2 true) c2 win d past s2 l2 s2' ->
  l1 = l2 /\ rel s1' s2'.
Proof.
  intros (R1 & R2 & R3 & R4 & R5 & R6) (k0 & x0 & x1 & ex & k3 & A1 & A2 & A3 & A4 & A5 & A6) (k0' & x0' & x1' & ex' & k3' & D1 & D2 & D3 & D4 & D5 & D6).
  rewrite <- R1, <- R2 in D1. destruct (BD _ _ _ _ _ _ _ _ _ _ _ R6 R5 A1 D1) as (<- & <- & R5' & L0).
  destruct (local_det _ _ _ _ _ _ A2 D2) as (O1 & <-).
  rewrite <- O1 in D3. rewrite <- (se_max _ _ SE), <- (se_local _ _ SE), <- (se_local_th _ _ SE) in D3.
  rewrite (map_ext (fun i => map (fun o => s_pos (snd o)) (chain_history c2 past i) ++ map s_pos (kept_steps (c_local c1) (c_local_th c1) (nth i (lo_local l1) [])))
    (fun i => map (fun o => s_pos (snd o)) (chain_history c1 past i) ++ map s_pos (kept_steps (c_local c1) (c_local_th c1) (nth i (lo_local l1) [])))) in D3 by (intros; now rewrite history_same).
  pose proof (training_set_det _ _ _ _ _ _ A3 D3) as <-.
  rewrite <- R3, <- R4, <- (se_tx _ _ SE), <- (se_epochs _ _ SE), <- (se_batch _ _ SE), A4 in D4. injection D4 as K3 M O L.
  rewrite <- M, <- K3 in D5. destruct (global_det _ _ _ _ _ _ _ A5 D5) as (O2 & P2).
  split; [apply loop_eq; assumption|]. unfold rel. rewrite A6, D6, K3. repeat split; auto.
  destruct A5 as (_ & Ly & _). destruct A2 as (_ & Lx & _). congruence.
Qed.
Lemma production_loop_det s1 s2 l1 l2 s1' s2' : rel s1 s2 -> production_loop (bef1 false) c1 d s1 l1 s1' -> production_loop (bef2 false) c2 d s2 l2 s2' ->
  l1 = l2 /\ rel s1' s2'.
Proof.
  intros (R1 & R2 & R3 & R4 & R5 & R6) (k0 & x0 & x1 & A1 & A2 & A3 & A4 & A5 & A6 & A7) (k0' & x0' & x1' & D1 & D2 & D3 & D4 & D5 & D6 & D7).
  rewrite <- R1, <- R2 in D1. destruct (BD _ _ _ _ _ _ _ _ _ _ _ R6 R5 A1 D1) as (<- & <- & R5' & L0).
  destruct (local_det _ _ _ _ _ _ A2 D2) as (O1 & <-). rewrite <- R3 in D3. destruct (global_det _ _ _ _ _ _ _ A3 D3) as (O2 & P2).
  split; [apply loop_eq; congruence|]. unfold rel. rewrite A7, D7. repeat split; auto; try congruence.
  destruct A3 as (_ & Ly & _). destruct A2 as (_ & Lx & _). congruence.
Qed.
Lemma training_eq win s1 s2 ls1 ls2 s1' s2' : rel s1 s2 -> length ls1 = length ls2 -> training_run (bef1 true) c1 win d s1 ls1 s1' -> training_run (bef2 true) c2 win d s2 ls2 s2' ->
  ls1 = ls2 /\ rel s1' s2'.
Proof.
  intros R0 L H1. revert ls2 s2' L. induction H1 as [s|s past t1 l t2 H1 IH H2]; intros ls2 s2' L H; destruct H as [s'|s' past' t1' l' t2' H3 H4]; try (rewrite ?app_length in L; cbn in L; lia); auto.
  rewrite !app_length in L. cbn in L. destruct (IH R0 past' t1' ltac:(lia) H3) as [<- R1]. destruct (training_loop_det _ _ _ _ _ _ _ _ R1 H2 H4) as [<- R2]. auto.
Qed.
Lemma production_eq s1 s2 ls1 ls2 s1' s2' : rel s1 s2 -> length ls1 = length ls2 -> production_run (bef1 false) c1 d s1 ls1 s1' -> production_run (bef2 false) c2 d s2 ls2 s2' ->
  ls1 = ls2 /\ rel s1' s2'.
Proof.
  intros R0 L H1. revert ls2 s2' L. induction H1 as [s|s past t1 l t2 H1 IH H2]; intros ls2 s2' L H; destruct H as [s'|s' past' t1' l' t2' H3 H4]; try (rewrite ?app_length in L; cbn in L; lia); auto.
  rewrite !app_length in L. cbn in L. destruct (IH R0 past' t1' ltac:(lia) H3) as [<- R1]. destruct (production_loop_det _ _ _ _ _ _ R1 H2 H4) as [<- R2]. auto.
Qed.
End Loops.

Lemma training_firstn {E} (bef : E -> key -> pos_t -> E -> key -> pos_t -> Prop) c win d s ls s' : training_run bef c win d s ls s' -> forall n, n <= length ls -> exists s2, training_run bef c win d s (firstn n ls) s2.
Proof.
  induction 1 as [s|s past t1 l t2 H1 IH H2]; intros n Hn.
  - rewrite firstn_nil. eexists. constructor.
  - rewrite app_length in Hn. cbn in Hn. destruct (Nat.eq_dec n (length past + 1)) as [->|Ne].
    + rewrite firstn_all2 by (rewrite app_length; cbn; lia). exists t2. econstructor; eauto.
    + rewrite firstn_app, (proj2 (Nat.sub_0_le n _)) by lia. cbn [firstn]. rewrite app_nil_r. apply IH. lia.
Qed.
Lemma production_firstn {E} (bef : E -> key -> pos_t -> E -> key -> pos_t -> Prop) c d s ls s' : production_run bef c d s ls s' -> forall n, n <= length ls -> exists s2, production_run bef c d s (firstn n ls) s2.
Proof.
  induction 1 as [s|s past t1 l t2 H1 IH H2]; intros n Hn.
  - rewrite firstn_nil. eexists. constructor.
  - rewrite app_length in Hn. cbn in Hn. destruct (Nat.eq_dec n (length past + 1)) as [->|Ne].
    + rewrite firstn_all2 by (rewrite app_length; cbn; lia). exists t2. econstructor; eauto.
    + rewrite firstn_app, (proj2 (Nat.sub_0_le n _)) by lia. cbn [firstn]. rewrite app_nil_r. apply IH. lia.
Qed.
(** One list is a prefix of the other. *)
Definition comparable {A} (l1 l2 : list A) : Prop := exists t, l1 = l2 ++ t \/ l2 = l1 ++ t.
Lemma comparable_of {A} (l1 l2 : list A) : (forall n, n <= length l1 -> n <= length l2 -> firstn n l1 = firstn n l2) -> comparable l1 l2.
Proof.
  intros H. destruct (le_lt_dec (length l1) (length l2)) as [L|L].
  - exists (skipn (length l1) l2). right. pose proof (H (length l1) (le_n _) L) as Q. rewrite firstn_all in Q. rewrite Q at 1. symmetry. apply firstn_skipn.
  - exists (skipn (length l2) l1). left. pose proof (H (length l2) ltac:(lia) (le_n _)) as Q. rewrite firstn_all in Q. rewrite <- Q at 1. symmetry. apply firstn_skipn.
Qed.
Lemma comparable_nth {A} (l1 l2 : list A) s a : comparable l1 l2 -> s < length l2 -> nth_error l1 s = Some a -> nth_error l2 s = Some a.
Proof.
  intros [t [-> | ->]] L H.
  - rewrite nth_error_app1 in H by exact L. exact H.
  - rewrite nth_error_app1; [exact H|]. apply nth_error_Some. congruence.
Qed.
Lemma comparable_history c ls1 ls2 i : comparable ls1 ls2 -> comparable (chain_history c ls1 i) (chain_history c ls2 i).
Proof. intros [t [-> | ->]]; exists (chain_history c t i); unfold chain_history; rewrite map_app, concat_app; auto. Qed.
Lemma comparable_losses ls1 ls2 : comparable ls1 ls2 -> comparable (concat (map lo_losses ls1)) (concat (map lo_losses ls2)).
Proof. intros [t [-> | ->]]; exists (concat (map lo_losses t)); rewrite map_app, concat_app; auto. Qed.

Lemma history_length c ls i : length (chain_history c ls i) = slots c (length ls).
Proof.
  unfold chain_history, slots. induction ls as [|l ls IH]; [reflexivity|]. cbn [map concat length]. rewrite !app_length, !map_length, !kept_steps_length, IH. lia.
Qed.
Lemma losses_length c ls : (forall l, In l ls -> length (lo_losses l) = c_epochs c) -> length (concat (map lo_losses ls)) = length ls * c_epochs c.
Proof. induction ls as [|l ls IH]; intros H; [reflexivity|]. cbn [map concat length]. rewrite app_length, IH, H by (intros; apply H || left; auto with datatypes). lia. Qed.

Lemma agree_of c1 c2 w1 w2 phase ls1 ls2 : same_settings c1 c2 -> 0 < c_n_chains c1 -> comparable ls1 ls2 ->
  phase_recorded c1 w1 phase ls1 -> phase_recorded c2 w2 phase ls2 ->
  records_agree (c_n_chains c1) (c_n_dims c1) (slots c1 (length ls1)) (slots c2 (length ls2)) w1 w2 phase.
Proof.
  intros SE C0 CO (s1 & pl1 & pb1 & ll1 & lb1 & al1 & ab1 & gl1 & gb1 & A1 & A2 & A3 & A4 & A5 & _ & _ & _ & A6) (s2 & pl2 & pb2 & ll2 & lb2 & al2 & ab2 & gl2 & gb2 & D1 & D2 & D3 & D4 & D5 & _ & _ & _ & D6).
  rewrite <- (se_chains _ _ SE) in D6, D5.
  assert (S1 : s1 = slots c1 (length ls1)) by (rewrite <- (history_length c1 ls1 0); symmetry; apply (A6 0 C0)).
  assert (S2 : s2 = slots c2 (length ls2)) by (rewrite <- (history_length c2 ls2 0); symmetry; apply (D6 0 C0)).
  subst s1 s2. exists pl1, pb1, ll1, lb1, al1, ab1, gl1, gb1, pl2, pb2, ll2, lb2, al2, ab2, gl2, gb2. do 8 (split; [assumption|]).
  split; [exact A5|]. split; [rewrite (se_dims _ _ SE); exact D5|]. intros i s Hi H1 H2.
  destruct (A6 i Hi) as [L1 Q1], (D6 i Hi) as [L2 Q2].
  destruct (nth_error (chain_history c1 ls1 i) s) as [[loc o]|] eqn:Eq; [|apply nth_error_None in Eq; lia].
  pose proof (comparable_nth _ _ s _ (comparable_history c1 _ _ i CO) ltac:(rewrite (history_same c1 c2 SE); lia) Eq) as Eq2. rewrite (history_same c1 c2 SE) in Eq2.
  destruct (Q1 s loc o Eq) as (U1 & U2 & U3 & U4), (Q2 s loc o Eq2) as (V1 & V2 & V3 & V4). rewrite <- (se_dims _ _ SE) in V1. repeat split; congruence.
Qed.
Lemma losses_of c1 c2 w1 w2 ls1 ls2 : c_epochs c1 = c_epochs c2 -> comparable ls1 ls2 ->
  (forall l, In l ls1 -> length (lo_losses l) = c_epochs c1) -> (forall l, In l ls2 -> length (lo_losses l) = c_epochs c2) ->
  losses_recorded c1 w1 ls1 -> losses_recorded c2 w2 ls2 -> losses_agree (length ls1 * c_epochs c1) (length ls2 * c_epochs c2) w1 w2.
Proof.
  intros EE CO E1 E2 (l1 & b1 & A1 & A2 & _ & A3) (l2 & b2 & D1 & D2 & _ & D3). exists l1, b1, l2, b2.
  rewrite (losses_length _ _ E1) in A2. rewrite (losses_length _ _ E2) in D2. do 4 (split; [assumption|]). intros j H1 H2.
  destruct (nth_error (concat (map lo_losses ls1)) j) as [v|] eqn:Eq; [|apply nth_error_None in Eq; rewrite (losses_length _ _ E1) in Eq; lia].
  rewrite (A3 j v Eq). symmetry. apply D3. refine (comparable_nth _ _ j v (comparable_losses _ _ CO) _ Eq). rewrite (losses_length _ _ E2). exact H2.
Qed.

Lemma runs_of (c1 c2 : config) d (E : Type) (same : E -> E -> Prop) chains (bef1 bef2 : bool -> E -> key -> pos_t -> E -> key -> pos_t -> Prop) win1 win2
  k xs m o e1 e2 ls1 ls2 lp1 lp2 t1 t2 u1 u2 w1 w2 :
  same_settings c1 c2 -> win1 = win2 -> c_n_chains c1 = chains -> 0 < chains -> length xs = chains -> same e1 e2 ->
  (forall ph e1 e2 k xs e1' e2' k1 k2 x1 x2, length xs = chains -> same e1 e2 -> bef1 ph e1 k xs e1' k1 x1 -> bef2 ph e2 k xs e2' k2 x2 ->
     k1 = k2 /\ x1 = x2 /\ same e1' e2' /\ length x1 = chains) ->
  training_run (bef1 true) c1 win1 d (mkR k xs m o e1) ls1 t1 -> production_run (bef1 false) c1 d t1 lp1 u1 ->
  training_run (bef2 true) c2 win2 d (mkR k xs m o e2) ls2 t2 -> production_run (bef2 false) c2 d t2 lp2 u2 ->
  length ls1 = c_train_loops c1 -> length lp1 = c_prod_loops c1 -> length ls2 = c_train_loops c2 -> length lp2 = c_prod_loops c2 ->
  (forall l, In l ls1 -> length (lo_losses l) = c_epochs c1) -> (forall l, In l ls2 -> length (lo_losses l) = c_epochs c2) ->
  phase_recorded c1 w1 "training" ls1 -> phase_recorded c1 w1 "production" lp1 -> losses_recorded c1 w1 ls1 ->
  phase_recorded c2 w2 "training" ls2 -> phase_recorded c2 w2 "production" lp2 -> losses_recorded c2 w2 ls2 ->
  content_of w1 "model" = CPlain (RModel (r_model u1)) -> content_of w2 "model" = CPlain (RModel (r_model u2)) ->
  content_of w1 "optimizer" = CObject (Some (OOpt (mkOptimizer (c_tx c1) (r_opt u1)))) -> content_of w2 "optimizer" = CObject (Some (OOpt (mkOptimizer (c_tx c2) (r_opt u2)))) ->
  r_model u1 = r_model t1 -> r_opt u1 = r_opt t1 -> r_model u2 = r_model t2 -> r_opt u2 = r_opt t2 ->
  runs_agree c1 c2 (r_key u1) (r_pos u1) w1 (r_key u2) (r_pos u2) w2.
Proof.
  intros SE <- CC C0 LX SM BD T1 Q1 T2 Q2 L1 L2 L3 L4 E1 E2 P1 P2 P3 P4 P5 P6 M1 M2 O1 O2 F1 F2 F3 F4.
  assert (R0 : rel E same chains (mkR k xs m o e1) (mkR k xs m o e2)) by (repeat split; assumption).
  assert (CT : comparable ls1 ls2).
  { apply comparable_of. intros n N1 N2. destruct (training_firstn _ _ _ _ _ _ _ T1 n N1) as (a & A), (training_firstn _ _ _ _ _ _ _ T2 n N2) as (b & B).
    refine (proj1 (training_eq c1 c2 d SE E same chains bef1 bef2 BD win1 _ _ _ _ _ _ R0 _ A B)). rewrite !firstn_length. lia. }
  split; [|split].
  - rewrite <- L1, <- L3. apply agree_of; auto. lia.
  - rewrite <- L1, <- L3. apply losses_of; auto. apply (se_epochs _ _ SE).
  - intros TT. assert (LT : length ls1 = length ls2) by congruence. destruct (training_eq c1 c2 d SE E same chains bef1 bef2 BD win1 _ _ _ _ _ _ R0 LT T1 T2) as [<- R1].
    split; [|split; [|split]].
    + rewrite <- L2, <- L4. apply agree_of; auto; [lia|]. apply comparable_of. intros n N1 N2. destruct (production_firstn _ _ _ _ _ _ Q1 n N1) as (a & A), (production_firstn _ _ _ _ _ _ Q2 n N2) as (b & B).
      refine (proj1 (production_eq c1 c2 d SE E same chains bef1 bef2 BD _ _ _ _ _ _ R1 _ A B)). rewrite !firstn_length. lia.
    + destruct R1 as (_ & _ & RM & _). congruence.
    + destruct R1 as (_ & _ & _ & RO & _). rewrite O1, O2, (se_tx _ _ SE). congruence.
    + intros PP. assert (LP : length lp1 = length lp2) by congruence. destruct (production_eq c1 c2 d SE E same chains bef1 bef2 BD _ _ _ _ _ _ R1 LP Q1 Q2) as [_ (RK & RP & _)]. auto.
Qed.
End Ext.

Section PTExt.
Context {N : Num} {G : Rng} {NF : NFOps}.
Lemma sweep_det_gen temps lp k xs ys accs ens ys' accs' ens' :
  sweep_of temps lp k xs ys accs ens -> sweep_of temps lp k xs ys' accs' ens' -> ys = ys' /\ accs = accs'.
Proof.
  intros (A1 & A2 & A3 & A4 & A5) (B1 & B2 & B3 & B4 & B5).
  assert (Q : forall i, i <= length accs -> nth i ens [] = nth i ens' []).
  { induction i as [|i IH]; intros Hi; [congruence|]. specialize (IH ltac:(lia)). destruct (A5 i ltac:(lia)) as [P1 P2], (B5 i ltac:(lia)) as [Q1 Q2].
    rewrite <- IH in Q1. replace (S i) with (i + 1) by lia. rewrite <- P1 in Q1. rewrite Q1 in Q2. destruct (nth i accs false).
    - apply P_PT5.exchanged_swap in P2, Q2. congruence.
    - congruence. }
  assert (L : length accs = length accs') by congruence. split.
  - rewrite <- A4, <- B4, Q, L by lia. reflexivity.
  - apply (list_eq_nth false); [exact L|]. intros i Hi. destruct (A5 i Hi) as [P1 _], (B5 i ltac:(lia)) as [Q1 _]. rewrite P1, Q1, Q by lia. reflexivity.
Qed.
Lemma moved_det n kern t d T k x y y' : moved n kern t d T k x y -> moved n kern t d T k x y' -> y = y'.
Proof. intros (tr & A & ->) (tr' & B & ->). congruence. Qed.
Lemma update_det pt kern t d pb1 pb2 tb1 tb2 k xs i a1 a2 c1 c2 x1 x2 : ensemble_before pb1 xs i = ensemble_before pb2 xs i -> temps_of tb1 = temps_of tb2 ->
  chain_update pt kern t d pb1 tb1 k xs i a1 c1 x1 -> chain_update pt kern t d pb2 tb2 k xs i a2 c2 x2 -> a1 = a2 /\ c1 = c2 /\ x1 = x2.
Proof.
  intros E1 E2 (A1 & A2 & st & ens & A3 & A4 & A5 & A6) (B1 & B2 & st' & ens' & B3 & B4 & B5 & B6). rewrite <- E2 in * . rewrite <- E1 in * .
  assert (st = st').
  { apply (list_eq_nth []); [congruence|]. intros j Hj. rewrite A3 in Hj. exact (moved_det _ _ _ _ _ _ _ _ _ (A4 j Hj) (B4 j Hj)). }
  subst st'. destruct (sweep_det_gen _ _ _ _ _ _ _ _ _ _ A5 B5) as [<- <-]. repeat split; congruence.
Qed.

Definition same_ens (chains dims : nat) (e1 e2 : buffer * buffer) : Prop :=
  temps_of (snd e1) = temps_of (snd e2) /\ nth 2 (ashape (b_data (fst e1))) 0 = dims /\ nth 2 (ashape (b_data (fst e2))) 0 = dims /\
  forall xs i, i < chains -> ensemble_before (fst e1) xs i = ensemble_before (fst e2) xs i.
Lemma tempering_det p1 p2 d ph e1 e2 k xs e1' e2' k1 k2 x1 x2 chains : same_pt_settings p1 p2 -> 0 < chains -> length xs = chains ->
  same_ens chains (c_n_dims (p_base p1)) e1 e2 ->
  tempering p1 d ph e1 k xs e1' k1 x1 -> tempering p2 d ph e2 k xs e2' k2 x2 ->
  k1 = k2 /\ x1 = x2 /\ same_ens chains (c_n_dims (p_base p1)) e1' e2' /\ length x1 = chains.
Proof.
  intros [SB ST SM SS SP] C0 LX (T0 & D1 & D2 & EB) (a1 & q1 & A1 & A2 & A3 & A4 & A5 & A6) (a2 & q2 & B1 & B2 & B3 & B4 & B5 & B6).
  assert (Hst : pt_strat p1 = pt_strat p2) by (unfold pt_strat; rewrite SS, (se_local _ _ SB); reflexivity).
  assert (Htm : pt_tempered p1 = pt_tempered p2) by (unfold pt_tempered, bundle_logpdf; destruct SB; congruence).
  assert (U : forall i, i < chains -> nth i a1 [] = nth i a2 [] /\ nth i q1 [] = nth i q2 [] /\ nth i x1 [] = nth i x2 []).
  { intros i Hi. pose proof (A5 i ltac:(lia)) as P. pose proof (B5 i ltac:(lia)) as Q. rewrite <- Hst, <- Htm, <- (se_step _ _ SB) in Q. exact (update_det _ _ _ _ _ _ _ _ _ _ _ _ _ _ _ _ _ (EB xs i Hi) T0 P Q). }
  assert (X : x1 = x2) by (apply (list_eq_nth []); [congruence|]; intros i Hi; apply U; lia).
  assert (QQ : q1 = q2) by (apply (list_eq_nth []); [congruence|]; intros i Hi; apply U; lia).
  split; [congruence|]. split; [exact X|]. split; [|congruence].
  destruct ph.
  - destruct A6 as ((S1 & _) & _ & R1 & V1), B6 as ((S2 & _) & _ & R2 & V2).
    split; [congruence|]. split; [now rewrite S1|]. split; [now rewrite S2|]. intros ys i Hi. unfold ensemble_before. rewrite S1, S2, D1, D2. f_equal.
    assert (L1 : S (nth 1 (ashape (b_data (fst e1))) 0) = length (temps_of (snd e1))).
    { destruct (A5 0 ltac:(lia)) as (P & _). rewrite <- P. unfold ensemble_before. cbn [length]. now rewrite map_length, seq_length. }
    assert (L2 : S (nth 1 (ashape (b_data (fst e2))) 0) = length (temps_of (snd e2))).
    { destruct (B5 0 ltac:(lia)) as (P & _). rewrite <- P. unfold ensemble_before. cbn [length]. now rewrite map_length, seq_length. }
    rewrite <- T0 in L2. rewrite <- L1 in L2. injection L2 as ->. apply map_ext_in. intros j Hj. apply in_seq in Hj.
    rewrite R1 by lia. rewrite (se_dims _ _ SB), R2 by (rewrite <- ?T0; lia). f_equal. apply U. exact Hi.
  - subst e1' e2'. repeat split; auto.
Qed.
Lemma initial_same p1 p2 xs e1 e2 chains : same_pt_settings p1 p2 -> c_n_chains (p_base p1) = chains -> length xs = chains -> initial_ensemble p1 xs e1 -> initial_ensemble p2 xs e2 ->
  same_ens chains (c_n_dims (p_base p1)) e1 e2.
Proof.
  intros [SB ST SM SS SP] CC LX (A1 & A2 & A3) (B1 & B2 & B3). split; [congruence|]. rewrite <- (se_dims _ _ SB), <- ST in * . split; [now rewrite A1|]. split; [now rewrite B1|].
  intros ys i Hi. unfold ensemble_before. rewrite A1, B1. cbn [nth]. f_equal. apply map_ext_in. intros j Hj. apply in_seq in Hj. rewrite A2, B2 by lia. reflexivity.
Qed.
Lemma production_keeps {E} (bef : E -> key -> pos_t -> E -> key -> pos_t -> Prop) c d s ls s' : production_run bef c d s ls s' -> r_model s' = r_model s /\ r_opt s' = r_opt s.
Proof. induction 1 as [s|s past t1 l t2 H1 [IH1 IH2] H2]; [auto|]. destruct H2 as (k0 & x0 & x1 & _ & _ & _ & _ & A & B & _). split; congruence. Qed.

Lemma base_agree c1 c2 h1 h2 b1 b2 n1 n2 nc1 nc2 k o1 o2 kw1 kw2 s1 s2 d xs good1 good2 k1 x1 w1 k2 x2 w2 :
  same_settings c1 c2 -> 0 < c_n_chains c1 ->
  rqspline_mala_bundle c1 = Ok (h1, b1) -> rqspline_mala_bundle c2 = Ok (h2, b2) ->
  sampler_init n1 nc1 k None None o1 (Some b1) kw1 = Ok s1 -> sampler_init n2 nc2 k None None o2 (Some b2) kw2 = Ok s2 ->
  run_ok c1 d xs good1 -> run_ok c2 d xs good2 ->
  sampler_sample s1 (P2 xs) d h1 = (Ok (k1, x1), w1) -> sampler_sample s2 (P2 xs) d h2 = (Ok (k2, x2), w2) ->
  runs_agree c1 c2 k1 x1 w1 k2 x2 w2.
Proof.
  intros SE C0 Hb1 Hb2 Hs1 Hs2 OK1 OK2 H1 H2.
  destruct (base_run _ _ _ _ _ _ _ _ _ _ _ _ _ _ _ Hb1 Hs1 OK1 H1) as (ls1 & lp1 & a1 & y1 & m1 & t1 & tr1 & pr1 & lo1 & lc1 & gc1 & R1 & Q1 & N1 & M1 & E1 & W1 & _ & _ & _ & _ & P1 & P2 & P3).
  destruct (base_run _ _ _ _ _ _ _ _ _ _ _ _ _ _ _ Hb2 Hs2 OK2 H2) as (ls2 & lp2 & a2 & y2 & m2 & t2 & tr2 & pr2 & lo2 & lc2 & gc2 & R2 & Q2 & N2 & M2 & E2 & W2 & _ & _ & _ & _ & P4 & P5 & P6).
  rewrite <- (se_model _ _ SE), <- (se_opt _ _ SE), <- (se_key _ _ SE) in R2.
  assert (BD : forall (ph : bool) e1 e2 k' xs' e1' e2' k3 k4 z1 z2, length xs' = c_n_chains c1 -> e1 = e2 -> nothing_before e1 k' xs' e1' k3 z1 -> nothing_before e2 k' xs' e2' k4 z2 ->
    k3 = k4 /\ z1 = z2 /\ e1' = e2' /\ length z1 = c_n_chains c1).
  { intros ph e1 e2 k' xs' [] [] k3 k4 z1 z2 L _ [-> ->] [-> ->]. auto. }
  apply (runs_of c1 c2 d unit eq (c_n_chains c1) (fun _ => nothing_before) (fun _ => nothing_before) 100 100 k xs _ _ tt tt ls1 ls2 lp1 lp2 _ _ (mkR k1 x1 m1 t1 tt) (mkR k2 x2 m2 t2 tt) w1 w2 SE eq_refl eq_refl C0 (ok_chains _ _ _ _ OK1) eq_refl BD R1 Q1 R2 Q2); auto; try (rewrite W1; reflexivity); try (rewrite W2; reflexivity).
Qed.
Lemma pt_agree p1 p2 h1 h2 b1 b2 n1 n2 nc1 nc2 k o1 o2 kw1 kw2 s1 s2 d xs good1 good2 k1 x1 w1 k2 x2 w2 :
  same_pt_settings p1 p2 -> 0 < c_n_chains (p_base p1) ->
  rqspline_mala_pt_bundle p1 = Ok (h1, b1) -> rqspline_mala_pt_bundle p2 = Ok (h2, b2) ->
  sampler_init n1 nc1 k None None o1 (Some b1) kw1 = Ok s1 -> sampler_init n2 nc2 k None None o2 (Some b2) kw2 = Ok s2 ->
  run_ok (p_base p1) d xs good1 -> run_ok (p_base p2) d xs good2 -> grad_shape (p_prior p1) d (c_n_dims (p_base p1)) ->
  sampler_sample s1 (P2 xs) d h1 = (Ok (k1, x1), w1) -> sampler_sample s2 (P2 xs) d h2 = (Ok (k2, x2), w2) ->
  runs_agree (p_base p1) (p_base p2) k1 x1 w1 k2 x2 w2 /\
  (c_train_loops (p_base p1) = c_train_loops (p_base p2) ->
   exists tl1 tb1 tl2 tb2, buffer_named w1 "temperatures" tl1 tb1 /\ buffer_named w2 "temperatures" tl2 tb2 /\ temps_of tb1 = temps_of tb2).
Proof.
  intros SP C0 Hb1 Hb2 Hs1 Hs2 OK1 OK2 GP H1 H2. pose proof (sp_base _ _ SP) as SE.
  assert (GP2 : grad_shape (p_prior p2) d (c_n_dims (p_base p2))) by (rewrite <- (sp_prior _ _ SP), <- (se_dims _ _ SE); exact GP).
  assert (C2 : 0 < c_n_chains (p_base p2)) by (rewrite <- (se_chains _ _ SE); exact C0).
  destruct (pt_run _ _ _ _ _ _ _ _ _ _ _ _ _ _ _ Hb1 Hs1 OK1 GP C0 H1) as (e1 & ls1 & lp1 & a1 & y1 & m1 & t1 & f1 & g1 & tr1 & pr1 & lo1 & lc1 & gc1 & I1 & R1 & Q1 & N1 & M1 & E1 & W1 & _ & _ & _ & _ & P1 & P2 & P3).
  destruct (pt_run _ _ _ _ _ _ _ _ _ _ _ _ _ _ _ Hb2 Hs2 OK2 GP2 C2 H2) as (e2 & ls2 & lp2 & a2 & y2 & m2 & t2 & f2 & g2 & tr2 & pr2 & lo2 & lc2 & gc2 & I2 & R2 & Q2 & N2 & M2 & E2 & W2 & _ & _ & _ & _ & P4 & P5 & P6).
  rewrite <- (se_model _ _ SE), <- (se_opt _ _ SE), <- (se_key _ _ SE) in R2.
  assert (BD : forall ph e1 e2 k xs e1' e2' k1 k2 x1 x2, length xs = c_n_chains (p_base p1) -> same_ens (c_n_chains (p_base p1)) (c_n_dims (p_base p1)) e1 e2 -> tempering p1 d ph e1 k xs e1' k1 x1 -> tempering p2 d ph e2 k xs e2' k2 x2 ->
     k1 = k2 /\ x1 = x2 /\ same_ens (c_n_chains (p_base p1)) (c_n_dims (p_base p1)) e1' e2' /\ length x1 = c_n_chains (p_base p1)).
  { intros. eapply tempering_det; eauto. }
  assert (S0 : same_ens (c_n_chains (p_base p1)) (c_n_dims (p_base p1)) e1 e2) by (eapply initial_same; eauto; apply (ok_chains _ _ _ _ OK1)).
  split.
  - apply (runs_of (p_base p1) (p_base p2) d (buffer * buffer) (same_ens (c_n_chains (p_base p1)) (c_n_dims (p_base p1))) (c_n_chains (p_base p1)) (tempering p1 d) (tempering p2 d) _ _ k xs _ _ e1 e2 ls1 ls2 lp1 lp2 _ _ (mkR k1 x1 m1 t1 g1) (mkR k2 x2 m2 t2 g2) w1 w2 SE (se_window _ _ SE) eq_refl C0 (ok_chains _ _ _ _ OK1) S0 BD R1 Q1 R2 Q2); auto; try (rewrite W1; reflexivity); try (rewrite W2; reflexivity).
  - intros TT.
    assert (R0 : rel (buffer * buffer) (same_ens (c_n_chains (p_base p1)) (c_n_dims (p_base p1))) (c_n_chains (p_base p1)) (mkR k xs (c_model (p_base p1) (split (c_key (p_base p1)) 2 1)) (c_opt (p_base p1) (c_model (p_base p1) (split (c_key (p_base p1)) 2 1))) e1) (mkR k xs (c_model (p_base p1) (split (c_key (p_base p1)) 2 1)) (c_opt (p_base p1) (c_model (p_base p1) (split (c_key (p_base p1)) 2 1))) e2)).
    { repeat split; try apply S0; auto. apply (ok_chains _ _ _ _ OK1). }
    rewrite <- (se_window _ _ SE) in R2. assert (LT : length ls1 = length ls2) by congruence.
    destruct (training_eq (p_base p1) (p_base p2) d SE _ _ _ (tempering p1 d) (tempering p2 d) BD _ _ _ _ _ _ _ R0 LT R1 R2) as [<- R3].
    assert (K : forall p s ls s', production_run (tempering p d false) (p_base p) d s ls s' -> r_ext s' = r_ext s).
    { intros p s ls s' H. induction H as [|s past u1 l u2 _ IH L]; [reflexivity|]. destruct L as (k0 & z0 & z1 & (after & accs & _ & _ & _ & _ & _ & TE) & _). cbn in TE. congruence. }
    apply K in Q1. apply K in Q2. cbn [r_ext] in Q1, Q2. subst g1 g2. destruct R3 as (_ & _ & _ & _ & (T0 & _) & _). cbn [r_ext] in T0.
    exists L_temp, (snd f1), L_temp, (snd f2). rewrite W1, W2. split; [split; reflexivity|]. split; [split; reflexivity|exact T0].
Qed.
End PTExt.
