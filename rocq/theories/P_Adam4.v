(** Training: parameters stay bounded. *)
From Coq Require Import Reals Psatz.
From Coquelicot Require Import Coquelicot.
From Verif Require Import Prelude Num M_Core M_Kernels M_Strategies M_PT M_Flow M_Net M_Model M_Tree P_Lists RNum Spec_Kernels Spec_PT Spec_Net Spec_Tree P_Real1 P_Decay P_Tree1 P_Tree2 P_Tree3 P_Tree7 P_Tree8
  M_Adam Spec_Adam P_Adam1 P_Adam2.
Open Scope R_scope.

Section AdamW.
Variables (lr b : R).
Hypothesis (B0 : 0 <= b) (B1 : b <= 9 / 10).
Notation a := (@optimizer_new RNum lr b).
Lemma adamw_coord_R t (g p mu nu : R) : @adamw_coord RNum a (S t) g p mu nu =
  (p + - lr * (((1 - b) * g + b * mu) / (1 - b ^ S t) / (sqrt (((1 - b2_) * (g * g) + b2_ * nu) / (1 - b2_ ^ S t)) + 1 / 100000000) + 1 / 10000 * p),
   (1 - b) * g + b * mu, (1 - b2_) * (g * g) + b2_ * nu).
Proof. unfold adamw_coord. rewrite !fpow_pow. reflexivity. Qed.
Lemma adamw_near (g p : list R) s : aframe b s -> let o := @adamw_step RNum a g p s in
  aframe b (snd o) /\ forall j, (j < length p)%nat -> exists u, Rabs u <= reach b /\ @nth R j (fst o) 0 = nth j p 0 - lr * (u + nth j p 0 / 10000).
Proof.
  intros H o. unfold o, adamw_step. cbn [fst snd].
  set (f := fun i => adamw_coord a (S (as_count s)) (nth i (clip_norm g) f0) (nth i p f0) (nth i (as_mu s) f0) (nth i (as_nu s) f0)).
  assert (FE : forall j, f j = @adamw_coord RNum a (S (as_count s)) (@nth R j (clip_norm g) 0) (@nth R j p 0) (@nth R j (as_mu s) 0) (@nth R j (as_nu s) 0)) by reflexivity.
  split.
  - intros j. cbn [as_mu as_nu]. destruct (le_lt_dec (length p) j) as [L|L].
    + pose proof (nth_upd_out f (length p) j (fun x => snd (fst x)) L) as E1. pose proof (nth_upd_out f (length p) j (fun x => snd x) L) as E2. exact (minv_eq _ _ _ _ _ E1 E2 (minv_0 _)).
    + pose proof (nth_upd f (length p) j (fun x => snd (fst x)) L) as E1. pose proof (nth_upd f (length p) j (fun x => snd x) L) as E2. refine (minv_eq _ _ _ _ _ E1 E2 _).
      rewrite FE, adamw_coord_R. cbn [fst snd]. exact (minv_step b B0 B1 (@nth R j (clip_norm g) 0) (@nth R j (as_mu s) 0) (@nth R j (as_nu s) 0) (H j)).
  - intros j L. pose proof (nth_upd f (length p) j (fun x => fst (fst x)) L) as E1.
    eexists. split; [exact (update_bound b B0 B1 (as_count s) (1 / 100000000) _ _ (minv_step b B0 B1 (@nth R j (clip_norm g) 0) (@nth R j (as_mu s) 0) (@nth R j (as_nu s) 0) (H j)) ltac:(lra))|].
    refine (eq_trans E1 _). rewrite FE, adamw_coord_R. cbn [fst snd].
    assert (Al : forall p u : R, p + - lr * (u + 1 / 10000 * p) = p - lr * (u + p / 10000)) by (intros; field). exact (Al _ _).
Qed.
Lemma steps_frame (gs : list (list R)) : forall (p : list R) s, aframe b s -> aframe b (snd (@adamw_steps RNum a gs p s)).
Proof.
  induction gs as [|g gs IH]; intros p s H; [exact H|].
  change (adamw_steps a (g :: gs) p s) with (adamw_steps a gs (fst (adamw_step a g p s)) (snd (adamw_step a g p s))).
  apply IH, adamw_near, H.
Qed.
Lemma step_reach_proof (gs : list (list R)) (g p : list R) j : (j < length p)%nat ->
  let o := @adamw_steps RNum a gs p (adamw_init p) in
  Rabs (@nth R j (fst (@adamw_step RNum a g (fst o) (snd o))) 0 - @nth R j (fst o) 0) <= Rabs lr * (reach b + Rabs (@nth R j (fst o) 0) / 10000).
Proof.
  intros Hj o. pose proof (steps_frame gs p (adamw_init p) (init_frame b p)) as Fr. fold o in Fr.
  assert (L : length (fst o) = length p) by apply decay_len. assert (Hj' : (j < length (fst o))%nat) by exact (eq_ind_r (fun m => (j < m)%nat) Hj L).
  destruct (proj2 (adamw_near g (fst o) (snd o) Fr) j Hj') as (u & Bu & E).
  assert (Al : forall v q : R, v = q - lr * (u + q / 10000) -> Rabs (v - q) <= Rabs lr * (reach b + Rabs q / 10000)).
  { intros v q ->. replace (q - lr * (u + q / 10000) - q) with (- lr * (u + q / 10000)) by ring. apply scaled_bound.
    pose proof (Rabs_triang u (q / 10000)). unfold Rdiv in * . rewrite (Rabs_mult q (/ 10000)), (Rabs_right (/ 10000)) in H by lra. lra. }
  exact (Al _ _ E).
Qed.
Hypothesis (LR : 0 <= lr <= 10000).
Lemma shrink (p u m : R) : Rabs u <= reach b -> Rabs p <= m -> reach b * 10000 <= m -> Rabs (p - lr * (u + p / 10000)) <= m.
Proof.
  intros Hu Hp Hm. replace (p - lr * (u + p / 10000)) with ((1 - lr / 10000) * p + lr / 10000 * (- u * 10000)) by field.
  assert (T : 0 <= lr / 10000 <= 1) by lra. set (t := lr / 10000) in * .
  assert (U : Rabs (- u * 10000) <= m) by (rewrite Rabs_mult, Rabs_Ropp, (Rabs_right 10000) by lra; lra).
  eapply Rle_trans; [apply Rabs_triang|]. rewrite !Rabs_mult, (Rabs_right (1 - t)), (Rabs_right t) by lra.
  assert (t * Rabs (- u * 10000) <= t * m) by (apply Rmult_le_compat_l; lra). assert ((1 - t) * Rabs p <= (1 - t) * m) by (apply Rmult_le_compat_l; lra).
  rewrite !Rabs_mult in H. lra.
Qed.
End AdamW.

Section Tree.
Context {G : @Rng RNum}.
Variables (logp : list (@leaf RNum) -> list R -> R) (sample : list (@leaf RNum) -> key -> nat -> list (list R)) (grad : list (@leaf RNum) -> list (list R) -> list R).
Variables (lv0 : list (@leaf RNum)) (i n : nat) (d : dtype) (sh : list nat) (v : list R) (lr b : R).
Hypothesis Hd : d <> DBool.
Hypothesis Hh : @stats_header RNum n lv0.
Hypothesis (B0 : 0 <= b) (B1 : b <= 9 / 10) (LR : 0 <= lr <= 10000).
Notation a := (@optimizer_new RNum lr b).
Definition kept (lv : list (@leaf RNum)) : Prop := exists v', lv_at lv i = LArr d sh v' /\ length v' = length v /\ forall j, Rabs (nth j v' 0) <= Rmax (Rabs (nth j v 0)) (reach b * 10000).
Lemma kept_step lv s xs : only_floats_differ lv0 lv -> aframe b s -> kept lv ->
  let o := @adamw_step RNum a (grad lv xs) (ravel lv) s in kept (unravel lv (fst o)) /\ aframe b (snd o).
Proof.
  intros Ho Hm (v1 & E & Lv & Hb) o. destruct (adamw_near lr b B0 B1 (grad lv xs) (ravel lv) s Hm) as [F2 N]. fold o in F2, N. split; [|exact F2].
  assert (Hi : (i < length lv)%nat) by exact (leaf_in _ _ _ _ _ E). set (off := length (ravel (firstn i lv))).
  pose proof (unravel_leaf lv (fst o) i d sh v1 (step_length _ _ _ _) Hi E Hd) as U. fold off in U.
  eexists. split; [exact U|].
  assert (Lo : length (fst o) = length (ravel lv)) by apply step_length.
  assert (LL : length (firstn (length v1) (skipn off (fst o))) = length v1).
  { rewrite firstn_length, skipn_length, Lo. destruct (length v1) as [|m] eqn:E1; [reflexivity|].
    destruct (ravel_at lv i d sh v1 m Hi E Hd ltac:(rnorm; lia)) as [_ K2]. fold off in K2. rnorm. lia. }
  split; [exact (eq_trans LL Lv)|]. intros j. destruct (le_lt_dec (length v1) j) as [Lj|Lj].
  - rewrite nth_overflow by (exact (eq_ind_r (fun m => (m <= j)%nat) Lj LL)). rewrite Rabs_R0. eapply Rle_trans; [apply Rabs_pos|apply Rmax_l].
  - destruct (ravel_at lv i d sh v1 j Hi E Hd Lj) as [E1 E2]. fold off in E1, E2. destruct (N (off + j)%nat E2) as (u & Bu & Eu).
    assert (Nj : @nth R j (firstn (length v1) (skipn off (fst o))) 0 = @nth R (off + j) (fst o) 0).
    { refine (eq_trans (nth_firstn j (length v1) _ 0 Lj) _). apply nth_skipn. }
    refine (rabs_eq _ _ _ (eq_trans Nj Eu) _). apply (shrink lr b LR); [exact Bu| |apply Rmax_r].
    refine (rabs_eq _ _ _ E1 (Hb j)).
Qed.
Lemma kept_run ds lv s : lv_at lv0 i = LArr d sh v -> i <> 1%nat -> i <> 2%nat ->
  @training_run RNum G (tree_ops logp sample grad) a lv0 (tree_optimizer_init lv0) ds lv s -> kept lv /\ aframe b s.
Proof.
  intros E0 N1 N2 H. remember (tree_optimizer_init lv0) as s0 eqn:Es. induction H as [|ds lv1 s1 k data ne bs kf lv2 s2 losses H IH E].
  - subst. split; [|apply init_frame]. exists v. split; [exact E0|]. split; [reflexivity|]. intros j. apply Rmax_l.
  - destruct IH as [K1 A1]. pose proof (run_ofd logp sample grad n _ _ _ _ _ _ Hh H) as Ho.
    set (I := fun (lv : list (@leaf RNum)) (s : @adamw_state RNum) => only_floats_differ lv0 lv /\ kept lv /\ aframe b s).
    assert (W : (lv2, s2) = (lv1, s1) \/ I lv2 s2).
    { refine (@train_inv2 RNum G (tree_ops logp sample grad) I I a _ _ lv1 k data s1 ne bs kf lv2 s2 losses _ E); [tauto| |].
      - intros m xs st y m' st' (H1 & H2 & H3) Hs. cbn [m_step tree_ops] in Hs. pose proof (step_ofd logp grad _ _ _ _ _ _ _ Hs) as Ho'.
        apply step_parts in Hs as (_ & -> & ->). destruct (kept_step m st xs H1 H3 H2) as [K2 A2]. split; [eapply ofd_trans; eassumption|split; assumption].
      - pose proof (ofd_stats n _ _ Ho Hh) as Hh1. split; [eapply ofd_trans; [exact Ho|]; now apply (stats_ofd n)|]. split; [|exact A1].
        destruct K1 as (v' & Q1 & Q2). exists v'. split; [|exact Q2]. exact (eq_trans (stats_other i lv1 data N1 N2) Q1). }
    destruct W as [W|(_ & K2 & A2)]; [injection W as -> ->; split; assumption|split; assumption].
Qed.
End Tree.
Lemma reach_steps (m : nat) (lr u : R) : Rabs u <= INR m * (Rabs lr * reach (9 / 10)) -> Rabs u <= INR m * (73 / 10) * Rabs lr.
Proof.
  intros H. eapply Rle_trans; [exact H|]. rewrite Rmult_assoc. apply Rmult_le_compat_l; [apply pos_INR|].
  rewrite Rmult_comm. apply Rmult_le_compat_r; [apply Rabs_pos|exact reach_usual].
Qed.
