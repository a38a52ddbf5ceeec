(** Histories of training calls. *)
From Coq Require Import Reals Psatz.
From Coquelicot Require Import Coquelicot.
From Verif Require Import Prelude Num M_Core M_Kernels M_Strategies M_Flow M_Net M_Model M_Tree P_Lists RNum Spec_Kernels Spec_Train Spec_FM P_Real1 P_FM3 P_Decay Spec_Net Spec_Tree P_Tree1 P_Tree2 P_Tree3 P_Tree7.
Open Scope R_scope.

Section Gen.
Context {N : Num} {G : Rng}.
Variables (logp : list leaf -> vec -> F) (sample : list leaf -> key -> nat -> list vec) (grad : list leaf -> list vec -> vec).
Lemma run_ofd n tx lv0 s0 ds lv s : stats_header n lv0 -> @training_run N G (tree_ops logp sample grad) tx lv0 s0 ds lv s -> only_floats_differ lv0 lv.
Proof.
  intros Hh H. induction H as [|ds lv1 s1 k data ne bs kf lv2 s2 losses H IH E]; [apply ofd_refl|].
  eapply ofd_trans; [exact IH|]. eapply (train_ofd logp sample grad n); [|exact E]. eapply ofd_stats; eauto.
Qed.
End Gen.

Section Hist.
Context {G : @Rng RNum}.
Variables (logp : list (@leaf RNum) -> list R -> R) (sample : list (@leaf RNum) -> key -> nat -> list (list R)) (grad : list (@leaf RNum) -> list (list R) -> list R).
Variables (lv0 : list (@leaf RNum)) (i n : nat) (a : @adamw RNum) (d : dtype) (sh : list nat).
Hypothesis Hd : d <> DBool.
Hypothesis Hst : @stopped RNum lv0 grad i.
Hypothesis Hh : @stats_header RNum n lv0.
Let q := 1 - aw_lr a * aw_decay a.
(** One call of train. *)
Lemma train_leaf (v0 : list R) lv1 s1 k data ne bs kf lv2 s2 losses T : only_floats_differ lv0 lv1 -> @no_momentum RNum lv0 i s1 ->
  lv_at (tree_set_stats lv1 data) i = LArr d sh (decayed v0 a T) ->
  @train RNum G (tree_ops logp sample grad) lv1 k data a s1 ne bs = Ok (kf, (lv2, s2), losses) ->
  (lv2, s2) = (lv1, s1) \/ ((exists T', (S T <= T')%nat /\ lv_at lv2 i = LArr d sh (decayed v0 a T')) /\ @no_momentum RNum lv0 i s2).
Proof.
  intros Ho Hm HT E. pose proof (ofd_stats n _ _ Ho Hh) as Hh1.
  set (I := fun (l : nat) (lv : list (@leaf RNum)) (s : @adamw_state RNum) => only_floats_differ lv0 lv /\ (exists T', (l + T <= T')%nat /\ lv_at lv i = LArr d sh (decayed v0 a T')) /\ @no_momentum RNum lv0 i s).
  assert (W : (lv2, s2) = (lv1, s1) \/ I 1%nat lv2 s2); [refine (@train_inv2 RNum G (tree_ops logp sample grad) (I 0%nat) (I 1%nat) a _ _ lv1 k data s1 ne bs kf lv2 s2 losses _ E)|destruct W as [K|K]].
  - intros m st (A & (T' & B1 & B2) & C). split; [exact A|split; [|exact C]]. exists T'. split; auto. lia.
  - intros m xs st v m' st' (A & (T' & B1 & B2) & C) Es. cbn [m_step tree_ops] in Es.
    pose proof (step_ofd logp grad _ _ _ _ _ _ _ Es) as Ho'. apply step_parts in Es as (_ & -> & ->).
    destruct (dec_step1 logp sample grad lv0 i d sh v0 a Hd Hst m st xs T' A B2 C) as [H1 H2]. split; [eapply ofd_trans; eassumption|]. split; [|exact H2].
    exists (S T'). split; auto. lia.
  - split; [eapply ofd_trans; [exact Ho|]; now apply (stats_ofd n)|]. split; [|exact Hm]. exists T. split; [lia|exact HT].
  - left. exact K.
  - right. destruct K as (_ & K1 & K2). split; auto.
Qed.
Lemma decayed_0 (v0 : list R) : decayed v0 a 0 = v0.
Proof. unfold decayed. cbn [pow]. etransitivity; [|apply map_id]. apply map_ext. intros x. ring. Qed.
Lemma init_no_momentum : @no_momentum RNum lv0 i (tree_optimizer_init lv0).
Proof. intros j _. exact (init_zero (ravel lv0) j). Qed.
Lemma stats_other lv data : i <> 1%nat -> i <> 2%nat -> lv_at (@tree_set_stats RNum lv data) i = lv_at lv i.
Proof. intros H1 H2. unfold tree_set_stats, lv_at. now rewrite !nth_set_nth_neq by auto. Qed.
(** A leaf that is not a data statistic. *)
Lemma run_leaf (v0 : list R) s0 ds lv s : i <> 1%nat -> i <> 2%nat -> lv_at lv0 i = LArr d sh v0 -> @no_momentum RNum lv0 i s0 ->
  @training_run RNum G (tree_ops logp sample grad) a lv0 s0 ds lv s ->
  (lv = lv0 /\ s = s0 \/ exists T, (1 <= T)%nat /\ lv_at lv i = LArr d sh (map (fun v => v * q ^ T) v0)) /\ @no_momentum RNum lv0 i s.
Proof.
  intros N1 N2 Hv Hm H. induction H as [|ds lv1 s1 k data ne bs kf lv2 s2 losses H IH E]; [auto|].
  pose proof (run_ofd logp sample grad n _ _ _ _ _ _ Hh H) as Ho. destruct IH as [IH Hm1].
  assert (HT : exists T, lv_at lv1 i = LArr d sh (decayed v0 a T)).
  { destruct IH as [[-> _]|(T & _ & HT)]; [exists 0%nat; now rewrite decayed_0|]. exists T. exact HT. }
  destruct HT as (T & HT). destruct (train_leaf v0 lv1 s1 k data ne bs kf lv2 s2 losses T Ho Hm1) as [K|[(T' & K1 & K2) K3]]; auto.
  - now rewrite stats_other.
  - injection K as -> ->. split; auto.
  - split; auto. right. exists T'. split; [lia|exact K2].
Qed.
(** The data statistics. *)
Lemma run_stat (f : list (list R) -> list R) s0 ds lv s :
  (forall lv1 data, only_floats_differ lv0 lv1 -> lv_at (@tree_set_stats RNum lv1 data) i = LArr d sh (f data)) -> @no_momentum RNum lv0 i s0 ->
  @training_run RNum G (tree_ops logp sample grad) a lv0 s0 ds lv s ->
  (lv = lv0 /\ s = s0 \/ exists T data, (1 <= T)%nat /\ In data ds /\ lv_at lv i = LArr d sh (map (fun v => v * q ^ T) (f data))) /\ @no_momentum RNum lv0 i s.
Proof.
  intros Hf Hm H. induction H as [|ds lv1 s1 k data ne bs kf lv2 s2 losses H IH E]; [auto|].
  pose proof (run_ofd logp sample grad n _ _ _ _ _ _ Hh H) as Ho. destruct IH as [IH Hm1].
  destruct (train_leaf (f data) lv1 s1 k data ne bs kf lv2 s2 losses 0 Ho Hm1) as [K|[(T' & K1 & K2) K3]]; auto.
  - rewrite decayed_0. now apply Hf.
  - injection K as -> ->. split; auto. destruct IH as [IH|(T & dd & IH1 & IH2 & IH3)]; [auto|]. right. exists T, dd. repeat split; auto. apply in_or_app. now left.
  - split; auto. right. exists T', data. repeat split; [lia| |exact K2]. apply in_or_app. right. now left.
Qed.
End Hist.
