(** Trained spline and RealNVP models: statistics, base distribution, masks, log_prob. *)
From Coq Require Import Reals Psatz.
From Coquelicot Require Import Coquelicot.
From Verif Require Import Prelude Num M_Core M_Kernels M_Strategies M_Flow M_Net M_Model M_Tree P_Lists RNum MxR Spec_Kernels Spec_Train Spec_FM Spec_Jac Spec_Real Spec_Spline Spec_Flow P_Real1 P_FM3 P_Decay Spec_Net P_Model Spec_Tree Spec_TreeR P_Tree1 P_Tree2 P_Tree3 P_Tree4 P_Tree5 P_Tree6 P_Tree7 P_Tree8.
Open Scope R_scope.

Lemma matrix_scaled n d sh (M : list (list R)) (r : R) : length M = n -> (forall row, In row M -> length row = n) ->
  @matrix_of RNum n (@LArr RNum d sh (map (fun v => v * r) (concat M))) = map (map (fun v => v * r)) M.
Proof.
  intros HL Hr. unfold matrix_of. cbn [leaf_vals]. rewrite concat_map. apply reshape_concat; [now rewrite map_length|].
  intros row Hrow. apply in_map_iff in Hrow as (q & <- & Hq). rewrite map_length. auto.
Qed.
Lemma ent_scaled (M : list (list R)) (r : R) i j : (i < length M)%nat -> (j < length (nth i M []))%nat -> ent (map (map (fun v => v * r)) M) i j = ent M i j * r.
Proof.
  intros Hi Hj. unfold ent. rewrite (nth_map' (map (fun v => v * r)) M i [] []) by auto. exact (nth_map' (fun v => v * r) (nth i M []) j 0 0 Hj).
Qed.
Lemma diag_scaled n (M : list (list R)) (r : R) i : length M = n -> (forall row, In row M -> length row = n) -> (i < n)%nat ->
  @nth R i (@diag RNum (map (map (fun v => v * r)) M)) 0 = @nth R i (@diag RNum M) 0 * r.
Proof.
  intros <- Hr Hi. unfold diag. rewrite map_length. set (n := length M) in * .
  etransitivity; [exact (nth_map_seq (fun i => nth i (nth i (map (map (fun v => v * r)) M) []) 0) n i 0 Hi)|].
  etransitivity; [|symmetry; exact (f_equal (fun z => z * r) (nth_map_seq (fun i => nth i (nth i M []) 0) n i 0 Hi))].
  apply (ent_scaled M r i i); [exact Hi|]. rewrite (Hr (nth i M [])); [exact Hi|]. apply nth_In. exact Hi.
Qed.
Lemma cov_square n (data : list (list R)) : length (@data_cov RNum n data) = n /\ forall row, In row (@data_cov RNum n data) -> length row = n.
Proof.
  unfold data_cov. split; [now rewrite map_length, seq_length|]. intros row H. apply in_map_iff in H as (i & <- & _). now rewrite map_length, seq_length.
Qed.
Lemma eye_square n : length (@eye RNum n) = n /\ forall row, In row (@eye RNum n) -> length row = n.
Proof.
  unfold eye. split; [now rewrite map_length, seq_length|]. intros row H. apply in_map_iff in H as (i & <- & _). now rewrite map_length, seq_length.
Qed.
Lemma run_map_id (v : list R) : v = map (fun x => x * 1) v.
Proof. symmetry. etransitivity; [|apply map_id]. apply map_ext. intros. ring. Qed.

Lemma spread_var n data j : spread n data -> (j < n)%nat -> 0 < @nth R j (@diag RNum (@data_cov RNum n data)) 0.
Proof. intros [H1 H2] Hj. rewrite data_var_nth by auto. apply (proj1 (var_pos _ _ H1)). exact (H2 j Hj). Qed.

Section Run.
Context {G : @Rng RNum}.
Variables (logp : list (@leaf RNum) -> list R -> R) (sample : list (@leaf RNum) -> key -> nat -> list (list R)) (grad : list (@leaf RNum) -> list (list R) -> list R).
Variables (lv0 : list (@leaf RNum)) (n : nat) (lr momentum : R) (ds : list (list (list R))) (lv : list (@leaf RNum)) (s : @adamw_state RNum).
Let a := @optimizer_new RNum lr momentum.
Let q := 1 - lr * (1 / 10000).
Hypothesis Hh : @stats_header RNum n lv0.
Hypothesis Hrun : @training_run RNum G (tree_ops logp sample grad) a lv0 (tree_optimizer_init lv0) ds lv s.
Hypothesis Hlr : 0 < lr < 10000.
Lemma q_eq : 1 - aw_lr a * aw_decay a = q.
Proof. reflexivity. Qed.
Lemma q_range : 0 < q < 1.
Proof. unfold q. lra. Qed.

Lemma run_header : tree_n lv = n /\ exists v1 v2, lv_at lv 1 = LArr DFloat32 [n] v1 /\ length v1 = n /\ lv_at lv 2 = LArr DFloat32 [n; n] v2 /\ length v2 = (n * n)%nat.
Proof. exact (ofd_stats n _ _ (run_ofd logp sample grad n _ _ _ _ _ _ Hh Hrun) Hh). Qed.
Lemma run_stats1 : @stopped RNum lv0 grad 1 -> lv = lv0 \/ exists T data, (1 <= T)%nat /\ In data ds /\ lv_at lv 1 = LArr DFloat32 [n] (map (fun v => v * q ^ T) (@data_mean RNum n data)).
Proof.
  intros Hs. destruct (run_stat logp sample grad lv0 1 n a DFloat32 [n] ltac:(discriminate) Hs Hh (@data_mean RNum n) (tree_optimizer_init lv0) ds lv s) as [[[K _]|K] _]; auto.
  - intros lv1 data Ho. destruct (ofd_stats n _ _ Ho Hh) as (Hn & v1 & v2 & E1 & L1 & E2 & L2). unfold tree_set_stats. rewrite Hn. unfold lv_at. apply nth_set_nth_eq.
    rewrite set_nth_length. pose proof (leaf_in _ _ _ _ _ E1). lia.
  - apply init_no_momentum.
Qed.
Lemma run_stats2 : @stopped RNum lv0 grad 2 -> lv = lv0 \/ exists T data, (1 <= T)%nat /\ In data ds /\ lv_at lv 2 = LArr DFloat32 [n; n] (map (fun v => v * q ^ T) (concat (@data_cov RNum n data))).
Proof.
  intros Hs. destruct (run_stat logp sample grad lv0 2 n a DFloat32 [n; n] ltac:(discriminate) Hs Hh (fun data => concat (@data_cov RNum n data)) (tree_optimizer_init lv0) ds lv s) as [[[K _]|K] _]; auto.
  - intros lv1 data Ho. destruct (ofd_stats n _ _ Ho Hh) as (Hn & v1 & v2 & E1 & L1 & E2 & L2). unfold tree_set_stats. rewrite Hn. unfold lv_at.
    rewrite nth_set_nth_neq by lia. apply nth_set_nth_eq. exact (leaf_in _ _ _ _ _ E2).
  - apply init_no_momentum.
Qed.
Lemma run_other i sh v0 : @stopped RNum lv0 grad i -> i <> 1%nat -> i <> 2%nat -> lv_at lv0 i = LArr DFloat32 sh v0 ->
  exists T, lv_at lv i = LArr DFloat32 sh (map (fun v => v * q ^ T) v0) /\ (lv = lv0 \/ (1 <= T)%nat).
Proof.
  intros Hs N1 N2 Hv. destruct (run_leaf logp sample grad lv0 i n a DFloat32 sh ltac:(discriminate) Hs Hh v0 (tree_optimizer_init lv0) ds lv s N1 N2 Hv) as [[[K _]|(T & K1 & K2)] _]; auto.
  - apply init_no_momentum.
  - exists 0%nat. rewrite K, Hv. cbn [pow]. split; [|auto]. f_equal. apply run_map_id.
  - exists T. auto.
Qed.
(** Positive variances before, and spread data, give positive variances after. *)
Lemma run_good layers : @stopped RNum lv0 grad 2 -> (forall j, (j < n)%nat -> 0 < @nth R j (@diag RNum (matrix_of n (lv_at lv0 2))) 0) ->
  (forall data, In data ds -> spread n data) -> good_stats (tree_flow lv layers).
Proof.
  intros Hs H0 Hsp. destruct run_header as (Hn & v1 & v2 & E1 & L1 & E2 & L2).
  unfold good_stats, tree_flow. cbn [fl_n fl_mean fl_var]. rewrite Hn. split; [|split].
  - rewrite E1. exact L1.
  - unfold diag, matrix_of. now rewrite map_length, seq_length, reshape_rows_length.
  - intros j Hj. destruct (run_stats2 Hs) as [->|(T & data & HT & Hin & ->)]; [apply H0; exact Hj|].
    destruct (cov_square n data) as [C1 C2]. rewrite matrix_scaled by auto. rewrite (diag_scaled n) by auto.
    apply Rmult_lt_0_compat; [apply spread_var; auto|]. apply pow_lt, q_range.
Qed.
End Run.
