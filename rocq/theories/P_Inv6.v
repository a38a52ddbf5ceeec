(** Production phase of the bundle: the marginal of one chain. *)
From Coq Require Import Reals Lra Lia Permutation Classical.
From Verif Require Import Prelude Num M_Core M_Kernels M_Strategies M_PT M_Bundle P_Lists P_Buffer
  Spec Spec_Core P_Core Spec_Sampler P_Sampler Spec_Steps P_Steps Spec_Kernels P_Kernels P_StepsK P_Steps2 Spec_Train P_Train P_Train2
  P_Kernels2 Spec_Bundle P_Bundle P_Bundle2 P_Bundle3 P_Bundle4 P_Bundle5 Spec_Prog P_Prog1 P_Prog2 RNum Spec_Real Spec_Inv P_Inv1 P_Inv2 P_Inv3 P_Inv4 P_Inv5.
Open Scope R_scope.

Section Prod.
Context {G : @Rng RNum} {NF : @NFOps RNum G}.
Variables (c : @config RNum G NF) (d : @datad RNum) (m : mdl) (i : nat).
Definition sloc (k : key) (x : list R) := @serial_sample RNum G (mala_kernel (c_step c)) (c_logpdf c) d (c_local c) k x.
Definition sglo (k : key) (x : list R) := @group_sample RNum G NF (mkNfp m (c_nf_bs c)) (c_logpdf c) d (c_global c) k x.
Definition pl : nat := (c_local c / c_local_th c)%nat.
Definition pg : nat := (c_global c / c_global_th c)%nat.
Definition el : nat := ((c_local c - 1) / c_local_th c * c_local_th c)%nat.
Definition eg : nat := ((c_global c - 1) / c_global_th c * c_global_th c)%nat.
Definition prow := crow (c_n_chains c) i sloc sglo pl (c_local_th c) el pg (c_global_th c) eg.
Definition pend := cend (c_n_chains c) i sloc sglo el eg.

Lemma prun_cons (s : rstate unit) ls s2 : production_run nothing_before c d s ls s2 ->
  match ls with [] => s2 = s | l :: rest => exists s1, production_loop nothing_before c d s l s1 /\ production_run nothing_before c d s1 rest s2 end.
Proof.
  induction 1 as [s|s past sa l sb H IH HL]; [reflexivity|]. destruct past as [|l0 past]; cbn [app].
  - subst sa. exists sb. split; [exact HL|constructor].
  - destruct IH as (s1 & A & B). exists s1. split; [exact A|]. econstructor; eauto.
Qed.
Lemma last_kept_pos n th (co : list (list R * R * bool)) (p : list R) : @last_kept RNum n th co p -> p = pos ((n - 1) / th * th) (Ok co).
Proof. intros (o & A & ->). cbn [pos]. rewrite (nth_error_nth co _ ([], 0, false) A). reflexivity. Qed.
Lemma kept_nth n th (co : list (list R * R * bool)) j : (j < n / th)%nat -> nth_error (@kept_steps RNum n th co) j = Some (nth (j * th) co ([], 0, false)).
Proof. intros H. unfold kept_steps. rewrite nth_error_map, (nth_error_nth' _ 0%nat) by (rewrite seq_length; exact H). rewrite seq_nth by exact H. reflexivity. Qed.
Lemma prun_rows (s : rstate unit) ls s2 : production_run nothing_before c d s ls s2 -> r_model s = m -> length (r_pos s) = c_n_chains c -> (i < c_n_chains c)%nat ->
  (forall slot b o, nth_error (chain_history c ls i) slot = Some (b, o) -> s_pos o = prow (length ls) (r_key s) (nth i (r_pos s) []) slot) /\
  nth i (r_pos s2) [] = pend (length ls) (r_key s) (nth i (r_pos s) []).
Proof.
  revert s. induction ls as [|l rest IH]; intros s H Em Lx Hi; pose proof (prun_cons _ _ _ H) as RN; cbv beta iota in RN.
  - subst. split; [|reflexivity]. intros [|slot] b o Q; discriminate.
  - destruct RN as (s1 & (k0 & xs0 & xs1 & (B1 & B2) & LR & GR & _ & Em1 & _ & Ek) & RN). subst k0 xs0. rewrite Em in GR.
    destruct LR as (L1 & L2 & L3). destruct GR as (G1 & G2 & G3).
    destruct (L3 i) as (L3a & L3b & L3c); [rewrite Lx; exact Hi|]. rewrite Lx in L3a.
    destruct (G3 i) as (G3a & G3b & G3c); [rewrite L2, Lx; exact Hi|]. rewrite L2, Lx in G3a.
    specialize (IH s1 RN ltac:(congruence) ltac:(rewrite G2, L2; exact Lx) Hi).
    set (k := r_key s) in * . set (x := nth i (r_pos s) []) in * .
    assert (R1 : r1 (c_n_chains c) i sloc k x = Ok (nth i (lo_local l) [])) by exact L3a.
    assert (X1 : x1 (c_n_chains c) i sloc el k x = nth i xs1 []) by (unfold x1; rewrite R1; symmetry; exact (last_kept_pos _ _ _ _ L3c)).
    assert (R2 : r2 (c_n_chains c) i sloc sglo el k x = Ok (nth i (lo_global l) [])) by (unfold r2; rewrite X1; exact G3a).
    assert (X2 : x2 (c_n_chains c) i sloc sglo el eg k x = nth i (r_pos s1) []) by (unfold x2; rewrite R2; symmetry; exact (last_kept_pos _ _ _ _ G3c)).
    assert (KN : kn k = r_key s1) by (symmetry; exact Ek).
    destruct IH as [IH1 IH2]. split.
    + intros slot b o Q. change (length (l :: rest)) with (S (length rest)). unfold prow. cbn [crow]. rewrite X2, KN, R1, R2.
      unfold chain_history in Q. cbn [map concat] in Q. fold (chain_history c rest i) in Q.
      destruct (Nat.ltb_spec slot pl) as [H1|H1]; [|destruct (Nat.ltb_spec slot (pl + pg)) as [H2|H2]].
      * rewrite nth_error_app1 in Q by (rewrite app_length, !map_length, !kept_steps_length; unfold pl in H1; lia).
        rewrite nth_error_app1 in Q by (rewrite map_length, kept_steps_length; exact H1).
        rewrite nth_error_map, (kept_nth _ _ _ _ H1) in Q. injection Q as _ <-. reflexivity.
      * rewrite nth_error_app1 in Q by (rewrite app_length, !map_length, !kept_steps_length; unfold pl, pg in H2; lia).
        rewrite nth_error_app2 in Q by (rewrite map_length, kept_steps_length; exact H1).
        rewrite map_length, kept_steps_length in Q. fold pl in Q. rewrite nth_error_map, kept_nth in Q by (fold pg; lia). injection Q as _ <-. reflexivity.
      * rewrite nth_error_app2 in Q by (rewrite app_length, !map_length, !kept_steps_length; unfold pl, pg in H2; lia).
        rewrite app_length, !map_length, !kept_steps_length in Q. fold pl pg in Q. exact (IH1 _ _ _ Q).
    + rewrite IH2. change (length (l :: rest)) with (S (length rest)). unfold pend. cbn [cend]. rewrite X2, KN. reflexivity.
Qed.
End Prod.
