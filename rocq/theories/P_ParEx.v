(** A concrete case: two chains. *)
From Coq Require Import Reals Lra Lia Classical.
From Verif Require Import Prelude Num M_Core M_Kernels M_Strategies M_Bundle Spec_Kernels P_Kernels Spec_Train Spec_Bundle Spec_Prog
  RNum Spec_Real Spec_HMC Spec_Inv P_Real1 P_Inv1 P_Inv2 P_Inv3 P_Inv4 P_Inv7 P_InvEx Spec_Erg P_Erg1 Spec_Par P_Par1.
Open Scope R_scope.

Lemma wexp_monotone {T} (l : list (R * T)) H : (forall p, In p l -> 0 <= fst p) -> monotone (wexp l H).
Proof. intros N f g Q. rewrite !wexp_ex. apply total_le. intros p Hp. apply Rmult_le_compat_l; auto. Qed.
(** A key that is a pair of keys splits into two independent ones. *)
Lemma two_split E E0 E1 : @splits2 TRng E E0 E1 -> @splits_all TRng E 2 (fun i => match i with O => E0 | _ => E1 end).
Proof.
  intros S h. cbn [Rprod]. destruct (S (fun a b => 1 * h 0%nat a * h 1%nat b)) as [Q _]. etransitivity; [exact Q|].
  rewrite (ex_ext _ E0 _ (fun a => ex E1 (h 1%nat) * h 0%nat a)).
  - rewrite ex_scal. ring.
  - intros a. etransitivity; [apply (ex_scal E1 (1 * h 0%nat a) (h 1%nat))|]. ring.
Qed.
Lemma has_two P Q n : hasw P -> hasw Q -> hasw (@loops_sources TRng 2 P Q n).
Proof.
  intros H1 H2. induction n as [|n IH]; [exact hasw_one|].
  assert (TW : forall R : expect ktree -> Prop, hasw R -> hasw (fun E => exists Es, @splits_all TRng E 2 Es /\ forall i, (i < 2)%nat -> R (Es i))).
  { intros R H. refine (hasw_split R R _ _ H H). intros E E0 E1 S A B. eexists. split; [exact (two_split E E0 E1 S)|]. intros [|i] _; assumption. }
  refine (hasw_split (fun E0 => exists E00 E01 Es, @splits2 TRng E0 E00 E01 /\ @splits_all TRng E01 2 Es /\ (forall i, (i < 2)%nat -> Q (Es i)) /\ @loops_sources TRng 2 P Q n E00) _ _ _ _ (TW P H1)).
  - intros E E0 E1 S (E00 & E01 & Ed & S' & A & B & C) (Ec & D & F). cbn [loops_sources]. exists E0, E1, Ec, E00, E01, Ed. repeat (split; auto).
  - refine (hasw_split _ _ _ _ IH (TW Q H2)). intros E E0 E1 S A (Es & B & C). exists E0, E1, Es. auto.
Qed.
(** The bundle of C79_production_case with two chains and [L] production loops. *)
Definition tcfg2 (L : nat) : @config RNum TRng TNF := @mkConfig RNum TRng TNF (Lf 0 0) 2 1 tf 2 2 0 L 1 one 1 1 1 1 1 1 1 (fun _ => tt) tt (fun _ => tt).
Lemma t2_ok L : @run_ok RNum TRng TNF (tcfg2 L) [] [[0]; [2]] (fun _ => True).
Proof.
  constructor; try reflexivity; try (cbn; lia).
  - intros x [<-|[<-|[]]]; reflexivity.
  - exact tf_grad.
  - exact ninf_R.
  - exact t_normal.
  - intros k n c. split; [apply repeat_length|]. intros Hn i Hi. apply repeat_spec in Hi. subst i. exact Hn.
  - split; [|split; auto]. intros [] _. exact t_samples.
Qed.
Lemma t2_counts L : counts_ok (tcfg2 L). Proof. constructor; try (cbn; lia). Qed.
Definition thb2 L := match @rqspline_mala_bundle RNum TRng TNF (tcfg2 L) with Ok p => p | Raise _ => ([], mkBundle [] [] []) end.
Lemma t2_loops L : hasw (@loops_sources TRng 2 (@local_source TRng TNF (tcfg2 L) [] Xs) (@global_source TRng TNF (tcfg2 L) [] tt Xs Ys qq) L).
Proof.
  apply has_two.
  - exact (hasw_chain _ 2 lang_hasw).
  - refine (hasw_split _ _ _ _ (hasw_chain _ 2 tests_hasw) (flow_hasw 2)). intros E E0 E1 S A B. exists E0, E1. auto.
Qed.
