(** Small steps are accepted: chains, and a Gaussian target. *)
From Coq Require Import Reals Psatz.
From Verif Require Import Prelude Num M_Core M_Kernels M_Strategies M_PT M_Net M_Mala P_Lists P_Kernels P_Steps RNum MxR Spec_Kernels Spec_Prog Spec_Real Spec_HMC
  P_Real1 P_Real2 P_Jac P_Leapfrog P_HMC Spec_Net Spec_TreeR P_Gauss Spec_Mala P_Mala Spec_Units P_Units1 Spec_Small P_Small1 P_Small2.
Open Scope R_scope.

Section Chains.
Context {G : @Rng RNum}.
Hypothesis NS : @normal_shape RNum G.
Variables (n : nat) (K : R -> @skernel RNum G) (f : @lpdf RNum) (d : @datad RNum).
Hypothesis (HK : scaled_kernel n K) (GS : @grad_shape RNum f d n).
Notation ok_key k := (0 < uniform (split k 2 1) < 1).

Lemma kernel_small (x : list R) : tame n f d x -> exists r, 0 < r /\ forall k, ok_key k -> forall e, 0 < e -> exists t, 0 < t /\
  forall s y, 0 < s < t -> within n r x y -> exists y', within n e y y' /\ K s k y (lp_val f y d) f d = Ok (y', lp_val f y' d, true).
Proof.
  intros (r & R0 & UC & B & GB0). exists (r / 2). split; [lra|]. intros k U.
  assert (GB : forall y, within n r x y -> forall i, (i < n)%nat -> Rabs (nth i (lp_grad f y d) 0) <= Rabs B).
  { intros y Y i Hi. eapply Rle_trans; [exact (GB0 y Y i Hi)|apply RRle_abs]. }
  destruct HK as [ss O|ss O N0|chol dt CL SD SF|eps leaps m l SM SL].
  - exact (walk_small NS n f d x r R0 UC ss k O U).
  - exact (langevin_small NS n f d x r (Rabs B) R0 GS UC (Rabs_pos B) GB ss k O N0 U).
  - exact (matrix_small NS n f d x r (Rabs B) R0 GS UC (Rabs_pos B) GB chol dt k CL SD SF U).
  - exact (hamiltonian_small NS n f d x r (Rabs B) R0 GS UC (Rabs_pos B) GB eps leaps m l k SM SL U).
Qed.
Lemma scan_small (x : list R) : tame n f d x -> exists r, 0 < r /\ forall T k, (forall i, (i < T)%nat -> ok_key (scan_key k i)) -> forall e, 0 < e -> exists t, 0 < t /\
  forall s y, 0 < s < t -> within n (r - e) x y -> exists co, serial_scan (K s) f d T k y (lp_val f y d) = Ok co /\ length co = T /\
  Forall (small_accepted n e f d y) co.
Proof.
  intros HT. destruct (kernel_small x HT) as (r & R0 & H). exists r. split; [exact R0|]. induction T as [|T IH]; intros k U e He.
  { exists 1. split; [lra|]. intros s y _ _. exists []. split; [reflexivity|]. split; [reflexivity|constructor]. }
  destruct (H (scan_key k 0) (U 0%nat ltac:(lia)) (e / 2) ltac:(lra)) as (t1 & T1 & H1).
  destruct (IH (split k 2 0) (fun i Hi => U (S i) ltac:(lia)) (e / 2) ltac:(lra)) as (t2 & T2 & H2).
  exists (Rmin t1 t2). split; [apply Rmin_pos; assumption|]. intros s y [S0 S1] Y. pose proof (Rmin_l t1 t2). pose proof (Rmin_r t1 t2).
  destruct (H1 s y ltac:(lra)) as (y' & W & E). { apply (within_weaken n (r - e)); [lra|exact Y]. }
  destruct (H2 s y' ltac:(lra)) as (co & E2 & L & F). { replace (r - e / 2) with ((r - e) + e / 2) by field. exact (within_trans n _ _ x y y' Y W). }
  exists ((y', lp_val f y' d, true) :: co). split.
  - cbn [serial_scan]. change (split k 2 1) with (scan_key k 0). rnorm. rewrite E. cbn [rbind]. rewrite E2. reflexivity.
  - split; [exact (f_equal S L)|]. constructor.
    + split; [apply (within_weaken n (e / 2)); [lra|exact W]|]. split; reflexivity.
    + eapply Forall_impl; [|exact F]. intros o (A & B & C). split; [|split; assumption].
      cbn beta in A. replace e with (e / 2 + e / 2) by field. exact (within_trans n _ _ y y' _ W A).
Qed.
Lemma within_refl r x : 0 < r -> length x = n -> within n r x x.
Proof. intros R0 Hx. split; [exact Hx|]. split; [exact Hx|]. intros i Hi. replace (nth i x 0 - nth i x 0) with 0 by ring. now rewrite Rabs_R0. Qed.
Lemma small_weaken e e' x o : e <= e' -> small_accepted n e f d x o -> small_accepted n e' f d x o.
Proof. intros H (A & B & C). split; [exact (within_weaken n e e' _ _ H A)|]. split; assumption. Qed.

Lemma step_small_proof (x : list R) (k : key) : length x = n -> tame n f d x -> ok_key k -> forall e, 0 < e -> exists t, 0 < t /\
  forall s, 0 < s < t -> exists o, K s k x (lp_val f x d) f d = Ok o /\ small_accepted n e f d x o.
Proof.
  intros Hx HT U e He. destruct (kernel_small x HT) as (r & R0 & H). destruct (H k U e He) as (t & T0 & Ht). exists t. split; [exact T0|].
  intros s Hs. destruct (Ht s x Hs (within_refl r x R0 Hx)) as (y' & W & E). exists (y', lp_val f y' d, true). split; [exact E|]. split; [exact W|]. split; reflexivity.
Qed.
Lemma chain_small_proof (x : list R) T (k : key) : length x = n -> tame n f d x -> (forall i, (i < T)%nat -> ok_key (scan_key k i)) ->
  forall e, 0 < e -> exists t, 0 < t /\ forall s, 0 < s < t -> exists co, serial_sample (K s) f d T k x = Ok co /\ length co = T /\
  Forall (small_accepted n e f d x) co.
Proof.
  intros Hx HT U e He. destruct (scan_small x HT) as (r & R0 & H). pose proof (Rmin_l e (r / 2)). pose proof (Rmin_r e (r / 2)).
  destruct (H T k U (Rmin e (r / 2)) ltac:(apply Rmin_pos; lra)) as (t & T0 & Ht). exists t. split; [exact T0|]. intros s Hs.
  destruct (Ht s x Hs) as (co & E & L & F). { apply within_refl; [lra|exact Hx]. }
  exists co. split; [exact E|]. split; [exact L|]. eapply Forall_impl; [|exact F]. intros o Ho. cbn beta in Ho. now apply (small_weaken (Rmin e (r / 2))).
Qed.
Lemma chains_small_proof T batch (keys : list key) (xs : list (list R)) : length keys = length xs ->
  Forall (fun x => length x = n /\ tame n f d x) xs -> (forall k i, In k keys -> (i < T)%nat -> ok_key (scan_key k i)) ->
  forall e, 0 < e -> exists t, 0 < t /\ forall s, 0 < s < t -> exists out, run_chains (serial_sample (K s) f d T) batch keys xs = Ok out /\
  Forall2 (fun x co => length co = T /\ Forall (small_accepted n e f d x) co) xs out.
Proof.
  intros L HX U e He.
  assert (Q : exists t, 0 < t /\ forall s, 0 < s < t -> exists out, vmap_chains (serial_sample (K s) f d T) keys xs = Ok out /\
    Forall2 (fun x co => length co = T /\ Forall (small_accepted n e f d x) co) xs out).
  2: { destruct Q as (t & T0 & H). exists t. split; [exact T0|]. intros s Hs. destruct (H s Hs) as (out & E & F). exists out. split; [|exact F].
       refine (eq_trans (run_chains_batch _ _ _ _ _) E). exact L. }
  revert keys L U. induction HX as [|x xs [Hx HT] _ IH]; intros [|k keys] L U; try discriminate.
  { exists 1. split; [lra|]. intros s _. exists []. split; [reflexivity|constructor]. }
  destruct (chain_small_proof x T k Hx HT (fun i Hi => U k i (or_introl eq_refl) Hi) e He) as (t1 & T1 & H1).
  destruct (IH keys ltac:(cbn in L; lia) (fun q i Hq Hi => U q i (or_intror Hq) Hi)) as (t2 & T2 & H2).
  exists (Rmin t1 t2). split; [apply Rmin_pos; assumption|]. intros s [S0 S1]. pose proof (Rmin_l t1 t2). pose proof (Rmin_r t1 t2).
  destruct (H1 s ltac:(lra)) as (co & E1 & Lc & F1). destruct (H2 s ltac:(lra)) as (out & E2 & F2). exists (co :: out). split.
  - unfold vmap_chains in * . cbn [combine rmapM fst snd]. rnorm. rewrite E1. cbn [rbind]. rewrite E2. reflexivity.
  - constructor; [split; assumption|exact F2].
Qed.
End Chains.

(* ------------------------------------------------------------------ a Gaussian target *)
Definition gauss_target (n : nat) : @lpdf RNum := @mkLpdf RNum (fun (x : list R) _ => - (1 / 2 * Rsum n (fun i => nth i x 0 ^ 2))) (fun (x : list R) _ => map Ropp x).
Lemma gauss_tame n d (x : list R) : tame n (gauss_target n) d x /\ @grad_shape RNum (gauss_target n) d n.
Proof.
  split; [|intros y Hy; cbn; now rewrite map_length]. destruct (bounded_by n (fun i => nth i x 0)) as (X & X0 & HX). pose proof (pos_INR n) as Hn.
  exists 1. split; [lra|].
  assert (BD : forall y, within n 1 x y -> forall i, (i < n)%nat -> Rabs (nth i y 0) <= X + 1).
  { intros y (_ & _ & Y) i Hi. replace (nth i y 0) with (nth i x 0 + (nth i y 0 - nth i x 0)) by ring. eapply Rle_trans; [apply Rabs_triang|].
    pose proof (HX i Hi). pose proof (Y i Hi). cbn beta in * . lra. }
  split.
  - intros e He. assert (NX : 0 <= INR n * (X + 1)) by (apply Rmult_le_pos; lra). destruct (small_enough _ e NX He) as (t & T0 & Ht).
    exists (t / 2). split; [lra|]. intros y y' Y Y' W. specialize (Ht (t / 2) ltac:(lra)). eapply Rle_lt_trans; [|exact Ht]. cbn [lp_val gauss_target].
    match goal with |- Rabs ?a <= _ => replace a with (1 / 2 * Rsum n (fun i => nth i y 0 ^ 2 - nth i y' 0 ^ 2)) by (rewrite Rsum_minus; ring) end.
    replace (t / 2 * (INR n * (X + 1))) with (1 / 2 * (INR n * (t / 2 * (2 * (X + 1))))) by field. apply Rabs_mul_le; [rewrite Rabs_pos_eq; lra|].
    apply Rsum_Rabs. intros i Hi. replace (nth i y 0 ^ 2 - nth i y' 0 ^ 2) with (- (nth i y' 0 - nth i y 0) * (nth i y 0 + nth i y' 0)) by ring.
    apply Rabs_mul_le; [rewrite Rabs_Ropp; left; now apply W|]. eapply Rle_trans; [apply Rabs_triang|]. pose proof (BD y Y i Hi). pose proof (BD y' Y' i Hi). lra.
  - exists (X + 1). intros y Y i Hi. cbn [lp_grad gauss_target]. rewrite mapR by (rewrite (proj1 (proj2 Y)); exact Hi). rewrite Rabs_Ropp. now apply BD.
Qed.
