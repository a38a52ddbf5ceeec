(** Some rate always exists on finitely many states. *)
From Coq Require Import Reals Lra Lia Permutation Classical.
From Verif Require Import Prelude Num M_Core M_Kernels M_Strategies P_Lists Spec_Kernels RNum Spec_Real Spec_Inv P_Inv1 P_Inv4 P_InvEx Spec_Erg P_Erg1 P_Erg2.
Open Scope R_scope.

Lemma total_term {A} (l : list A) h a : (forall b, In b l -> 0 <= h b) -> In a l -> h a <= total l h.
Proof.
  induction l as [|b l IH]; intros H HI; [destruct HI|]. destruct HI as [<-|Hi]; unfold total in * ; cbn [fold_right].
  - assert (0 <= total l h). { replace 0 with (total l (fun _ => 0)) by (now apply total_0). apply total_le. intros b' Hb. apply H. now right. } unfold total in H0. lra.
  - pose proof (H b (or_introl eq_refl)). pose proof (IH (fun b' Hb => H b' (or_intror Hb)) Hi). lra.
Qed.
Lemma covers_some (X : list (list R)) w q : (forall x, In x X -> 0 < w x) -> (forall x, In x X -> 0 < q x) -> exists W, covers X w q W.
Proof.
  intros HW HQ. exists (total X (fun x => w x / total X w / q x)). intros x Hx.
  assert (T : 0 < total X w) by (apply total_pos; [exact HW|intros ->; exact Hx]).
  assert (P : forall b, In b X -> 0 <= w b / total X w / q b).
  { intros b Hb. apply Rlt_le. unfold Rdiv. repeat apply Rmult_lt_0_compat; try apply Rinv_0_lt_compat; auto. }
  pose proof (total_term X _ x P Hx) as Q. cbv beta in Q. pose proof (HQ x Hx) as Qx.
  apply (Rmult_le_compat_r (q x)) in Q; [|lra]. replace (w x / total X w / q x * q x) with (w x / total X w) in Q by (field; lra). exact Q.
Qed.
Lemma covers_one (X Y : list (list R)) w q W : (forall x, In x X -> 0 < w x) -> (forall y, 0 < q y) -> X <> [] -> NoDup X -> NoDup Y -> (forall x, In x X -> In x Y) -> total Y q = 1 -> covers X w q W -> 1 <= W.
Proof.
  intros HW HQ NE NX NY XY Q1 CV.
  assert (T : 0 < total X w) by (apply total_pos; auto).
  assert (A : total X (fun x => w x / total X w) <= total X (fun x => W * q x)) by (apply total_le, CV).
  rewrite (total_ext X (fun x => w x / total X w) (fun x => / total X w * w x)) in A by (intros; unfold Rdiv; ring). rewrite !total_scal, Rinv_l in A by lra.
  assert (B : total X q <= total Y q).
  { assert (EE : total X q = total X (fun y => if mem y X then q y else 0)).
    { apply total_ext. intros x Hx. apply mem_true in Hx. now rewrite Hx. }
    rewrite EE, <- (total_sub X Y (fun y => if mem y X then q y else 0) NX NY XY); [|intros y _ H; apply mem_false in H; now rewrite H].
    apply total_le. intros y _. destruct (mem y X); [lra|]. apply Rlt_le, HQ. }
  rewrite Q1 in B. assert (0 < total X q) by (apply total_pos; auto). nra.
Qed.
Lemma rate_lim (W e : R) : 1 <= W -> 0 < e -> exists n, forall j, (n <= j)%nat -> (1 - 1 / W) ^ j < e.
Proof.
  intros HW He. assert (0 < 1 / W <= 1). { split; [apply Rdiv_lt_0_compat; lra|]. apply (Rmult_le_reg_r W); [lra|]. replace (1 / W * W) with 1 by (field; lra). lra. }
  destruct (pow_lt_1_zero (1 - 1 / W)) with (y := e) as (n & Hn); [rewrite Rabs_right; lra|lra|]. exists n. intros j Hj.
  pose proof (Hn j Hj) as Q. rewrite Rabs_right in Q; [exact Q|]. apply Rle_ge, pow_le. lra.
Qed.
Lemma source_one {G : @Rng RNum} {NF : @NFOps RNum G} (m : mdl) Y q b n E : (0 < b)%nat -> flow_source m Y q b n E -> total Y q = 1.
Proof.
  intros HB [D _]. pose proof (D 1%nat HB (fun _ => 1)) as Q. cbv beta in Q. refine (eq_trans _ (eq_trans (eq_sym Q) (ex_const _ E 1))). cbn [iid]. apply total_ext. intros; ring.
Qed.
Lemma g_ranges (X : list (list R)) (g : list R -> R) : exists lo hi, lo <= hi /\ ranges X g lo hi.
Proof.
  induction X as [|x X (lo & hi & L & H)]; [exists 0, 0; split; [lra|intros x []]|]. exists (Rmin lo (g x)), (Rmax hi (g x)).
  pose proof (Rmin_l lo (g x)). pose proof (Rmin_r lo (g x)). pose proof (Rmax_l hi (g x)). pose proof (Rmax_r hi (g x)). split; [lra|].
  intros y [<-|Hy]; [lra|]. pose proof (H y Hy). lra.
Qed.
Lemma flow_limit {G : @Rng RNum} {NF : @NFOps RNum G} (p : nfp) (X Y : list (list R)) (f : lpdf) (d : datad) (q : list R -> R) (a : R)
  (dim : nat) (g : list R -> R) (eps : R) :
  samples_shape (nfp_model p) dim -> (0 < nfp_bs p)%nat -> ignores_n_steps f ->
  NoDup X -> NoDup Y -> (forall x, In x X -> In x Y) ->
  0 < a -> (forall y, q y = a * exp (m_logp (nfp_model p) y)) -> (forall y, 0 < q y) -> 0 < eps ->
  exists enough, forall (n j : nat) (x : list R) (E Ea Ed : expect key),
  splits2 E Ea Ed -> key_chain (flow_tests X Y (density f d) q) n Ea -> flow_source (nfp_model p) Y q (nfp_bs p) n Ed -> (enough <= j < n)%nat ->
  In x X ->
  Rabs (ex E (fun k => at_step j g (group_sample p f d n k x)) - target_mean X (density f d) g) < eps.
Proof.
  intros HS HB IG NX NY XY A0 HQ QP He. destruct (classic (X = [])) as [->|NE]; [exists 0%nat; intros n j x E Ea Ed _ _ _ _ []|].
  assert (WP : forall x, In x X -> 0 < density f d x) by (intros; apply exp_pos).
  destruct (covers_some X (density f d) q WP (fun x _ => QP x)) as (W & CV). destruct (g_ranges X g) as (lo & hi & LH & RG).
  destruct (classic (total Y q = 1)) as [Q1|Q1]; [|exists 0%nat; intros n j x E Ea Ed _ _ FD; exfalso; exact (Q1 (source_one _ _ _ _ _ _ HB FD))].
  pose proof (covers_one X Y _ _ W WP QP NE NX NY XY Q1 CV) as W1.
  destruct (rate_lim W (eps / (hi - lo + 1)) W1) as (n0 & Hn); [apply Rdiv_lt_0_compat; lra|]. exists n0. intros n j x E Ea Ed SP CA FD Hj Hx.
  pose proof (converge X (density f d) NE WP _ (fun g x => ex E (fun k => at_step j g (group_sample p f d n k x))) g lo hi
      (group_contracts p X Y f d q a W dim n j E Ea Ed HS HB IG NE NX NY XY A0 HQ CV SP CA FD (proj2 Hj))
      (flow_inv p X Y f d q a dim n j g E Ea Ed HS HB IG NX NY XY A0 HQ SP CA FD (proj2 Hj)) RG x Hx) as C. cbv beta in C.
  eapply Rle_lt_trans; [exact C|]. pose proof (Hn (j + 1)%nat ltac:(lia)) as Q. set (r := (1 - 1 / W) ^ (j + 1)) in * .
  apply (Rmult_lt_compat_r (hi - lo + 1)) in Q; [|lra]. replace (eps / (hi - lo + 1) * (hi - lo + 1)) with eps in Q by (field; lra).
  assert (0 <= r). { unfold r. apply pow_le. assert (1 / W <= 1). { apply (Rmult_le_reg_r W); [lra|]. replace (1 / W * W) with 1 by (field; lra). lra. } lra. }
  nra.
Qed.
Lemma case_covers : covers Xs (density tf []) qq 2 /\ ranges Xs (fun x => nth 0 x 0) 0 2 /\ In [2] Xs.
Proof.
  split; [|split; [intros x [<-|[<-|[<-|[]]]]; cbn; lra|exact in2]].
  set (s := exp (1/2)). assert (S1 : 1 < s). { unfold s. rewrite <- exp_0 at 1. apply exp_increasing. lra. }
  assert (D : density tf [] [0] = 1 /\ density tf [] [1] = 2 * s /\ density tf [] [2] = 1).
  { unfold density. cbn [lp_val tf nth]. rewrite tv0, tv1, tv2, exp_0, exp_plus, exp_ln by lra. fold s. repeat split; ring. }
  destruct D as (D0 & D1 & D2). assert (T : total Xs (density tf []) = 2 + 2 * s) by (unfold Xs, total, fold_right; rewrite D0, D1, D2; ring).
  intros x [<-|[<-|[<-|[]]]]; rewrite T, ?D0, ?D1, ?D2; unfold qq; rewrite ?lq1, ?lqn, ?exp_0 by lra; fold s; unfold aq; fold s; apply (Rmult_le_reg_r ((2 + 2 * s) * (3 + s))); try nra.
  - replace (1 / (2 + 2 * s) * ((2 + 2 * s) * (3 + s))) with (3 + s) by (field; lra). replace (2 * (/ (3 + s) * 1) * ((2 + 2 * s) * (3 + s))) with (2 * (2 + 2 * s)) by (field; lra). lra.
  - replace (2 * s / (2 + 2 * s) * ((2 + 2 * s) * (3 + s))) with (2 * s * (3 + s)) by (field; lra). replace (2 * (/ (3 + s) * s) * ((2 + 2 * s) * (3 + s))) with (2 * s * (2 + 2 * s)) by (field; lra). nra.
  - replace (1 / (2 + 2 * s) * ((2 + 2 * s) * (3 + s))) with (3 + s) by (field; lra). replace (2 * (/ (3 + s) * 1) * ((2 + 2 * s) * (3 + s))) with (2 * (2 + 2 * s)) by (field; lra). lra.
Qed.
