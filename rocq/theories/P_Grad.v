(** The targets built by the library carry true gradients. *)
From Coq Require Import Reals Lra.
From Verif Require Import Prelude Num M_Core M_Kernels M_Strategies M_PT RNum P_Real1 Spec_Grad.
Open Scope R_scope.

Lemma with_coord_same (x : list R) i : (i < length x)%nat -> with_coord x i (nth i x 0) = x.
Proof. intros H. unfold with_coord. rewrite <- (firstn_skipn i x) at 4. f_equal. revert x H. induction i as [|i IH]; intros [|a x] H; cbn in *; try lia; [reflexivity|]. apply IH. lia. Qed.
Lemma nth_map2R (f : R -> R -> R) (u v : list R) i : (i < length u)%nat -> (i < length v)%nat -> nth i (map2 f u v) 0 = f (nth i u 0) (nth i v 0).
Proof. revert v i. induction u as [|a u IH]; intros [|b v] i H1 H2; cbn in *; try lia. destruct i; [reflexivity|]. apply IH; lia. Qed.
Lemma len_map2R (f : R -> R -> R) (u v : list R) : length (map2 f u v) = Nat.min (length u) (length v).
Proof. revert v. induction u as [|a u IH]; intros [|b v]; cbn; auto. Qed.
Lemma nth_mapR (f : R -> R) (u : list R) i : (i < length u)%nat -> nth i (map f u) 0 = f (nth i u 0).
Proof. revert i. induction u as [|a u IH]; intros i H; cbn in *; [lia|]. destruct i; [reflexivity|]. apply IH. lia. Qed.

Lemma deriv_ext (f g : R -> R) x l : (forall t, f t = g t) -> derivable_pt_lim f x l -> derivable_pt_lim g x l.
Proof. intros E H eps He. destruct (H eps He) as (dl & Hd). exists dl. intros h H1 H2. rewrite <- !E. now apply Hd. Qed.
Lemma tempered_gradient n d (t : @tempered RNum) temp :
  true_gradient n d (l_pdf (t_base t)) -> true_gradient n d (t_prior t) -> true_gradient n d (tempered_lpdf t temp).
Proof.
  intros H1 H2 x Lx. destruct (H1 x Lx) as (L1 & D1), (H2 x Lx) as (L2 & D2).
  set (g1 := lp_grad (l_pdf (t_base t)) x d : list R) in * . set (g2 := lp_grad (t_prior t) x d : list R) in * .
  assert (E : lp_grad (tempered_lpdf t temp) x d = map2 Rplus (map (fun a => 1 / temp * a) g1) g2) by reflexivity.
  unfold gradient_at. rewrite E. split; [rewrite len_map2R, map_length; lia|]. intros i Hi.
  rewrite nth_map2R by (rewrite ?map_length; lia). rewrite (nth_mapR (fun a => 1 / temp * a)) by lia.
  exact (derivable_pt_lim_plus _ _ _ _ _ (derivable_pt_lim_scal _ (1 / temp) _ _ (D1 i Hi)) (D2 i Hi)).
Qed.
Lemma objective_gradient n d (f : @lpdf RNum) : true_gradient n d f -> true_gradient n d (neg_lpdf f) /\ forall x, lp_val (neg_lpdf f) x d = - lp_val f x d.
Proof.
  intros H. split; [|reflexivity]. intros x Lx. destruct (H x Lx) as (L & D). set (g := lp_grad f x d : list R) in * .
  assert (E : lp_grad (neg_lpdf f) x d = map Ropp g) by reflexivity. unfold gradient_at. rewrite E. split; [rewrite map_length; lia|]. intros i Hi.
  rewrite nth_mapR by lia. exact (derivable_pt_lim_opp _ _ _ (D i Hi)).
Qed.
(** The squared length is a target with its true gradient. *)
Lemma quad_gradient n d : true_gradient n d (@mkLpdf RNum (fun x _ => - fold_right Rplus 0 (map (fun a => a * a) x)) (fun x _ => map (fun a => - (2 * a)) x)).
Proof.
  intros x Lx. cbn [lp_val lp_grad]. split; [now rewrite map_length|]. intros i Hi. rewrite (nth_mapR (fun a => - (2 * a))) by lia.
  apply (derivable_pt_lim_opp (fun t => fold_right Rplus 0 (map (fun a => a * a) (with_coord x i t)))).
  assert (S : forall t, (fun s => s * s) t + (fold_right Rplus 0 (map (fun a => a * a) (firstn i x)) + fold_right Rplus 0 (map (fun a => a * a) (skipn (S i) x))) =
    fold_right Rplus 0 (map (fun a => a * a) (with_coord x i t))).
  { intros t. unfold with_coord. rewrite map_app. cbn [map]. generalize (map (fun a => a * a) (skipn (S i) x)). intros r. generalize (map (fun a => a * a) (firstn i x)). intros l.
    induction l as [|b l IH]; cbn in *; lra. }
  apply (deriv_ext _ _ _ _ S). replace (2 * nth i x 0) with ((1 * nth i x 0 + nth i x 0 * 1) + 0) by ring.
  apply derivable_pt_lim_plus; [|apply derivable_pt_lim_const]. apply (derivable_pt_lim_mult id id); apply derivable_pt_lim_id.
Qed.
