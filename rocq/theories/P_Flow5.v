(** Differentiability of the spline coupling layer, derived from a differentiable conditioner
    (C31). *)
From Coq Require Import Reals Psatz.
From Coquelicot Require Import Coquelicot.
From Verif Require Import Prelude Num M_Core M_Kernels M_Flow P_Lists RNum MxR Spec_Jac P_Jac Spec_Kernels Spec_Real Spec_Spline Spec_Flow P_Real1 P_Real2 P_Spline P_Spline2 P_Spline3 P_Flow P_Flow2 P_Flow3 P_Flow4.
Open Scope R_scope.

Definition dif (n : nat) (phi : list R -> R) (x : list R) : Prop := exists g, is_dif n phi x g.
Section Dif.
Variables (n : nat) (x : list R).
Hypothesis Hx : length x = n.
Lemma dif_const c : dif n (fun _ => c) x. Proof. eexists. apply is_dif_const. Qed.
Lemma dif_plus f g : dif n f x -> dif n g x -> dif n (fun y => f y + g y) x.
Proof. intros [a A] [b B]. eexists. apply is_dif_plus; eauto. Qed.
Lemma dif_scal c f : dif n f x -> dif n (fun y => c * f y) x.
Proof. intros [a A]. eexists. apply is_dif_scal; eauto. Qed.
Lemma dif_ext f g : (forall y, length y = n -> f y = g y) -> dif n f x -> dif n g x.
Proof. intros H [a A]. exists a. eapply is_dif_ext; eauto. Qed.
Lemma dif_mult f g : dif n f x -> dif n g x -> dif n (fun y => f y * g y) x.
Proof. intros [a A] [b B]. eexists. apply is_dif_mult; eauto. Qed.
Lemma dif_minus f g : dif n f x -> dif n g x -> dif n (fun y => f y - g y) x.
Proof. intros A B. apply (dif_ext (fun y => f y + (-1) * g y)); [intros; ring|]. apply dif_plus; auto. now apply dif_scal. Qed.
Lemma dif_comp (u : R -> R) l f : dif n f x -> is_derive u (f x) l -> dif n (fun y => u (f y)) x.
Proof. intros [a A] U. eexists. eapply is_dif_comp; eauto. Qed.
Lemma dif_inv f : dif n f x -> f x <> 0 -> dif n (fun y => / f y) x.
Proof. intros A H. apply (dif_comp Rinv (- / (f x) ^ 2)); auto. auto_derive; auto. field. auto. Qed.
Lemma dif_div f g : dif n f x -> dif n g x -> g x <> 0 -> dif n (fun y => f y / g y) x.
Proof. intros A B H. unfold Rdiv. apply dif_mult; auto. now apply dif_inv. Qed.
Lemma dif_Rsum k (f : nat -> list R -> R) : (forall i, (i < k)%nat -> dif n (f i) x) -> dif n (fun y => Rsum k (fun i => f i y)) x.
Proof. induction k; intros H; cbn [Rsum]; [apply dif_const|]. apply dif_plus; [apply IHk|apply H]; auto. Qed.
Lemma dif_proj k : (k < n)%nat -> dif n (fun y => nth k y 0) x.
Proof. intros. eexists. now apply is_dif_proj. Qed.

Lemma pos_near f : dif n f x -> 0 < f x -> exists del, 0 < del /\ forall y, length y = n -> dist1 n x y < del -> 0 < f y.
Proof.
  intros [g D] H. destruct (is_dif_lip n f x g D) as (d & Hd & K). set (C := Rsum n (fun j => Rabs (g j)) + 1) in * .
  assert (HC : 0 < C). { unfold C. pose proof (Rsum_nonneg n (fun j => Rabs (g j)) ltac:(intros; apply Rabs_pos)). lra. }
  exists (Rmin d (f x / (2 * C))). assert (0 < f x / (2 * C)) by (apply Rdiv_lt_0_compat; lra). split; [now apply Rmin_pos|].
  intros y Hy Hl. specialize (K y Hy ltac:(eapply Rlt_le_trans; [exact Hl|apply Rmin_l])).
  assert (Hl2 : dist1 n x y < f x / (2 * C)) by (eapply Rlt_le_trans; [exact Hl|apply Rmin_r]).
  apply (Rmult_lt_compat_l C) in Hl2; auto. replace (C * (f x / (2 * C))) with (f x / 2) in Hl2 by (field; lra).
  assert (HR : Rabs (f y - f x) < f x / 2) by lra. apply Rabs_def2 in HR. lra.
Qed.
Lemma glue2 f g h G : is_dif n g x G -> is_dif n h x G -> f x = g x -> f x = h x ->
  (exists del, 0 < del /\ forall y, length y = n -> dist1 n x y < del -> f y = g y \/ f y = h y) -> is_dif n f x G.
Proof.
  intros A B E1 E2 (d & Hd & K) eps He. destruct (A eps He) as (d1 & H1 & K1). destruct (B eps He) as (d2 & H2 & K2).
  exists (Rmin d (Rmin d1 d2)). split; [repeat apply Rmin_pos; auto|]. intros y Hy Hl.
  assert (dist1 n x y < d) by (eapply Rlt_le_trans; [exact Hl|apply Rmin_l]).
  assert (dist1 n x y < d1) by (eapply Rlt_le_trans; [exact Hl|eapply Rle_trans; [apply Rmin_r|apply Rmin_l]]).
  assert (dist1 n x y < d2) by (eapply Rlt_le_trans; [exact Hl|eapply Rle_trans; [apply Rmin_r|apply Rmin_r]]).
  destruct (K y Hy) as [E|E]; auto; rewrite E; [rewrite E1; now apply K1|rewrite E2; now apply K2].
Qed.
Lemma near_and (P Q : list R -> Prop) :
  (exists del, 0 < del /\ forall y, length y = n -> dist1 n x y < del -> P y) ->
  (exists del, 0 < del /\ forall y, length y = n -> dist1 n x y < del -> Q y) ->
  exists del, 0 < del /\ forall y, length y = n -> dist1 n x y < del -> P y /\ Q y.
Proof.
  intros (a & Ha & A) (b & Hb & B). exists (Rmin a b). split; [now apply Rmin_pos|]. intros y Hy Hl. split.
  - apply A; auto. eapply Rlt_le_trans; [exact Hl|apply Rmin_l].
  - apply B; auto. eapply Rlt_le_trans; [exact Hl|apply Rmin_r].
Qed.

(** A knot: value + (t - knot) * quotient. *)
Lemma knot_dif (Y T X Q : list R -> R) GY GT GX : is_dif n Y x GY -> is_dif n T x GT -> is_dif n X x GX -> dif n Q x -> T x = X x ->
  is_dif n (fun y => Y y + (T y - X y) * Q y) x (fun j => GY j + Q x * (GT j - GX j)).
Proof.
  intros HY HT HX [GQ HQ] E. eapply is_dif_gext; [|apply is_dif_plus; [exact HY|apply is_dif_mult; [|exact HQ]]].
  2:{ apply (is_dif_ext n (fun y => T y + (-1) * X y)); auto; [intros; ring|]. apply is_dif_plus; [exact HT|apply is_dif_scal; exact HX]. }
  intros j Hj. cbn beta. rewrite E. ring.
Qed.

(** A piecewise rational-quadratic function whose parameters vary. *)
Section Pieces.
Variables (K : nat) (T : list R -> R) (X Y D : nat -> list R -> R) (f : list R -> R).
Hypothesis HK : (1 <= K)%nat.
Hypothesis DT : dif n T x.
Hypothesis DX : forall k, (k <= K)%nat -> dif n (X k) x.
Hypothesis DY : forall k, (k <= K)%nat -> dif n (Y k) x.
Hypothesis DD : forall k, (k <= K)%nat -> dif n (D k) x.
Hypothesis VX : forall k y, (k < K)%nat -> length y = n -> X k y < X (S k) y.
Hypothesis VY : forall k y, (k < K)%nat -> length y = n -> Y k y < Y (S k) y.
Hypothesis VD : forall k y, (k <= K)%nat -> length y = n -> 0 < D k y.
Hypothesis Flo : forall y, length y = n -> T y <= X 0 y -> f y = (T y - X 0 y) * D 0 y + Y 0 y.
Hypothesis Fhi : forall y, length y = n -> X K y <= T y -> f y = (T y - X K y) * D K y + Y K y.
Hypothesis Fbin : forall k y, (k < K)%nat -> length y = n -> X k y <= T y <= X (S k) y ->
  f y = Phi (X k y) (X (S k) y) (Y k y) (Y (S k) y) (D k y) (D (S k) y) (T y).
Let s k y := (Y (S k) y - Y k y) / (X (S k) y - X k y).
Let z k y := (T y - X k y) / (X (S k) y - X k y).
Let dn k y := s k y + (D (S k) y + D k y - 2 * s k y) * (z k y - z k y * z k y).
Let QL k y := s k y * (s k y * z k y + D k y * (1 - z k y)) / dn k y.
Let QR k y := s k y * (s k y * (1 - z k y) + D (S k) y * z k y) / dn k y.
Lemma dn_pos k y : (k < K)%nat -> length y = n -> X k y <= T y <= X (S k) y -> 0 < dn k y.
Proof.
  intros Hk Hy Hr. unfold dn, s. apply (den_pos (X k y) (X (S k) y) (Y k y) (Y (S k) y) (D k y) (D (S k) y)); auto; try (apply VD; auto; lia).
  apply (zc_range (X k y) (X (S k) y)); auto.
Qed.
Lemma fbinL k y : (k < K)%nat -> length y = n -> X k y <= T y <= X (S k) y -> f y = Y k y + (T y - X k y) * QL k y.
Proof.
  intros Hk Hy Hr. rewrite (Fbin k) by auto. pose proof (dn_pos k y Hk Hy Hr) as Hd. pose proof (VX k y Hk Hy).
  unfold Phi. fold (s k y). fold (z k y). fold (dn k y). unfold QL. 
  replace (T y - X k y) with (z k y * (X (S k) y - X k y)) by (unfold z; field; lra).
  replace (Y (S k) y - Y k y) with (s k y * (X (S k) y - X k y)) by (unfold s; field; lra). field. lra.
Qed.
Lemma fbinR k y : (k < K)%nat -> length y = n -> X k y <= T y <= X (S k) y -> f y = Y (S k) y + (T y - X (S k) y) * QR k y.
Proof.
  intros Hk Hy Hr. rewrite (Fbin k) by auto. pose proof (dn_pos k y Hk Hy Hr) as Hd. pose proof (VX k y Hk Hy).
  unfold Phi. fold (s k y). fold (z k y). fold (dn k y). unfold QR. 
  replace (T y - X (S k) y) with ((z k y - 1) * (X (S k) y - X k y)) by (unfold z; field; lra).
  replace (Y (S k) y) with (Y k y + s k y * (X (S k) y - X k y)) at 2 by (unfold s; field; lra).
  replace (Y (S k) y - Y k y) with (s k y * (X (S k) y - X k y)) by (unfold s; field; lra).
  apply (Rmult_eq_reg_r (dn k y)); [|lra].
  transitivity (Y k y * dn k y + s k y * (X (S k) y - X k y) * (s k y * (z k y * z k y) + D k y * (z k y - z k y * z k y))). { field. lra. }
  transitivity ((Y k y + s k y * (X (S k) y - X k y)) * dn k y + (z k y - 1) * (X (S k) y - X k y) * (s k y * (s k y * (1 - z k y) + D (S k) y * z k y))). 2:{ field. lra. }
  unfold dn. ring.
Qed.
Lemma D_s k : (k < K)%nat -> dif n (s k) x.
Proof. intros. pose proof (VX k x H Hx). unfold s. apply dif_div; [apply dif_minus|apply dif_minus|lra]; first [apply DX|apply DY]; lia. Qed.
Lemma D_z k : (k < K)%nat -> dif n (z k) x.
Proof. intros. pose proof (VX k x H Hx). unfold z. apply dif_div; [apply dif_minus|apply dif_minus|lra]; auto; apply DX; lia. Qed.
Lemma D_1z k : (k < K)%nat -> dif n (fun y => 1 - z k y) x.
Proof. intros. apply dif_minus; [apply dif_const|now apply D_z]. Qed.
Lemma D_dn k : (k < K)%nat -> dif n (dn k) x.
Proof.
  intros. unfold dn. apply dif_plus; [now apply D_s|]. apply dif_mult.
  - apply dif_minus; [apply dif_plus; apply DD; lia|apply dif_scal; now apply D_s].
  - apply dif_minus; [|apply dif_mult]; now apply D_z.
Qed.
Lemma D_QL k : (k < K)%nat -> X k x <= T x <= X (S k) x -> dif n (QL k) x.
Proof.
  intros H Hr. pose proof (dn_pos k x H Hx Hr). unfold QL. apply dif_div; [|now apply D_dn|lra]. apply dif_mult; [now apply D_s|].
  apply dif_plus; apply dif_mult; first [now apply D_s|now apply D_z|now apply D_1z|apply DD; lia].
Qed.
Lemma D_QR k : (k < K)%nat -> X k x <= T x <= X (S k) x -> dif n (QR k) x.
Proof.
  intros H Hr. pose proof (dn_pos k x H Hx Hr). unfold QR. apply dif_div; [|now apply D_dn|lra]. apply dif_mult; [now apply D_s|].
  apply dif_plus; apply dif_mult; first [now apply D_s|now apply D_z|now apply D_1z|apply DD; lia].
Qed.
Lemma s_pos' k : (k < K)%nat -> 0 < s k x.
Proof. intros H. pose proof (VX k x H Hx). pose proof (VY k x H Hx). unfold s. apply Rdiv_lt_0_compat; lra. Qed.
Lemma QL_at k : (k < K)%nat -> T x = X k x -> QL k x = D k x.
Proof. intros H E. pose proof (s_pos' k H). pose proof (VX k x H Hx). assert (z k x = 0) as Z by (unfold z; rewrite E; field; lra). unfold QL, dn. rewrite Z. field. lra. Qed.
Lemma QR_at k : (k < K)%nat -> T x = X (S k) x -> QR k x = D (S k) x.
Proof. intros H E. pose proof (s_pos' k H). pose proof (VX k x H Hx). assert (z k x = 1) as Z by (unfold z; rewrite E; field; lra). unfold QR, dn. rewrite Z. field. lra. Qed.
Lemma near_lt a b : dif n a x -> dif n b x -> a x < b x -> exists del, 0 < del /\ forall y, length y = n -> dist1 n x y < del -> a y < b y.
Proof.
  intros A B H. destruct (pos_near (fun y => b y - a y)) as (d & Hd & Q); [now apply dif_minus|lra|]. exists d. split; auto. intros y Hy Hl. specialize (Q y Hy Hl). lra.
Qed.
Lemma dif_lo : dif n (fun y => Y 0 y + (T y - X 0 y) * D 0 y) x.
Proof. apply dif_plus; [apply DY; lia|]. apply dif_mult; [apply dif_minus|]; auto; first [apply DX|apply DD]; lia. Qed.
Lemma dif_hi : dif n (fun y => Y K y + (T y - X K y) * D K y) x.
Proof. apply dif_plus; [apply DY; lia|]. apply dif_mult; [apply dif_minus|]; auto; first [apply DX|apply DD]; lia. Qed.
Lemma locate : T x < X 0 x \/ X K x < T x \/ (exists k, (k < K)%nat /\ X k x < T x < X (S k) x) \/ exists k, (k <= K)%nat /\ T x = X k x.
Proof.
  assert (G : forall k, (k <= K)%nat -> T x < X 0 x \/ X k x < T x \/ (exists k, (k < K)%nat /\ X k x < T x < X (S k) x) \/ exists k, (k <= K)%nat /\ T x = X k x).
  { induction k as [|k IH]; intros Hk.
    - destruct (Rtotal_order (T x) (X 0 x)) as [|[|]]; auto. do 3 right. exists 0%nat. auto.
    - destruct (IH ltac:(lia)) as [|[H|[|]]]; auto. destruct (Rtotal_order (T x) (X (S k) x)) as [H'|[H'|H']]; auto.
      + right; right; left. exists k. split; [lia|]. lra.
      + do 3 right. exists (S k). auto. }
  apply (G K). lia.
Qed.
Lemma pieces_dif : dif n f x.
Proof.
  destruct locate as [H|[H|[(k & Hk & H1 & H2)|(k & Hk & E)]]].
  - destruct dif_lo as [G HG]. exists G. apply (glue2 f _ _ G HG HG); try (rewrite Flo by (auto; lra); ring).
    destruct (near_lt _ _ DT (DX 0 ltac:(lia)) H) as (d & Hd & Q). exists d. split; auto. intros y Hy Hl. left. rewrite Flo; auto; [ring|]. left. auto.
  - destruct dif_hi as [G HG]. exists G. apply (glue2 f _ _ G HG HG); try (rewrite Fhi by (auto; lra); ring).
    destruct (near_lt _ _ (DX K ltac:(lia)) DT H) as (d & Hd & Q). exists d. split; auto. intros y Hy Hl. left. rewrite Fhi; auto; [ring|]. left. auto.
  - assert (DG : dif n (fun y => Y k y + (T y - X k y) * QL k y) x).
    { apply dif_plus; [apply DY; lia|]. apply dif_mult; [apply dif_minus; auto; apply DX; lia|]. apply D_QL; auto. lra. }
    destruct DG as [G HG]. exists G. apply (glue2 f _ _ G HG HG); try (apply fbinL; auto; lra).
    destruct (near_and _ _ (near_lt _ _ (DX k ltac:(lia)) DT H1) (near_lt _ _ DT (DX (S k) ltac:(lia)) H2)) as (d & Hd & Q).
    exists d. split; auto. intros y Hy Hl. left. destruct (Q y Hy Hl). apply fbinL; auto. lra.
  - destruct (DX k Hk) as [GX HX], (DY k Hk) as [GY HY], DT as [GT HT].
    exists (fun j => GY j + D k x * (GT j - GX j)).
    (* left piece *)
    assert (L : exists g, is_dif n g x (fun j => GY j + D k x * (GT j - GX j)) /\ f x = g x /\
      exists del, 0 < del /\ forall y, length y = n -> dist1 n x y < del -> T y <= X k y -> f y = g y).
    { destruct k as [|k].
      - exists (fun y => Y 0 y + (T y - X 0 y) * D 0 y). split; [apply (knot_dif _ _ _ _ _ _ _ HY HT HX); auto; apply DD; lia|].
        split; [rewrite Flo by (auto; lra); ring|]. exists 1. split; [lra|]. intros y Hy _ Hl. rewrite Flo by auto. ring.
      - pose proof (VX k x ltac:(lia) Hx) as Hv.
        exists (fun y => Y (S k) y + (T y - X (S k) y) * QR k y). split.
        { rewrite <- (QR_at k) by (auto; lia). apply (knot_dif _ _ _ _ _ _ _ HY HT HX); auto. apply D_QR; [lia|lra]. }
        split; [apply fbinR; auto; lra|].
        destruct (near_lt (X k) T (DX k ltac:(lia)) (ex_intro _ _ HT) ltac:(lra)) as (d & Hd & Q). exists d. split; auto.
        intros y Hy Hl Hle. apply fbinR; auto. specialize (Q y Hy Hl). lra. }
    assert (Rt : exists h, is_dif n h x (fun j => GY j + D k x * (GT j - GX j)) /\ f x = h x /\
      exists del, 0 < del /\ forall y, length y = n -> dist1 n x y < del -> X k y <= T y -> f y = h y).
    { destruct (Nat.eq_dec k K) as [->|Hne].
      - exists (fun y => Y K y + (T y - X K y) * D K y). split; [apply (knot_dif _ _ _ _ _ _ _ HY HT HX); auto; apply DD; lia|].
        split; [rewrite Fhi by (auto; lra); ring|]. exists 1. split; [lra|]. intros y Hy _ Hl. rewrite Fhi by auto. ring.
      - assert (Hk' : (k < K)%nat) by lia. pose proof (VX k x Hk' Hx) as Hv.
        exists (fun y => Y k y + (T y - X k y) * QL k y). split.
        { rewrite <- (QL_at k) by auto. apply (knot_dif _ _ _ _ _ _ _ HY HT HX); auto. apply D_QL; [lia|lra]. }
        split; [apply fbinL; auto; lra|].
        destruct (near_lt T (X (S k)) (ex_intro _ _ HT) (DX (S k) ltac:(lia)) ltac:(lra)) as (d & Hd & Q). exists d. split; auto.
        intros y Hy Hl Hle. apply fbinL; auto. specialize (Q y Hy Hl). lra. }
    destruct L as (g & Hg & Eg & Lg), Rt as (h & Hh & Eh & Lh).
    apply (glue2 f g h); auto. destruct (near_and _ _ Lg Lh) as (d & Hd & Q). exists d. split; auto. intros y Hy Hl.
    destruct (Q y Hy Hl) as [Q1 Q2]. destruct (Rle_dec (T y) (X k y)); [left; auto|right; apply Q2; lra].
Qed.
End Pieces.
End Dif.

(* ------------------------------------------------------------------ the parameters in closed form *)
Lemma softmax_closed (u : list R) i : (i < length u)%nat -> nth i (@softmax RNum u) 0 = exp (nth i u 0) / Rsum (length u) (fun j => exp (nth j u 0)).
Proof.
  intros Hi. unfold softmax. cbn [fsub fdiv fexp RNum].
  change (@nth R i (map (fun x => x / @fsum RNum (map (fun x0 => exp (x0 - vmax u)) u)) (map (fun x => exp (x - vmax u)) u)) 0 = exp (nth i u 0) / Rsum (length u) (fun i => exp (nth i u 0))).
  rewrite mapR by (rewrite map_length; auto). rewrite (mapR (fun x => exp (x - vmax u))) by auto.
  rewrite fsumR, map_length.
  rewrite (Rsum_ext (length u) (fun i0 => nth i0 (map (fun x0 => exp (x0 - vmax u)) u) 0) (fun j => exp (- vmax u) * exp (nth j u 0))).
  2:{ intros j Hj. rewrite (mapR (fun x => exp (x - vmax u))) by auto. unfold Rminus. rewrite exp_plus. ring. }
  rewrite Rsum_scal. unfold Rminus. rewrite exp_plus.
  assert (0 < Rsum (length u) (fun j => exp (nth j u 0))) by (apply Rsum_pos; [lia|intros; apply exp_pos]). pose proof (exp_pos (- vmax u)). field. split; lra.
Qed.
Definition knot_closed (q : @rqspline RNum) (u : nat -> R) (k : nat) : R :=
  rq_min q + Rsum k (fun j => exp (u j) / Rsum (rq_bins q) (fun j => exp (u j)) * ((rq_max q - rq_min q) - INR (rq_bins q) * rq_min_bin q) + rq_min_bin q).
Lemma knot_closed_ok (q : @rqspline RNum) (u : list R) k : length u = rq_bins q -> (1 <= rq_bins q)%nat -> (k <= rq_bins q)%nat ->
  nth k (knot_positions q u) 0 = knot_closed q (fun j => nth j u 0) k.
Proof.
  intros Hu H1 Hk. rewrite (kp_nth q u) by lia. unfold knot_closed. f_equal. apply Rsum_ext. intros j Hj.
  rewrite sz_nth by lia. rewrite softmax_closed by lia. rewrite Hu. reflexivity.
Qed.
Lemma dif_knot n x (q : @rqspline RNum) (u : nat -> list R -> R) k : length x = n -> (1 <= rq_bins q)%nat -> (k <= rq_bins q)%nat ->
  (forall j, (j < rq_bins q)%nat -> dif n (u j) x) -> dif n (fun y => knot_closed q (fun j => u j y) k) x.
Proof.
  intros Hx H1 Hk Hu.
  assert (E : forall j, (j < rq_bins q)%nat -> dif n (fun y => exp (u j y)) x) by (intros; apply (dif_comp n x exp (exp (u j x))); auto; apply is_derive_exp).
  assert (P : 0 < Rsum (rq_bins q) (fun j => exp (u j x))) by (apply Rsum_pos; [lia|intros; apply exp_pos]).
  unfold knot_closed. apply dif_plus; [apply dif_const|]. apply dif_Rsum. intros j Hj. apply dif_plus; [|apply dif_const].
  apply dif_mult; [|apply dif_const]. apply (dif_div n x); auto.
  - apply E. lia.
  - apply dif_Rsum. intros; auto.
  - lra.
Qed.
Lemma dif_slope n x (ms : R) (u : list R -> R) : length x = n -> dif n u x ->
  dif n (fun y => ln (1 + exp (u y + ln (exp (1 - ms) - 1))) + ms) x.
Proof.
  intros Hx Hu. apply dif_plus; [|apply dif_const]. pose proof (exp_pos (u x + ln (exp (1 - ms) - 1))).
  apply (dif_comp n x (fun v => ln (1 + exp (v + ln (exp (1 - ms) - 1)))) (exp (u x + ln (exp (1 - ms) - 1)) / (1 + exp (u x + ln (exp (1 - ms) - 1))))); auto.
  auto_derive; [lra|]. field. lra.
Qed.
(** The three parameter lists of coordinate i are closed forms of the conditioner's outputs. *)
Lemma par_closed (q : @rqspline RNum) n (c : list R) i : rq_admissible q -> rq_shape q n -> length c = n -> (i < n)%nat ->
  let K := rq_bins q in let o l := nth (i * (K * 3 + 1) + l) (rq_cond q c) 0 in
  length (par_x q n c i) = S K /\
  forall k, (k <= K)%nat -> nth k (par_x q n c i) 0 = knot_closed q o k /\
    nth k (par_y q n c i) 0 = knot_closed q (fun j => o (K + j)%nat) k /\
    nth k (par_s q n c i) 0 = ln (1 + exp (o (2 * K + k)%nat + ln (exp (1 - rq_min_slope q) - 1))) + rq_min_slope q.
Proof.
  intros [A1 A2 A3 A4] Hs Hc Hi K o. destruct (get_params_nth q n c i ([], [], []) Hs Hc Hi) as (row & Hr & E & Er).
  unfold par_x, par_y, par_s. rewrite E.
  assert (Ho : forall l, (l < K * 3 + 1)%nat -> @nth R l row 0 = o l). { intros l Hl. rewrite Er. rewrite nth_sliceR by (fold K; lia). reflexivity. }
  unfold row_params. fold K. pose (u1 := firstn K row : list R). pose (u2 := slice K (2 * K) row : list R). pose (u3 := skipn (2 * K) row : list R).
  change (length (knot_positions q u1) = S K /\ (forall k, (k <= K)%nat -> nth k (knot_positions q u1) 0 = knot_closed q o k /\
    nth k (knot_positions q u2) 0 = knot_closed q (fun j => o (K + j)%nat) k /\
    nth k (normalize_knot_slopes u3 (rq_min_slope q)) 0 = ln (1 + exp (o (2 * K + k)%nat + ln (exp (1 - rq_min_slope q) - 1))) + rq_min_slope q)).
  assert (L1 : length u1 = K). { unfold u1. rewrite firstn_length. fold K in Hr. lia. }
  assert (L2 : length u2 = K). { unfold u2. rewrite slice_lenR; fold K in Hr; lia. }
  assert (L3 : length u3 = S K). { unfold u3. rewrite skipn_length. fold K in Hr. lia. }
  split; [rewrite <- L1; exact (kp_len q u1 ltac:(rewrite L1; fold K in A1; lia))|].
  intros k Hk. repeat split.
  - rewrite knot_closed_ok by (fold K; auto). unfold knot_closed. f_equal. fold K.
    assert (Q : forall j, (j < K)%nat -> nth j u1 0 = o j). { intros j Hj. rewrite <- Ho by lia. unfold u1. now rewrite nth_firstn. }
    apply Rsum_ext. intros j Hj. rewrite Q by lia. rewrite (Rsum_ext K _ (fun j => exp (o j))) by (intros; now rewrite Q). reflexivity.
  - rewrite knot_closed_ok by (fold K; auto). unfold knot_closed. f_equal. fold K.
    assert (Q : forall j, (j < K)%nat -> nth j u2 0 = o (K + j)%nat). { intros j Hj. rewrite <- Ho by lia. unfold u2. rewrite nth_sliceR by lia. reflexivity. }
    apply Rsum_ext. intros j Hj. rewrite Q by lia. rewrite (Rsum_ext K _ (fun j => exp (o (K + j)%nat))) by (intros; now rewrite Q). reflexivity.
  - rewrite slopes_nth by lia. rewrite softplus_R. rewrite <- Ho by lia. unfold u3. rewrite nth_skipn. reflexivity.
Qed.

(** The spline coupling layer is differentiable wherever its conditioner is. *)
Lemma rq_layer_differentiable n m (q : @rqspline RNum) (x : list R) : binary_mask n m -> rq_admissible q -> rq_shape q n -> length x = n ->
  differentiable_to n (n * (rq_bins q * 3 + 1)) (rq_cond q) (@vmul RNum x m) ->
  differentiable n (fun y => fst (coupling_fwd (mkCoupling m (rqspline_bij q)) y)) x.
Proof.
  intros Hm A Hs Hx [Jq HJq]. set (K := rq_bins q).
  set (C := fun y : list R => @vmul RNum y m : list R).
  assert (HC : exists J, is_jac n n C x J).
  { exists (fun i j => nth i m 0 * mid i j). intros i Hi. apply (is_dif_ext n (fun y => nth i m 0 * nth i y 0)); auto.
    - intros y Hy. unfold C. rewrite (cond_nth n m Hm) by auto. ring.
    - apply is_dif_scal. now apply is_dif_proj. }
  destruct HC as [JC HC].
  assert (LC : forall y, length y = n -> length (C y) = n) by (intros; now apply cond_len).
  assert (DO : forall l, (l < n * (K * 3 + 1))%nat -> dif n (fun y => nth l (rq_cond q (C y)) 0) x).
  { intros l Hl. eexists. exact (is_jac_chain n n _ C (rq_cond q) x JC Jq HC LC HJq l Hl). }
  assert (D : forall i, (i < n)%nat -> dif n (fun y => nth i (fst (coupling_fwd (mkCoupling m (rqspline_bij q)) y)) 0) x).
  { intros i Hi.
    set (sp := fun y => spline (par_x q n (C y) i) (par_y q n (C y) i) (par_s q n (C y) i) (nth i y 0)).
    assert (E : forall y : list R, length y = n -> @nth R i (fst (coupling_fwd (mkCoupling m (rqspline_bij q)) y)) 0 = (1 - nth i m 0) * sp y + nth i m 0 * nth i y 0).
    { intros y Hy. unfold coupling_fwd. cbn [cp_mask cp_bij]. destruct (bj_fwd (rqspline_bij q) y (vmul y m)) as [w ld] eqn:Eb. cbn [fst].
      destruct (rq_cbij_fwd q n (C y) A Hs (LC y Hy) y Hy) as [[Ly _] Hn]. unfold C in Ly, Hn. rewrite Eb in Ly, Hn. cbn [fst] in * .
      rewrite (mask_mix_nth n m Hm) by auto. rewrite (proj1 (Hn i Hi)). reflexivity. }
    apply (dif_ext n x Hx (fun y => (1 - nth i m 0) * sp y + nth i m 0 * nth i y 0)); [intros; symmetry; auto|].
    apply dif_plus; [|apply dif_scal; now apply dif_proj]. apply dif_scal.
    assert (PC : forall y, length y = n -> _) by (intros y Hy; exact (par_closed q n (C y) i A Hs (LC y Hy) Hi)). cbv zeta in PC. fold K in PC.
    assert (IB : forall l, (l < K * 3 + 1)%nat -> (i * (K * 3 + 1) + l < n * (K * 3 + 1))%nat) by (intros; nia).
    pose proof (ra_bins q A) as HK. fold K in HK.
    apply (pieces_dif n x Hx K (fun y => nth i y 0) (fun k y => nth k (par_x q n (C y) i) 0) (fun k y => nth k (par_y q n (C y) i) 0) (fun k y => nth k (par_s q n (C y) i) 0)); auto.
    - now apply dif_proj.
    - intros k Hk. apply (dif_ext n x Hx (fun y => knot_closed q (fun l => nth (i * (K * 3 + 1) + l) (rq_cond q (C y)) 0) k)).
      + intros y Hy. symmetry. now apply (PC y Hy).
      + apply dif_knot; auto. intros j Hj. apply DO. apply IB. fold K in Hj. lia.
    - intros k Hk. apply (dif_ext n x Hx (fun y => knot_closed q (fun j => nth (i * (K * 3 + 1) + (K + j)) (rq_cond q (C y)) 0) k)).
      + intros y Hy. symmetry. now apply (PC y Hy).
      + apply dif_knot; auto. intros j Hj. apply DO. apply IB. fold K in Hj. lia.
    - intros k Hk. apply (dif_ext n x Hx (fun y => ln (1 + exp (nth (i * (K * 3 + 1) + (2 * K + k)) (rq_cond q (C y)) 0 + ln (exp (1 - rq_min_slope q) - 1))) + rq_min_slope q)).
      + intros y Hy. symmetry. now apply (PC y Hy).
      + apply dif_slope; auto. apply DO. apply IB. lia.
    - intros k y Hk Hy. apply (vs_x _ _ _ (rq_valid_at q n (C y) i A Hs (LC y Hy) Hi)). rewrite (proj1 (PC y Hy)). lia.
    - intros k y Hk Hy. pose proof (rq_valid_at q n (C y) i A Hs (LC y Hy) Hi) as V. apply (vs_y _ _ _ V). rewrite (vs_leny _ _ _ V). rewrite (proj1 (PC y Hy)). lia.
    - intros k y Hk Hy. pose proof (rq_valid_at q n (C y) i A Hs (LC y Hy) Hi) as V. apply (vs_s _ _ _ V). rewrite (vs_lens _ _ _ V). rewrite (proj1 (PC y Hy)). lia.
    - intros y Hy Hle. pose proof (rq_valid_at q n (C y) i A Hs (LC y Hy) Hi) as V. unfold sp. now apply spline_below.
    - intros y Hy Hle. pose proof (rq_valid_at q n (C y) i A Hs (LC y Hy) Hi) as V. unfold sp.
      rewrite (spline_above _ _ _ V); rewrite (proj1 (PC y Hy)); replace (S K - 1)%nat with K by lia; auto.
    - intros k y Hk Hy Hr. pose proof (rq_valid_at q n (C y) i A Hs (LC y Hy) Hi) as V. unfold sp, spline.
      rewrite (fwd_bin _ _ _ V k); auto. rewrite (proj1 (PC y Hy)). lia. }
  assert (HJ : exists J : nat -> nat -> R, forall i, (i < n)%nat -> is_dif n (fun y => nth i (fst (coupling_fwd (mkCoupling m (rqspline_bij q)) y)) 0) x (J i)).
  { clear -D. assert (G : forall k', (k' <= n)%nat -> exists J : nat -> nat -> R, forall i, (i < k')%nat -> is_dif n (fun y => nth i (fst (coupling_fwd (mkCoupling m (rqspline_bij q)) y)) 0) x (J i)).
    { induction k' as [|k' IHk]; intros Hk; [exists (fun _ _ => 0); intros; lia|].
      destruct (IHk ltac:(lia)) as [J HJ]. destruct (D k' ltac:(lia)) as [g Hg].
      exists (fun i => if Nat.eq_dec i k' then g else J i). intros i Hi. destruct (Nat.eq_dec i k') as [->|]; auto. apply HJ. lia. }
    apply G. lia. }
  destruct HJ as [J HJ]. exists J. exact HJ.
Qed.

(** The scalar affine layer is differentiable everywhere. *)
Lemma scalar_layer_differentiable n m (scale shift : R) (x : list R) : binary_mask n m -> length x = n ->
  differentiable n (fun y => fst (coupling_fwd (mkCoupling m (scalar_affine scale shift)) y)) x.
Proof.
  intros Hm Hx.
  exists (fun i j => ((1 - nth i m 0) * exp scale + nth i m 0) * mid i j).
  intros i Hi. apply (is_dif_ext n (fun y => ((1 - nth i m 0) * exp scale + nth i m 0) * nth i y 0 + (1 - nth i m 0) * (shift * exp scale))); auto.
  - intros y Hy. unfold coupling_fwd. cbn [cp_mask cp_bij].
    pose proof (scalar_cbij n scale shift (@vmul RNum y m)) as CB.
    destruct (bj_fwd (scalar_affine scale shift) y (vmul y m)) as [w ld] eqn:E. cbn [fst].
    pose proof (cb_fl _ _ _ _ _ _ _ CB y Hy) as [L1 _]. pose proof (cb_f _ _ _ _ _ _ _ CB y i Hy Hi) as [E1 _]. rewrite E in L1, E1. cbn [fst] in L1, E1.
    rewrite (mask_mix_nth n m Hm) by auto. rewrite E1. ring.
  - eapply is_dif_gext; [|apply is_dif_plus; [apply is_dif_scal; now apply is_dif_proj|apply is_dif_const]]. intros j Hj. cbn beta. ring.
Qed.
Lemma rqs_smooth n ps (x : list R) : (forall a b q, In (a, b, q) ps -> rq_admissible q /\ rq_shape q n /\
    forall c, length c = n -> differentiable_to n (n * (rq_bins q * 3 + 1)) (rq_cond q) c) -> length x = n ->
  layers_differentiable n (flat_layers (rqs_layers n ps)) x.
Proof.
  intros Hok Hx0. unfold rqs_layers. match goal with |- context [combine ?q _] => generalize q end. intros sq. revert x sq Hx0.
  induction ps as [|[[a b] q] ps IH]; intros x sq Hx; [destruct sq; exact I|]. destruct sq as [|i sq]; [exact I|].
  destruct (Hok a b q (or_introl eq_refl)) as (A & Hs & Hd).
  unfold flat_layers. cbn [combine map concat app layers_differentiable make_rqs_layer rl_affine rl_spline coupling_layer ly_fwd].
  assert (Hb1 : forall c, length c = n -> exists g l, cfwd n (scalar_affine a b) c g l) by (intros; now apply scalar_cfwd).
  assert (Hb2 : forall c, length c = n -> exists g l, cfwd n (rqspline_bij q) c g l) by (intros; now apply rq_cfwd).
  pose proof (cl_len n _ _ (zero_mask_binary n) Hb1 x Hx) as L1. split; [apply scalar_layer_differentiable; auto; apply zero_mask_binary|].
  pose proof (cl_len n _ _ (rqs_mask_binary n i) Hb2 _ L1) as L2. split.
  - apply rq_layer_differentiable; auto; [apply rqs_mask_binary|]. apply Hd. apply cond_len; auto. apply rqs_mask_binary.
  - apply IH; auto. intros a' b' q' Hin. apply (Hok a' b' q'). now right.
Qed.
