(** Global steps with flow proposals contract towards the target's mean. *)
From Coq Require Import Reals Lra Lia Permutation Classical.
From Coquelicot Require Import Coquelicot.
From Verif Require Import Prelude Num M_Core M_Kernels M_Strategies P_Lists Spec_Kernels RNum Spec_Real Spec_Inv P_Kernels P_Real1 P_Real2 P_Inv1 P_Inv2 P_Inv3 P_Inv4 P_Inv5 Spec_Erg P_Erg1.
Open Scope R_scope.

Section Flow.
Context {G : @Rng RNum} {NF : @NFOps RNum G}.
Variables (m : mdl) (X Y : list (list R)) (f : @lpdf RNum) (d : @datad RNum) (c W : R).
Hypothesis C0 : 0 < c.
Notation lp := (lpx f d).
Notation lq := (lq m).
Notation q := (q m c).
Hypothesis Q1 : total Y q = 1.
Hypothesis NE : X <> [].
Hypothesis NX : NoDup X.
Hypothesis NY : NoDup Y.
Hypothesis XY : forall x, In x X -> In x Y.
Hypothesis CV : covers X (wt f d) q W.
Lemma q_pos y : 0 < q y. Proof. apply Rmult_lt_0_compat; [exact C0|apply exp_pos]. Qed.
Lemma w_pos x : 0 < wt f d x. Proof. apply exp_pos. Qed.
Lemma W_pos : 0 < W.
Proof.
  destruct X as [|x r] eqn:EX; [contradiction|]. pose proof (CV x (or_introl eq_refl)) as H. pose proof (q_pos x).
  assert (T : 0 < total (x :: r) (wt f d)) by (apply total_pos; [intros; apply w_pos|discriminate]).
  assert (0 < wt f d x / total (x :: r) (wt f d)) by (apply Rdiv_lt_0_compat; [apply w_pos|exact T]). nra.
Qed.
Lemma W_one : 1 <= W.
Proof.
  assert (T : 0 < total X (wt f d)) by (apply total_pos; [intros; apply w_pos|exact NE]).
  assert (A : total X (fun x => wt f d x / total X (wt f d)) <= total X (fun x => W * q x)) by (apply total_le, CV).
  rewrite (total_ext X _ (fun x => / total X (wt f d) * wt f d x)) in A by (intros; unfold Rdiv; ring). rewrite !total_scal, Rinv_l in A by lra.
  assert (B : total X q <= total Y q).
  {
    assert (EE : total X q = total X (fun y => if mem y X then q y else 0)).
    { apply total_ext. intros x Hx. apply mem_true in Hx. now rewrite Hx. }
    rewrite EE, <- (total_sub X Y (fun y => if mem y X then q y else 0) NX NY XY); [|intros y _ H; apply mem_false in H; now rewrite H].
    apply total_le. intros y _. destruct (mem y X); [lra|]. apply Rlt_le, q_pos. }
  rewrite Q1 in B. pose proof W_pos. nra.
Qed.
Definition flow_op (E : expect key) (g : list R -> R) (x : list R) : R := total Y (fun y => q y * ex E (fun b => g (mv m f d b x y))).
Notation mean := (target_mean X (wt f d)).
Lemma flow_op_contracts E : src m X Y f d c E -> contracts X (1 - 1 / W) (flow_op E).
Proof.
  intros H. set (A := fun x y => test_prob E (fr m f d x y)). pose proof W_pos as WP. set (T := total X (wt f d)).
  assert (T0 : 0 < T) by (apply total_pos; [intros; apply w_pos|exact NE]).
  (* one step as a sum over the states *)
  assert (ST : forall g x, In x X -> flow_op E g x = g x + total X (fun y => q y * A x y * (g y - g x))).
  { intros g x Hx. unfold flow_op. rewrite (total_ext Y _ (fun y => g x * q y + 1 * (q y * A x y * (g y - g x)))).
    - rewrite total_lin, Q1, Rmult_1_l, Rmult_1_r. f_equal. apply total_sub; auto. intros y Hy HyX. unfold A. rewrite (proj2 (src_r m X Y f d c C0 E x y H Hx Hy) HyX). ring.
    - intros y Hy. rewrite (ex_ext _ E _ (fun b => g x + (g y - g x) * (if Rltb (ln (uniform b)) (fr m f d x y) then 1 else 0))).
      + rewrite ex_affine. unfold A, test_prob. ring.
      + intros b. unfold mv. destruct (Rltb _ _); ring. }
  (* every state is reached with at least its probability under the target, over W *)
  assert (LB : forall x y, In x X -> In y X -> wt f d y / T / W <= q y * A x y <= q y).
  { intros x y Hx Hy. unfold A. rewrite (proj1 (src_r m X Y f d c C0 E x y H Hx (XY y Hy)) Hy). pose proof (q_pos y) as Qy. pose proof (q_pos x) as Qx. pose proof (w_pos x) as Wx. pose proof (w_pos y) as Wy.
    split; [|pose proof (Rmin_l 1 (exp (fr m f d x y))); nra].
    assert (E1 : q y * exp (fr m f d x y) = wt f d y * (q x / wt f d x)).
    { unfold q, wt, fr. replace (lp y - lp x - (lq y - lq x)) with ((lp y + lq x) + - (lp x + lq y)) by ring. rewrite exp_plus, exp_Ropp, !exp_plus.
      field. repeat split; apply Rgt_not_eq; apply exp_pos. }
    assert (D1 : wt f d y / T / W <= q y).
    { apply (Rmult_le_reg_r W _ _ WP). replace (wt f d y / T / W * W) with (wt f d y / T) by (field; lra). rewrite (Rmult_comm (q y)). exact (CV y Hy). }
    assert (D2 : wt f d y / T / W <= q y * exp (fr m f d x y)).
    { rewrite E1. pose proof (CV x Hx) as Q. fold T in Q. unfold Rdiv at 1 2. rewrite Rmult_assoc. apply Rmult_le_compat_l; [lra|].
      apply (Rmult_le_reg_r (W * wt f d x)); [nra|]. replace (/ T * / W * (W * wt f d x)) with (wt f d x / T) by (field; lra). replace (q x / wt f d x * (W * wt f d x)) with (W * q x) by (field; lra). exact Q. }
    unfold Rmin. destruct (Rle_dec 1 (exp (fr m f d x y))); [now rewrite Rmult_1_r|exact D2]. }
  assert (SUM : forall x, In x X -> total X (fun y => q y * A x y) <= 1).
  { intros x Hx. apply Rle_trans with (total X q); [apply total_le; intros y Hy; apply (LB x y Hx Hy)|].
    rewrite (total_ext X q (fun y => if mem y X then q y else 0)) by (intros y Hy; apply mem_true in Hy; now rewrite Hy).
    rewrite <- (total_sub X Y (fun y => if mem y X then q y else 0) NX NY XY); [|intros y _ Hn; apply mem_false in Hn; now rewrite Hn].
    rewrite <- Q1. apply total_le. intros y _. destruct (mem y X); [lra|]. apply Rlt_le, q_pos. }
  (* above lo *)
  assert (LOW : forall g lo x, (forall y, In y X -> lo <= g y) -> In x X -> lo + 1 / W * (mean g - lo) <= flow_op E g x).
  { intros g lo x B Hx. rewrite (ST g x Hx).
    assert (E1 : g x + total X (fun y => q y * A x y * (g y - g x)) = lo + total X (fun y => q y * A x y * (g y - lo)) + (1 - total X (fun y => q y * A x y)) * (g x - lo)).
    { rewrite (total_ext X (fun y => q y * A x y * (g y - g x)) (fun y => 1 * (q y * A x y * (g y - lo)) + (lo - g x) * (q y * A x y))) by (intros; ring). rewrite total_lin. ring. }
    rewrite E1. pose proof (SUM x Hx) as SX. pose proof (B x Hx) as Bx.
    assert (E2 : 1 / W * (mean g - lo) = total X (fun y => wt f d y / T / W * (g y - lo))).
    { unfold target_mean, expected_under. fold T. rewrite (total_ext X (fun y => wt f d y / T / W * (g y - lo)) (fun y => / (T * W) * (wt f d y * g y) + - (lo / (T * W)) * wt f d y)) by (intros; field; lra).
      rewrite total_lin. fold T. field. lra. }
    rewrite E2. assert (total X (fun y => wt f d y / T / W * (g y - lo)) <= total X (fun y => q y * A x y * (g y - lo))).
    { apply total_le. intros y Hy. apply Rmult_le_compat_r; [pose proof (B y Hy); lra|]. apply (LB x y Hx Hy). }
    nra. }
  intros g lo hi B. exists (lo + 1 / W * (mean g - lo)). intros x Hx. split; [apply LOW; auto; intros y Hy; apply (B y Hy)|].
  pose proof (LOW (fun y => - g y) (- hi) x (fun y Hy => Ropp_le_contravar _ _ (proj2 (B y Hy))) Hx) as U.
  assert (O : flow_op E (fun y => - g y) x = - flow_op E g x).
  { rewrite !ST by exact Hx. rewrite (total_ext X (fun y => q y * A x y * (- g y - - g x)) (fun y => -1 * (q y * A x y * (g y - g x)))) by (intros; ring). rewrite total_scal. ring. }
  assert (MO : mean (fun y => - g y) = - mean g).
  { unfold target_mean, expected_under. rewrite (total_ext X (fun x0 => wt f d x0 * - g x0) (fun x0 => -1 * (wt f d x0 * g x0))) by (intros; ring). rewrite total_scal. fold T. field. lra. }
  rewrite O, MO in U. set (e := 1 / W) in * . nra.
Qed.

Definition scan_op (n j : nat) (E : expect key) (g : list R -> R) (x : list R) : R := iid Y q n (fun props => ex E (fun k => at_step j g (Ok (scan m f d k x props)))).
Lemma scan_contracts n : forall j E, (j < n)%nat -> key_chain (src m X Y f d c) n E -> contracts X ((1 - 1 / W) ^ (j + 1)) (scan_op n j E).
Proof.
  induction n as [|n IH]; intros j E Hj; [lia|]. intros (E0 & E1 & SP & S1 & CH). destruct j as [|j].
  - cbn [Nat.add]. rewrite pow_1. apply (contracts_ext X _ (flow_op E1)); [|exact (flow_op_contracts E1 S1)]. intros g x Hx. unfold scan_op, flow_op. cbn [iid]. symmetry. apply total_ext. intros y Hy. f_equal.
    rewrite (iid_ext _ _ _ _ (fun _ => ex E1 (fun b => g (mv m f d b x y)))); [now apply iid_const|]. intros props _.
    rewrite (ex_ext _ E _ (fun k => (fun _ b => g (mv m f d b x y)) (split k 2 0) (split k 2 1))) by (intros k; rewrite scan_cons; reflexivity).
    rewrite (proj1 (SP (fun _ b => g (mv m f d b x y)))). apply ex_const.
  - replace ((1 - 1 / W) ^ (S j + 1)) with ((1 - 1 / W) * (1 - 1 / W) ^ (j + 1)) by reflexivity.
    apply (contracts_ext X _ (fun g => flow_op E1 (scan_op n j E0 g))).
    + intros g x Hx. unfold flow_op, scan_op. cbn [iid]. symmetry. apply total_ext. intros y Hy. f_equal.
      rewrite <- iid_ex. apply iid_ext. intros props _.
      set (H := fun a b => at_step j g (Ok (scan m f d a (mv m f d b x y) props))).
      rewrite (ex_ext _ E _ (fun k => H (split k 2 0) (split k 2 1))) by (intros k; rewrite scan_cons; reflexivity).
      rewrite (proj1 (SP H)), (proj2 (SP H)). reflexivity.
    + apply contracts_comp; [exact (flow_op_contracts E1 S1)|]. apply IH; [lia|exact CH].
Qed.
End Flow.

Section Group.
Context {G : @Rng RNum} {NF : @NFOps RNum G}.
Lemma iid_qeq Y (q q' : list R -> R) : (forall y, q y = q' y) -> forall s h, iid Y q s h = iid Y q' s h.
Proof. intros EQ. induction s as [|s IH]; intros h; cbn [iid]; [reflexivity|]. apply total_ext. intros y _. rewrite EQ, IH. reflexivity. Qed.
Lemma group_contracts (p : @nfp RNum G NF) (X Y : list (list R)) (f : @lpdf RNum) (d : @datad RNum) (q : list R -> R) (a W : R) (dim n j : nat) (E Ea Ed : expect key) :
  samples_shape (nfp_model p) dim -> (0 < nfp_bs p)%nat -> ignores_n_steps f -> X <> [] ->
  NoDup X -> NoDup Y -> (forall x, In x X -> In x Y) ->
  0 < a -> (forall y, q y = a * exp (m_logp (nfp_model p) y)) -> covers X (density f d) q W ->
  splits2 E Ea Ed -> key_chain (flow_tests X Y (density f d) q) n Ea -> flow_source (nfp_model p) Y q (nfp_bs p) n Ed -> (j < n)%nat ->
  contracts X ((1 - 1 / W) ^ (j + 1)) (fun g x => ex E (fun k => at_step j g (group_sample p f d n k x))).
Proof.
  intros HS HB IG NE NX NY XY A0 HQ CV SP CA FD Hj.
  assert (EQ : forall y, P_Inv4.q (nfp_model p) a y = q y) by (intros y; symmetry; apply HQ).
  set (qq := P_Inv4.q (nfp_model p) a).
  assert (FD' : flow_source (nfp_model p) Y qq (nfp_bs p) n Ed).
  { destruct FD as [D1 D2]. split.
    + intros s Hs h. etransitivity; [exact (D1 s Hs h)|]. symmetry. apply iid_qeq, EQ.
    + revert D2. apply chain_imp. intros E' H s Hs h. etransitivity; [exact (H s Hs h)|]. symmetry. apply iid_qeq, EQ. }
  assert (CA' : key_chain (src (nfp_model p) X Y f d a) n Ea).
  { revert CA. apply chain_imp. intros E' H x y Hx Hy. specialize (H x y Hx Hy). cbv zeta in * . rewrite !EQ. exact H. }
  assert (CV' : covers X (wt f d) qq W). { intros x Hx. unfold qq. rewrite EQ. exact (CV x Hx). }
  assert (Q1 : total Y qq = 1).
  { destruct FD' as [D _]. pose proof (D 1%nat ltac:(lia) (fun _ => 1)) as Q. cbv beta in Q. refine (eq_trans _ (eq_trans (eq_sym Q) (ex_const _ Ed 1))). cbn [iid]. apply total_ext. intros; ring. }
  apply (contracts_ext X _ (scan_op (nfp_model p) Y f d a n j Ea)).
  - intros g x Hx. symmetry. unfold scan_op.
    set (H := fun b1 b2 => at_step j g (Ok (scan (nfp_model p) f d b1 x (props_of p b2 n)))).
    rewrite (ex_ext _ E _ (fun k => H (split k 2 0) (split k 2 1))).
    + rewrite (proj1 (SP H)), (proj2 (SP H)). exact (flow_draws (nfp_model p) Y qq Q1 p n Ed (fun props => ex Ea (fun b1 => at_step j g (Ok (scan (nfp_model p) f d b1 x props)))) eq_refl HB FD').
    + intros k. unfold H. destruct (group_is p f d dim HS HB IG n k x) as (props & -> & _ & ->). reflexivity.
  - exact (scan_contracts (nfp_model p) X Y f d a W A0 Q1 NE NX NY XY CV' n j Ea Hj CA').
Qed.
End Group.

(** Blocks of local and global steps. *)
Section Blocks.
Context {G : @Rng RNum}.
Variables (X : list (list R)) (chains i : nat) (s1 s2 : key -> list R -> res (list (list R * R * bool))).
Variables (p1 t1 e1 p2 t2 e2 : nat) (P Q : expect key -> Prop) (rho : R).
Definition bcon (r : R) (samp : key -> list R -> res (list (list R * R * bool))) (j : nat) (E : expect key) : Prop :=
  contracts X r (fun g x => ex E (fun k => g (pos j (samp k x)))).
Hypothesis B1 : forall E, P E -> (forall j, (j < p1)%nat -> bcon 1 s1 (j * t1) E) /\ bcon 1 s1 e1 E.
Hypothesis B2 : forall E, Q E -> (forall j, (j < p2)%nat -> bcon (rho ^ (j * t2 + 1)) s2 (j * t2) E) /\ bcon (rho ^ (e2 + 1)) s2 e2 E.
Notation crow := (crow chains i s1 s2 p1 t1 e1 p2 t2 e2).
Notation cend := (cend chains i s1 s2 e1 e2).
Lemma rest_contracts r (E E0 E1 Ec E00 E01 Ed : expect key) (rest : (list R -> R) -> key -> list R -> R) :
  splits2 E E0 E1 -> split_has E1 chains i Ec -> P Ec -> splits2 E0 E00 E01 -> split_has E01 chains i Ed -> Q Ed ->
  contracts X r (fun g x => ex E00 (fun k => rest g k x)) ->
  contracts X (rho ^ (e2 + 1) * r) (fun g x => ex E (fun k => rest g (kn k) (x2 chains i s1 s2 e1 e2 k x))).
Proof.
  intros SP HC PP SP0 HD QQ C.
  replace (rho ^ (e2 + 1) * r) with (1 * (rho ^ (e2 + 1) * r)) by ring.
  refine (contracts_ext X _ _ _ _ (contracts_comp X _ _ _ _ (proj2 (B1 Ec PP)) (contracts_comp X _ _ _ _ (proj2 (B2 Ed QQ)) C))).
  intros g x Hx. unfold kn, x2, r2, x1, r1. symmetry.
  set (H := fun a b => rest g (split a 2 0) (pos e2 (s2 (split (split a 2 1) chains i) (pos e1 (s1 (split b chains i) x))))).
  refine (eq_trans (proj1 (SP H)) _). rewrite (proj2 (SP H)). rewrite <- HC. apply ex_ext. intros b. unfold H.
  set (y := pos e1 (s1 (split b chains i) x)).
  set (H2 := fun a' b' => rest g a' (pos e2 (s2 (split b' chains i) y))).
  refine (eq_trans (proj1 (SP0 H2)) _). rewrite (proj2 (SP0 H2)). rewrite <- HD. reflexivity.
Qed.
Lemma cend_contracts n : forall E, loops_source chains i P Q n E -> contracts X (rho ^ (n * (e2 + 1))) (fun g x => ex E (fun k => g (cend n k x))).
Proof.
  induction n as [|n IH]; intros E.
  - intros _. cbn [Nat.mul pow]. apply (contracts_ext X 1 (fun g => g)); [|apply contracts_id]. intros g x _. symmetry. exact (ex_const _ E (g x)).
  - intros (E0 & E1 & Ec & E00 & E01 & Ed & SP & HC & PP & SP0 & HD & QQ & L). cbn [P_Inv5.cend Nat.mul]. rewrite pow_add.
    exact (rest_contracts _ E E0 E1 Ec E00 E01 Ed (fun g k x => g (cend n k x)) SP HC PP SP0 HD QQ (IH E00 L)).
Qed.
(** The number of global steps that took effect before slot [s] (or in it). *)
Fixpoint globals (n s : nat) : nat :=
  match n with
  | O => O
  | S n' => if (s <? p1)%nat then 0 else if (s <? p1 + p2)%nat then (s - p1) * t2 + 1 else (e2 + 1) + globals n' (s - (p1 + p2))
  end.
Lemma crow_contracts n : forall E s, loops_source chains i P Q n E -> (s < n * (p1 + p2))%nat ->
  contracts X (rho ^ globals n s) (fun g x => ex E (fun k => g (crow n k x s))).
Proof.
  induction n as [|n IH]; intros E s; [lia|]. intros (E0 & E1 & Ec & E00 & E01 & Ed & SP & HC & PP & SP0 & HD & QQ & L) Hs. cbn [P_Inv5.crow globals].
  destruct (Nat.ltb_spec s p1) as [H1|H1]; [|destruct (Nat.ltb_spec s (p1 + p2)) as [H2|H2]].
  - cbn [pow]. refine (contracts_ext X _ _ _ _ (proj1 (B1 Ec PP) s H1)). intros g x Hx. unfold r1. symmetry.
    set (H := fun (_ b : key) => g (pos (s * t1) (s1 (split b chains i) x))).
    refine (eq_trans (proj1 (SP H)) _). unfold H. rewrite ex_const. exact (HC (fun k => g (pos (s * t1) (s1 k x)))).
  - replace (rho ^ ((s - p1) * t2 + 1)) with (1 * rho ^ ((s - p1) * t2 + 1)) by ring.
    refine (contracts_ext X _ _ _ _ (contracts_comp X _ _ _ _ (proj2 (B1 Ec PP)) (proj1 (B2 Ed QQ) (s - p1)%nat ltac:(lia)))). intros g x Hx. unfold r2, x1, r1. symmetry.
    set (H := fun a b => g (pos ((s - p1) * t2) (s2 (split (split a 2 1) chains i) (pos e1 (s1 (split b chains i) x))))).
    refine (eq_trans (proj1 (SP H)) _). rewrite (proj2 (SP H)). rewrite <- HC. apply ex_ext. intros b. unfold H.
    set (y := pos e1 (s1 (split b chains i) x)).
    set (H3 := fun (_ b' : key) => g (pos ((s - p1) * t2) (s2 (split b' chains i) y))).
    refine (eq_trans (proj1 (SP0 H3)) _). unfold H3. rewrite ex_const. exact (HD (fun k => g (pos ((s - p1) * t2) (s2 k y)))).
  - rewrite pow_add. exact (rest_contracts _ E E0 E1 Ec E00 E01 Ed (fun g k x => g (crow n k x (s - (p1 + p2)))) SP HC PP SP0 HD QQ (IH E00 (s - (p1 + p2))%nat L ltac:(cbn in Hs; lia))).
Qed.
End Blocks.
