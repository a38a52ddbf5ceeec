(** Flow proposals (independence Metropolis) leave the target invariant. *)
From Coq Require Import Reals Lra Lia Permutation Classical.
From Coquelicot Require Import Coquelicot.
From Verif Require Import Prelude Num M_Core M_Kernels M_Strategies P_Lists Spec_Kernels RNum Spec_Real Spec_Inv P_Kernels P_Real1 P_Real2 P_Inv1 P_Inv2 P_Inv3.
Open Scope R_scope.

(* ------------------------------------------------------------------ iid *)
Lemma iid_ext Y q n : forall h h', (forall l, length l = n -> h l = h' l) -> iid Y q n h = iid Y q n h'.
Proof.
  induction n as [|n IH]; intros h h' H; cbn [iid]; [now apply H|]. apply total_ext. intros y _. f_equal. apply IH. intros l Hl. apply H. cbn. now rewrite Hl.
Qed.
Lemma iid_lin Y q n : forall a f b g, iid Y q n (fun l => a * f l + b * g l) = a * iid Y q n f + b * iid Y q n g.
Proof.
  induction n as [|n IH]; intros a f b g; cbn [iid]; [reflexivity|]. rewrite <- total_lin. apply total_ext. intros y _. rewrite IH. ring.
Qed.
Lemma iid_const Y q n c : total Y q = 1 -> iid Y q n (fun _ => c) = c.
Proof.
  intros H1. induction n as [|n IH]; cbn [iid]; [reflexivity|]. rewrite IH, (total_ext Y _ (fun y => c * q y)) by (intros; ring). rewrite total_scal, H1. ring.
Qed.
Lemma iid_app Y q n m : forall h, iid Y q (n + m) h = iid Y q n (fun l => iid Y q m (fun l' => h (l ++ l'))).
Proof. induction n as [|n IH]; intros h; cbn [iid Nat.add]; [reflexivity|]. apply total_ext. intros y _. f_equal. rewrite IH. reflexivity. Qed.
Lemma iid_firstn Y q n m : total Y q = 1 -> (n <= m)%nat -> forall h, iid Y q m (fun l => h (firstn n l)) = iid Y q n h.
Proof.
  intros H1 L h. replace m with (n + (m - n))%nat by lia. rewrite iid_app. apply iid_ext. intros l Hl.
  rewrite (iid_ext _ _ _ _ (fun _ => h l)); [now apply iid_const|]. intros l' _. rewrite firstn_app, Hl, Nat.sub_diag, firstn_all2 by lia. cbn. now rewrite app_nil_r.
Qed.
Lemma iid_ex {T} (E : expect T) Y q n : forall h, iid Y q n (fun l => ex E (h l)) = ex E (fun t => iid Y q n (fun l => h l t)).
Proof.
  induction n as [|n IH]; intros h; cbn [iid]; [apply ex_ext; reflexivity|].
  rewrite ex_total. apply total_ext. intros y _. rewrite ex_scal. f_equal. apply IH.
Qed.

Section Flow.
Context {G : @Rng RNum} {NF : @NFOps RNum G}.
Variables (m : mdl) (X Y : list (list R)) (f : @lpdf RNum) (d : @datad RNum) (c : R).
Hypothesis C0 : 0 < c.
Notation lp := (lpx f d).
Definition lq (x : list R) : R := @m_logp RNum G NF m x.
Definition q (x : list R) : R := c * exp (lq x).
Hypothesis Q1 : total Y q = 1.
Hypothesis NX : NoDup X.
Hypothesis NY : NoDup Y.
Hypothesis XY : forall x, In x X -> In x Y.
Definition deco (props : list (list R)) : list (list R * R * R) := combine (combine props (map lp props)) (map lq props).
Definition fr (x y : list R) : R := (lp y - lp x) - (lq y - lq x).
Definition src (E : expect key) : Prop := flow_tests X Y (density f d) q E.
Definition mv (b : key) (x y : list R) : list R := if Rltb (ln (uniform b)) (fr x y) then y else x.

Lemma src_r E x y : src E -> In x X -> In y Y -> (In y X -> test_prob E (fr x y) = Rmin 1 (exp (fr x y))) /\ (~ In y X -> test_prob E (fr x y) = 0).
Proof.
  intros H Hx Hy. specialize (H x y Hx Hy). cbv zeta in H.
  replace (ln (density f d y) - ln (density f d x) - (ln (q y) - ln (q x))) with (fr x y) in H; [exact H|].
  unfold density, q. rewrite !ln_exp, !ln_mult, !ln_exp by (auto; apply exp_pos). unfold fr, lpx. ring.
Qed.
Lemma one_step E g : src E -> expected_under X (wt f d) (fun x => total Y (fun y => q y * ex E (fun b => g (mv b x y)))) = expected_under X (wt f d) g.
Proof.
  intros H. set (A := fun x y => test_prob E (fr x y)).
  assert (FL : total X (fun x => total Y (fun y => wt f d x * q y * A x y * (g y - g x))) = 0).
  { apply (flow_cancels X Y (fun _ y => y) (fun x _ => x) (fun x y => wt f d x * q y * A x y) g NX NY).
    - intros x y Hx Hy HyX. repeat split; auto. unfold A. rewrite (proj1 (src_r E x y H Hx Hy) HyX), (proj1 (src_r E y x H HyX (XY x Hx)) Hx).
      replace (fr y x) with (- fr x y) by (unfold fr; ring). symmetry. apply balance_exp.
      + apply Rmult_lt_0_compat; [apply exp_pos|]. apply Rmult_lt_0_compat; [exact C0|apply exp_pos].
      + apply Rmult_lt_0_compat; [apply exp_pos|]. apply Rmult_lt_0_compat; [exact C0|apply exp_pos].
      + unfold wt, q, fr. replace (lp y - lp x - (lq y - lq x)) with ((lp y + lq x) + - (lp x + lq y)) by ring. rewrite exp_plus, exp_Ropp, !exp_plus.
        field. repeat split; try (apply Rgt_not_eq; apply exp_pos). lra.
    - intros x y Hx Hy HyX. unfold A. rewrite (proj2 (src_r E x y H Hx Hy) HyX). ring. }
  unfold expected_under. rewrite (total_ext X _ (fun x => wt f d x * g x + total Y (fun y => wt f d x * q y * A x y * (g y - g x)))).
  - rewrite total_plus, FL. lra.
  - intros x Hx. rewrite (total_ext Y _ (fun y => g x * q y + 1 * (q y * A x y * (g y - g x)))).
    + rewrite total_lin, Q1. rewrite <- Rmult_plus_distr_l with (r1 := wt f d x) || idtac. rewrite Rmult_plus_distr_l. f_equal; [ring|]. rewrite Rmult_1_l, <- total_scal. apply total_ext. intros; ring.
    + intros y Hy. rewrite (ex_ext _ E _ (fun b => g x + (g y - g x) * (if Rltb (ln (uniform b)) (fr x y) then 1 else 0))).
      * rewrite ex_affine. unfold A, test_prob. ring.
      * intros b. unfold mv. destruct (Rltb _ _); ring.
Qed.
Definition scan (k : key) (x : list R) (props : list (list R)) := @nfp_scan RNum G k x (lp x) (lq x) (deco props).
Lemma scan_cons k x y props : scan k x (y :: props) =
  (mv (split k 2 1) x y, lp (mv (split k 2 1) x y), Rltb (ln (uniform (split k 2 1))) (fr x y)) :: scan (split k 2 0) (mv (split k 2 1) x y) props.
Proof.
  unfold scan, deco, mv, mh_accept. cbn [map combine nfp_scan]. unfold mh_accept, nfp_ratio.
  change (fln (uniform (split k 2 1)) <.? (lp y -. lp x -. (lq y -. lq x))) with (Rltb (ln (uniform (split k 2 1))) (fr x y)).
  destruct (Rltb _ _); reflexivity.
Qed.
Lemma scan_length props : forall k x, length (scan k x props) = length props.
Proof. induction props as [|y props IH]; intros k x; [reflexivity|]. rewrite scan_cons. cbn [length]. now rewrite IH. Qed.
Lemma scan_inv n : forall j g E, (j < n)%nat -> key_chain src n E ->
  expected_under X (wt f d) (fun x => iid Y q n (fun props => ex E (fun k => at_step j g (Ok (scan k x props))))) = expected_under X (wt f d) g.
Proof.
  induction n as [|n IH]; intros j g E Hj; [lia|]. intros (E0 & E1 & SP & S1 & CH). cbn [iid]. destruct j as [|j].
  - rewrite <- (one_step E1 g S1). unfold expected_under. apply total_ext. intros x Hx. f_equal. apply total_ext. intros y Hy. f_equal.
    rewrite (iid_ext _ _ _ _ (fun _ => ex E1 (fun b => g (mv b x y)))); [now apply iid_const|]. intros props _.
    rewrite (ex_ext _ E _ (fun k => (fun _ b => g (mv b x y)) (split k 2 0) (split k 2 1))) by (intros k; rewrite scan_cons; reflexivity).
    rewrite (proj1 (SP (fun _ b => g (mv b x y)))). apply ex_const.
  - set (gj := fun z => iid Y q n (fun props => ex E0 (fun a => at_step j g (Ok (scan a z props))))).
    rewrite <- (IH j g E0) by (auto; lia). fold gj. change (fun x => iid Y q n (fun props => ex E0 (fun k => at_step j g (Ok (scan k x props))))) with gj.
    rewrite <- (one_step E1 gj S1). unfold expected_under. apply total_ext. intros x Hx. f_equal. apply total_ext. intros y Hy. f_equal.
    unfold gj. rewrite <- iid_ex. apply iid_ext. intros props _.
    set (H := fun a b => at_step j g (Ok (scan a (mv b x y) props))).
    rewrite (ex_ext _ E _ (fun k => H (split k 2 0) (split k 2 1))) by (intros k; rewrite scan_cons; reflexivity).
    rewrite (proj1 (SP H)), (proj2 (SP H)). reflexivity.
Qed.
End Flow.

(* ------------------------------------------------------------------ the proposals of sample_flow *)
Section Draw.
Context {G : @Rng RNum} {NF : @NFOps RNum G}.
Variables (m : mdl) (Y : list (list R)) (q : list R -> R).
Hypothesis Q1 : total Y q = 1.
Lemma chain_le (P : expect key -> Prop) n n' : (n <= n')%nat -> forall E, key_chain P n' E -> key_chain P n E.
Proof. revert n'. induction n as [|n IH]; intros n' L E H; [exact I|]. destruct n' as [|n']; [lia|]. destruct H as (E0 & E1 & A & B & C). exists E0, E1. repeat split; auto; try apply A. apply (IH n'); auto. lia. Qed.
Lemma batches_iid s nb : forall E h, key_chain (fun E' => draws_from m Y q s E') nb E ->
  ex E (fun k => h (concat (flow_batches m k nb s))) = iid Y q (nb * s) h.
Proof.
  induction nb as [|nb IH]; intros E h; [intros _; exact (ex_const _ E (h []))|]. intros (E0 & E1 & SP & D & CH). cbn [flow_batches concat Nat.mul].
  set (H := fun a b => h (m_sample m b s ++ concat (flow_batches m a nb s))).
  rewrite (ex_ext _ E _ (fun k => H (split k 2 0) (split k 2 1))) by reflexivity.
  rewrite (proj1 (SP H)), (proj2 (SP H)), iid_app. unfold H.
  rewrite (ex_ext _ E1 _ (fun b => (fun l => iid Y q (nb * s) (fun l' => h (l ++ l'))) (m_sample m b s))).
  - exact (D (fun l => iid Y q (nb * s) (fun l' => h (l ++ l')))).
  - intros b. exact (IH E0 (fun l' => h (m_sample m b s ++ l')) CH).
Qed.
Lemma chain_imp (P Q : expect key -> Prop) n : (forall E, P E -> Q E) -> forall E, key_chain P n E -> key_chain Q n E.
Proof. intros H. induction n as [|n IH]; intros E C; [exact I|]. destruct C as (E0 & E1 & A & B & C). exists E0, E1. split; [exact A|]. split; auto. Qed.
Definition props_of (p : @nfp RNum G NF) (k : key) (n : nat) : list (list R) := match sample_flow p k n with Ok (l, _) => l | Raise _ => [] end.
Lemma flow_draws (p : @nfp RNum G NF) n E h : nfp_model p = m -> (0 < nfp_bs p)%nat -> flow_source m Y q (nfp_bs p) n E ->
  ex E (fun k => h (props_of p k n)) = iid Y q n h.
Proof.
  intros Em Hb [D CH]. unfold props_of, sample_flow. destruct (nfp_bs p <? n)%nat eqn:El.
  - apply Nat.ltb_lt in El. destruct (Nat.eqb_spec (nfp_bs p) 0) as [E0|_]; [lia|]. cbv zeta. rewrite Em.
    set (nb := cdiv n (nfp_bs p)). set (s := cdiv n nb).
    assert (Hnb : (0 < nb)%nat) by (apply cdiv_pos; lia).
    assert (Hs : (s <= nfp_bs p)%nat). { unfold s. apply cdiv_le; auto. rewrite Nat.mul_comm. apply cdiv_mul_ge, Hb. }
    assert (Hn : (n <= nb * s)%nat). { rewrite Nat.mul_comm. apply cdiv_mul_ge, Hnb. }
    assert (Hle : (nb <= n)%nat). { apply cdiv_le; auto. nia. }
    rewrite <- (iid_firstn Y q n (nb * s) Q1 Hn h). rewrite <- (batches_iid s nb E); [reflexivity|].
    apply (chain_le _ nb n Hle). revert CH. apply chain_imp. auto.
  - apply Nat.ltb_ge in El. rewrite Em. exact (D n El h).
Qed.
End Draw.

(* ------------------------------------------------------------------ TakeGroupSteps for one chain *)
Section Group.
Context {G : @Rng RNum} {NF : @NFOps RNum G}.
Variables (p : @nfp RNum G NF) (X Y : list (list R)) (f : @lpdf RNum) (d : @datad RNum) (c : R) (dim : nat).
Hypothesis HS : samples_shape (nfp_model p) dim.
Hypothesis HB : (0 < nfp_bs p)%nat.
Hypothesis IG : ignores_n_steps f.
Hypothesis C0 : 0 < c.
Let qq := q (nfp_model p) c.
Hypothesis NX : NoDup X.
Hypothesis NY : NoDup Y.
Hypothesis XY : forall x, In x X -> In x Y.
Lemma group_is n k x : exists props, props = props_of p (split k 2 1) n /\ length props = n /\
  group_sample p f d n k x = Ok (scan (nfp_model p) f d (split k 2 0) x props).
Proof.
  assert (Q : exists o, sample_flow p (split k 2 1) n = Ok o). { unfold sample_flow. destruct (nfp_bs p <? n)%nat; [|eauto]. destruct (Nat.eqb_spec (nfp_bs p) 0); [lia|eauto]. }
  destruct Q as ((props & nfs) & E). exists props. unfold props_of. rewrite E. split; [reflexivity|].
  destruct (sample_flow_spec _ _ _ _ _ _ HS E) as (L & -> & HD & _). split; [exact L|].
  unfold group_sample, nfp_kernel. rewrite with_n_steps_get, Nat2Z.id, E. cbn [rbind]. rewrite batched_logpdf_spec by auto.
  rewrite (map_ext (fun x0 => lp_val f x0 (with_n_steps d n)) (fun x0 => lp_val f x0 d)) by (intros; apply IG). reflexivity.
Qed.
Lemma group_inv n j g E Ea Ed : (j < n)%nat -> splits2 E Ea Ed -> key_chain (src (nfp_model p) X Y f d c) n Ea -> flow_source (nfp_model p) Y qq (nfp_bs p) n Ed ->
  expected_under X (wt f d) (fun x => ex E (fun k => at_step j g (group_sample p f d n k x))) = expected_under X (wt f d) g.
Proof.
  intros Hj SP CA FD.
  assert (Q1 : total Y qq = 1).
  { destruct FD as [D _]. pose proof (D 1%nat ltac:(lia) (fun _ => 1)) as Q. cbv beta in Q. refine (eq_trans _ (eq_trans (eq_sym Q) (ex_const _ Ed 1))). cbn [iid]. apply total_ext. intros; ring. }
  rewrite <- (scan_inv (nfp_model p) X Y f d c C0 Q1 NX NY XY n j g Ea Hj CA). unfold expected_under. apply total_ext. intros x Hx. f_equal.
  set (H := fun a b => at_step j g (Ok (scan (nfp_model p) f d a x (props_of p b n)))).
  rewrite (ex_ext _ E _ (fun k => H (split k 2 0) (split k 2 1))).
  - rewrite (proj1 (SP H)), (proj2 (SP H)). exact (flow_draws (nfp_model p) Y qq Q1 p n Ed (fun props => ex Ea (fun a => at_step j g (Ok (scan (nfp_model p) f d a x props)))) eq_refl HB FD).
  - intros k. unfold H. destruct (group_is n k x) as (props & -> & _ & ->). reflexivity.
Qed.
End Group.

Section FlowInv.
Context {G : @Rng RNum} {NF : @NFOps RNum G}.
Lemma flow_inv (p : nfp) (X Y : list (list R)) (f : lpdf) (d : datad) (q : list R -> R) (a : R)
  (dim n j : nat) (g : list R -> R) (E Ea Ed : expect key) :
  samples_shape (nfp_model p) dim -> (0 < nfp_bs p)%nat -> ignores_n_steps f ->
  NoDup X -> NoDup Y -> (forall x, In x X -> In x Y) ->
  0 < a -> (forall y, q y = a * exp (m_logp (nfp_model p) y)) ->
  splits2 E Ea Ed -> key_chain (flow_tests X Y (density f d) q) n Ea -> flow_source (nfp_model p) Y q (nfp_bs p) n Ed -> (j < n)%nat ->
  expected_under X (density f d) (fun x => ex E (fun k => at_step j g (group_sample p f d n k x))) =
  expected_under X (density f d) g.
Proof.
  intros HS HB IG NX NY XY A0 HQ SP CA FD Hj.
  assert (EQ : forall y, P_Inv4.q (nfp_model p) a y = q y) by (intros y; symmetry; apply HQ).
  assert (IE : forall s h, iid Y (P_Inv4.q (nfp_model p) a) s h = iid Y q s h).
  { induction s as [|s IH]; intros h; cbn [iid]; [reflexivity|]. apply total_ext. intros y _. rewrite EQ, IH. reflexivity. }
  refine (group_inv p X Y f d a dim HS HB IG A0 NX NY XY n j g E Ea Ed Hj SP _ _).
  - revert CA. apply chain_imp. intros E' H x y Hx Hy. specialize (H x y Hx Hy). cbv zeta in * . rewrite !EQ. exact H.
  - destruct FD as [D1 D2]. split.
    + intros s Hs h. etransitivity; [exact (D1 s Hs h)|]. symmetry. apply IE.
    + revert D2. apply chain_imp. intros E' H s Hs h. etransitivity; [exact (H s Hs h)|]. symmetry. apply IE.
Qed.
End FlowInv.
