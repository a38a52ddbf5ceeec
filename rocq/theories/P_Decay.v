(** Proofs of C53: weight decay acts on parameters without gradients; consequences for the masks of
    RealNVP and for the data statistics. *)
From Coq Require Import Reals Psatz.
From Coquelicot Require Import Coquelicot.
From Verif Require Import Prelude Num M_Core M_Kernels M_Strategies M_Flow M_Net P_Lists RNum MxR Spec_Jac P_Jac Spec_Real Spec_Flow P_Real1 P_Flow4 Spec_FM P_FM3.
Open Scope R_scope.

(* ------------------------------------------------------------------ the optimiser *)
Lemma clip_zero (g : list R) j : nth j g 0 = 0 -> @nth R j (@clip_norm RNum g) 0 = 0.
Proof.
  intros H. unfold clip_norm. destruct (_ <.? _); auto.
  destruct (le_lt_dec (length g) j) as [Hge|Hlt].
  - apply nth_overflow. now rewrite map_length.
  - etransitivity; [exact (mapR (fun x => (x / sqrt (@fsum RNum (map fsq g))) * IZR 1) g j Hlt)|]. rewrite H. unfold Rdiv. ring.
Qed.
Lemma adamw_step_len (a : @adamw RNum) (g p : list R) s : length (fst (adamw_step a g p s)) = length p.
Proof. unfold adamw_step. cbn [fst]. now rewrite !map_length, seq_length. Qed.
Lemma step_zero (a : @adamw RNum) (g p : list R) s j : (j < length p)%nat ->
  nth j g 0 = 0 -> @nth R j (as_mu s) 0 = 0 -> @nth R j (as_nu s) 0 = 0 ->
  let o := adamw_step a g p s in
  @nth R j (fst o) 0 = nth j p 0 * (1 - aw_lr a * aw_decay a) /\ @nth R j (as_mu (snd o)) 0 = 0 /\ @nth R j (as_nu (snd o)) 0 = 0.
Proof.
  intros Hj Hg Hm Hn. cbv zeta. unfold adamw_step. cbn [fst snd as_mu as_nu].
  set (f := fun i => adamw_coord a (S (as_count s)) (nth i (clip_norm g) f0) (nth i p f0) (nth i (as_mu s) f0) (nth i (as_nu s) f0)).
  assert (E : f j = (nth j p 0 * (1 - aw_lr a * aw_decay a), 0, 0)).
  { unfold f. pose proof (clip_zero g j Hg) as Hc. change (@f0 RNum) with 0. rnorm. rewrite Hc, Hm, Hn. unfold adamw_coord, fsq.
    change (@fofZ RNum) with IZR. change (@f1 RNum) with 1. cbn [fmul fadd fsub fdiv fneg fsqrt RNum F].
    assert (E1 : (1 - aw_b1 a) * 0 + aw_b1 a * 0 = 0) by ring.
    assert (E2 : (1 - aw_b2 a) * (0 * 0) + aw_b2 a * 0 = 0) by ring.
    cbn [fmul fadd fsub RNum F]. rewrite E1, E2. unfold Rdiv. rewrite !Rmult_0_l. f_equal. f_equal. ring. }
  assert (Lq : (j < length (map f (seq 0 (length p))))%nat) by (rewrite map_length, seq_length; exact Hj).
  assert (En : nth j (map f (seq 0 (length p))) (0, 0, 0) = f j) by exact (nth_map_seq f (length p) j (0, 0, 0) Hj).
  split; [|split].
  - etransitivity; [exact (nth_map' (fun x : R * R * R => fst (fst x)) _ j (0, 0, 0) 0 Lq)|]. exact (f_equal (fun x : R * R * R => fst (fst x)) (eq_trans En E)).
  - etransitivity; [exact (nth_map' (fun x : R * R * R => snd (fst x)) _ j (0, 0, 0) 0 Lq)|]. exact (f_equal (fun x : R * R * R => snd (fst x)) (eq_trans En E)).
  - etransitivity; [exact (nth_map' (fun x : R * R * R => snd x) _ j (0, 0, 0) 0 Lq)|]. exact (f_equal (fun x : R * R * R => snd x) (eq_trans En E)).
Qed.
Lemma steps_zero (a : @adamw RNum) (gs : list (list R)) : forall (p : list R) s j, (j < length p)%nat ->
  (forall g, In g gs -> nth j g 0 = 0) -> @nth R j (as_mu s) 0 = 0 -> @nth R j (as_nu s) 0 = 0 ->
  @nth R j (fst (adamw_steps a gs p s)) 0 = nth j p 0 * (1 - aw_lr a * aw_decay a) ^ length gs /\
  length (fst (adamw_steps a gs p s)) = length p.
Proof.
  induction gs as [|g gs IH]; intros p s j Hj Hg Hm Hn.
  - cbn. split; auto. change (nth j p 0 = nth j p 0 * 1). ring.
  - destruct (step_zero a g p s j Hj (Hg g (or_introl eq_refl)) Hm Hn) as (E1 & E2 & E3).
    pose proof (adamw_step_len a g p s) as L.
    assert (Hj' : (j < length (fst (adamw_step a g p s)))%nat) by (rnorm; lia).
    destruct (IH (fst (adamw_step a g p s)) (snd (adamw_step a g p s)) j Hj' (fun g' H => Hg g' (or_intror H)) E2 E3) as [E L2].
    change (adamw_steps a (g :: gs) p s) with (adamw_steps a gs (fst (adamw_step a g p s)) (snd (adamw_step a g p s))).
    split; [|exact (eq_trans L2 L)]. etransitivity; [exact E|]. rewrite E1. cbn [length pow]. rnorm. ring.
Qed.
Lemma init_zero (p : list R) j : @nth R j (as_mu (@adamw_init RNum p)) 0 = 0 /\ @nth R j (as_nu (@adamw_init RNum p)) 0 = 0.
Proof.
  unfold adamw_init. cbn [as_mu as_nu]. destruct (le_lt_dec (length p) j) as [H|H].
  - rewrite !nth_overflow; auto; now rewrite map_length.
  - split; exact (mapR (fun _ => 0) p j H).
Qed.
Lemma decay_proof (a : @adamw RNum) (gs : list (list R)) (p : list R) j : (j < length p)%nat ->
  (forall g, In g gs -> nth j g 0 = 0) ->
  @nth R j (fst (adamw_steps a gs p (adamw_init p))) 0 = nth j p 0 * (1 - aw_lr a * aw_decay a) ^ length gs.
Proof. intros Hj Hg. destruct (init_zero p j) as [H1 H2]. apply (steps_zero a gs p (adamw_init p) j Hj Hg H1 H2). Qed.
Lemma decay_len (a : @adamw RNum) (gs : list (list R)) : forall (p : list R) s, length (fst (adamw_steps a gs p s)) = length p.
Proof.
  induction gs as [|g gs IH]; intros p s; [reflexivity|].
  change (adamw_steps a (g :: gs) p s) with (adamw_steps a gs (fst (adamw_step a g p s)) (snd (adamw_step a g p s))).
  rewrite IH. apply adamw_step_len.
Qed.
Lemma factor_range (lr momentum : R) (T : nat) : 0 < lr < 10000 -> (0 < T)%nat ->
  let a := @optimizer_new RNum lr momentum in 0 < (1 - aw_lr a * aw_decay a) ^ T < 1.
Proof.
  intros Hl HT. cbv zeta. assert (E : 1 - aw_lr (@optimizer_new RNum lr momentum) * aw_decay (@optimizer_new RNum lr momentum) = 1 - lr * (1 / 10000)) by reflexivity.
  cbn [F RNum] in E. rewrite E. assert (H : 0 < 1 - lr * (1 / 10000) < 1) by lra. clear E. revert H. generalize (1 - lr * (1 / 10000)). intros q Hq.
  split; [apply pow_lt; lra|]. apply pow_lt_1_compat; lra || lia.
Qed.


(* ------------------------------------------------------------------ coupling with a fractional mask *)
Lemma ln_lt_sub z : 0 < z -> z <> 1 -> ln z < z - 1.
Proof.
  intros Hz H1. assert (Hl : ln z <> 0) by (intros E; apply H1; rewrite <- (exp_ln z Hz), E; apply exp_0).
  pose proof (exp_ineq1 (ln z) Hl) as H. rewrite exp_ln in H by auto. lra.
Qed.
Lemma ln_le_sub z : 0 < z -> ln z <= z - 1.
Proof. intros Hz. destruct (Req_dec z 1) as [->|H]; [rewrite ln_1; lra|]. left. now apply ln_lt_sub. Qed.
Lemma mix_pos m u : 0 <= m < 1 -> 0 < u -> 0 < (1 - m) * u + m.
Proof. intros. assert (0 < (1 - m) * u) by (apply Rmult_lt_0_compat; lra). lra. Qed.
Lemma ln_concave m u : 0 <= m < 1 -> 0 < u -> (1 - m) * ln u <= ln ((1 - m) * u + m).
Proof.
  intros Hm Hu. pose proof (mix_pos m u Hm Hu) as Hv. set (v := (1 - m) * u + m) in * .
  pose proof (ln_le_sub (u / v) ltac:(now apply Rdiv_lt_0_compat)) as H1.
  pose proof (ln_le_sub (1 / v) ltac:(apply Rdiv_lt_0_compat; lra)) as H2.
  unfold Rdiv in H1, H2. rewrite ln_mult in H1, H2 by (auto; try apply Rinv_0_lt_compat; lra). rewrite ln_Rinv in H1, H2 by auto. rewrite ln_1 in H2.
  assert (E : (1 - m) * (u * / v) + m * (1 * / v) = 1) by (replace ((1 - m) * (u * / v) + m * (1 * / v)) with (((1 - m) * u + m) * / v) by ring; fold v; apply Rinv_r; lra).
  assert (H3 : (1 - m) * (ln u + - ln v) <= (1 - m) * (u * / v - 1)) by (apply Rmult_le_compat_l; lra).
  pose proof (Rmult_le_compat_l m _ _ ltac:(lra) H2) as H4. clearbody v. nra.
Qed.
Lemma ln_concave_strict m u : 0 < m < 1 -> 0 < u -> u <> 1 -> (1 - m) * ln u < ln ((1 - m) * u + m).
Proof.
  intros Hm Hu H1u. pose proof (mix_pos m u ltac:(lra) Hu) as Hv. set (v := (1 - m) * u + m) in * .
  assert (Huv : u / v <> 1).
  { intros E. assert (u = v) by (apply (Rmult_eq_reg_r (/ v)); [rewrite Rinv_r by lra; exact E|apply Rinv_neq_0_compat; lra]).
    apply H1u. unfold v in H. assert (m * (u - 1) = 0) by lra. destruct (Rmult_integral _ _ H0); lra. }
  pose proof (ln_lt_sub (u / v) ltac:(now apply Rdiv_lt_0_compat) Huv) as H1.
  pose proof (ln_le_sub (1 / v) ltac:(apply Rdiv_lt_0_compat; lra)) as H2.
  unfold Rdiv in H1, H2. rewrite ln_mult in H1, H2 by (auto; try apply Rinv_0_lt_compat; lra). rewrite ln_Rinv in H1, H2 by auto. rewrite ln_1 in H2.
  assert (E : (1 - m) * (u * / v) + m * (1 * / v) = 1) by (replace ((1 - m) * (u * / v) + m * (1 * / v)) with (((1 - m) * u + m) * / v) by ring; fold v; apply Rinv_r; lra).
  assert (H3 : (1 - m) * (ln u + - ln v) < (1 - m) * (u * / v - 1)) by (apply Rmult_lt_compat_l; lra).
  pose proof (Rmult_le_compat_l m _ _ ltac:(lra) H2) as H4. clearbody v. nra.
Qed.
Lemma tanh_zero s : tanh s = 0 -> s = 0.
Proof.
  unfold tanh, sinh, cosh. intros H. pose proof (exp_pos s). pose proof (exp_pos (- s)).
  assert (H2 : (exp s - exp (- s)) / 2 = 0).
  { apply (Rmult_eq_reg_r (/ ((exp s + exp (- s)) / 2))); [rewrite Rmult_0_l; exact H|apply Rinv_neq_0_compat; lra]. }
  assert (exp s = exp (- s)) by lra. apply exp_inv in H3. lra.
Qed.

Section Frac.
Variables (n : nat) (m ss ts : list R).
Hypothesis Lm : length m = n.
Hypothesis Ls : length ss = n.
Hypothesis Lt : length ts = n.
Let c := @mkCoupling RNum m (@mlp_affine RNum (fun _ => ss) (fun _ => ts) 1).
Let u i := exp (tanh (nth i ss 0)).

Lemma fr_fwd_len (x : list R) : length x = n -> length (fst (coupling_fwd c x)) = n.
Proof. intros. unfold coupling_fwd, c, mlp_affine, mask_mix. cbn [bj_fwd cp_bij cp_mask fst snd]. rlen. lia. Qed.
Lemma fr_inv_len (x : list R) : length x = n -> length (fst (coupling_inv c x)) = n.
Proof. intros. unfold coupling_inv, c, mlp_affine, mask_mix. cbn [bj_inv cp_bij cp_mask fst snd]. rlen. lia. Qed.
Lemma mapRR (f : R -> R) (l : list R) i : (i < length l)%nat -> @nth R i (map f l) 0 = f (nth i l 0).
Proof. exact (mapR f l i). Qed.
Lemma fr_fwd (x : list R) i : length x = n -> (i < n)%nat ->
  @nth R i (fst (coupling_fwd c x)) 0 = (1 - nth i m 0) * ((nth i x 0 + nth i ts 0) * u i) + nth i m 0 * nth i x 0.
Proof.
  intros Hx Hi. unfold coupling_fwd, c, mlp_affine, mask_mix. cbn [bj_fwd cp_bij cp_mask fst snd].
  rewrite vaddR by (rlen; lia). rewrite !vmulR by (rlen; lia). rewrite vaddR by (rlen; lia).
  rewrite (mapR (fun a => 1 - a)) by lia. rewrite (mapR exp) by (rlen; lia). rewrite (mapR (fun s => tanh s * 1)) by lia.
  rewrite (mapR (fun s => s * 1)) by lia. rewrite !Rmult_1_r. reflexivity.
Qed.
Lemma fr_inv (x : list R) i : length x = n -> (i < n)%nat ->
  @nth R i (fst (coupling_inv c x)) 0 = (1 - nth i m 0) * (nth i x 0 / u i - nth i ts 0) + nth i m 0 * nth i x 0.
Proof.
  intros Hx Hi. unfold coupling_inv, c, mlp_affine, mask_mix. cbn [bj_inv cp_bij cp_mask fst snd].
  rewrite vaddR by (rlen; lia). rewrite !vmulR by (rlen; lia). rewrite vsubR by (rlen; lia). rewrite vmulR by (rlen; lia).
  rewrite (mapR (fun a => 1 - a)) by lia. rewrite (mapR (fun s => exp (- s))) by (rlen; lia). rewrite (mapR (fun s => tanh s * 1)) by lia.
  rewrite (mapR (fun s => s * 1)) by lia. rewrite !Rmult_1_r, exp_Ropp. reflexivity.
Qed.
Lemma fr_logdet (x : list R) : length x = n ->
  snd (coupling_fwd c x) = Rsum n (fun i => (1 - nth i m 0) * tanh (nth i ss 0)).
Proof.
  intros Hx. unfold coupling_fwd, c, mlp_affine, mask_logdet. cbn [bj_fwd cp_bij cp_mask fst snd]. rewrite fsumR. rlen. rewrite Lm, Ls, Nat.min_id.
  apply Rsum_ext. intros i Hi. rewrite vmulR by (rlen; lia). rewrite (mapR (fun a => 1 - a)) by lia. rewrite (mapR (fun s => tanh s * 1)) by lia. now rewrite Rmult_1_r.
Qed.
Lemma u_pos i : 0 < u i. Proof. apply exp_pos. Qed.
Lemma u_one i : nth i ss 0 <> 0 -> u i <> 1.
Proof. intros H E. apply H, tanh_zero. unfold u in E. rewrite <- exp_0 in E. now apply exp_inv in E. Qed.

(** The round trip misses by r (1 - r) (u - 1) (x (u - 1) + tau u) / u. *)
Lemma fr_round (x : list R) i : length x = n -> (i < n)%nat ->
  @nth R i (fst (coupling_inv c (fst (coupling_fwd c x)))) 0 - nth i x 0 =
  nth i m 0 * (1 - nth i m 0) * (u i - 1) * (nth i x 0 * (u i - 1) + nth i ts 0 * u i) / u i.
Proof.
  intros Hx Hi. rewrite fr_inv by (auto using fr_fwd_len). rewrite fr_fwd by auto. pose proof (u_pos i). field. lra.
Qed.
Lemma fr_not_inverse i : (i < n)%nat -> 0 < nth i m 0 < 1 -> nth i ss 0 <> 0 -> ~ exact_inverse n (coupling_fwd c) (coupling_inv c).
Proof.
  intros Hi Hm Hs [_ _ H _]. pose proof (u_one i Hs) as Hu1. pose proof (u_pos i) as Hu.
  set (v := (1 - nth i ts 0 * u i) / (u i - 1)).
  set (x := set_nth i v (repeat 0 n)). assert (Lx : length x = n) by (unfold x; now rewrite set_nth_length, repeat_length).
  assert (Ex : nth i x 0 = v) by (apply nth_set_nth_eq; now rewrite repeat_length).
  pose proof (fr_round x i Lx Hi) as E. pose proof (f_equal (fun p : list R * R => nth i (fst p) 0) (H x Lx)) as E0. cbv beta in E0. cbn [fst] in E0.
  rnorm. unfold F in E. cbn [RNum] in E. rewrite E0 in E. rewrite Rminus_eq_0, Ex in E.
  assert (E1 : v * (u i - 1) + nth i ts 0 * u i = 1) by (unfold v; field; lra). rewrite E1 in E. symmetry in E.
  assert (Hnz : nth i m 0 * (1 - nth i m 0) * (u i - 1) * 1 / u i <> 0).
  { unfold Rdiv. rewrite Rmult_1_r. repeat apply Rmult_integral_contrapositive_currified; try lra. apply Rinv_neq_0_compat; lra. }
  contradiction.
Qed.
Lemma fr_det (x : list R) J : length x = n -> is_jac n n (fun y => fst (coupling_fwd c y)) x J ->
  mdet n J = Rprod n (fun i => (1 - nth i m 0) * u i + nth i m 0).
Proof.
  intros Hx HJ. rewrite (shear_det n _ x J (fun _ => false) (fun i => (1 - nth i m 0) * u i + nth i m 0) Hx HJ); auto.
  - discriminate.
  - intros i j t Hi Hj Hij _ _. rewrite !fr_fwd by (auto; now rewrite set_nth_length). now rewrite nth_set_nth_neq by auto.
  - intros i Hi _. apply (is_derive_ext (fun t : R => (1 - nth i m 0) * ((t + nth i ts 0) * u i) + nth i m 0 * t)).
    + intros t. rewrite fr_fwd by (auto; now rewrite set_nth_length). now rewrite nth_set_nth_eq by lia.
    + auto_derive; auto. ring.
Qed.
Lemma ln_Rprod k (f : nat -> R) : (forall i, (i < k)%nat -> 0 < f i) -> 0 < Rprod k f /\ ln (Rprod k f) = Rsum k (fun i => ln (f i)).
Proof.
  induction k as [|k IH]; intros H; [cbn; split; [lra|apply ln_1]|].
  destruct (IH (fun i Hi => H i (Nat.lt_lt_succ_r _ _ Hi))) as [H1 H2]. cbn [Rprod Rsum]. split; [apply Rmult_lt_0_compat; auto|].
  rewrite ln_mult by auto. now rewrite H2.
Qed.
Lemma Rsum_lt k (f g : nat -> R) j : (j < k)%nat -> f j < g j -> (forall i, (i < k)%nat -> f i <= g i) -> Rsum k f < Rsum k g.
Proof.
  induction k as [|k IH]; intros Hj Hlt Hle; [lia|]. cbn [Rsum].
  destruct (Nat.eq_dec j k) as [->|Hne].
  - apply Rplus_le_lt_compat; auto. apply Rsum_le. intros; apply Hle; lia.
  - apply Rplus_lt_le_compat; [apply IH; auto; lia|apply Hle; lia].
Qed.
Lemma fr_logdet_wrong (x : list R) j : length x = n -> (forall i, (i < n)%nat -> 0 <= nth i m 0 < 1) ->
  (j < n)%nat -> 0 < nth j m 0 -> nth j ss 0 <> 0 -> ~ reports_logdet n (coupling_fwd c) x.
Proof.
  intros Hx Hm Hj Hmj Hs (J & HJ & E). rewrite (fr_det x J Hx HJ) in E. pose proof (eq_trans E (f_equal exp (fr_logdet x Hx))) as E0. clear E. rename E0 into E.
  destruct (ln_Rprod n (fun i => (1 - nth i m 0) * u i + nth i m 0)) as [Hp El].
  { intros i Hi. apply mix_pos; auto. apply u_pos. }
  rewrite Rabs_pos_eq in E by lra. apply (f_equal ln) in E. rewrite El, ln_exp in E.
  enough (Rsum n (fun i => (1 - nth i m 0) * tanh (nth i ss 0)) < Rsum n (fun i => ln ((1 - nth i m 0) * u i + nth i m 0))) by lra.
  apply (Rsum_lt n _ _ j Hj).
  - cbv beta. replace (tanh (nth j ss 0)) with (ln (u j)) by apply ln_exp. apply ln_concave_strict; auto using u_pos, u_one. specialize (Hm j Hj). lra.
  - intros i Hi. cbv beta. replace (tanh (nth i ss 0)) with (ln (u i)) by apply ln_exp. apply ln_concave; auto using u_pos.
Qed.
End Frac.

(* ------------------------------------------------------------------ the claims *)
Lemma nth_app_l (a b : list R) j : (j < length a)%nat -> nth j (a ++ b) 0 = nth j a 0.
Proof. intros. now apply app_nth1. Qed.
Lemma trained_mask n (mask rest : list R) lr momentum (gs : list (list R)) j :
  length mask = n -> (j < n)%nat -> (forall g, In g gs -> nth j g 0 = 0) ->
  @nth R j (firstn n (fst (adamw_steps (@optimizer_new RNum lr momentum) gs (mask ++ rest) (adamw_init (mask ++ rest))))) 0 =
  nth j mask 0 * (1 - lr * (1 / 10000)) ^ length gs.
Proof.
  intros Lm Hj Hg. rewrite nth_firstn by auto. 
  etransitivity; [apply decay_proof; auto; rewrite app_length; lia|]. rewrite nth_app_l by lia. reflexivity.
Qed.
Lemma factor01 lr (T : nat) : 0 < lr < 10000 -> (0 < T)%nat -> 0 < (1 - lr * (1 / 10000)) ^ T < 1.
Proof. intros H HT. exact (factor_range lr 0 T H HT). Qed.

Lemma trained_realnvp_proof n (mask rest ss ts : list R) lr momentum (gs : list (list R)) j :
  binary_mask n mask -> length ss = n -> length ts = n -> 0 < lr < 10000 -> gs <> [] ->
  (forall g i, In g gs -> (i < n)%nat -> nth i g 0 = 0) ->
  (j < n)%nat -> nth j mask 0 = 1 -> nth j ss 0 <> 0 ->
  let p := mask ++ rest in
  let p' := fst (adamw_steps (@optimizer_new RNum lr momentum) gs p (adamw_init p)) in
  let c := @mkCoupling RNum (firstn n p') (@mlp_affine RNum (fun _ => ss) (fun _ => ts) 1) in
  ~ exact_inverse n (coupling_fwd c) (coupling_inv c) /\
  (forall x, length x = n -> ~ reports_logdet n (coupling_fwd c) x).
Proof.
  intros [Lm Hb] Ls Lt Hlr Hgs Hg Hj Hmj Hs. cbv zeta.
  set (m' := firstn n (fst (adamw_steps (@optimizer_new RNum lr momentum) gs (mask ++ rest) (adamw_init (mask ++ rest))))).
  assert (Hr : 0 < (1 - lr * (1 / 10000)) ^ length gs < 1) by (apply factor01; auto; destruct gs; [congruence|cbn; lia]).
  assert (Lm' : length m' = n).
  { unfold m'. rewrite firstn_length, decay_len, app_length. rnorm. lia. }
  assert (Hm' : forall i, (i < n)%nat -> @nth R i m' 0 = nth i mask 0 * (1 - lr * (1 / 10000)) ^ length gs).
  { intros i Hi. unfold m'. apply trained_mask; auto. }
  assert (Hmj' : 0 < @nth R j m' 0 < 1) by (rewrite Hm', Hmj by auto; lra).
  split.
  - exact (fr_not_inverse n m' ss ts Lm' Ls Lt j Hj Hmj' Hs).
  - intros x Hx. refine (fr_logdet_wrong n m' ss ts Lm' Ls Lt x j Hx _ Hj (proj1 Hmj') Hs).
    intros i Hi. rewrite Hm' by auto. destruct (Hb i Hi) as [-> | ->]; lra.
Qed.
Lemma trained_mask_proof n (mask rest : list R) lr momentum (gs : list (list R)) j :
  binary_mask n mask -> 0 < lr < 10000 -> gs <> [] -> (j < n)%nat ->
  (forall g, In g gs -> nth j g 0 = 0) ->
  let p := mask ++ rest in
  let p' := fst (adamw_steps (@optimizer_new RNum lr momentum) gs p (adamw_init p)) in
  (nth j mask 0 = 0 -> @nth R j p' 0 = 0) /\ (nth j mask 0 = 1 -> 0 < @nth R j p' 0 < 1).
Proof.
  intros [Lm Hb] Hlr Hgs Hj Hg. cbv zeta.
  assert (Hr : 0 < (1 - lr * (1 / 10000)) ^ length gs < 1) by (apply factor01; auto; destruct gs; [congruence|cbn; lia]).
  pose proof (decay_proof (@optimizer_new RNum lr momentum) gs (mask ++ rest) j ltac:(rewrite app_length; lia) Hg) as E.
  rewrite nth_app_l in E by lia.
  assert (E' : @nth R j (fst (adamw_steps (@optimizer_new RNum lr momentum) gs (mask ++ rest) (adamw_init (mask ++ rest)))) 0 = nth j mask 0 * (1 - lr * (1 / 10000)) ^ length gs) by exact E.
  split; intros H; rewrite E', H; lra.
Qed.

(* ------------------------------------------------------------------ data statistics *)
Lemma mean_affine n (f g : nat -> R) a b : (1 <= n)%nat -> (forall i, (i < n)%nat -> g i = (f i - a) / b) -> mean_of n g = (mean_of n f - a) / b.
Proof.
  intros Hn Hg. unfold mean_of. rewrite (Rsum_ext n g (fun i => / b * (f i - a))) by (intros; rewrite Hg by auto; unfold Rdiv; ring).
  rewrite Rsum_scal, Rsum_minus, Rsum_const. assert (INR n <> 0) by (apply not_0_INR; lia).
  assert (E : (Rsum n f - INR n * a) / INR n = Rsum n f / INR n - a) by (field; auto).
  unfold Rdiv in * . rewrite <- E. ring.
Qed.
Lemma var_affine n (f g : nat -> R) a b : (1 <= n)%nat -> b <> 0 -> (forall i, (i < n)%nat -> g i = (f i - a) / b) -> var_of n g = var_of n f / (b * b).
Proof.
  intros Hn Hb Hg. unfold var_of. rewrite (mean_affine n f g a b Hn Hg).
  rewrite (Rsum_ext n _ (fun i => / (b * b) * (f i - mean_of n f) ^ 2)) by (intros; rewrite Hg by auto; field; auto).
  rewrite Rsum_scal. unfold Rdiv. ring.
Qed.
Section Stats.
Variables (d : nat) (data : list (list R)) (ls : list (@layer RNum)) (rest : list R) (lr momentum : R) (gs : list (list R)).
Hypothesis Hw : forall r, In r data -> length r = d.
Hypothesis Hn : (2 <= length data)%nat.
Hypothesis Hvar : forall j, (j < d)%nat -> exists i i', (i < length data)%nat /\ (i' < length data)%nat /\ nth j (nth i data []) 0 <> nth j (nth i' data []) 0.
Hypothesis Hlr : 0 < lr < 10000.
Hypothesis Hgs : gs <> [].
Hypothesis Hg : forall g i, In g gs -> (i < d + d)%nat -> nth i g 0 = 0.
Let p : list R := @data_mean RNum d data ++ diag (@data_cov RNum d data) ++ rest.
Let p' : list R := fst (adamw_steps (@optimizer_new RNum lr momentum) gs p (adamw_init p)).
Let m := @mkFlow RNum d ls (firstn d p') (firstn d (skipn d p')).
Let r := (1 - lr * (1 / 10000)) ^ length gs.
Lemma r01 : 0 < r < 1.
Proof. apply factor01; auto. destruct gs; [congruence|cbn; lia]. Qed.
Lemma st_len : length p = (d + (d + length rest))%nat.
Proof.
  unfold p. rewrite !app_length. pose proof (data_mean_len d data) as A. pose proof (data_var_len d data) as B. rnorm. lia.
Qed.
Lemma st_len' : length p' = length p. Proof. apply decay_len. Qed.
Lemma st_mean j : (j < d)%nat -> @nth R j (fl_mean m) 0 = mean_of (length data) (fun i => nth j (nth i data []) 0) * r.
Proof.
  intros Hj. cbn [m fl_mean]. rewrite nth_firstn by auto.
  etransitivity; [apply decay_proof; [rewrite st_len; lia|intros; apply Hg; auto; lia]|].
  unfold p. rewrite nth_app_l by (pose proof (data_mean_len d data) as A; rnorm; lia).
  pose proof (data_mean_nth d data j Hj) as A. rnorm. rewrite A. reflexivity.
Qed.
Lemma st_var j : (j < d)%nat -> @nth R j (fl_var m) 0 = var_of (length data) (fun i => nth j (nth i data []) 0) * r.
Proof.
  intros Hj. cbn [m fl_var]. rewrite nth_firstn by auto. rewrite nth_skipn.
  etransitivity; [apply decay_proof; [rewrite st_len; lia|intros; apply Hg; auto; lia]|].
  pose proof (data_mean_len d data) as L1. pose proof (data_var_len d data) as L2.
  unfold p. rnorm. rewrite app_nth2 by lia. rewrite L1. replace (d + j - d)%nat with j by lia. rewrite nth_app_l by lia.
  pose proof (data_var_nth d data j Hj) as A. rnorm. rewrite A. reflexivity.
Qed.
Lemma st_good : good_stats m.
Proof.
  split; [|split]; cbn [m fl_n].
  - cbn [m fl_mean]. rewrite firstn_length, st_len', st_len. lia.
  - cbn [m fl_var]. rewrite firstn_length, skipn_length, st_len', st_len. lia.
  - intros i Hi. rewrite st_var by auto. apply Rmult_lt_0_compat; [|apply r01]. apply (proj1 (var_pos _ _ Hn)). exact (Hvar i Hi).
Qed.
Lemma trained_stats_proof j : (j < d)%nat ->
  let col i := nth j (nth i data []) 0 in
  let w i := @nth R j (whiten m (nth i data [])) 0 in
  let mu := mean_of (length data) col in let v := var_of (length data) col in
  mean_of (length data) w = (1 - r) * mu / sqrt (r * v) /\ var_of (length data) w = 1 / r.
Proof.
  intros Hj. cbv zeta. set (col := fun i => nth j (nth i data []) 0).
  set (w := fun i => @nth R j (whiten m (nth i data [])) 0).
  pose proof r01 as Hr. assert (Hv : 0 < var_of (length data) col) by (apply (proj1 (var_pos _ _ Hn)); exact (Hvar j Hj)).
  assert (Hs : 0 < sqrt (r * var_of (length data) col)) by (apply sqrt_lt_R0, Rmult_lt_0_compat; lra).
  assert (E : forall i, (i < length data)%nat -> w i = (col i - mean_of (length data) col * r) / sqrt (r * var_of (length data) col)).
  { intros i Hi. unfold w. rewrite (whiten_nth m st_good) by (auto; apply Hw, nth_In; auto). rewrite st_mean, st_var by auto. now rewrite (Rmult_comm r). }
  split.
  - rewrite (mean_affine _ col w _ _ (Nat.le_trans 1 2 _ (le_S _ _ (le_n _)) Hn) E). unfold Rdiv. ring.
  - rewrite (var_affine _ col w _ _ (Nat.le_trans 1 2 _ (le_S _ _ (le_n _)) Hn) (Rgt_not_eq _ _ Hs) E). rewrite sqrt_sqrt by (apply Rlt_le, Rmult_lt_0_compat; lra). field. lra.
Qed.
End Stats.
