(** Proofs of C58: gradient clipping and bias correction of the optimiser. *)
From Coq Require Import Reals Psatz.
From Verif Require Import Prelude Num M_Core M_Kernels M_Flow M_Net P_Lists RNum Spec_FM P_Real1 P_Decay.
Open Scope R_scope.

Lemma norm_R (g : list R) : @fsum RNum (map fsq g) = sq_norm (length g) g.
Proof.
  rewrite fsumR, map_length. unfold sq_norm. apply Rsum_ext. intros i Hi. etransitivity; [exact (mapR (fun x => x * x) g i Hi)|]. ring.
Qed.
Lemma clip_proof (g : list R) : let s := sqrt (sq_norm (length g) g) in
  length (@clip_norm RNum g) = length g /\
  (s < 1 -> @clip_norm RNum g = g) /\
  (1 <= s -> forall j, (j < length g)%nat -> @nth R j (clip_norm g) 0 = nth j g 0 / s).
Proof.
  cbv zeta. unfold clip_norm. rewrite norm_R. cbn [fsqrt RNum].
  set (s := sqrt _). split; [destruct (_ <.? _); now rewrite ?map_length|]. change (@flt RNum s f1) with (Rltb s 1).
  split; intros H; [now rewrite Rltb_true|]. rewrite Rltb_false by auto.
  intros j Hj. etransitivity; [exact (mapR (fun x => x / s * IZR 1) g j Hj)|]. lra.
Qed.
Lemma clip_len (g : list R) : length (@clip_norm RNum g) = length g.
Proof. apply clip_proof. Qed.
Lemma clip_bound (g : list R) : sq_norm (length g) (@clip_norm RNum g) <= 1.
Proof.
  destruct (clip_proof g) as (L & H1 & H2). set (s := sqrt (sq_norm (length g) g)) in * .
  assert (P : 0 <= sq_norm (length g) g) by (unfold sq_norm; apply Rsum_nonneg; intros; apply pow2_ge_0).
  assert (Q : s * s = sq_norm (length g) g) by (now apply sqrt_sqrt).
  assert (S0 : 0 <= s) by apply sqrt_pos.
  destruct (Rlt_le_dec s 1) as [H|H].
  - rewrite (H1 H). rewrite <- Q. nra.
  - unfold sq_norm. rewrite (Rsum_ext _ _ (fun j => / (s * s) * (nth j g 0) ^ 2)).
    + rewrite Rsum_scal. change (Rsum (length g) (fun j => nth j g 0 ^ 2)) with (sq_norm (length g) g). rewrite <- Q. rewrite Rinv_l by nra. lra.
    + intros j Hj. pose proof (H2 H j Hj) as E. rnorm. rewrite E. field. lra.
Qed.
Lemma fpow_R (b : R) n : @fpow RNum b n = b ^ n.
Proof. induction n; [reflexivity|]. cbn [fpow pow]. now rewrite IHn. Qed.

(** Steps with the same gradient in coordinate j. *)
Lemma step_const (a : @adamw RNum) (g p : list R) s j c : (j < length p)%nat -> 0 <= aw_b1 a < 1 -> 0 <= aw_b2 a < 1 -> 0 < aw_eps a ->
  @nth R j (clip_norm g) 0 = c ->
  @nth R j (as_mu s) 0 = (1 - aw_b1 a ^ as_count s) * c -> @nth R j (as_nu s) 0 = (1 - aw_b2 a ^ as_count s) * c ^ 2 ->
  let o := adamw_step a g p s in
  as_count (snd o) = S (as_count s) /\
  @nth R j (fst o) 0 = nth j p 0 - aw_lr a * (c / (Rabs c + aw_eps a) + aw_decay a * nth j p 0) /\
  @nth R j (as_mu (snd o)) 0 = (1 - aw_b1 a ^ S (as_count s)) * c /\ @nth R j (as_nu (snd o)) 0 = (1 - aw_b2 a ^ S (as_count s)) * c ^ 2.
Proof.
  intros Hj H1 H2 He Hg Hm Hn. cbv zeta. unfold adamw_step. cbn [fst snd as_mu as_nu as_count].
  set (f := fun i => adamw_coord a (S (as_count s)) (nth i (clip_norm g) f0) (nth i p f0) (nth i (as_mu s) f0) (nth i (as_nu s) f0)).
  assert (E : f j = (nth j p 0 - aw_lr a * (c / (Rabs c + aw_eps a) + aw_decay a * nth j p 0), (1 - aw_b1 a ^ S (as_count s)) * c, (1 - aw_b2 a ^ S (as_count s)) * c ^ 2)).
  { unfold f. change (@f0 RNum) with 0. rnorm. rewrite Hg, Hm, Hn. unfold adamw_coord, fsq. pose proof (fpow_R (aw_b1 a) (S (as_count s))) as Q1. pose proof (fpow_R (aw_b2 a) (S (as_count s))) as Q2. rewrite Q1, Q2. clear Q1 Q2.
    change (@f1 RNum) with 1. cbn [fmul fadd fsub fdiv fneg fsqrt RNum F].
    assert (P1 : 0 < 1 - aw_b1 a ^ S (as_count s)).
    { assert (aw_b1 a ^ S (as_count s) < 1) by (apply pow_lt_1_compat; [exact H1|lia]). lra. }
    assert (P2 : 0 < 1 - aw_b2 a ^ S (as_count s)).
    { assert (aw_b2 a ^ S (as_count s) < 1) by (apply pow_lt_1_compat; [exact H2|lia]). lra. }
    assert (E1 : (1 - aw_b1 a) * c + aw_b1 a * ((1 - aw_b1 a ^ as_count s) * c) = (1 - aw_b1 a ^ S (as_count s)) * c) by (cbn [pow]; ring).
    assert (E2 : (1 - aw_b2 a) * (c * c) + aw_b2 a * ((1 - aw_b2 a ^ as_count s) * c ^ 2) = (1 - aw_b2 a ^ S (as_count s)) * c ^ 2) by (cbn [pow]; ring).
    cbn [F RNum] in E1, E2, P1, P2 |- * . rewrite E1, E2. apply (f_equal2 pair); [|reflexivity]. apply (f_equal2 pair); [|reflexivity].
    set (q1 := aw_b1 a ^ S (as_count s)) in * . set (q2 := aw_b2 a ^ S (as_count s)) in * .
    replace ((1 - q1) * c / (1 - q1)) with c by (field; lra). replace ((1 - q2) * c ^ 2 / (1 - q2)) with (c ^ 2) by (field; lra).
    replace (c ^ 2) with (Rsqr c) by (unfold Rsqr; ring). rewrite sqrt_Rsqr_abs. ring. }
  assert (Lq : (j < length (map f (seq 0 (length p))))%nat) by (rewrite map_length, seq_length; exact Hj).
  assert (En : nth j (map f (seq 0 (length p))) (0, 0, 0) = f j) by exact (nth_map_seq f (length p) j (0, 0, 0) Hj).
  split; [reflexivity|split; [|split]].
  - etransitivity; [exact (nth_map' (fun x : R * R * R => fst (fst x)) _ j (0, 0, 0) 0 Lq)|]. exact (f_equal (fun x : R * R * R => fst (fst x)) (eq_trans En E)).
  - etransitivity; [exact (nth_map' (fun x : R * R * R => snd (fst x)) _ j (0, 0, 0) 0 Lq)|]. exact (f_equal (fun x : R * R * R => snd (fst x)) (eq_trans En E)).
  - etransitivity; [exact (nth_map' (fun x : R * R * R => snd x) _ j (0, 0, 0) 0 Lq)|]. exact (f_equal (fun x : R * R * R => snd x) (eq_trans En E)).
Qed.

(** The value of one coordinate after every step. *)
Lemma steps_const (a : @adamw RNum) c j (gs : list (list R)) : forall (p : list R) s, (j < length p)%nat -> 0 <= aw_b1 a < 1 -> 0 <= aw_b2 a < 1 -> 0 < aw_eps a ->
  (forall g, In g gs -> @nth R j (clip_norm g) 0 = c) ->
  @nth R j (as_mu s) 0 = (1 - aw_b1 a ^ as_count s) * c -> @nth R j (as_nu s) 0 = (1 - aw_b2 a ^ as_count s) * c ^ 2 ->
  @nth R j (fst (adamw_steps a gs p s)) 0 =
  iter (length gs) (fun v => v - aw_lr a * (c / (Rabs c + aw_eps a) + aw_decay a * v)) (nth j p 0).
Proof.
  induction gs as [|g gs IH]; intros p s Hj H1 H2 He Hg Hm Hn; [reflexivity|].
  destruct (step_const a g p s j c Hj H1 H2 He (Hg g (or_introl eq_refl)) Hm Hn) as (Ec & E1 & E2 & E3).
  change (adamw_steps a (g :: gs) p s) with (adamw_steps a gs (fst (adamw_step a g p s)) (snd (adamw_step a g p s))).
  rewrite <- Ec in E2, E3.
  assert (Hj' : (j < length (fst (adamw_step a g p s)))%nat) by (pose proof (adamw_step_len a g p s) as L; rnorm; lia).
  etransitivity; [exact (IH _ _ Hj' H1 H2 He (fun g' H => Hg g' (or_intror H)) E2 E3)|].
  cbn [length iter]. rewrite E1. reflexivity.
Qed.
Lemma const_proof (a : @adamw RNum) c j (gs : list (list R)) (p : list R) : (j < length p)%nat -> 0 <= aw_b1 a < 1 -> 0 <= aw_b2 a < 1 -> 0 < aw_eps a ->
  (forall g, In g gs -> @nth R j (clip_norm g) 0 = c) ->
  @nth R j (fst (adamw_steps a gs p (adamw_init p))) 0 =
  iter (length gs) (fun v => v - aw_lr a * (c / (Rabs c + aw_eps a) + aw_decay a * v)) (nth j p 0).
Proof.
  intros Hj H1 H2 He Hg. destruct (init_zero p j) as [Z1 Z2]. apply steps_const; auto.
  - etransitivity; [exact Z1|]. cbn. ring.
  - etransitivity; [exact Z2|]. cbn. ring.
Qed.
