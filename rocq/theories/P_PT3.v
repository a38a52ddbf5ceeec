From Coq Require Import Reals Permutation Psatz.
From Coquelicot Require Import Coquelicot.
From Verif Require Import Prelude Num M_Core M_Kernels M_Strategies M_PT M_Bundle P_Lists Spec Spec_Core P_Buffer P_Core Spec_Steps P_Steps
  Spec_Kernels P_Kernels P_Sampler Spec_Train P_Train P_Train2 RNum Spec_Real P_Real1 P_Real2 Spec_PT P_PT P_PT2.
Close Scope R_scope.

Lemma shifted_0 ax ix : shifted ax 0 ix ix.
Proof. split; auto. intros k. destruct (k =? ax); destruct (k <? length ix); lia. Qed.

(* ------------------------------------------------------------------ C42 *)
Section Targets.
Context {G : @Rng RNum} {NF : @NFOps RNum G}.
Local Open Scope R_scope.

Lemma C42_unit_proof (t : tempered) x d :
  tempered_log_pdf t 1 x d = (lp_val (l_pdf (t_base t)) x d + lp_val (t_prior t) x d) /\
  tempered_call t x d = lp_val (l_pdf (t_base t)) x d.
Proof.
  split; [|reflexivity]. unfold tempered_log_pdf, logpdf_call.
  set (a := lp_val _ x d). set (b := lp_val (t_prior t) x d). clearbody a b. cbn in a, b.
  change (1 / 1 * a + b = a + b). field.
Qed.

Lemma rmin_exp_anti a b : Rmin 1 (exp a) = Rmin 1 (exp b) -> Rmin 1 (exp (- a)) = Rmin 1 (exp (- b)) -> a = b.
Proof.
  assert (E : forall z, Rmin 1 (exp z) = if Rle_dec z 0 then exp z else 1).
  { intros z. destruct (Rle_dec z 0) as [H|H].
    - rewrite Rmin_right; auto. rewrite <- exp_0. destruct H as [H| ->]; [left; apply exp_increasing; auto|right; auto].
    - rewrite Rmin_left; auto. rewrite <- exp_0. left. apply exp_increasing. lra. }
  assert (U : forall u v, Rmin 1 (exp u) = Rmin 1 (exp v) -> u < 0 -> u = v).
  { intros u v. rewrite !E. destruct (Rle_dec u 0), (Rle_dec v 0); try lra.
    - intros H _. apply exp_inv. auto.
    - intros H H1. pose proof (exp_increasing u 0 H1). rewrite exp_0 in * . lra. }
  intros H1 H2. destruct (Rlt_dec a 0) as [Ha|Ha]; [exact (U _ _ H1 Ha)|].
  destruct (Rlt_dec (- a) 0) as [Hb|Hb]; [pose proof (U _ _ H2 Hb); lra|].
  destruct (Rlt_dec b 0) as [Hc|Hc]; [exact (eq_sym (U _ _ (eq_sym H1) Hc))|].
  destruct (Rlt_dec (- b) 0) as [Hd|Hd]; [pose proof (U _ _ (eq_sym H2) Hd); lra|]. lra.
Qed.

Lemma C42_acceptance_proof ss k (t : tempered) d n :
  ok_grw ss n -> (forall i, (i < n)%nat -> step_of ss i <> 0) ->
  (forall (x z : list R) a b, length x = n -> length z = n ->
     accept_prob (grw_run ss k (l_pdf (t_base t)) d x z) a ->
     accept_prob (grw_run ss k (tempered_lpdf t 1) d x z) b -> a = b) <->
  (exists c, forall x : list R, length x = n -> lp_val (t_prior t) x d = c).
Proof.
  intros Hok Hs. set (f := l_pdf (t_base t)). set (g := tempered_lpdf t 1).
  assert (Hg : forall x, (lp_val g x d : R) = lp_val f x d + lp_val (t_prior t) x d) by (intros; apply C42_unit_proof).
  split.
  - intros H. exists (lp_val (t_prior t) (repeat 0 n) d). intros x Hx.
    set (y := repeat 0 n). assert (Hy : length y = n) by apply repeat_length.
    assert (A : forall (x y : list R), length x = n -> length y = n ->
       Rmin 1 (exp (lp_val f y d - lp_val f x d)) = Rmin 1 (exp (lp_val g y d - lp_val g x d))).
    { clear x y Hx Hy. intros x y Hx Hy. destruct (C16_reach_proof ss k f d x y n Hok Hs Hx Hy) as (z & Hz & P).
      destruct (grw_metropolis ss k f d x z) as (y1 & M1 & L1 & E1). { rnorm; now rewrite Hx. } { rlia. }
      destruct (grw_metropolis ss k g d x z) as (y2 & M2 & L2 & E2). { rnorm; now rewrite Hx. } { rlia. }
      apply (metropolis_proposes _ _ _ _ _ _ _ M1) in P. subst y1.
      assert (y2 = y) as ->. { apply (list_eq_nth 0); [rlia|]. intros i Hi. rewrite E1, E2 by rlia. reflexivity. }
      apply (H x z); auto; eapply metropolis_accept; eauto. }
    pose proof (A x y Hx Hy) as A1. pose proof (A y x Hy Hx) as A2.
    rewrite !Hg in A1, A2.
    set (fx := lp_val f x d) in * . set (fy := lp_val f y d) in * .
    set (px := lp_val (t_prior t) x d) in * . set (py := lp_val (t_prior t) y d) in * .
    clearbody fx fy px py. cbn in fx, fy, px, py.
    assert (E : fy - fx = fy + py - (fx + px)).
    { apply rmin_exp_anti; auto.
      replace (- (fy - fx)) with (fx - fy) by ring. replace (- (fy + py - (fx + px))) with (fx + px - (fy + py)) by ring. auto. }
    change (px = py). lra.
  - intros [c Hc] x z a b Hx Hz A B.
    destruct (grw_metropolis ss k f d x z) as (y1 & M1 & L1 & E1). { rnorm; now rewrite Hx. } { rlia. }
    destruct (grw_metropolis ss k g d x z) as (y2 & M2 & L2 & E2). { rnorm; now rewrite Hx. } { rlia. }
    assert (y2 = y1) as ->. { apply (list_eq_nth 0); [rlia|]. intros i Hi. rewrite E1, E2 by rlia. reflexivity. }
    rewrite (accept_unique _ _ _ A (metropolis_accept _ _ _ _ _ _ M1)).
    rewrite (accept_unique _ _ _ B (metropolis_accept _ _ _ _ _ _ M2)).
    rewrite !Hg. rewrite (Hc x Hx), (Hc y1) by rlia. f_equal. f_equal. ring.
Qed.

Lemma linspace_head (a b : R) n : (0 < n)%nat -> @nth R 0 (@linspace RNum a b n) 0 = a.
Proof.
  intros H. destruct n as [|[|n]]; [lia|reflexivity|].
  unfold linspace. cbn [seq map app nth].
  change (a * (1 - 0 / @fofZ RNum (Z.of_nat (S n))) + b * (0 / @fofZ RNum (Z.of_nat (S n))) = a).
  unfold Rdiv. rewrite !Rmult_0_l. ring.
Qed.
End Targets.

Section Gen.
Context {N : Num} {G : Rng} {NF : NFOps}.
Lemma linspace_length (a b : F) n : length (linspace a b n) = n.
Proof. destruct n as [|[|n]]; auto. unfold linspace. rewrite app_length, map_length, seq_length. cbn. lia. Qed.

Lemma temp_buffer_get (pc : pt_config) i : (i < p_n_temps pc)%nat ->
  aget (b_data (temp_buffer pc)) [i] = nth i (linspace f1 (p_max_temp pc) (p_n_temps pc)) f0.
Proof.
  intros Hi. unfold temp_buffer.
  set (b := buffer_init "temperature" [p_n_temps pc] 0). set (u := stack1 _).
  assert (Hf : fits_shape b u).
  { split; [cbn; lia|]. split; [reflexivity|]. intros [|k] Hk; cbn in Hk |- * ; [|lia]. rewrite linspace_length. lia. }
  destruct (C01_proof b u 0 Hf) as (b' & E & _ & W & _).
  { cbn. rewrite linspace_length. lia. }
  change (Z.of_nat 0) with 0%Z in E. rewrite E. rewrite (W [i] [i]); [reflexivity| |].
  - cbn [ashape u stack1]. apply valid_index1. rewrite linspace_length. auto.
  - apply shifted_0.
Qed.

End Gen.

Section Targets2.
Context {G : @Rng RNum} {NF : @NFOps RNum G}.
Local Open Scope R_scope.
Lemma C42_bundle_proof (pc : @pt_config RNum G NF) heap b :
  rqspline_mala_pt_bundle pc = Ok (heap, b) ->
  exists l t ts tg pt tb,
    dget (bd_resources b) "logpdf" = Some (RLog l) /\ dget (bd_resources b) "tempered_logpdf" = Some (RTemp t) /\
    dget (bd_strategies b) "local_stepper" = Some (take_serial_steps ts) /\ ts_logpdf ts = "logpdf"%string /\
    dget (bd_strategies b) "global_stepper" = Some (take_group_steps tg) /\ ts_logpdf tg = "logpdf"%string /\
    dget (bd_strategies b) "parallel_tempering" = Some (parallel_tempering pt) /\
    pt_logpdf pt = "tempered_logpdf"%string /\ pt_kernel pt = ts_kernel ts /\
    buffer_named (mkWorld heap (bd_resources b)) (pt_temp_buf pt) L_temp tb /\
    aget (b_data tb) [0%nat] = 1 /\
    forall x d, logpdf_call l x d = lp_val (c_logpdf (p_base pc)) x d /\
      tempered_log_pdf t 1 x d = (lp_val (c_logpdf (p_base pc)) x d + lp_val (p_prior pc) x d).
Proof.
  intros H. unfold rqspline_mala_pt_bundle in H.
  destruct (_ || _); [discriminate|]. destruct (Nat.eqb_spec (p_n_temps pc) 0) as [|Hn]; [discriminate|].
  injection H as <- <-. set (m := c_model _ _).
  exists (bundle_logpdf (p_base pc)), (pt_tempered pc), (local_ts (p_base pc)), (global_ts (p_base pc)), (pt_strat pc), (temp_buffer pc).
  do 9 (split; [reflexivity|]). split; [split; reflexivity|]. split.
  { rewrite temp_buffer_get by lia. apply (linspace_head 1). lia. }
  intros x d. split; [reflexivity|]. apply (C42_unit_proof (pt_tempered pc)).
Qed.
End Targets2.
