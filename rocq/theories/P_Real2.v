(** Proofs of C16-C18: detailed balance of the random walk, MALA and the flow proposal. *)
From Coq Require Import Reals Psatz.
From Coquelicot Require Import Coquelicot.
From Verif Require Import Prelude Num M_Core M_Kernels Spec_Steps Spec_Kernels P_Lists P_Kernels RNum Spec_Real P_Real1.

Lemma nth_R (l : list R) i : nth i l (@f0 RNum) = nth i l 0.
Proof. reflexivity. Qed.

Lemma vdot_R (u v : list R) n : length u = n -> length v = n ->
  vdot u v = Rsum n (fun i => nth i u 0 * nth i v 0).
Proof.
  intros Hu Hv. unfold vdot. rewrite fsum_Rsum, vmul_length. rnorm. rewrite Hu, Hv, Nat.min_id.
  apply Rsum_ext. intros i Hi. apply (nth_vmul u v i); rlia.
Qed.
Lemma vsub_R (u v : list R) i : (i < length u)%nat -> (i < length v)%nat -> nth i (vsub u v) 0 = nth i u 0 - nth i v 0.
Proof. exact (nth_vsub u v i). Qed.

(** multivariate_normal.logpdf is the logarithm of the Gaussian density. *)
Lemma mvn_is_gauss ss (x mean : list R) n : mala_ok_step ss n -> length x = n -> length mean = n ->
  (forall i, (i < n)%nat -> step_of ss i <> 0) ->
  mvn_logpdf x mean (ss_sq ss) = Ok (ln (gauss_density n (fun i => nth i mean 0) (step_of ss) x)).
Proof.
  intros Hok Hx Hm Hs. rewrite ln_gauss by auto. unfold mvn_logpdf. destruct ss as [s|v|v]; [|destruct Hok|].
  - cbn [ss_sq step_of] in * . f_equal. rewrite (vdot_R _ _ n) by (rewrite vsub_length; rlia).
    rnorm. rewrite Hm, INR_ofZ.
    destruct n as [|n]. { simpl. cbn. unfold Rdiv. ring. }
    assert (Hs0 : s <> 0) by (apply (Hs 0%nat); lia).
    assert (Hl : ln (s * s) = 2 * ln (Rabs s)).
    { replace (s * s) with (Rabs s * Rabs s) by (rewrite <- Rabs_mult; apply Rabs_pos_eq; nra).
      rewrite ln_mult by now apply Rabs_pos_lt. ring. }
    rewrite !Rsum_minus, !Rsum_const.
    rewrite (Rsum_ext _ (fun i => - (nth i x 0 - nth i mean 0) ^ 2 / (2 * s ^ 2))
                        (fun i => (- / 2 / (s * s)) * (nth i (vsub x mean) 0 * nth i (vsub x mean) 0))).
    + rewrite Rsum_scal. cbn. rewrite Hl. set (A := Rsum _ _). clearbody A. unfold Rdiv. field. auto.
    + intros i Hi. rewrite vsub_R by rlia. field. auto.
  - cbn [ss_sq step_of mala_ok_step] in * . rnorm. rlen. rewrite Hm, Hok, Nat.min_id, Nat.eqb_refl. f_equal.
    set (l := map _ _).
    assert (Ll : length l = n) by (unfold l; rlen; lia).
    assert (Nl : forall i, (i < n)%nat -> nth i l 0 = Rabs (nth i v 0)).
    { intros i Hi. unfold l. rewrite mapR by (rlen; lia). rewrite vmulR by lia. cbn. now apply sqrt_Rsqr_abs. }
    set (y := map2 _ _ l).
    assert (Lm : length y = n) by (unfold y; rlen; lia).
    rewrite (vdot_R _ _ n Lm Lm), INR_ofZ, fsumR, map_length, Ll.
    rewrite !Rsum_minus, Rsum_const.
    rewrite (Rsum_ext _ (fun i => nth i (map fln l) 0) (fun i => ln (Rabs (nth i v 0)))).
    2: { intros i Hi. rewrite mapR by lia. cbn. now rewrite Nl. }
    rewrite (Rsum_ext _ (fun i => - (nth i x 0 - nth i mean 0) ^ 2 / (2 * nth i v 0 ^ 2))
                        (fun i => (- / 2) * (nth i y 0 * nth i y 0))).
    + rewrite Rsum_scal. cbn. unfold Rdiv. set (A := Rsum _ _). set (B := Rsum _ _). clearbody A B. field.
    + intros i Hi. unfold y. rewrite map2R by (rlen; lia). rewrite vsubR by lia. rewrite Nl by auto. pose proof (Hs i Hi).
      assert (E : Rabs (nth i v 0) * Rabs (nth i v 0) = nth i v 0 ^ 2) by (rewrite <- Rabs_mult, Rabs_pos_eq by nra; ring).
      assert (Rabs (nth i v 0) <> 0) by now apply Rabs_no_R0. cbn.
      replace ((nth i x 0 - nth i mean 0) / Rabs (nth i v 0) * ((nth i x 0 - nth i mean 0) / Rabs (nth i v 0)))
        with ((nth i x 0 - nth i mean 0) ^ 2 / (Rabs (nth i v 0) * Rabs (nth i v 0))) by (field; auto).
      rewrite E. field. auto.
Qed.

Section Balance.
Context {G : @Rng RNum}.

(** Random walk. *)
Lemma C16_proof ss k f d (x y z z' : list R) n a b :
  ok_grw ss n -> (forall i, (i < n)%nat -> step_of ss i <> 0) ->
  length x = n -> length y = n -> length z = n -> length z' = n ->
  proposes (grw_run ss k f d x z) y -> proposes (grw_run ss k f d y z') x ->
  accept_prob (grw_run ss k f d x z) a -> accept_prob (grw_run ss k f d y z') b ->
  let q u v := gauss_density n (fun i => nth i u 0) (step_of ss) v in
  exp (lp_val f x d) * q x y * a = exp (lp_val f y d) * q y x * b.
Proof.
  intros Hok Hs Hx Hy Hz Hz' P1 P2 A1 A2 q.
  destruct (grw_metropolis ss k f d x z) as (y1 & M1 & _ & _). { rnorm; now rewrite Hx. } { rlia. }
  destruct (grw_metropolis ss k f d y z') as (x1 & M2 & _ & _). { rnorm; now rewrite Hy. } { rlia. }
  apply (metropolis_proposes _ _ _ _ _ _ _ M1) in P1. apply (metropolis_proposes _ _ _ _ _ _ _ M2) in P2. subst y1 x1.
  rewrite (accept_unique _ _ _ A1 (metropolis_accept _ _ _ _ _ _ M1)).
  rewrite (accept_unique _ _ _ A2 (metropolis_accept _ _ _ _ _ _ M2)).
  assert (Hq : q x y = q y x).
  { unfold q, gauss_density. apply Rprod_ext. intros i Hi. unfold normal_pdf.
    replace ((nth i y 0 - nth i x 0) ^ 2) with ((nth i x 0 - nth i y 0) ^ 2) by ring. reflexivity. }
  rewrite Hq. replace (lp_val f x d - lp_val f y d) with (- (lp_val f y d - lp_val f x d)) by (cbn; ring).
  rewrite (Rmult_comm (exp (lp_val f x d))), (Rmult_comm (exp (lp_val f y d))), !Rmult_assoc. f_equal.
  apply balance_exp; try apply exp_pos. unfold Rminus. rewrite exp_plus, exp_Ropp. reflexivity.
Qed.

Lemma C16_density_proof ss k f d (x y z : list R) n :
  ok_grw ss n -> (forall i, (i < n)%nat -> step_of ss i <> 0) -> length x = n -> length z = n ->
  proposes (grw_run ss k f d x z) y ->
  length y = n /\
  gauss_density n (fun i => nth i x 0) (step_of ss) y * Rprod n (fun i => Rabs (step_of ss i)) = std_density n z.
Proof.
  intros Hok Hs Hx Hz P.
  destruct (grw_metropolis ss k f d x z) as (y1 & M1 & L1 & E1). { rnorm; now rewrite Hx. } { rlia. }
  apply (metropolis_proposes _ _ _ _ _ _ _ M1) in P. subst y1. split; [rlia|].
  apply gauss_density_change; auto. intros i Hi. rewrite E1 by rlia. ring.
Qed.

Lemma C16_reach_proof ss k f d (x y : list R) n :
  ok_grw ss n -> (forall i, (i < n)%nat -> step_of ss i <> 0) -> length x = n -> length y = n ->
  exists z, length z = n /\ proposes (grw_run ss k f d x z) y.
Proof.
  intros Hok Hs Hx Hy. set (z := map (fun i => (nth i y 0 - nth i x 0) / step_of ss i) (seq 0 n)).
  exists z. assert (Lz : length z = n) by (unfold z; rlen; auto). split; [auto|].
  destruct (grw_metropolis ss k f d x z) as (y1 & M1 & L1 & E1). { rnorm; now rewrite Hx. } { rlia. }
  apply (metropolis_proposes _ _ _ _ _ _ _ M1). apply (list_eq_nth 0); [rlia|]. intros i Hi.
  rewrite E1 by rlia. unfold z. rewrite (nth_map_seq _ n i 0) by rlia. field. apply Hs. rlia.
Qed.

(** MALA. *)
Lemma mala_ratio_is_log ss f d (x y : list R) n r :
  mala_ok_step ss n -> (forall i, (i < n)%nat -> step_of ss i <> 0) -> grad_shape f d n ->
  length x = n -> length y = n -> mala_ratio ss f d x y = Ok r ->
  let q u v := gauss_density n (mala_mu ss f d u) (step_of ss) v in
  r = ln ((exp (lp_val f y d) * q y x) / (exp (lp_val f x d) * q x y)).
Proof.
  intros Hok Hs Hg Hx Hy H q. unfold mala_ratio in H.
  assert (Q : forall u v : list R, length u = n -> length v = n ->
    mvn_logpdf v (mala_mean ss u (lp_grad f u d)) (ss_sq ss) = Ok (ln (q u v))).
  { intros u v Hu Hv. destruct (mala_mean_spec ss u (lp_grad f u d)) as [L S].
    { rnorm. now rewrite Hu. } { rewrite Hg; rlia. }
    rewrite (mvn_is_gauss ss v (mala_mean ss u (lp_grad f u d)) n); auto; [|rlia].
    f_equal. f_equal. unfold q, gauss_density. apply Rprod_ext. intros i Hi. f_equal. unfold mala_mu.
    change 0 with (@f0 RNum) at 1. rewrite S by rlia. cbn. rewrite Rmult_1_r. reflexivity. }
  rewrite (Q x y), (Q y x) in H by auto. cbn [rbind] in H. injection H as <-. cbn.
  assert (0 < q y x) by (apply gauss_density_pos; auto). assert (0 < q x y) by (apply gauss_density_pos; auto).
  unfold Rdiv. rewrite ln_mult, ln_Rinv, !ln_mult, !ln_exp; auto using exp_pos.
  - ring.
  - apply Rmult_lt_0_compat; auto using exp_pos.
  - apply Rmult_lt_0_compat; auto using exp_pos.
  - apply Rinv_0_lt_compat, Rmult_lt_0_compat; auto using exp_pos.
Qed.

Lemma C17_proof ss k f d (x y z z' : list R) n a b :
  mala_ok_step ss n -> (forall i, (i < n)%nat -> step_of ss i <> 0) -> grad_shape f d n ->
  length x = n -> length y = n -> length z = n -> length z' = n ->
  proposes (mala_run ss k f d x z) y -> proposes (mala_run ss k f d y z') x ->
  accept_prob (mala_run ss k f d x z) a -> accept_prob (mala_run ss k f d y z') b ->
  let q u v := gauss_density n (mala_mu ss f d u) (step_of ss) v in
  exp (lp_val f x d) * q x y * a = exp (lp_val f y d) * q y x * b.
Proof.
  intros Hok Hs Hg Hx Hy Hz Hz' P1 P2 A1 A2 q.
  destruct (mala_metropolis ss k f d x z) as (y1 & r1 & M1 & R1 & _ & _). 1,3: rnorm; now rewrite Hx. { rlia. }
  destruct (mala_metropolis ss k f d y z') as (x1 & r2 & M2 & R2 & _ & _). 1,3: rnorm; now rewrite Hy. { rlia. }
  apply (metropolis_proposes _ _ _ _ _ _ _ M1) in P1. apply (metropolis_proposes _ _ _ _ _ _ _ M2) in P2. subst y1 x1.
  rewrite (accept_unique _ _ _ A1 (metropolis_accept _ _ _ _ _ _ M1)).
  rewrite (accept_unique _ _ _ A2 (metropolis_accept _ _ _ _ _ _ M2)).
  apply (mala_ratio_is_log ss f d x y n r1 Hok Hs Hg Hx Hy) in R1.
  apply (mala_ratio_is_log ss f d y x n r2 Hok Hs Hg Hy Hx) in R2. fold (q x y) (q y x) in R1, R2.
  assert (0 < q y x) by (apply gauss_density_pos; auto). assert (0 < q x y) by (apply gauss_density_pos; auto).
  set (A := exp (lp_val f x d) * q x y) in * . set (B := exp (lp_val f y d) * q y x) in * .
  assert (HA : 0 < A) by (apply Rmult_lt_0_compat; auto using exp_pos).
  assert (HB : 0 < B) by (apply Rmult_lt_0_compat; auto using exp_pos).
  rewrite R1, R2, !exp_ln by (apply Rdiv_lt_0_compat; auto). now apply balance_min.
Qed.

Lemma C17_density_proof ss k f d (x y z : list R) n :
  mala_ok_step ss n -> (forall i, (i < n)%nat -> step_of ss i <> 0) -> grad_shape f d n -> length x = n -> length z = n ->
  proposes (mala_run ss k f d x z) y ->
  length y = n /\
  gauss_density n (mala_mu ss f d x) (step_of ss) y * Rprod n (fun i => Rabs (step_of ss i)) = std_density n z.
Proof.
  intros Hok Hs Hg Hx Hz P.
  destruct (mala_metropolis ss k f d x z) as (y1 & r1 & M1 & _ & L1 & E1). 1,3: rnorm; now rewrite Hx. { rlia. }
  apply (metropolis_proposes _ _ _ _ _ _ _ M1) in P. subst y1. split; [rlia|].
  apply gauss_density_change; auto. intros i Hi. rewrite E1 by rlia. unfold mala_mu. field.
Qed.

Lemma C17_reach_proof ss k f d (x y : list R) n :
  mala_ok_step ss n -> (forall i, (i < n)%nat -> step_of ss i <> 0) -> grad_shape f d n -> length x = n -> length y = n ->
  exists z, length z = n /\ proposes (mala_run ss k f d x z) y.
Proof.
  intros Hok Hs Hg Hx Hy. set (z := map (fun i => (nth i y 0 - mala_mu ss f d x i) / step_of ss i) (seq 0 n)).
  exists z. assert (Lz : length z = n) by (unfold z; rlen; auto). split; [auto|].
  destruct (mala_metropolis ss k f d x z) as (y1 & r1 & M1 & _ & L1 & E1). 1,3: rnorm; now rewrite Hx. { rlia. }
  apply (metropolis_proposes _ _ _ _ _ _ _ M1). apply (list_eq_nth 0); [rlia|]. intros i Hi.
  rewrite E1 by rlia. unfold z. rewrite (nth_map_seq _ n i 0) by rlia. unfold mala_mu. field. apply Hs. rlia.
Qed.

(** Flow proposal, one independence step. *)
Lemma C18_step_proof (lx ly nx ny c : R) : 0 < c ->
  exp lx * (c * exp ny) * Rmin 1 (exp (nfp_ratio ly lx ny nx)) =
  exp ly * (c * exp nx) * Rmin 1 (exp (nfp_ratio lx ly nx ny)).
Proof.
  intros Hc. unfold nfp_ratio. cbn.
  replace (lx - ly - (nx - ny)) with (- (ly - lx - (ny - nx))) by ring.
  apply balance_exp; repeat apply Rmult_lt_0_compat; auto using exp_pos.
  unfold Rminus. rewrite !exp_plus, !exp_Ropp, exp_plus, exp_Ropp.
  pose proof (exp_pos lx). pose proof (exp_pos nx). pose proof (exp_pos ny). field. lra.
Qed.
End Balance.

Section FlowBalance.
Context {G : @Rng RNum} {NF : @NFOps RNum G}.
Lemma flow_metropolis p k f d x y : (0 < nfp_bs p)%nat -> ignores_n_steps f ->
  m_sample (nfp_model p) (split k 2 1) 1 = [y] ->
  metropolis (flow_run p k f d x) x y (lp_val f x d) (lp_val f y d)
    (nfp_ratio (lp_val f y d) (lp_val f x d) (m_logp (nfp_model p) y) (m_logp (nfp_model p) x)).
Proof.
  intros Hb Hi Hy u. unfold flow_run, nfp_kernel. rewrite dget_dset_eq.
  change (Z.to_nat 1) with 1%nat. unfold sample_flow. cbn [nfp_bs nfp_model].
  destruct (nfp_bs p <? 1)%nat eqn:E; [apply Nat.ltb_lt in E; lia|].
  cbn [m_sample m_logp NF_with split with_draws]. rewrite Hy. cbn [rbind map].
  unfold batched_logpdf. rewrite E. cbn [map combine nfp_scan].
  unfold mh_accept. cbn [uniform with_draws]. rewrite (Hi y d (DInt 1)).
  match goal with |- context [fln u <.? ?r] => change (fln u <.? r) with (Rltb (ln u) r) end.
  destruct (Rltb _ _); reflexivity.
Qed.

Lemma C18_proof p k k' f d (x y : list R) a b c :
  (0 < nfp_bs p)%nat -> ignores_n_steps f -> 0 < c ->
  m_sample (nfp_model p) (split k 2 1) 1 = [y] -> m_sample (nfp_model p) (split k' 2 1) 1 = [x] ->
  accept_prob (flow_run p k f d x) a -> accept_prob (flow_run p k' f d y) b ->
  let q v := c * exp (m_logp (nfp_model p) v) in
  exp (lp_val f x d) * q y * a = exp (lp_val f y d) * q x * b.
Proof.
  intros Hb Hi Hc Hy Hx A1 A2 q.
  pose proof (flow_metropolis p k f d x y Hb Hi Hy) as M1. pose proof (flow_metropolis p k' f d y x Hb Hi Hx) as M2.
  rewrite (accept_unique _ _ _ A1 (metropolis_accept _ _ _ _ _ _ M1)).
  rewrite (accept_unique _ _ _ A2 (metropolis_accept _ _ _ _ _ _ M2)).
  unfold q. now apply C18_step_proof.
Qed.

(** A constant added to model.log_prob changes nothing, for any number of steps. *)
Lemma nfp_scan_shift (c : R) (props : list (list R * R * R)) : forall k x lp nf,
  nfp_scan k x lp (nf + c) (map (fun p => (fst p, snd p + c)) props) = nfp_scan k x lp nf props.
Proof.
  induction props as [|[[y ly] ny] r IH]; intros k x lp nf; cbn [map nfp_scan fst snd]; auto.
  assert (E : nfp_ratio ly lp (ny + c) (nf + c) = nfp_ratio ly lp ny nf) by (unfold nfp_ratio; cbn; ring).
  rewrite E. destruct (mh_accept _ _); f_equal; apply IH.
Qed.
Lemma combine_map_r {A B C} (f : B -> C) (l : list A) (m : list B) :
  combine l (map f m) = map (fun p => (fst p, f (snd p))) (combine l m).
Proof. revert m; induction l as [|a l IH]; intros [|b m]; simpl; f_equal; auto. Qed.

Lemma C18_shift_proof (p p' : nfp) k x lp f d (c : R) :
  nfp_bs p' = nfp_bs p ->
  (forall q n, m_sample (nfp_model p') q n = m_sample (nfp_model p) q n) ->
  (forall v, m_logp (nfp_model p') v = m_logp (nfp_model p) v + c) ->
  nfp_kernel p' k x lp f d = nfp_kernel p k x lp f d.
Proof.
  intros Hb Hs Hl. unfold nfp_kernel. destruct (dget d "n_steps") as [[z|v]|]; auto.
  set (n := Z.to_nat z).
  assert (Hfb : forall nb ns q, flow_batches (nfp_model p') q nb ns = flow_batches (nfp_model p) q nb ns).
  { induction nb as [|nb IH]; intros ns q; simpl; auto. now rewrite Hs, IH. }
  assert (Hm : forall l, map (m_logp (nfp_model p')) l = map (fun r => r + c) (map (m_logp (nfp_model p)) l)).
  { intros l. rewrite map_map. apply map_ext. exact Hl. }
  assert (E : sample_flow p' (split k 2 1) n =
    rmap (fun o => (fst o, map (fun r => r + c) (snd o))) (sample_flow p (split k 2 1) n)).
  { unfold sample_flow. rewrite Hb. destruct (nfp_bs p <? n)%nat.
    - destruct (nfp_bs p =? 0)%nat; [reflexivity|]. cbn [rmap fst snd]. rewrite Hfb.
      rewrite (map_ext _ _ Hm). rewrite <- (map_map (map (m_logp (nfp_model p))) (map (fun r => r + c))).
      rewrite <- concat_map, firstn_map. reflexivity.
    - cbn [rmap fst snd]. rewrite Hs, Hm. reflexivity. }
  rewrite E, Hb, Hl. destruct (sample_flow p (split k 2 1) n) as [[props nfs]|e]; [|reflexivity].
  cbn [rmap rbind fst snd]. rewrite combine_map_r. f_equal. exact (nfp_scan_shift c _ _ _ _ _).
Qed.
End FlowBalance.
