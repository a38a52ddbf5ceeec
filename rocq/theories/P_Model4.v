(** Proofs of C60: balance exactly when log_prob is the proposal density up to a factor; trained RealNVP. *)
From Coq Require Import Reals Psatz.
From Coquelicot Require Import Coquelicot.
From Verif Require Import Prelude Num M_Core M_Kernels M_Flow M_Net M_Model P_Lists RNum MxR Spec_Kernels Spec_Jac P_Jac Spec_Real Spec_Spline Spec_Flow P_Real1 P_Real2 P_Real3 P_Flow P_Flow2 P_Flow3 P_Flow4 P_Flow5 P_Flow6 Spec_Net P_Gauss P_Decay P_Model.
Open Scope R_scope.

Section Iff.
Context {G : @Rng RNum} {NF : @NFOps RNum G}.
Lemma balance_iff (pr : @nfp RNum G NF) k k' f d (x y : list R) a b dx dy :
  (0 < nfp_bs pr)%nat -> ignores_n_steps f ->
  m_sample (nfp_model pr) (split k 2 1) 1 = [y] -> m_sample (nfp_model pr) (split k' 2 1) 1 = [x] ->
  accept_prob (flow_run pr k f d x) a -> accept_prob (flow_run pr k' f d y) b ->
  (exp (lp_val f x d) * dy * a = exp (lp_val f y d) * dx * b <->
   exp (m_logp (nfp_model pr) x) * dy = exp (m_logp (nfp_model pr) y) * dx).
Proof.
  intros Hb Hi Hy Hx A1 A2.
  pose proof (@C18_proof G NF pr k k' f d x y a b 1 Hb Hi Rlt_0_1 Hy Hx A1 A2) as Q. cbv zeta in Q.
  destruct (C15_flow_proof pr k f d x y Hb Hi Hy) as (_ & Ha & _). destruct (C15_flow_proof pr k' f d y x Hb Hi Hx) as (_ & Hb' & _).
  pose proof (accept_unique _ _ _ A1 Ha) as Ea. pose proof (accept_unique _ _ _ A2 Hb') as Eb.
  assert (Pa : 0 < a) by (rewrite Ea; apply Rmin_pos; [lra|apply exp_pos]). assert (Pb : 0 < b) by (rewrite Eb; apply Rmin_pos; [lra|apply exp_pos]).
  clear Ha Hb' Ea Eb A1 A2 Hx Hy.
  assert (Q2 : exp (lp_val f x d) * exp (m_logp (nfp_model pr) y) * a = exp (lp_val f y d) * exp (m_logp (nfp_model pr) x) * b).
  { assert (Q1 : exp (lp_val f x d) * (1 * exp (m_logp (nfp_model pr) y)) * a = exp (lp_val f y d) * (1 * exp (m_logp (nfp_model pr) x)) * b) by exact Q.
    rewrite !Rmult_1_l in Q1. exact Q1. }
  clear Q. set (ex := exp (lp_val f x d)) in * . set (ey := exp (lp_val f y d)) in * .
  set (qx := exp (m_logp (nfp_model pr) x)) in * . set (qy := exp (m_logp (nfp_model pr) y)) in * .
  assert (0 < ex /\ 0 < ey /\ 0 < qx /\ 0 < qy) as (P1 & P2 & P3 & P4) by (repeat split; apply exp_pos). clearbody ex ey qx qy.
  assert (X : 0 < ex * a) by now apply Rmult_lt_0_compat. assert (Y : 0 < ey * b) by now apply Rmult_lt_0_compat.
  split; intros E.
  - apply (Rmult_eq_reg_l (ey * b)); [|lra]. transitivity (ex * qy * a * dy); [rewrite Q2; ring|]. transitivity (ex * dy * a * qy); [ring|]. rewrite E. ring.
  - apply (Rmult_eq_reg_l qy); [|lra]. transitivity (ex * qy * a * dy); [ring|]. rewrite Q2. transitivity (ey * b * (qx * dy)); [ring|]. rewrite E. ring.
Qed.
End Iff.

Section NVP.
Variables (m : @flow RNum) (mask ss ts : list R).
Let n := fl_n m.
Hypothesis Hg : good_stats m.
Hypothesis Lm : length mask = n.
Hypothesis Ls : length ss = n.
Hypothesis Lt : length ts = n.
Hypothesis Hm : forall i, (i < n)%nat -> 0 <= nth i mask 0 <= 1.
Let c := @mkCoupling RNum mask (@mlp_affine RNum (fun _ => ss) (fun _ => ts) 1).
Hypothesis El : fl_layers m = [coupling_layer c].
Let u i := exp (tanh (nth i ss 0)).
Let mu i : R := @nth R i (fl_mean m) 0.
Let sd i := sqrt (nth i (fl_var m) 0).
Let A i := (1 - nth i mask 0) * u i + nth i mask 0.
Let B i := (1 - nth i mask 0) * nth i ts 0 * u i.
Let C i := (1 - nth i mask 0) / u i + nth i mask 0.
Let E i := (1 - nth i mask 0) * nth i ts 0.
Lemma nv_u i : 0 < u i. Proof. apply exp_pos. Qed.
Lemma nv_sd i : (i < n)%nat -> 0 < sd i. Proof. intros Hi. apply sqrt_lt_R0. now apply Hg. Qed.
Lemma nv_C i : (i < n)%nat -> 0 < C i.
Proof.
  intros Hi. specialize (Hm i Hi). pose proof (Rinv_0_lt_compat _ (nv_u i)) as Hu. unfold C, Rdiv. set (v := / u i) in * . clearbody v. nra.
Qed.
Lemma nv_A i : (i < n)%nat -> 0 < A i.
Proof. intros Hi. specialize (Hm i Hi). pose proof (nv_u i). unfold A. nra. Qed.
Lemma nv_fwd (x : list R) : flow_fwd (fl_layers m) x = (fst (coupling_fwd c x), 0 + snd (coupling_fwd c x)).
Proof. rewrite El. unfold flow_fwd. cbn [fold_left coupling_layer ly_fwd fst snd]. destruct (coupling_fwd c x). reflexivity. Qed.
Lemma nv_inv (x : list R) : fst (flow_inv (fl_layers m) x) = fst (coupling_inv c x).
Proof. rewrite El. unfold flow_inv. cbn [rev app fold_left coupling_layer ly_inv fst snd]. destruct (coupling_inv c x). reflexivity. Qed.
Lemma unw_nth (x : list R) i : length x = n -> (i < n)%nat -> @nth R i (unwhiten m x) 0 = nth i x 0 * sd i + mu i.
Proof.
  intros Hx Hi. pose proof (unwhiten_len m Hg x Hx) as L. pose proof (whiten_nth m Hg (unwhiten m x) i L Hi) as W.
  rewrite (whiten_unwhiten m Hg x Hx) in W. pose proof (nv_sd i Hi) as Hsd.
  set (v := @nth R i (unwhiten m x) 0) in * . assert (W' : @nth R i x 0 = (v - mu i) / sd i) by exact W. rewrite W'. clearbody v. field. lra.
Qed.
Definition nsmp (z : list R) : list R := unwhiten m (fst (flow_inv (fl_layers m) z)).
Definition ntru (x : list R) : list R := map (fun i => ((nth i x 0 - mu i) / sd i + E i) / C i) (seq 0 n).
Lemma ntru_len x : length (ntru x) = n. Proof. unfold ntru. now rewrite map_length, seq_length. Qed.
Lemma ntru_nth x i : (i < n)%nat -> @nth R i (ntru x) 0 = ((nth i x 0 - mu i) / sd i + E i) / C i.
Proof. intros Hi. unfold ntru. exact (nth_map_seq (fun i => ((nth i x 0 - mu i) / sd i + E i) / C i) n i 0 Hi). Qed.
Lemma nsmp_len (z : list R) : length z = n -> length (nsmp z) = n.
Proof. intros Hz. unfold nsmp. rewrite nv_inv. apply (unwhiten_len m Hg). now apply (fr_inv_len n mask ss ts). Qed.
Lemma nsmp_nth (z : list R) i : length z = n -> (i < n)%nat -> @nth R i (nsmp z) 0 = (nth i z 0 * C i - E i) * sd i + mu i.
Proof.
  intros Hz Hi. unfold nsmp. rewrite nv_inv. pose proof (fr_inv n mask ss ts Lm Ls Lt z i Hz Hi) as P.
  etransitivity; [exact (unw_nth (fst (coupling_inv c z)) i (fr_inv_len n mask ss ts Lm Ls Lt z Hz) Hi)|].
  etransitivity; [exact (f_equal (fun v => v * sd i + mu i) P)|]. cbv beta. unfold C, E. fold (u i). pose proof (nv_u i). field. lra.
Qed.
Lemma ntru_smp (z : list R) : length z = n -> ntru (nsmp z) = z.
Proof.
  intros Hz. apply (list_eq_nth (0 : R)); rnorm; [now rewrite ntru_len|]. intros i Hi. rewrite ntru_len in Hi. rewrite ntru_nth by auto.
  rewrite nsmp_nth by auto. pose proof (nv_sd i Hi). pose proof (nv_C i Hi). field. lra.
Qed.
Lemma nsmp_tru (x : list R) : length x = n -> nsmp (ntru x) = x.
Proof.
  intros Hx. apply (list_eq_nth (0 : R)); rnorm; [rewrite nsmp_len; auto using ntru_len|]. intros i Hi. rewrite nsmp_len in Hi by auto using ntru_len.
  rewrite nsmp_nth by auto using ntru_len. rewrite ntru_nth by auto. pose proof (nv_sd i Hi). pose proof (nv_C i Hi). field. lra.
Qed.
Let D := Rprod n (fun i => / (C i * sd i)).
Lemma D_pos : 0 < D.
Proof. apply Rprod_pos. intros i Hi. apply Rinv_0_lt_compat. apply Rmult_lt_0_compat; [now apply nv_C|now apply nv_sd]. Qed.
Lemma ntru_density (x : list R) : length x = n -> density_through n ntru (std_density n) x (std_density n (ntru x) * D).
Proof.
  intros Hx. exists (fun i j => / (C i * sd i) * mid i j). split.
  - intros i Hi. apply (is_dif_ext n (fun y => / (C i * sd i) * nth i y 0 + (E i - mu i / sd i) / C i)); auto.
    + intros y Hy. rewrite ntru_nth by auto. pose proof (nv_sd i Hi). pose proof (nv_C i Hi). field. lra.
    + eapply is_dif_gext; [|apply is_dif_plus; [apply is_dif_scal; now apply is_dif_proj|apply is_dif_const]]. intros j Hj. cbn beta. ring.
  - f_equal. rewrite mdet_lower.
    + rewrite (Rprod_ext n _ (fun i => / (C i * sd i))). 2:{ intros i Hi. unfold mid. rewrite Nat.eqb_refl. ring. }
      fold D. rewrite Rabs_pos_eq; [reflexivity|]. left. apply D_pos.
    + intros i j Hi Hj Hij. unfold mid. destruct (Nat.eqb_spec i j); [lia|ring].
Qed.
Lemma nv_logp (x : list R) : length x = n -> realnvp_log_prob m x =
  Rsum n (fun i => (1 - nth i mask 0) * tanh (nth i ss 0)) - / 2 * Rsum n (fun i => (A i * ((nth i x 0 - mu i) / sd i) + B i) ^ 2) - INR n / 2 * ln (2 * PI).
Proof.
  intros Hx. pose proof (whiten_len m Hg x Hx) as Lw.
  assert (EL : latent m x = fst (coupling_fwd c (whiten m x))) by (unfold latent; now rewrite nv_fwd).
  assert (LL : length (latent m x) = n) by (rewrite EL; now apply (fr_fwd_len n mask ss ts)).
  rewrite (realnvp_ratio m x LL). rewrite nv_fwd. cbn [snd]. pose proof (fr_logdet n mask ss ts Lm Ls Lt (whiten m x) Lw) as P.
  etransitivity; [exact (f_equal (fun v => 0 + v + ln (std_density (fl_n m) (latent m x))) P)|]. clear P. cbv beta.
  fold n. rewrite ln_std.
  rewrite (Rsum_ext n (fun i => nth i (latent m x) 0 ^ 2) (fun i => (A i * ((nth i x 0 - mu i) / sd i) + B i) ^ 2)); [match goal with |- @eq _ ?a ?b => change (@eq R a b) end; ring|].
  intros i Hi. apply (f_equal (fun v => v ^ 2)). rewrite EL. pose proof (fr_fwd n mask ss ts Lm Ls Lt (whiten m x) i Lw Hi) as P. etransitivity; [exact P|]. clear P.
  pose proof (whiten_nth m Hg x i Hx Hi) as W. fold (sd i) in W. set (w := (@nth R i (whiten m x) 0)) in * .
  assert (W' : w = (nth i x 0 - mu i) / sd i) by exact W. rewrite <- W'. unfold A, B. fold (u i). ring.
Qed.
Variable j : nat.
Hypothesis Hj : (j < n)%nat.
Hypothesis Mj : 0 < nth j mask 0 < 1.
Hypothesis Sj : nth j ss 0 <> 0.
Definition npt (t : R) : list R := map (fun i => mu i + sd i * (if (i =? j)%nat then t else 0)) (seq 0 n).
Lemma npt_len t : length (npt t) = n. Proof. unfold npt. now rewrite map_length, seq_length. Qed.
Lemma npt_w t i : (i < n)%nat -> (nth i (npt t) 0 - mu i) / sd i = if (i =? j)%nat then t else 0.
Proof.
  intros Hi. unfold npt. rewrite (nth_map_seq (fun i => mu i + sd i * (if (i =? j)%nat then t else 0)) n i 0 Hi). pose proof (nv_sd i Hi). field. lra.
Qed.
Lemma Rsum_bump (f : nat -> R -> R) t : Rsum n (fun i => f i (if (i =? j)%nat then t else 0)) = Rsum n (fun i => f i 0) + (f j t - f j 0).
Proof.
  assert (H : Rsum n (fun i => f i (if (i =? j)%nat then t else 0) - f i 0) = f j t - f j 0).
  { rewrite (Rsum_single n _ j Hj); [now rewrite Nat.eqb_refl|]. intros i Hi Hne. apply Nat.eqb_neq in Hne. rewrite Hne. ring. }
  rewrite Rsum_minus in H. lra.
Qed.
Let g t := ((t + E j) / C j) ^ 2 - (A j * t + B j) ^ 2.
Lemma nv_ratio s t : exp (realnvp_log_prob m (npt s)) * (std_density n (ntru (npt t)) * D) = exp (realnvp_log_prob m (npt t)) * (std_density n (ntru (npt s)) * D) -> g s = g t.
Proof.
  intros Q. pose proof D_pos as HD.
  assert (Q1 : exp (realnvp_log_prob m (npt s)) * std_density n (ntru (npt t)) = exp (realnvp_log_prob m (npt t)) * std_density n (ntru (npt s))).
  { apply (Rmult_eq_reg_r D); lra. }
  apply (f_equal ln) in Q1. rewrite !ln_mult in Q1 by (auto using exp_pos, std_density_pos). rewrite !ln_exp in Q1.
  assert (H : forall t, Rsum n (fun i => nth i (ntru (npt t)) 0 ^ 2) = Rsum n (fun i => ((0 + E i) / C i) ^ 2) + (((t + E j) / C j) ^ 2 - ((0 + E j) / C j) ^ 2)).
  { intros r. rewrite <- (Rsum_bump (fun i v => ((v + E i) / C i) ^ 2) r). apply Rsum_ext. intros i Hi. rewrite ntru_nth by auto. now rewrite npt_w by auto. }
  assert (K : forall t, Rsum n (fun i => (A i * ((nth i (npt t) 0 - mu i) / sd i) + B i) ^ 2) = Rsum n (fun i => (A i * 0 + B i) ^ 2) + ((A j * t + B j) ^ 2 - (A j * 0 + B j) ^ 2)).
  { intros r. rewrite <- (Rsum_bump (fun i v => (A i * v + B i) ^ 2) r). apply Rsum_ext. intros i Hi. now rewrite npt_w by auto. }
  rewrite !ln_std, !H in Q1. rewrite !nv_logp, !K in Q1 by apply npt_len. unfold g. lra.
Qed.
Lemma nv_AC : 1 < A j * C j.
Proof.
  pose proof (nv_u j) as Hu. assert (Hu1 : u j <> 1) by (apply (u_one ss); exact Sj).
  unfold A, C. set (r := nth j mask 0) in * . set (v := u j) in * . clearbody r v.
  assert (E0 : ((1 - r) * v + r) * ((1 - r) / v + r) = 1 + r * (1 - r) * ((v - 1) * (v - 1)) / v) by (field; lra). rewrite E0.
  assert (0 < r * (1 - r) * ((v - 1) * (v - 1)) / v); [|lra]. apply Rdiv_lt_0_compat; [|auto]. apply Rmult_lt_0_compat; [nra|].
  assert (v - 1 <> 0) by lra. nra.
Qed.
Lemma nv_differ : g 0 <> g 1 \/ g 1 <> g 2.
Proof.
  destruct (Req_dec (g 0) (g 1)) as [H1|H1]; [right|left; auto]. intros H2.
  pose proof nv_AC as HAC. pose proof (nv_C j Hj) as HC. pose proof (nv_A j Hj) as HA.
  assert (S : g 0 - 2 * g 1 + g 2 = 2 * ((/ C j) ^ 2 - A j ^ 2)). { unfold g. field. lra. }
  assert (Hi : / C j < A j). { apply (Rmult_lt_reg_r (C j)); [auto|]. rewrite Rinv_l by lra. lra. }
  pose proof (Rinv_0_lt_compat _ HC) as Hp. set (w := / C j) in * . clearbody w. clearbody g. nra.
Qed.
Section Run.
Context {G : @Rng RNum}.
Variables (decode : list R -> @flow RNum) (put : list R -> list R -> list (list R) -> list R) (grad : list R -> list (list R) -> list R).
Hypothesis Hno : @normal_shape RNum G.
Hypothesis Hall : forall z : list R, length z = n -> exists k, @normal RNum G (split k 2 1) n = z.
Variables (p : list R) (bs : nat) (tg : @lpdf RNum) (d : @datad RNum).
Hypothesis Ep : decode p = m.
Hypothesis Hbs : (0 < bs)%nat.
Hypothesis Htg : ignores_n_steps tg.
Let NF := realnvp_ops decode put grad.
Let pr := @mkNfp RNum G NF p bs.
Lemma nreach t : exists k, @model_sample RNum G m (split k 2 1) 1 = [npt t].
Proof.
  destruct (Hall (ntru (npt t)) (ntru_len _)) as [k Hk]. exists k. rewrite (sample_one Hno). change (fl_n m) with n. rewrite Hk. unfold flow_sample. cbn [map].
  apply (f_equal (fun v => [v])). apply nsmp_tru, npt_len.
Qed.
Lemma nv_pair s t : g s <> g t -> exists k k' (x y : list R) a b dx dy, 0 < dx /\ 0 < dy /\
  model_sample m (split k 2 1) 1 = [y] /\ model_sample m (split k' 2 1) 1 = [x] /\
  accept_prob (flow_run pr k tg d x) a /\ accept_prob (flow_run pr k' tg d y) b /\
  density_through n ntru (std_density n) x dx /\ density_through n ntru (std_density n) y dy /\
  exp (lp_val tg x d) * dy * a <> exp (lp_val tg y d) * dx * b.
Proof.
  intros Hst. destruct (nreach t) as [k Hk]. destruct (nreach s) as [k' Hk'].
  assert (Hk1 : m_sample (nfp_model pr) (split k 2 1) 1 = [npt t]) by (rewrite <- Ep in Hk; exact Hk).
  assert (Hk2 : m_sample (nfp_model pr) (split k' 2 1) 1 = [npt s]) by (rewrite <- Ep in Hk'; exact Hk').
  destruct (C15_flow_proof pr k tg d (npt s) (npt t) Hbs Htg Hk1) as (_ & Ha & _). destruct (C15_flow_proof pr k' tg d (npt t) (npt s) Hbs Htg Hk2) as (_ & Hb & _).
  do 2 eexists. exists (npt s), (npt t). do 2 eexists. exists (std_density n (ntru (npt s)) * D), (std_density n (ntru (npt t)) * D).
  split; [apply Rmult_lt_0_compat; auto using std_density_pos, D_pos|]. split; [apply Rmult_lt_0_compat; auto using std_density_pos, D_pos|].
  split; [exact Hk|]. split; [exact Hk'|]. split; [exact Ha|]. split; [exact Hb|].
  split; [apply ntru_density, npt_len|]. split; [apply ntru_density, npt_len|].
  intros Q. apply Hst. apply nv_ratio.
  pose proof (proj1 (balance_iff pr k k' tg d (npt s) (npt t) _ _ _ _ Hbs Htg Hk1 Hk2 Ha Hb) Q) as Z.
  assert (Z1 : exp (realnvp_log_prob (decode p) (npt s)) * (std_density n (ntru (npt t)) * D) = exp (realnvp_log_prob (decode p) (npt t)) * (std_density n (ntru (npt s)) * D)) by exact Z.
  rewrite Ep in Z1. exact Z1.
Qed.
Lemma nv_unbalanced : exists k k' (x y : list R) a b dx dy, 0 < dx /\ 0 < dy /\
  model_sample m (split k 2 1) 1 = [y] /\ model_sample m (split k' 2 1) 1 = [x] /\
  accept_prob (flow_run pr k tg d x) a /\ accept_prob (flow_run pr k' tg d y) b /\
  density_through n ntru (std_density n) x dx /\ density_through n ntru (std_density n) y dy /\
  exp (lp_val tg x d) * dy * a <> exp (lp_val tg y d) * dx * b.
Proof. destruct nv_differ as [H|H]; [exact (nv_pair 0 1 H)|exact (nv_pair 1 2 H)]. Qed.
End Run.
End NVP.

Lemma trained_nvp_unbalanced {G : @Rng RNum} (decode : list R -> @flow RNum) put grad (p : list R) bs (tg : @lpdf RNum) (d : @datad RNum) (mask ss ts : list R) j :
  @normal_shape RNum G ->
  let m := decode p in let n := fl_n m in
  (forall z : list R, length z = n -> exists k, @normal RNum G (split k 2 1) n = z) ->
  good_stats m -> length mask = n -> length ss = n -> length ts = n ->
  (forall i, (i < n)%nat -> 0 <= nth i mask 0 <= 1) ->
  fl_layers m = [coupling_layer (@mkCoupling RNum mask (@mlp_affine RNum (fun _ => ss) (fun _ => ts) 1))] ->
  (j < n)%nat -> 0 < nth j mask 0 < 1 -> nth j ss 0 <> 0 ->
  (0 < bs)%nat -> ignores_n_steps tg ->
  let S z := unwhiten m (fst (flow_inv (fl_layers m) z)) in
  let NF := realnvp_ops decode put grad in
  exists T : list R -> list R,
    (forall z, length z = n -> T (S z) = z) /\ (forall x, length x = n -> S (T x) = x) /\
  exists k k' (x y : list R) a b dx dy, 0 < dx /\ 0 < dy /\
    model_sample m (split k 2 1) 1 = [y] /\ model_sample m (split k' 2 1) 1 = [x] /\
    accept_prob (flow_run (@mkNfp RNum G NF p bs) k tg d x) a /\ accept_prob (flow_run (@mkNfp RNum G NF p bs) k' tg d y) b /\
    density_through n T (std_density n) x dx /\ density_through n T (std_density n) y dy /\
    exp (lp_val tg x d) * dy * a <> exp (lp_val tg y d) * dx * b.
Proof.
  intros Hno m n Hall Hg Lm Ls Lt Hm El Hj Mj Sj Hbs Htg S NF. exists (ntru m mask ss ts). split; [|split].
  - intros z. apply (ntru_smp m mask ss ts Hg Lm Ls Lt Hm El).
  - intros z. apply (nsmp_tru m mask ss ts Hg Lm Ls Lt Hm El).
  - apply (nv_unbalanced m mask ss ts Hg Lm Ls Lt Hm El j Hj Mj Sj decode put grad Hno Hall p bs tg d eq_refl Hbs Htg).
Qed.

(** With the mask the optimiser leaves behind. *)
Lemma trained_nvp_steps {G : @Rng RNum} (decode : list R -> @flow RNum) put grad (p : list R) bs (tg : @lpdf RNum) (d : @datad RNum) (mask rest ss ts : list R) lr momentum (gs : list (list R)) j :
  @normal_shape RNum G ->
  let m := decode p in let n := fl_n m in
  (forall z : list R, length z = n -> exists k, @normal RNum G (split k 2 1) n = z) ->
  good_stats m -> binary_mask n mask -> length ss = n -> length ts = n ->
  0 < lr < 10000 -> gs <> [] -> (forall g i, In g gs -> (i < n)%nat -> nth i g 0 = 0) ->
  let start := (mask ++ rest)%list in
  let mask' := firstn n (fst (adamw_steps (@optimizer_new RNum lr momentum) gs start (adamw_init start))) in
  fl_layers m = [coupling_layer (@mkCoupling RNum mask' (@mlp_affine RNum (fun _ => ss) (fun _ => ts) 1))] ->
  (j < n)%nat -> nth j mask 0 = 1 -> nth j ss 0 <> 0 ->
  (0 < bs)%nat -> ignores_n_steps tg ->
  let S z := unwhiten m (fst (flow_inv (fl_layers m) z)) in
  let NF := realnvp_ops decode put grad in
  exists T : list R -> list R,
    (forall z, length z = n -> T (S z) = z) /\ (forall x, length x = n -> S (T x) = x) /\
  exists k k' (x y : list R) a b dx dy, 0 < dx /\ 0 < dy /\
    model_sample m (split k 2 1) 1 = [y] /\ model_sample m (split k' 2 1) 1 = [x] /\
    accept_prob (flow_run (@mkNfp RNum G NF p bs) k tg d x) a /\ accept_prob (flow_run (@mkNfp RNum G NF p bs) k' tg d y) b /\
    density_through n T (std_density n) x dx /\ density_through n T (std_density n) y dy /\
    exp (lp_val tg x d) * dy * a <> exp (lp_val tg y d) * dx * b.
Proof.
  intros Hno m n Hall Hg Hb Ls Lt Hlr Hgs Hz start mask' El Hj Mj Sj Hbs Htg.
  assert (Hv : forall i, (i < n)%nat -> 0 <= @nth R i mask' 0 <= 1 /\ (nth i mask 0 = 1 -> 0 < @nth R i mask' 0 < 1)).
  { intros i Hi. 
    assert (Ei : @nth R i mask' 0 = nth i mask 0 * (1 - lr * (1 / 10000)) ^ length gs) by exact (trained_mask n mask rest lr momentum gs i (proj1 Hb) Hi (fun g Hg => Hz g i Hg Hi)).
    assert (Hr : 0 < (1 - lr * (1 / 10000)) ^ length gs < 1) by (apply factor01; auto; destruct gs; [congruence|cbn; lia]).
    destruct (proj2 Hb i Hi) as [Q|Q]; rewrite Ei, Q; (split; [lra|intros; lra]). }
  apply (trained_nvp_unbalanced decode put grad p bs tg d mask' ss ts j); auto.
  - destruct Hb as [Lm _]. assert (Q : (n <= length start)%nat) by (unfold start; rewrite app_length; unfold F; cbn [RNum]; rnorm; rewrite Lm; lia).
    unfold mask'. apply firstn_length_le. rewrite decay_len. exact Q.
  - intros i Hi. now apply Hv.
  - now apply Hv.
Qed.
