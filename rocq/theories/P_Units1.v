(** Change of units: the kernels. *)
From Coq Require Import Reals Psatz.
From Coquelicot Require Import Coquelicot.
From Verif Require Import Prelude Num M_Core M_Kernels M_Strategies M_PT M_Net M_Mala P_Lists P_Kernels RNum MxR Spec_Kernels Spec_Prog Spec_Real Spec_HMC
  P_Real1 P_Real2 P_Leapfrog P_HMC Spec_Net Spec_TreeR P_Gauss Spec_Mala P_Mala Spec_Units.

Section Units.
Context {G : @Rng RNum}.
Hypothesis NS : @normal_shape RNum G.
Variables (n : nat) (a b : nat -> R).
Hypothesis A0 : forall i, (i < n)%nat -> a i <> 0.

Notation iu := (in_units n a b).

Lemma accept_flag (k : key) r r' : r' = r -> @mh_accept RNum G k r' = mh_accept k r.
Proof. now intros ->. Qed.

(** Outcome of a Metropolis test on corresponding proposals. *)
Lemma step_mix (c : bool) x x' y y' (lx ly : R) : iu x x' -> iu y y' ->
  step_in_units n a b (if c then y else x, if c then ly else lx, c) (if c then y' else x', if c then ly else lx, c).
Proof. intros H1 H2. destruct c; split; cbn; auto. Qed.

(* ------------------------------------------------------------------ random walk *)
Lemma grw_out ss k f d (x : list R) (lp : R) : length x = n -> ok_grw ss n -> exists y : list R, length y = n /\
  (forall i, (i < n)%nat -> nth i y 0 = nth i x 0 + nth i (normal (split k 2 0) n) 0 * step_of ss i) /\
  grw_kernel ss k x lp f d = Ok (let c := mh_accept (split k 2 1) (lp_val f y d - lp) in (if c then y else x, if c then lp_val f y d else lp, c)).
Proof.
  intros Hx Hok. unfold grw_kernel. rnorm. rewrite Hx. set (z := normal (split k 2 0) n).
  assert (Lz : length z = n) by apply NS.
  assert (Q : exists m, grw_move ss z = Ok m).
  { destruct ss; simpl in *; eauto; [|tauto]. rnorm. rewrite Lz, Hok, Nat.eqb_refl. eauto. }
  destruct Q as [m Em]. destruct (grw_move_spec _ _ _ Em) as [Lm Sm]. rnorm. rewrite Lz in Lm, Sm.
  exists (vadd x m). rewrite Em. cbn [rbind]. split; [rlen; lia|]. split; [|reflexivity].
  intros i Hi. rewrite vaddR by lia. change (@f0 RNum) with 0 in Sm. pose proof (Sm i Hi) as E. rnorm. rewrite E. reflexivity.
Qed.
Lemma grw_units ss ss' k f g d (x x' : list R) (lp : R) : ok_grw ss n -> ok_grw ss' n -> steps_in_units n a ss ss' ->
  target_in_units n a b f g -> iu x x' ->
  both (step_in_units n a b) (grw_kernel ss k x lp f d) (grw_kernel ss' k x' lp g d).
Proof.
  intros O O' S T X. destruct X as (L1 & L2 & X).
  destruct (grw_out ss k f d x lp L1 O) as (y & Ly & Sy & E). destruct (grw_out ss' k g d x' lp L2 O') as (y' & Ly' & Sy' & E').
  assert (Y : iu y y').
  { split; [auto|]. split; [auto|]. intros i Hi. rewrite Sy', Sy, X by auto. pose proof (S i Hi) as Ei. rnorm. rewrite Ei. ring. }
  destruct (T y y' d Y) as [V _]. rnorm. rewrite V in E'. cbv zeta in E, E'. do 2 eexists. split; [exact E|]. split; [exact E'|].
  apply step_mix; auto. split; auto.
Qed.

(* ------------------------------------------------------------------ MALA *)
Lemma acc_ok ss : step_accepted ss n -> mala_ok_step ss n. Proof. exact (fun H => H). Qed.
Lemma mala_ratio_R ss f d (x y : list R) : step_accepted ss n -> length x = n -> length y = n -> (forall i, (i < n)%nat -> step_of ss i <> 0) ->
  length (lp_grad f x d) = n -> length (lp_grad f y d) = n ->
  mala_ratio ss f d x y = Ok (lp_val f y d - lp_val f x d
    - Rsum n (fun i => - (nth i y 0 - mala_mu ss f d x i) ^ 2 / (2 * step_of ss i ^ 2))
    + Rsum n (fun i => - (nth i x 0 - mala_mu ss f d y i) ^ 2 / (2 * step_of ss i ^ 2))).
Proof.
  intros O Hx Hy Hs Gx Gy. unfold mala_ratio.
  assert (Ox : mala_ok_step ss (length x)) by (rnorm; rewrite Hx; exact O).
  assert (Oy : mala_ok_step ss (length y)) by (rnorm; rewrite Hy; exact O).
  destruct (mala_mean_spec ss x (lp_grad f x d) Ox ltac:(rnorm; congruence)) as [M1 S1].
  destruct (mala_mean_spec ss y (lp_grad f y d) Oy ltac:(rnorm; congruence)) as [M2 S2]. rnorm. rewrite Hx in * . rewrite Hy in * .
  pose proof (mvn_is_gauss ss y _ n O Hy M1 Hs) as E1. pose proof (mvn_is_gauss ss x _ n O Hx M2 Hs) as E2. rnorm.
  rewrite E1, E2. cbn [rbind]. f_equal. rewrite !ln_gauss by auto. rewrite !Rsum_minus. cbn [fadd fsub RNum].
  assert (K : forall (u m : list R) (w : list R), (forall i, (i < n)%nat -> nth i m 0 = mala_mu ss f d w i) ->
    Rsum n (fun i => - (nth i u 0 - nth i m 0) ^ 2 / (2 * step_of ss i ^ 2)) = Rsum n (fun i => - (nth i u 0 - mala_mu ss f d w i) ^ 2 / (2 * step_of ss i ^ 2))).
  { intros u m w H. apply Rsum_ext. intros i Hi. rewrite H; auto. }
  rewrite (K y _ x), (K x _ y); [match goal with |- @eq _ ?a ?b => change (@eq R a b) end; ring| |].
  - intros i Hi. change (@f0 RNum) with 0 in S2. pose proof (S2 i Hi) as E. rnorm. rewrite E. unfold mala_mu. cbn. unfold Rdiv. ring.
  - intros i Hi. change (@f0 RNum) with 0 in S1. pose proof (S1 i Hi) as E. rnorm. rewrite E. unfold mala_mu. cbn. unfold Rdiv. ring.
Qed.
Lemma mala_out ss k f d (x : list R) (lp : R) : length x = n -> step_accepted ss n -> (forall i, (i < n)%nat -> step_of ss i <> 0) ->
  (forall y : list R, length y = n -> length (lp_grad f y d) = n) -> exists y : list R, length y = n /\
  (forall i, (i < n)%nat -> nth i y 0 = mala_mu ss f d x i + step_of ss i * nth i (normal (split k 2 0) n) 0) /\
  mala_kernel ss k x lp f d = Ok (let c := mh_accept (split k 2 1) (lp_val f y d - lp_val f x d
    - Rsum n (fun i => - (nth i y 0 - mala_mu ss f d x i) ^ 2 / (2 * step_of ss i ^ 2))
    + Rsum n (fun i => - (nth i x 0 - mala_mu ss f d y i) ^ 2 / (2 * step_of ss i ^ 2))) in
    (if c then y else x, if c then lp_val f y d else lp_val f x d, c)).
Proof.
  intros Hx O Hs Hg. unfold mala_kernel. rnorm. rewrite Hx. set (z := normal (split k 2 0) n).
  assert (Lz : length z = n) by apply NS.
  destruct (mala_propose_spec ss x (lp_grad f x d) z ltac:(rnorm; rewrite Hx; exact O) ltac:(rnorm; rewrite Hx; auto) ltac:(rnorm; congruence)) as [Ly Sy].
  rnorm. rewrite Hx in Ly, Sy. set (y := mala_propose ss x (lp_grad f x d) z) in * .
  exists y. split; [exact Ly|]. split.
  { intros i Hi. rewrite Sy by auto. unfold mala_mu. unfold Rdiv. rnorm. match goal with |- @eq _ ?a ?b => change (@eq R a b) end. ring. }
  pose proof (mala_ratio_R ss f d x y O Hx Ly Hs ltac:(auto) ltac:(auto)) as ER.
  destruct ss as [s|v|v]; [|destruct O|cbn in O; rnorm; rewrite O, Nat.eqb_refl; cbn [negb]]; rnorm; rewrite ER; reflexivity.
Qed.
Lemma mala_units ss ss' k f g d (x x' : list R) (lp : R) : step_accepted ss n -> step_accepted ss' n -> (forall i, (i < n)%nat -> step_of ss i <> 0) ->
  steps_in_units n a ss ss' -> target_in_units n a b f g -> iu x x' ->
  both (step_in_units n a b) (mala_kernel ss k x lp f d) (mala_kernel ss' k x' lp g d).
Proof.
  intros O O' N0 S T X. assert (X' := X). destruct X as (L1 & L2 & X).
  assert (N0' : forall i, (i < n)%nat -> step_of ss' i <> 0).
  { intros i Hi. pose proof (S i Hi) as Ei. rnorm. rewrite Ei. apply Rmult_integral_contrapositive; split; auto. }
  set (to := fun u : list R => map (fun i => a i * nth i u 0 + b i) (seq 0 n)).
  set (fro := fun u : list R => map (fun i => (nth i u 0 - b i) / a i) (seq 0 n)).
  assert (TO : forall u : list R, length u = n -> iu u (to u)).
  { intros u Hu. split; [auto|]. split; [unfold to; now rewrite map_length, seq_length|]. intros i Hi. unfold to.
    rewrite (nth_map' _ _ i 0%nat 0) by (rewrite seq_length; lia). rewrite seq_nth by lia. reflexivity. }
  assert (FRO : forall u : list R, length u = n -> iu (fro u) u).
  { intros u Hu. split; [unfold fro; now rewrite map_length, seq_length|]. split; [auto|]. intros i Hi. unfold fro.
    rewrite (nth_map' _ _ i 0%nat 0) by (rewrite seq_length; lia). rewrite seq_nth by lia. cbn [Nat.add]. field. auto. }
  destruct (mala_out ss k f d x lp L1 O N0) as (y & Ly & Sy & E). { intros u Hu. apply (T u (to u) d (TO u Hu)). }
  destruct (mala_out ss' k g d x' lp L2 O' N0') as (y' & Ly' & Sy' & E'). { intros u Hu. apply (T (fro u) u d (FRO u Hu)). }
  assert (MU : forall u u' i, iu u u' -> (i < n)%nat -> mala_mu ss' g d u' i = a i * mala_mu ss f d u i + b i).
  { intros u u' i Hu Hi. unfold mala_mu. destruct (T u u' d Hu) as (_ & _ & _ & Tg). destruct Hu as (_ & _ & Hu).
    rewrite Hu, Tg by auto. pose proof (S i Hi) as Ei. rnorm. rewrite Ei. field. auto. }
  assert (Y : iu y y').
  { split; [auto|]. split; [auto|]. intros i Hi. rewrite Sy', Sy, (MU x x' i X' Hi) by auto. pose proof (S i Hi) as Ei. rnorm. rewrite Ei. ring. }
  destruct (T y y' d Y) as [V _]. destruct (T x x' d X') as [V0 _]. rnorm. rewrite V, V0 in E'.
  assert (Q : forall u u' w w', iu u u' -> iu w w' ->
    Rsum n (fun i => - (nth i u' 0 - mala_mu ss' g d w' i) ^ 2 / (2 * step_of ss' i ^ 2)) =
    Rsum n (fun i => - (nth i u 0 - mala_mu ss f d w i) ^ 2 / (2 * step_of ss i ^ 2))).
  { intros u u' w w' Hu Hw. apply Rsum_ext. intros i Hi. rewrite (MU w w' i Hw Hi). destruct Hu as (_ & _ & Hu). rewrite Hu by auto.
    pose proof (S i Hi) as Ei. rnorm. rewrite Ei. field. split; auto. }
  rewrite (Q y y' x x' Y X'), (Q x x' y y' X' Y) in E'. cbv zeta in E, E'. do 2 eexists. split; [exact E|]. split; [exact E'|].
  apply step_mix; auto.
Qed.

(* ------------------------------------------------------------------ HMC *)
Section Hmc.
Variables (h h' : @hmc RNum) (M M' : list (list R)) (f g : @lpdf RNum) (d : @datad RNum).
Hypothesis (T : target_in_units n a b f g).
Hypothesis (ES : h_step h' = h_step h) (EL : h_leap h' = h_leap h).
Hypothesis (SM : square_mat M n) (SM' : square_mat M' n).
Hypothesis (HM : forall i j, (i < n)%nat -> (j < n)%nat -> (entry M i j = 0 \/ a i = a j) /\ entry M' i j = a i * a j * entry M i j).
(** Momenta are inverse lengths. *)
Definition mom (p p' : list R) : Prop := length p = n /\ length p' = n /\ forall i, (i < n)%nat -> nth i p' 0 = nth i p 0 / a i.
Lemma cs_units j : (j < n)%nat -> cs M' j = a j * a j * cs M j.
Proof.
  intros Hj. rewrite (csR M' n j SM'), (csR M n j SM), <- Rsum_scal. apply Rsum_ext. intros i Hi.
  destruct (HM i j Hi Hj) as [[Z|E] ->]; [rewrite Z; ring|rewrite E; ring].
Qed.
Lemma kinetic_units p p' : mom p p' -> kinetic p' M' = kinetic p M.
Proof.
  intros (L1 & L2 & P). rewrite (kinetic_cs p' M' n SM' L2), (kinetic_cs p M n SM L1). f_equal. apply Rsum_ext. intros j Hj.
  rewrite P, cs_units by auto. field. auto.
Qed.
Lemma leap_one_units c q p q' p' : iu q q' -> mom p p' ->
  iu (fst (leapfrog_one h M f d c (q, p))) (fst (leapfrog_one h' M' g d c (q', p'))) /\
  mom (snd (leapfrog_one h M f d c (q, p))) (snd (leapfrog_one h' M' g d c (q', p'))).
Proof.
  intros Q P. unfold leapfrog_one. cbn [fst snd].
  set (v := vscale _ (kinetic_grad p M)). set (v' := vscale _ (kinetic_grad p' M')).
  assert (Lv : @length R v = n) by (unfold v; rewrite vscale_lenR, kg_len; apply P).
  assert (Lv' : @length R v' = n) by (unfold v'; rewrite vscale_lenR, kg_len; apply P).
  assert (Q1 : iu (vadd q v) (vadd q' v')).
  { destruct Q as (Q1 & Q2 & Q3). destruct P as (P1 & P2 & P3).
    split; [|split]; [rlen; lia|rlen; lia|]. intros i Hi. rewrite !vaddR by lia. unfold v, v'.
    rewrite !vscaleR by (rewrite kg_len; lia). rewrite !kgR by lia. rewrite Q3, P3, cs_units, ES by auto. cbn. field. auto. }
  split; [exact Q1|]. destruct (T _ _ d Q1) as (_ & G1 & G2 & G3). destruct P as (P1 & P2 & P3). unfold vneg. rnorm.
  split; [|split]; [rlen; rewrite G1; lia|rlen; rewrite G2; lia|]. intros i Hi.
  rewrite !vsubR by (rlen; rewrite ?G1, ?G2; lia). rewrite !vscaleR by (rewrite map_length; rewrite ?G1, ?G2; lia).
  rewrite !mapR by (rewrite ?G1, ?G2; lia). rewrite G3, P3, ES by auto. cbn. field. auto.
Qed.
Lemma leapfrog_units q p q' p' : iu q q' -> mom p p' ->
  iu (fst (leapfrog h M f d (q, p))) (fst (leapfrog h' M' g d (q', p'))) /\
  mom (snd (leapfrog h M f d (q, p))) (snd (leapfrog h' M' g d (q', p'))).
Proof.
  unfold leapfrog. rewrite EL. generalize (leapfrog_coefs (h_leap h)). intros l. revert q p q' p'.
  induction l as [|c l IH]; intros q p q' p' Q P; [split; assumption|]. cbn [fold_left].
  destruct (leap_one_units c q p q' p' Q P) as [Q1 P1].
  destruct (leapfrog_one h M f d c (q, p)) as [q1 p1]. destruct (leapfrog_one h' M' g d c (q', p')) as [q1' p1']. apply IH; assumption.
Qed.
End Hmc.
Lemma hmc_units h h' k f g d (x x' : list R) (lp : R) : hmc_in_units n a h h' -> target_in_units n a b f g -> iu x x' ->
  both (step_in_units n a b) (hmc_kernel h k x lp f d) (hmc_kernel h' k x' lp g d).
Proof.
  intros (ES & EL & M & M' & EM & EM' & SM & SM' & SL & SL' & HM) T X. assert (X' := X). destruct X as (L1 & L2 & _).
  unfold hmc_kernel. rewrite EM, EM'. rnorm. rewrite L1, L2. rewrite (proj2 (square_iff M n) SM), (proj2 (square_iff M' n) SM').
  set (z := normal (split k 2 0) n). assert (Lz : length z = n) by apply NS.
  assert (P : mom (hmc_momentum h z) (hmc_momentum h' z)).
  { split; [now apply momentum_len|]. split; [now apply momentum_len|]. intros i Hi. rewrite !(momentumR _ z n i) by auto.
    unfold Rdiv. rewrite Rmult_comm, <- Rsum_scal. apply Rsum_ext. intros t Ht. destruct (HM i t Hi Ht) as (_ & _ & ->). unfold Rdiv. ring. }
  assert (HM2 : forall i j, (i < n)%nat -> (j < n)%nat -> (entry M i j = 0 \/ a i = a j) /\ entry M' i j = a i * a j * entry M i j).
  { intros i j Hi Hj. destruct (HM i j Hi Hj) as (A & B & _). auto. }
  destruct (leapfrog_units h h' M M' f g d T ES EL SM SM' HM2 x _ x' _ X' P) as [Q1 P1].
  destruct (T _ _ d Q1) as [V _].
  assert (ER : hmc_ratio h' M' g d lp (hmc_momentum h' z) (leapfrog h' M' g d (x', hmc_momentum h' z)) =
               hmc_ratio h M f d lp (hmc_momentum h z) (leapfrog h M f d (x, hmc_momentum h z))).
  { unfold hmc_ratio. rnorm. rewrite V, (kinetic_units M M' SM SM' HM2 _ _ P), (kinetic_units M M' SM SM' HM2 _ _ P1). reflexivity. }
  cbv zeta. rnorm. rewrite ER, V. do 2 eexists. split; [reflexivity|]. split; [reflexivity|]. apply step_mix; auto.
Qed.

(* ------------------------------------------------------------------ MALA with a matrix *)
Notation fs := (fun (l : list (list R)) (v : list R) => (@forward_subst RNum l v [] : list R)).
(** l^T u = w has a solution. *)
Lemma back_subst (l : list (list R)) (w : list R) : cholesky_shape n l -> exists u : nat -> R,
  forall j, (j < n)%nat -> Rsum n (fun i => ent l i j * u i) = nth j w 0.
Proof.
  intros C. set (e := fun j => map (fun i => @mid i j) (seq 0 n)). set (B := fun k j => nth k (fs l (e j)) 0).
  assert (Le : forall j, length (e j) = n) by (intros; unfold e; now rewrite map_length, seq_length).
  assert (Ee : forall j i, (i < n)%nat -> nth i (e j) 0 = mid i j) by (intros j i Hi; exact (nth_map_seq (fun i => mid i j) n i 0 Hi)).
  assert (I1 : forall i j, (i < n)%nat -> (j < n)%nat -> mmul n (ent l) B i j = mid i j).
  { intros i j Hi Hj. rewrite <- (Ee j i Hi). exact (fs_solves n l C (e j) i (Le j) Hi). }
  pose proof (@mat_inv_comm n (ent l) B I1) as I2.
  exists (fun i => Rsum n (fun k => B k i * nth k w 0)). intros j Hj.
  rewrite (Rsum_ext n _ (fun i => Rsum n (fun k => ent l i j * (B k i * nth k w 0)))) by (intros; now rewrite Rsum_scal).
  rewrite Rsum_swap. rewrite (Rsum_ext n _ (fun k => mid k j * nth k w 0)).
  - rewrite (Rsum_single n _ j Hj); [unfold mid; rewrite Nat.eqb_refl; cbn; ring|]. intros i _ Hi. unfold mid. destruct (Nat.eqb_spec i j); [congruence|]. cbn. ring.
  - intros k Hk. rewrite <- (I2 k j Hk Hj). unfold mmul. rewrite Rmult_comm, <- Rsum_scal. apply Rsum_ext. intros; ring.
Qed.
(** |l^-1 v|^2 depends on l l^T only. *)
Lemma norm_scaled (l l' : list (list R)) (v v' : list R) : cholesky_shape n l -> cholesky_shape n l' -> length v = n -> length v' = n ->
  (forall i j, (i < n)%nat -> (j < n)%nat -> Rsum n (fun k => ent l' i k * ent l' j k) = a i * a j * Rsum n (fun k => ent l i k * ent l j k)) ->
  (forall i, (i < n)%nat -> nth i v' 0 = a i * nth i v 0) ->
  Rsum n (fun i => nth i (fs l' v') 0 ^ 2) = Rsum n (fun i => nth i (fs l v) 0 ^ 2).
Proof.
  intros C C' L L' Q V. destruct (back_subst l (fs l v) C) as [u U].
  assert (Q2 : forall (m : list (list R)) (t : nat -> R) (y w : list R), cholesky_shape n m -> length y = n -> w = fs m y ->
    (forall j, (j < n)%nat -> Rsum n (fun i => ent m i j * t i) = nth j w 0) -> Rsum n (fun i => nth i w 0 ^ 2) = Rsum n (fun i => t i * nth i y 0)).
  { intros m t y w Cm Ly Ew Hw. rewrite (Rsum_ext n _ (fun j => Rsum n (fun i => t i * (ent m i j * nth j w 0)))).
    - rewrite Rsum_swap. apply Rsum_ext. intros i Hi. rewrite Rsum_scal. f_equal. rewrite Ew. exact (fs_solves n m Cm y i Ly Hi).
    - intros j Hj. replace (nth j w 0 ^ 2) with (nth j w 0 * nth j w 0) by ring. rewrite <- (Hw j Hj) at 1. rewrite Rmult_comm, <- Rsum_scal. apply Rsum_ext. intros; ring. }
  rewrite (Q2 l u v _ C L eq_refl U).
  rewrite (Q2 l' (fun i => u i / a i) v' _ C' L' eq_refl).
  - apply Rsum_ext. intros i Hi. rewrite V by auto. field. auto.
  - intros j Hj. set (t := map (fun j => Rsum n (fun i => ent l' i j * (u i / a i))) (seq 0 n)).
    assert (Lt : length t = n) by (unfold t; now rewrite map_length, seq_length).
    assert (Nt : forall k, (k < n)%nat -> nth k t 0 = Rsum n (fun i => ent l' i k * (u i / a i))) by (intros k Hk; exact (nth_map_seq (fun j => Rsum n (fun i => ent l' i j * (u i / a i))) n k 0 Hk)).
    assert (E : (fs l' v' : list R) = t); [|rewrite E; symmetry; now apply Nt].
    apply (tri_inj n l' C' v'); [now apply fs_len|exact Lt|]. intros i Hi.
    etransitivity; [exact (fs_solves n l' C' v' i L' Hi)|]. rewrite V by auto.
    rewrite (Rsum_ext n _ (fun k => Rsum n (fun r => ent l' i k * (ent l' r k * (u r / a r))))) by (intros k Hk; rewrite Nt by auto; now rewrite Rsum_scal).
    rewrite Rsum_swap. rewrite (Rsum_ext n _ (fun r => a i * Rsum n (fun k => ent l i k * (ent l r k * u r)))).
    + rewrite Rsum_scal. f_equal. rewrite Rsum_swap. rewrite <- (fs_solves n l C v i L Hi). apply Rsum_ext. intros k Hk.
      rewrite Rsum_scal. f_equal. symmetry. apply (U k Hk).
    + intros r Hr. rewrite (Rsum_ext n _ (fun k => (u r / a r) * (ent l' i k * ent l' r k))) by (intros; ring). rewrite Rsum_scal, Q by auto.
      rewrite (Rsum_ext n (fun k => ent l i k * (ent l r k * u r)) (fun k => u r * (ent l i k * ent l r k))) by (intros; ring). rewrite Rsum_scal. field. auto.
Qed.
Section Mat.
Variables (chol : list (list R) -> list (list R)) (dt dt' : list (list R)) (f g : @lpdf RNum) (d : @datad RNum).
Hypothesis (CL : chol_law chol) (SF : squares_factor n dt) (MU : matrix_in_units n a dt dt') (T : target_in_units n a b f g).
Lemma sq_scaled i j : (i < n)%nat -> (j < n)%nat -> ent dt' i j ^ 2 = a i * a j * ent dt i j ^ 2.
Proof. intros Hi Hj. destruct MU as (_ & _ & H). destruct (H i j Hi Hj) as [[Z| Z] ->]; rewrite Z; ring. Qed.
Lemma sf_scaled : squares_factor n dt'.
Proof.
  destruct SF as (l & ((Ll & Rl) & Up & Dg) & Fl).
  set (m := map (fun i => map (fun j => Rabs (a i) * ent l i j) (seq 0 n)) (seq 0 n)).
  assert (Em : forall i j, (i < n)%nat -> (j < n)%nat -> ent m i j = Rabs (a i) * ent l i j).
  { intros i j Hi Hj. unfold ent at 1, m. rewrite (nth_map_seq (fun i => map (fun j => Rabs (a i) * ent l i j) (seq 0 n)) n i [] Hi).
    exact (nth_map_seq (fun j => Rabs (a i) * ent l i j) n j 0 Hj). }
  exists m. split.
  - split; [split|split].
    + unfold m. now rewrite map_length, seq_length.
    + intros r Hr. unfold m in Hr. apply in_map_iff in Hr. destruct Hr as (i & <- & _). now rewrite map_length, seq_length.
    + intros i j Hij. rewrite Em by lia. rewrite Up by lia. ring.
    + intros i Hi. rewrite Em by lia. apply Rmult_lt_0_compat; [apply Rabs_pos_lt; auto|auto].
  - intros i j Hi Hj. rewrite sq_scaled by auto.
    rewrite (Rsum_ext n _ (fun k => (Rabs (a i) * Rabs (a j)) * (ent l i k * ent l j k))) by (intros k Hk; rewrite !Em by auto; ring).
    rewrite Rsum_scal, <- Fl by auto. destruct MU as (_ & _ & H). destruct (H i j Hi Hj) as [[Z| Z] _]; [rewrite Z; ring|].
    rewrite Z. rewrite <- Rabs_mult, Rabs_pos_eq by nra. ring.
Qed.
Lemma chol_scaled : cholesky_shape n (chol (@mat_sq RNum dt)) /\ cholesky_shape n (chol (@mat_sq RNum dt')) /\
  forall i j, (i < n)%nat -> (j < n)%nat -> Rsum n (fun k => ent (chol (@mat_sq RNum dt')) i k * ent (chol (@mat_sq RNum dt')) j k) =
    a i * a j * Rsum n (fun k => ent (chol (@mat_sq RNum dt)) i k * ent (chol (@mat_sq RNum dt)) j k).
Proof.
  assert (K : forall m, Spec_Net.square n m -> squares_factor n m -> cholesky_shape n (chol (@mat_sq RNum m)) /\
    forall i j, (i < n)%nat -> (j < n)%nat -> Rsum n (fun k => ent (chol (@mat_sq RNum m)) i k * ent (chol (@mat_sq RNum m)) j k) = ent m i j ^ 2).
  { intros m Hs (l0 & Hl0 & F0). destruct (CL n (@mat_sq RNum m) (mat_sq_square n m Hs)) as [Hl Hf].
    { exists l0. split; auto. intros i j Hi Hj. rewrite (mat_sq_ent n) by auto. rewrite <- F0 by auto. ring. }
    split; [exact Hl|]. intros i j Hi Hj. rewrite <- (Hf i j Hi Hj). rewrite (mat_sq_ent n) by auto. ring. }
  destruct (K dt (proj1 MU) SF) as [C1 E1]. destruct (K dt' (proj1 (proj2 MU)) sf_scaled) as [C2 E2].
  split; [exact C1|]. split; [exact C2|]. intros i j Hi Hj. rewrite E1, E2 by auto. now apply sq_scaled.
Qed.
Lemma mean_units (x x' : list R) i : iu x x' -> (i < n)%nat ->
  @nth R i (@mat_mala_mean RNum dt' x' (lp_grad g x' d)) 0 = a i * @nth R i (@mat_mala_mean RNum dt x (lp_grad f x d)) 0 + b i.
Proof.
  intros X Hi. destruct (T x x' d X) as (_ & G1 & G2 & G3). destruct X as (L1 & L2 & X). destruct MU as (S1 & S2 & _).
  rewrite (mean_R n dt' x' _ i S2 L2 G2 Hi), (mean_R n dt x _ i S1 L1 G1 Hi). rewrite X by auto.
  rewrite (Rsum_ext n (fun j => ent dt' i j ^ 2 * @nth R j (lp_grad g x' d) 0) (fun j => a i * (ent dt i j ^ 2 * @nth R j (lp_grad f x d) 0))).
  - rewrite Rsum_scal. match goal with |- @eq _ ?u ?v => change (@eq R u v) end. field.
  - intros j Hj. pose proof (G3 j Hj) as E. rnorm. rewrite E, sq_scaled by auto. field. auto.
Qed.
Lemma mat_ratio_units (x x' y y' : list R) : iu x x' -> iu y y' ->
  @mat_mala_ratio RNum chol dt' g d x' y' = @mat_mala_ratio RNum chol dt f d x y.
Proof.
  intros X Y. destruct chol_scaled as (C1 & C2 & Q). destruct MU as (S1 & S2 & _).
  destruct (X) as (L1 & L2 & NX). destruct (Y) as (L3 & L4 & NY).
  etransitivity; [exact (ratio_R chol n dt' g d x' y' S2 C2 L2 L4)|]. symmetry. etransitivity; [exact (ratio_R chol n dt f d x y S1 C1 L1 L3)|]. symmetry.
  destruct (T x x' d X) as (V1 & _). destruct (T y y' d Y) as (V2 & _). rnorm. rewrite V1, V2.
  pose proof (mean_len n dt x (lp_grad f x d) S1 L1) as M1. pose proof (mean_len n dt' x' (lp_grad g x' d) S2 L2) as M2.
  pose proof (mean_len n dt y (lp_grad f y d) S1 L3) as M3. pose proof (mean_len n dt' y' (lp_grad g y' d) S2 L4) as M4.
  assert (K : forall (p p' m m' : list R), length p = n -> length p' = n -> length m = n -> length m' = n ->
    (forall i, (i < n)%nat -> nth i p' 0 = a i * nth i p 0 + b i) -> (forall i, (i < n)%nat -> nth i m' 0 = a i * nth i m 0 + b i) ->
    Rsum n (fun i => @nth R i (@forward_subst RNum (chol (@mat_sq RNum dt')) (@vsub RNum p' m') []) 0 ^ 2) =
    Rsum n (fun i => @nth R i (@forward_subst RNum (chol (@mat_sq RNum dt)) (@vsub RNum p m) []) 0 ^ 2)).
  { intros p p' m m' H1 H2 H3 H4 P Mm. apply norm_scaled; auto; try (rlen; lia). intros i Hi. rewrite !vsubR by lia. rewrite P, Mm by auto. ring. }
  exact (f_equal2 Rminus (f_equal2 Rplus eq_refl (f_equal (Rmult (/ 2)) (K y y' _ _ L3 L4 M1 M2 NY (fun i => mean_units x x' i X))))
    (f_equal (Rmult (/ 2)) (K x x' _ _ L1 L2 M3 M4 NX (fun i => mean_units y y' i Y)))).
Qed.
End Mat.
Lemma mat_units chol dt dt' k f g d (x x' : list R) (lp : R) : chol_law chol -> squares_factor n dt -> matrix_in_units n a dt dt' ->
  target_in_units n a b f g -> iu x x' ->
  both (step_in_units n a b) (mat_mala_kernel chol dt k x lp f d) (mat_mala_kernel chol dt' k x' lp g d).
Proof.
  intros CL SF MU T X. destruct (X) as (L1 & L2 & NX). destruct (MU) as (S1 & S2 & HM). unfold mat_mala_kernel. rnorm. rewrite L1, L2.
  pose proof (sq_bool n dt S1) as B1. pose proof (sq_bool n dt' S2) as B2. rnorm. rewrite B1, B2.
  set (z := normal (split k 2 0) n). assert (Lz : length z = n) by apply NS.
  destruct (T x x' d X) as (V & G1 & G2 & G3).
  set (y := mat_mala_propose dt x (lp_grad f x d) z). set (y' := mat_mala_propose dt' x' (lp_grad g x' d) z).
  assert (Y : iu y y').
  { split; [now apply propose_len|]. split; [now apply propose_len|]. intros i Hi.
    pose proof (mean_units dt dt' f g d MU T x x' i X Hi) as EM.
    pose proof (mean_len n dt x (lp_grad f x d) S1 L1) as M1. pose proof (mean_len n dt' x' (lp_grad g x' d) S2 L2) as M2.
    pose proof (mat_dot_len n dt z S1) as D1. pose proof (mat_dot_len n dt' z S2) as D2.
    unfold y, y', mat_mala_propose. rewrite !vaddR by (rewrite ?M1, ?M2, ?D1, ?D2; exact Hi).
    pose proof (mat_dot_R n dt z i S1 Lz Hi) as E1. pose proof (mat_dot_R n dt' z i S2 Lz Hi) as E2. rnorm. rewrite EM, E1, E2.
    rewrite (Rsum_ext n (fun j => ent dt' i j * nth j z 0) (fun j => a i * (ent dt i j * nth j z 0))) by (intros j Hj; rewrite (proj2 (HM i j Hi Hj)); ring).
    rewrite Rsum_scal. match goal with |- @eq _ ?u ?v => change (@eq R u v) end. ring. }
  destruct (T y y' d Y) as (V' & _). pose proof (mat_ratio_units chol dt dt' f g d CL SF MU T x x' y y' X Y) as ER. rnorm.
  cbv zeta. rewrite ER, V, V'. do 2 eexists. split; [reflexivity|]. split; [reflexivity|]. apply step_mix; auto.
Qed.
Lemma kernel_units kern kern' : kernel_in_units n a kern kern' -> forall k f g d (x x' : list R) (lp : R), target_in_units n a b f g -> iu x x' ->
  both (step_in_units n a b) (kern k x lp f d) (kern' k x' lp g d).
Proof.
  intros K k f g d x x' lp T X. destruct K.
  - now apply grw_units.
  - now apply mala_units.
  - now apply mat_units.
  - now apply hmc_units.
Qed.
End Units.
