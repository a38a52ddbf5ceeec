(** The repository's local kernels leave the target invariant. *)
From Coq Require Import Reals Lra Lia Permutation Classical.
From Coquelicot Require Import Coquelicot.
From Verif Require Import Prelude Num M_Core M_Kernels M_Strategies Spec_Kernels RNum Spec_Real Spec_HMC Spec_Inv P_Kernels P_Real1 P_Real2 MxR P_HMC P_Inv1 P_Inv2.
Open Scope R_scope.

Section Kern.
Context {G : @Rng RNum}.
Variables (n : nat) (X : list (list R)) (f : @lpdf RNum) (d : @datad RNum).
Hypothesis NX : states X n.
Hypothesis NS : normal_shape.
Notation lp := (lpx f d).
Definition veqb (x y : list R) : bool := if veq_dec x y then true else false.
Lemma veqb_iff x y : veqb x y = true <-> x = y. Proof. unfold veqb. destruct (veq_dec x y); split; intros; auto; discriminate. Qed.

Lemma metro_consistent (kern : @skernel RNum G) (run : key -> list R -> list R -> outcome) (prop : list R -> list R -> list R) (rr : list R -> list R -> R) :
  (forall k k0 x, length x = n -> kern k x (lp x) f d = run k0 x (normal (split k 2 0) n) (uniform (split k 2 1))) ->
  (forall k x z, length x = n -> length z = n -> metropolis (run k x z) x (prop x z) (lp x) (lp (prop x z)) (rr x z)) ->
  (forall x z, length x = n -> length z = n -> length (prop x z) = n) -> consistent n f d kern.
Proof.
  intros KR M LP k x L. rewrite (KR k k x L). assert (Lz : length (normal (split k 2 0) n) = n) by apply NS.
  rewrite (M k x _ L Lz). destruct (Rltb _ _); eexists _, _; split; try reflexivity; auto.
Qed.

(** Kernels that add a scaled draw to a mean. *)
Section Affine.
Variables (kern : @skernel RNum G) (run : key -> list R -> list R -> outcome) (prop : list R -> list R -> list R) (rr : list R -> list R -> R).
Variables (mean : list R -> nat -> R) (s : nat -> R).
Hypothesis S0 : forall i, (i < n)%nat -> s i <> 0.
Hypothesis KR : forall k k0 x, length x = n -> kern k x (lp x) f d = run k0 x (normal (split k 2 0) n) (uniform (split k 2 1)).
Hypothesis M : forall k x z, length x = n -> length z = n -> metropolis (run k x z) x (prop x z) (lp x) (lp (prop x z)) (rr x z).
Hypothesis LP : forall x z, length x = n -> length z = n -> length (prop x z) = n.
Hypothesis PN : forall x z i, length x = n -> length z = n -> (i < n)%nat -> nth i (prop x z) 0 = mean x i + s i * nth i z 0.
Hypothesis BAL : forall k x y z z' a b, length x = n -> length y = n -> length z = n -> length z' = n ->
  proposes (run k x z) y -> proposes (run k y z') x -> accept_prob (run k x z) a -> accept_prob (run k y z') b ->
  exp (lp x) * std_density n z * a = exp (lp y) * std_density n z' * b.
Lemma affine_inv E : step_source X n run (back run) E -> inv_step X f d kern E.
Proof.
  destruct NX as [ND LX]. intros HS. destruct (key_exists E) as [k0 _]. revert HS.
  assert (PR : forall k x z, length x = n -> length z = n -> proposes (run k x z) (prop x z)).
  { intros k x z Lx Lz. apply (metropolis_proposes _ _ _ _ _ _ (prop x z) (M k x z Lx Lz)). reflexivity. }
  apply (metro_step n X f d kern run (back run) prop rr (fun x z z' => veqb (prop (prop x z) z') x) ND LX KR M).
  - intros x z z' Hx Hy Lz Lz' B. apply veqb_iff. pose proof (B k0 (prop x z) (PR k0 x z (LX x Hx) Lz)) as Q.
    symmetry. exact (proj1 (metropolis_proposes _ _ _ _ _ _ x (M k0 (prop x z) z' (LX _ Hy) Lz')) Q).
  - intros x z z' Hx Hy Lz Lz' B. apply veqb_iff in B. split; [exact B|]. split; [rewrite B; now apply veqb_iff|].
    pose proof (M k0 x z (LX x Hx) Lz) as M1. pose proof (M k0 (prop x z) z' (LX _ Hy) Lz') as M2.
    apply (BAL k0 x (prop x z) z z'); auto.
    + rewrite <- B at 2. apply PR; auto.
    + exact (metropolis_accept _ _ _ _ _ _ M1).
    + exact (metropolis_accept _ _ _ _ _ _ M2).
  - intros x z z1 z2 Hx Hy Lz L1 L2 B1 B2. apply veqb_iff in B1, B2.
    apply (nth_ext z1 z2 0 0); [congruence|]. intros i Hi. rewrite L1 in Hi.
    pose proof (PN (prop x z) z1 i (LX _ Hy) L1 Hi) as Q1. pose proof (PN (prop x z) z2 i (LX _ Hy) L2 Hi) as Q2. rewrite B1 in Q1. rewrite B2 in Q2.
    apply Rmult_eq_reg_l with (s i); [lra|auto].
Qed.
End Affine.

(** Random walk. *)
Section Walk.
Variable ss : @stepsize RNum.
Hypothesis OK : ok_grw ss n.
Hypothesis S0 : forall i, (i < n)%nat -> step_of ss i <> 0.
Definition w_prop (x z : list R) : list R := match @grw_move RNum ss z with Ok m => @vadd RNum x m | Raise _ => x end.
Definition w_run (k : key) (x z : list R) : outcome := grw_run ss k f d x z.
Lemma w_facts k x z : length x = n -> length z = n ->
  metropolis (w_run k x z) x (w_prop x z) (lp x) (lp (w_prop x z)) (lp (w_prop x z) - lp x) /\ length (w_prop x z) = n /\
  forall i, (i < n)%nat -> nth i (w_prop x z) 0 = nth i x 0 + step_of ss i * nth i z 0.
Proof.
  intros Lx Lz. destruct (grw_metropolis ss k f d x z) as (y & My & Ly & Ny). { rnorm. now rewrite Lx. } { rnorm. congruence. }
  assert (E : y = w_prop x z).
  { assert (Q : exists m, @grw_move RNum ss z = Ok m).
    { destruct ss; cbn in OK |- * ; eauto; [|tauto]. rnorm. rewrite OK, Lz, Nat.eqb_refl. eauto. }
    destruct Q as [m Em]. unfold w_prop. rewrite Em.
    specialize (My 0). unfold grw_run, grw_kernel in My. cbn [normal uniform with_draws] in My. rewrite Em in My. cbn [rbind] in My.
    assert (U : proposes (w_run k x z) y). { apply (metropolis_proposes _ x y (lp x) (lp y) (lp y - lp x) y); [|reflexivity]. intros u.
      destruct (grw_metropolis ss k f d x z) as (y1 & My1 & Ly1 & Ny1). { rnorm. now rewrite Lx. } { rnorm. congruence. }
      assert (y1 = y). { apply (nth_ext y1 y 0 0); [rnorm; congruence|]. intros i Hi. rnorm. rewrite Ny1, Ny by congruence. reflexivity. } subst y1. exact (My1 u). }
    destruct U as (u & l & Hu & U). unfold w_run, grw_run, grw_kernel in U. cbn [normal uniform with_draws] in U. rewrite Em in U. cbn [rbind] in U.
    destruct (mh_accept _ _) in U; congruence. }
  subst y. split; [exact My|]. split; [rnorm; congruence|]. intros i Hi. rnorm. rewrite Ny by (rnorm; congruence). rewrite Rmult_comm. reflexivity.
Qed.
Lemma walk_KR k k0 x : length x = n -> grw_kernel ss k x (lp x) f d = w_run k0 x (normal (split k 2 0) n) (uniform (split k 2 1)).
Proof. intros L. unfold w_run, grw_run, grw_kernel. rnorm. rewrite L. reflexivity. Qed.
Lemma walk_inv E : step_source X n w_run (back w_run) E -> inv_step X f d (grw_kernel ss) E.
Proof.
  destruct (key_exists E) as [k0 _].
  apply (affine_inv (grw_kernel ss) w_run w_prop (fun x z => lp (w_prop x z) - lp x) (fun x i => nth i x 0) (step_of ss) S0 walk_KR).
  - intros k x z Lx Lz. apply w_facts; auto.
  - intros x z i Lx Lz Hi. apply (w_facts k0); auto.
  - intros k x y z z' a b Lx Ly Lz Lz' P1 P2 A1 A2. pose proof (C16_proof ss k f d x y z z' n a b OK S0 Lx Ly Lz Lz' P1 P2 A1 A2) as Q. cbv zeta in Q.
    destruct (C16_density_proof ss k f d x y z n OK S0 Lx Lz P1) as [_ D1]. destruct (C16_density_proof ss k f d y x z' n OK S0 Ly Lz' P2) as [_ D2].
    rewrite <- D1, <- D2. change (lpx f d x) with (lp_val f x d). change (lpx f d y) with (lp_val f y d).
    set (q1 := gauss_density n (fun i => nth i x 0) (step_of ss) y) in * . set (q2 := gauss_density n (fun i => nth i y 0) (step_of ss) x) in * .
    transitivity (exp (lp_val f x d) * q1 * a * Rprod n (fun i => Rabs (step_of ss i))); [ring|]. rewrite Q. ring.
Qed.
Lemma walk_consistent : consistent n f d (grw_kernel ss).
Proof.
  intros k. revert k. intros k. apply (metro_consistent (grw_kernel ss) w_run w_prop (fun x z => lp (w_prop x z) - lp x) walk_KR).
  - intros k' x z Lx Lz. apply w_facts; auto.
  - intros x z Lx Lz. apply (w_facts k); auto.
Qed.
End Walk.

(** Langevin. *)
Section Langevin.
Variable ss : @stepsize RNum.
Hypothesis OK : mala_ok_step ss n.
Hypothesis S0 : forall i, (i < n)%nat -> step_of ss i <> 0.
Hypothesis GS : grad_shape f d n.
Definition l_prop (x z : list R) : list R := @mala_propose RNum ss x (lp_grad f x d) z.
Definition l_rr (x z : list R) : R := match @mala_ratio RNum ss f d x (l_prop x z) with Ok r => r | Raise _ => 0 end.
Definition l_run (k : key) (x z : list R) : outcome := mala_run ss k f d x z.
Lemma l_facts k x z : length x = n -> length z = n ->
  metropolis (l_run k x z) x (l_prop x z) (lp x) (lp (l_prop x z)) (l_rr x z) /\ length (l_prop x z) = n /\
  forall i, (i < n)%nat -> nth i (l_prop x z) 0 = mala_mu ss f d x i + step_of ss i * nth i z 0.
Proof.
  intros Lx Lz. destruct (mala_propose_spec ss x (lp_grad f x d) z) as [Ly Ny]. { rnorm. now rewrite Lx. } { refine (eq_trans (GS x Lx) _). symmetry. exact Lx. } { rnorm. congruence. }
  destruct (mala_metropolis ss k f d x z) as (y & r & My & Er & Ly' & Ny'). { rnorm. now rewrite Lx. } { rnorm. congruence. } { rnorm. now rewrite Lx. }
  assert (E : y = l_prop x z).
  { apply (nth_ext y (l_prop x z) 0 0); [unfold l_prop; rnorm; congruence|]. intros i Hi. unfold l_prop. rnorm. rewrite Ny, Ny' by congruence. reflexivity. }
  subst y. split; [unfold l_rr; rewrite Er; exact My|]. split; [rnorm; congruence|]. intros i Hi. unfold l_prop, mala_mu. rnorm. rewrite Ny by (rnorm; congruence). field.
Qed.
Lemma langevin_KR k k0 x : length x = n -> mala_kernel ss k x (lp x) f d = l_run k0 x (normal (split k 2 0) n) (uniform (split k 2 1)).
Proof. intros L. unfold l_run, mala_run, mala_kernel. rnorm. rewrite L. reflexivity. Qed.
Lemma langevin_inv E : step_source X n l_run (back l_run) E -> inv_step X f d (mala_kernel ss) E.
Proof.
  destruct (key_exists E) as [k0 _].
  apply (affine_inv (mala_kernel ss) l_run l_prop l_rr (mala_mu ss f d) (step_of ss) S0 langevin_KR).
  - intros k x z Lx Lz. apply l_facts; auto.
  - intros x z i Lx Lz Hi. apply (l_facts k0); auto.
  - intros k x y z z' a b Lx Ly Lz Lz' P1 P2 A1 A2. pose proof (C17_proof ss k f d x y z z' n a b OK S0 GS Lx Ly Lz Lz' P1 P2 A1 A2) as Q. cbv zeta in Q.
    destruct (C17_density_proof ss k f d x y z n OK S0 GS Lx Lz P1) as [_ D1]. destruct (C17_density_proof ss k f d y x z' n OK S0 GS Ly Lz' P2) as [_ D2].
    rewrite <- D1, <- D2. change (lpx f d x) with (lp_val f x d). change (lpx f d y) with (lp_val f y d).
    set (q1 := gauss_density n (mala_mu ss f d x) (step_of ss) y) in * . set (q2 := gauss_density n (mala_mu ss f d y) (step_of ss) x) in * .
    transitivity (exp (lp_val f x d) * q1 * a * Rprod n (fun i => Rabs (step_of ss i))); [ring|]. rewrite Q. ring.
Qed.
Lemma langevin_consistent : consistent n f d (mala_kernel ss).
Proof.
  intros k. apply (metro_consistent (mala_kernel ss) l_run l_prop l_rr langevin_KR).
  - intros k' x z Lx Lz. apply l_facts; auto.
  - intros x z Lx Lz. apply (l_facts k); auto.
Qed.
End Langevin.

(** Hamiltonian. *)
Section Hamilton.
Variables (h : @hmc RNum) (m : list (list R)).
Hypothesis HC : h_cond h = CMat m.
Hypothesis HM : square_mat m n.
Hypothesis HL : square_mat (h_chol h) n.
Hypothesis HF : factors_inverse (h_chol h) m n.
Hypothesis HD : diagonal_mat m n.
Hypothesis GS : grad_shape f d n.
Notation mom := (@hmc_momentum RNum h).
Definition h_end (x z : list R) : list R * list R := @leapfrog RNum h m f d (x, mom z).
Definition h_prop (x z : list R) : list R := fst (h_end x z).
Definition h_rr (x z : list R) : R := (- lp x + @kinetic RNum (mom z) m) - (- lp (h_prop x z) + @kinetic RNum (snd (h_end x z)) m).
Definition h_run (k : key) (x z : list R) : outcome := hmc_run h k f d x z.
Lemma mom_len z : length z = n -> length (mom z) = n. Proof. intros. now apply momentum_len. Qed.
Lemma mom_inj z1 z2 : length z1 = n -> length z2 = n -> mom z1 = mom z2 -> z1 = z2.
Proof.
  intros L1 L2 E. set (B := fun a j => Rsum n (fun k => entry (h_chol h) k a * entry m k j)).
  assert (Q : forall z, length z = n -> forall a, (a < n)%nat -> nth a z 0 = Rsum n (fun j => B a j * nth j (mom z) 0)).
  { intros z Lz a Ha. rewrite <- (mid_sum n a (fun t => nth t z 0) Ha).
    rewrite (Rsum_ext n _ (fun t => Rsum n (fun j => B a j * (nth t z 0 * entry (h_chol h) j t)))).
    - rewrite Rsum_swap. apply Rsum_ext. intros j Hj. rewrite Rsum_scal. f_equal. symmetry. exact (momentumR h z n j HL Lz Hj).
    - intros t Ht. rewrite <- (BL h m n HF a t Ha Ht). fold B. unfold mmul. rewrite Rmult_comm, <- Rsum_scal. apply Rsum_ext. intros j Hj. unfold B. ring. }
  apply (nth_ext z1 z2 0 0); [congruence|]. intros i Hi. rewrite L1 in Hi. refine (eq_trans (Q z1 L1 i Hi) _). rewrite E. symmetry. exact (Q z2 L2 i Hi).
Qed.
Lemma h_facts k x z : length x = n -> length z = n -> metropolis (h_run k x z) x (h_prop x z) (lp x) (lp (h_prop x z)) (h_rr x z).
Proof.
  intros Lx Lz. apply (hmc_metropolis h m k f d x z HC). rnorm. rewrite Lx. now apply square_iff.
Qed.
Lemma h_len x z : length x = n -> length z = n -> length (h_prop x z) = n.
Proof. intros Lx Lz. apply (hmc_reverse h m f d n x (mom z) GS Lx (mom_len z Lz)). Qed.
Lemma ham_KR k k0 x : length x = n -> hmc_kernel h k x (lp x) f d = h_run k0 x (normal (split k 2 0) n) (uniform (split k 2 1)).
Proof. intros L. unfold h_run, hmc_run, hmc_kernel. rnorm. rewrite L. reflexivity. Qed.
Lemma ham_inv E : step_source X n h_run (momentum_back h m f d) E -> inv_step X f d (hmc_kernel h) E.
Proof.
  destruct NX as [ND LX]. destruct (key_exists E) as [k0 _].
  apply (metro_step n X f d (hmc_kernel h) h_run (momentum_back h m f d) h_prop h_rr (fun x z z' => veqb (mom z') (map Ropp (snd (h_end x z)))) ND LX ham_KR h_facts).
  - intros x z z' Hx Hy Lz Lz' Q. apply veqb_iff. exact Q.
  - intros x z z' Hx Hy Lz Lz' Q. apply veqb_iff in Q. pose proof (LX x Hx) as Lx.
    destruct (hmc_reverse h m f d n x (mom z) GS Lx (mom_len z Lz)) as (Ly & Lp & RVS).
    assert (EE : h_end (h_prop x z) z' = (x, map Ropp (mom z))). { unfold h_end. rewrite Q. exact RVS. }
    split; [unfold h_prop at 1; rewrite EE; reflexivity|]. split.
    + apply veqb_iff. rewrite EE. cbn [snd]. rewrite map_map. rewrite (map_ext _ (fun a => a)) by (intros; apply Ropp_involutive). symmetry. apply map_id.
    + apply (C20_balance_draws_proof h m k0 k0 f d n x z z' _ _ HC HM HL HF HD GS Lx Lz Lz').
      * exact Q.
      * exact (metropolis_accept _ _ _ _ _ _ (h_facts k0 x z Lx Lz)).
      * exact (metropolis_accept _ _ _ _ _ _ (h_facts k0 (h_prop x z) z' Ly Lz')).
  - intros x z z1 z2 Hx Hy Lz L1 L2 Q1 Q2. apply veqb_iff in Q1, Q2. apply mom_inj; auto. exact (eq_trans Q1 (eq_sym Q2)).
Qed.
Lemma ham_consistent : consistent n f d (hmc_kernel h).
Proof. apply (metro_consistent (hmc_kernel h) h_run h_prop h_rr ham_KR h_facts h_len). Qed.
End Hamilton.
End Kern.
