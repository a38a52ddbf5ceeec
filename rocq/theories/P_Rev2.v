(** The local kernels are reversible. *)
From Coq Require Import Reals Lra Lia Permutation Classical.
From Coquelicot Require Import Coquelicot.
From Verif Require Import Prelude Num M_Core M_Kernels M_Strategies M_PT Spec_Kernels RNum Spec_Real Spec_HMC Spec_Inv Spec_InvPT P_Kernels P_Real1 P_Real2 MxR P_HMC P_Inv1 P_Inv2 P_Inv3 P_InvPT
  Spec_Erg P_Erg1 Spec_Lln P_Lln1 P_Cov1 P_Rev1.
Open Scope R_scope.

Section Flow2.
Variables (X Z : list (list R)) (prop rev : list R -> list R -> list R) (phi : list R -> list R -> R) (H : list R -> list R -> R).
Hypothesis NX : NoDup X.
Hypothesis NZ : NoDup Z.
Hypothesis inside : forall x z, In x X -> In z Z -> In (prop x z) X ->
  In (rev x z) Z /\ prop (prop x z) (rev x z) = x /\ rev (prop x z) (rev x z) = z /\ phi (prop x z) (rev x z) = phi x z.
Hypothesis outside : forall x z, In x X -> In z Z -> ~ In (prop x z) X -> phi x z = 0.
Lemma flow_sym : total X (fun x => total Z (fun z => phi x z * H x (prop x z))) = total X (fun x => total Z (fun z => phi x z * H (prop x z) x)).
Proof.
  pose proof (T_perm X Z prop rev phi (fun _ => 0) NX NZ inside) as TP.
  set (T := fun p : list R * list R => (prop (fst p) (snd p), rev (fst p) (snd p))) in TP.
  set (P := filter (fun p => mem (prop (fst p) (snd p)) X) (list_prod X Z)) in TP.
  assert (A : forall J : list R -> list R -> R, total X (fun x => total Z (fun z => phi x z * J x (prop x z))) = total P (fun p => phi (fst p) (snd p) * J (fst p) (prop (fst p) (snd p)))).
  { intros J. refine (eq_trans (eq_sym (total_prod X Z (fun p => phi (fst p) (snd p) * J (fst p) (prop (fst p) (snd p))))) _).
    rewrite (total_filter (fun p => mem (prop (fst p) (snd p)) X)); [reflexivity|].
    intros [x z] Hp E. apply in_prod_iff in Hp as [B C]. cbn [fst snd] in * . apply mem_false in E. rewrite (outside x z B C E). ring. }
  rewrite (A H), (A (fun a b => H b a)). rewrite <- (total_perm _ _ _ TP), total_map. apply total_ext. intros [x z] Hp.
  apply (P_in X Z prop rev (fun _ => 0) (x, z)) in Hp as (B & C & D). cbn [fst snd] in * . destruct (inside x z B C D) as (I1 & I2 & I3 & I4). unfold T. cbn [fst snd]. rewrite I4, I2. reflexivity.
Qed.
End Flow2.

Section Step.
Context {G : @Rng RNum}.
Variables (n : nat) (X : list (list R)) (f : @lpdf RNum) (d : @datad RNum) (kern : @skernel RNum G).
(** Self-adjoint for the target's inner product. *)
Definition self (S : (list R -> R) -> list R -> R) : Prop :=
  forall u v, total X (fun x => wt f d x * (u x * S v x)) = total X (fun x => wt f d x * (v x * S u x)).

Section Metro.
Variables (run : key -> list R -> list R -> outcome) (undoes : list R -> list R -> list R -> Prop).
Variables (prop : list R -> list R -> list R) (rr : list R -> list R -> R) (rvb : list R -> list R -> list R -> bool).
Hypothesis NX : NoDup X.
Hypothesis LX : forall x, In x X -> length x = n.
Hypothesis KR : forall k k0 x, length x = n -> kern k x (lpx f d x) f d = run k0 x (normal (split k 2 0) n) (uniform (split k 2 1)).
Hypothesis M : forall k x z, length x = n -> length z = n -> metropolis (run k x z) x (prop x z) (lpx f d x) (lpx f d (prop x z)) (rr x z).
Hypothesis RB : forall x z z', In x X -> In (prop x z) X -> length z = n -> length z' = n -> undoes x z z' -> rvb x z z' = true.
Hypothesis RV : forall x z z', In x X -> In (prop x z) X -> length z = n -> length z' = n -> rvb x z z' = true ->
  prop (prop x z) z' = x /\ rvb (prop x z) z' z = true /\
  exp (lpx f d x) * std_density n z * Rmin 1 (exp (rr x z)) = exp (lpx f d (prop x z)) * std_density n z' * Rmin 1 (exp (rr (prop x z) z')).
Hypothesis RU : forall x z z1 z2, In x X -> In (prop x z) X -> length z = n -> length z1 = n -> length z2 = n -> rvb x z z1 = true -> rvb x z z2 = true -> z1 = z2.

Lemma metro_self E : step_source X n run undoes E -> self (step_op f d kern E).
Proof.
  intros (En & Eu & Z & SP & (NZ & LZ & c & Hc & GZ) & H). destruct (key_exists E) as [k0 _].
  set (A := fun x z => ex Eu (fun k => flag_of (run k0 x z (uniform k)))).
  assert (PR : forall x z, length x = n -> length z = n -> proposes (run k0 x z) (prop x z)).
  { intros x z Lx Lz. apply (metropolis_proposes (run k0 x z) x (prop x z) (lpx f d x) (lpx f d (prop x z)) (rr x z) (prop x z) (M k0 x z Lx Lz)). reflexivity. }
  assert (AIN : forall x z, In x X -> In z Z -> In (prop x z) X -> A x z = Rmin 1 (exp (rr x z)) /\ exists z', In z' Z /\ undoes x z z').
  { intros x z Hx Hz Hy. destruct (H k0 x z (prop x z) Hx Hz (PR x z (LX x Hx) (LZ z Hz))) as [(_ & B & C)|[B _]]; [|contradiction].
    split; [|exact C]. apply B. exact (metropolis_accept _ _ _ _ _ _ (M k0 x z (LX x Hx) (LZ z Hz))). }
  assert (AOUT : forall x z, In x X -> In z Z -> ~ In (prop x z) X -> A x z = 0).
  { intros x z Hx Hz Hy. destruct (H k0 x z (prop x z) Hx Hz (PR x z (LX x Hx) (LZ z Hz))) as [[B _]|[_ B]]; [contradiction|exact B]. }
  set (rev := fun x z => match find (rvb x z) Z with Some z' => z' | None => z end).
  assert (REV : forall x z, In x X -> In z Z -> In (prop x z) X -> In (rev x z) Z /\ rvb x z (rev x z) = true).
  { intros x z Hx Hz Hy. destruct (AIN x z Hx Hz Hy) as (_ & z' & Hz' & U). apply RB in U; auto. unfold rev.
    destruct (find (rvb x z) Z) as [z1|] eqn:E1; [apply find_some in E1; exact E1|]. pose proof (find_none _ _ E1 z' Hz') as Q. rewrite U in Q. discriminate. }
  assert (FL : forall J, total X (fun x => total Z (fun z => exp (lpx f d x) * (c * std_density n z) * A x z * J x (prop x z))) =
                         total X (fun x => total Z (fun z => exp (lpx f d x) * (c * std_density n z) * A x z * J (prop x z) x))).
  { intros J. apply (flow_sym X Z prop rev (fun x z => exp (lpx f d x) * (c * std_density n z) * A x z) J NX NZ).
    - intros x z Hx Hz Hy. destruct (REV x z Hx Hz Hy) as [R1 R2]. destruct (RV x z (rev x z) Hx Hy (LZ z Hz) (LZ _ R1) R2) as (P1 & P2 & P3).
      assert (Hy' : In (prop (prop x z) (rev x z)) X) by (rewrite P1; exact Hx). split; [exact R1|]. split; [exact P1|]. split.
      + destruct (REV (prop x z) (rev x z) Hy R1 Hy') as [R3 R4]. exact (RU (prop x z) (rev x z) _ _ Hy Hy' (LZ _ R1) (LZ _ R3) (LZ z Hz) R4 P2).
      + rewrite (proj1 (AIN x z Hx Hz Hy)), (proj1 (AIN (prop x z) (rev x z) Hy R1 Hy')).
        transitivity (c * (exp (lpx f d (prop x z)) * std_density n (rev x z) * Rmin 1 (exp (rr (prop x z) (rev x z))))); [ring|]. rewrite <- P3. ring.
    - intros x z Hx Hz Hy. rewrite (AOUT x z Hx Hz Hy). ring. }
  assert (ONE : total Z (fun z => c * std_density n z) = 1).
  { rewrite <- (ex_const _ En 1). rewrite (GZ (fun _ => 1)). apply total_ext. intros; ring. }
  assert (EX : forall g x, In x X -> step_op f d kern E g x = g x + total Z (fun z => (c * std_density n z) * A x z * (g (prop x z) - g x))).
  { intros g x Hx. unfold step_op. rewrite (ex_ext _ E _ (fun k => (fun a b => after g (run k0 x (normal a n) (uniform b))) (split k 2 0) (split k 2 1))) by (intros k; rewrite (KR k k0 x (LX x Hx)); reflexivity).
    rewrite (proj1 (SP (fun a b => after g (run k0 x (normal a n) (uniform b))))).
    rewrite (GZ (fun z => ex Eu (fun b => after g (run k0 x z (uniform b))))).
    rewrite (total_ext Z _ (fun z => g x * (c * std_density n z) + 1 * ((c * std_density n z) * A x z * (g (prop x z) - g x)))).
    - rewrite total_lin, ONE. ring.
    - intros z Hz. rewrite (ex_ext _ Eu _ (fun b => g x + (g (prop x z) - g x) * flag_of (run k0 x z (uniform b)))).
      + rewrite ex_affine. fold (A x z). ring.
      + intros b. rewrite (M k0 x z (LX x Hx) (LZ z Hz) (uniform b)). destruct (Rltb _ _); cbn [after flag_of]; ring. }
  intros u v.
  assert (FORM : forall u v, total X (fun x => wt f d x * (u x * step_op f d kern E v x)) =
    total X (fun x => wt f d x * (u x * v x)) + total X (fun x => total Z (fun z => exp (lpx f d x) * (c * std_density n z) * A x z * (fun a b => u a * v b - u a * v a) x (prop x z)))).
  { intros u0 v0. rewrite <- total_plus. apply total_ext. intros x Hx. rewrite (EX v0 x Hx), !Rmult_plus_distr_l. f_equal. rewrite <- !total_scal. apply total_ext. intros; unfold wt; ring. }
  rewrite (FORM u v), (FORM v u). f_equal; [apply total_ext; intros; ring|].
  assert (SPL : forall u v, total X (fun x => total Z (fun z => exp (lpx f d x) * (c * std_density n z) * A x z * (u x * v (prop x z) - u x * v x))) =
    total X (fun x => total Z (fun z => exp (lpx f d x) * (c * std_density n z) * A x z * (fun a b => u a * v b) x (prop x z))) +
    -1 * total X (fun x => total Z (fun z => exp (lpx f d x) * (c * std_density n z) * A x z * (u x * v x)))).
  { intros u0 v0. rewrite <- total_scal, <- total_plus. apply total_ext. intros x _. rewrite <- total_scal, <- total_plus. apply total_ext. intros; ring. }
  rewrite (SPL u v), (SPL v u), (FL (fun a b => u a * v b)). f_equal.
  - apply total_ext. intros x _. apply total_ext. intros; ring.
  - f_equal. apply total_ext. intros x _. apply total_ext. intros; ring.
Qed.
End Metro.
End Step.

Section Kern.
Context {G : @Rng RNum}.
Variables (n : nat) (X : list (list R)) (f : @lpdf RNum) (d : @datad RNum).
Hypothesis NX : states X n.
Hypothesis NS : normal_shape.
Notation lp := (lpx f d).
Section Affine.
Variables (kern : @skernel RNum G) (run : key -> list R -> list R -> outcome) (prop : list R -> list R -> list R) (rr : list R -> list R -> R).
Variables (mean : list R -> nat -> R) (s : nat -> R).
Hypothesis S0 : forall i, (i < n)%nat -> s i <> 0.
Hypothesis KR : forall k k0 x, length x = n -> kern k x (lp x) f d = run k0 x (normal (split k 2 0) n) (uniform (split k 2 1)).
Hypothesis M : forall k x z, length x = n -> length z = n -> metropolis (run k x z) x (prop x z) (lp x) (lp (prop x z)) (rr x z).
Hypothesis PN : forall x z i, length x = n -> length z = n -> (i < n)%nat -> nth i (prop x z) 0 = mean x i + s i * nth i z 0.
Hypothesis BAL : forall k x y z z' a b, length x = n -> length y = n -> length z = n -> length z' = n ->
  proposes (run k x z) y -> proposes (run k y z') x -> accept_prob (run k x z) a -> accept_prob (run k y z') b ->
  exp (lp x) * std_density n z * a = exp (lp y) * std_density n z' * b.
Lemma affine_self E : step_source X n run (back run) E -> self X f d (step_op f d kern E).
Proof.
  destruct NX as [ND LX]. intros HS. destruct (key_exists E) as [k0 _]. revert HS.
  assert (PR : forall k x z, length x = n -> length z = n -> proposes (run k x z) (prop x z)).
  { intros k x z Lx Lz. apply (metropolis_proposes _ _ _ _ _ _ (prop x z) (M k x z Lx Lz)). reflexivity. }
  apply (metro_self n X f d kern run (back run) prop rr (fun x z z' => veqb (prop (prop x z) z') x) ND LX KR M).
  - intros x z z' Hx Hy Lz Lz' B. apply veqb_iff. pose proof (B k0 (prop x z) (PR k0 x z (LX x Hx) Lz)) as Q.
    symmetry. exact (proj1 (metropolis_proposes _ _ _ _ _ _ x (M k0 (prop x z) z' (LX _ Hy) Lz')) Q).
  - intros x z z' Hx Hy Lz Lz' B. apply veqb_iff in B. split; [exact B|]. split; [rewrite B; now apply veqb_iff|].
    pose proof (M k0 x z (LX x Hx) Lz) as M1. pose proof (M k0 (prop x z) z' (LX _ Hy) Lz') as M2.
    apply (BAL k0 x (prop x z) z z'); auto.
    + rewrite <- B at 2. apply PR; auto.
    + exact (metropolis_accept _ _ _ _ _ _ M1).
    + exact (metropolis_accept _ _ _ _ _ _ M2).
  - intros x z z1 z2 Hx Hy Lz L1 L2 B1 B2. apply veqb_iff in B1, B2.
    apply (nth_ext z1 z2 0 0); [congruence|]. intros i Hi. rewrite L1 in Hi.
    pose proof (PN (prop x z) z1 i (LX _ Hy) L1 Hi) as Q1. pose proof (PN (prop x z) z2 i (LX _ Hy) L2 Hi) as Q2. rewrite B1 in Q1. rewrite B2 in Q2.
    apply Rmult_eq_reg_l with (s i); [lra|auto].
Qed.
End Affine.
Lemma ideal_self kern P E : ideal_kernel X n f d kern P -> P E -> self X f d (step_op f d kern E).
Proof.
  destruct (key_exists E) as [k0 _]. intros K. destruct K as [ss OK S0|ss OK0 S0 GS|h m HC HM HL HF HD GS].
  - apply (affine_self (grw_kernel ss) (w_run f d ss) (w_prop ss) (fun x z => lp (w_prop ss x z) - lp x) (fun x i => nth i x 0) (step_of ss) S0 (walk_KR n f d ss)).
    + intros k x z Lx Lz. apply (w_facts n f d ss OK S0); auto.
    + intros x z i Lx Lz Hi. apply (w_facts n f d ss OK S0 k0); auto.
    + intros k x y z z' a b Lx Ly Lz Lz' P1 P2 A1 A2. pose proof (C16_proof ss k f d x y z z' n a b OK S0 Lx Ly Lz Lz' P1 P2 A1 A2) as Q. cbv zeta in Q.
      destruct (C16_density_proof ss k f d x y z n OK S0 Lx Lz P1) as [_ D1]. destruct (C16_density_proof ss k f d y x z' n OK S0 Ly Lz' P2) as [_ D2].
      rewrite <- D1, <- D2. change (lpx f d x) with (lp_val f x d). change (lpx f d y) with (lp_val f y d).
      set (q1 := gauss_density n (fun i => nth i x 0) (step_of ss) y) in * . set (q2 := gauss_density n (fun i => nth i y 0) (step_of ss) x) in * .
      transitivity (exp (lp_val f x d) * q1 * a * Rprod n (fun i => Rabs (step_of ss i))); [ring|]. rewrite Q. ring.
  - assert (OK : mala_ok_step ss n) by (destruct ss; exact OK0).
    apply (affine_self (mala_kernel ss) (l_run f d ss) (l_prop f d ss) (l_rr f d ss) (mala_mu ss f d) (step_of ss) S0 (langevin_KR n f d ss)).
    + intros k x z Lx Lz. apply (l_facts n f d ss OK GS); auto.
    + intros x z i Lx Lz Hi. apply (l_facts n f d ss OK GS k0); auto.
    + intros k x y z z' a b Lx Ly Lz Lz' P1 P2 A1 A2. pose proof (C17_proof ss k f d x y z z' n a b OK S0 GS Lx Ly Lz Lz' P1 P2 A1 A2) as Q. cbv zeta in Q.
      destruct (C17_density_proof ss k f d x y z n OK S0 GS Lx Lz P1) as [_ D1]. destruct (C17_density_proof ss k f d y x z' n OK S0 GS Ly Lz' P2) as [_ D2].
      rewrite <- D1, <- D2. change (lpx f d x) with (lp_val f x d). change (lpx f d y) with (lp_val f y d).
      set (q1 := gauss_density n (mala_mu ss f d x) (step_of ss) y) in * . set (q2 := gauss_density n (mala_mu ss f d y) (step_of ss) x) in * .
      transitivity (exp (lp_val f x d) * q1 * a * Rprod n (fun i => Rabs (step_of ss i))); [ring|]. rewrite Q. ring.
  - destruct NX as [ND LX]. set (mom := @hmc_momentum RNum h).
    apply (metro_self n X f d (hmc_kernel h) (h_run f d h) (momentum_back h m f d) (h_prop f d h m) (h_rr f d h m) (fun x z z' => veqb (mom z') (map Ropp (snd (h_end f d h m x z)))) ND LX (ham_KR n f d h) (h_facts n f d h m HC HM)).
    + intros x z z' Hx Hy Lz Lz' Q. apply veqb_iff. exact Q.
    + intros x z z' Hx Hy Lz Lz' Q. apply veqb_iff in Q. pose proof (LX x Hx) as Lx.
      destruct (hmc_reverse h m f d n x (mom z) GS Lx (mom_len n h HL z Lz)) as (Ly & Lp & RVS).
      assert (EE : h_end f d h m (h_prop f d h m x z) z' = (x, map Ropp (mom z))). { unfold h_end. change (@hmc_momentum RNum h z') with (mom z'). rewrite Q. exact RVS. }
      split; [unfold h_prop at 1; rewrite EE; reflexivity|]. split.
      * apply veqb_iff. rewrite EE. cbn [snd]. rewrite map_map. rewrite (map_ext _ (fun a => a)) by (intros; apply Ropp_involutive). symmetry. apply map_id.
      * apply (C20_balance_draws_proof h m k0 k0 f d n x z z' _ _ HC HM HL HF HD GS Lx Lz Lz').
        -- exact Q.
        -- exact (metropolis_accept _ _ _ _ _ _ (h_facts n f d h m HC HM k0 x z Lx Lz)).
        -- exact (metropolis_accept _ _ _ _ _ _ (h_facts n f d h m HC HM k0 (h_prop f d h m x z) z' Ly Lz')).
    + intros x z z1 z2 Hx Hy Lz L1 L2 Q1 Q2. apply veqb_iff in Q1, Q2. apply (mom_inj n h m HL HF z1 z2 L1 L2). exact (eq_trans Q1 (eq_sym Q2)).
Qed.
End Kern.
