(** One Metropolis step, and chains of steps, leave the target's expectations unchanged. *)
From Coq Require Import Reals Lra Lia Permutation Classical.
From Coquelicot Require Import Coquelicot.
From Verif Require Import Prelude Num M_Core M_Kernels M_Strategies Spec_Kernels RNum Spec_Real Spec_Inv P_Real1 P_Inv1.
Open Scope R_scope.

Definition after (g : list R -> R) (r : res (list R * R * bool)) : R := match r with Ok (y, _, _) => g y | Raise _ => 0 end.

Section Step.
Context {G : @Rng RNum}.
Variables (n : nat) (X : list (list R)) (f : @lpdf RNum) (d : @datad RNum) (kern : @skernel RNum G).
Definition lpx (x : list R) : R := @lp_val RNum f x d.
Definition wt (x : list R) : R := exp (lpx x).
Definition inv_step (E : expect key) : Prop :=
  forall g, expected_under X wt (fun x => ex E (fun k => after g (kern k x (lpx x) f d))) = expected_under X wt g.

Lemma key_exists (E : expect key) : exists k : key, True.
Proof.
  destruct (classic (exists k : key, True)) as [H|H]; [exact H|exfalso].
  assert (A : ex E (fun _ => 1) = ex E (fun _ => 0)). { apply ex_ext. intros k. exfalso. apply H. now exists k. }
  rewrite !ex_const in A. lra.
Qed.

Section Metro.
Variables (run : key -> list R -> list R -> outcome) (undoes : list R -> list R -> list R -> Prop).
Variables (prop : list R -> list R -> list R) (rr : list R -> list R -> R) (rvb : list R -> list R -> list R -> bool).
Hypothesis NX : NoDup X.
Hypothesis LX : forall x, In x X -> length x = n.
Hypothesis KR : forall k k0 x, length x = n -> kern k x (lpx x) f d = run k0 x (normal (split k 2 0) n) (uniform (split k 2 1)).
Hypothesis M : forall k x z, length x = n -> length z = n -> metropolis (run k x z) x (prop x z) (lpx x) (lpx (prop x z)) (rr x z).
Hypothesis RB : forall x z z', In x X -> In (prop x z) X -> length z = n -> length z' = n -> undoes x z z' -> rvb x z z' = true.
Hypothesis RV : forall x z z', In x X -> In (prop x z) X -> length z = n -> length z' = n -> rvb x z z' = true ->
  prop (prop x z) z' = x /\ rvb (prop x z) z' z = true /\
  exp (lpx x) * std_density n z * Rmin 1 (exp (rr x z)) = exp (lpx (prop x z)) * std_density n z' * Rmin 1 (exp (rr (prop x z) z')).
Hypothesis RU : forall x z z1 z2, In x X -> In (prop x z) X -> length z = n -> length z1 = n -> length z2 = n -> rvb x z z1 = true -> rvb x z z2 = true -> z1 = z2.

Lemma metro_step E : step_source X n run undoes E -> inv_step E.
Proof.
  intros (En & Eu & Z & SP & (NZ & LZ & c & Hc & GZ) & H) g. destruct (key_exists E) as [k0 _].
  set (A := fun x z => ex Eu (fun k => flag_of (run k0 x z (uniform k)))).
  assert (PR : forall x z, length x = n -> length z = n -> proposes (run k0 x z) (prop x z)).
  { intros x z Lx Lz. apply (metropolis_proposes (run k0 x z) x (prop x z) (lpx x) (lpx (prop x z)) (rr x z) (prop x z) (M k0 x z Lx Lz)). reflexivity. }
  assert (AIN : forall x z, In x X -> In z Z -> In (prop x z) X -> A x z = Rmin 1 (exp (rr x z)) /\ exists z', In z' Z /\ undoes x z z').
  { intros x z Hx Hz Hy. destruct (H k0 x z (prop x z) Hx Hz (PR x z (LX x Hx) (LZ z Hz))) as [(_ & B & C)|[B _]]; [|contradiction].
    split; [|exact C]. apply B. exact (metropolis_accept _ _ _ _ _ _ (M k0 x z (LX x Hx) (LZ z Hz))). }
  assert (AOUT : forall x z, In x X -> In z Z -> ~ In (prop x z) X -> A x z = 0).
  { intros x z Hx Hz Hy. destruct (H k0 x z (prop x z) Hx Hz (PR x z (LX x Hx) (LZ z Hz))) as [[B _]|[_ B]]; [contradiction|exact B]. }
  set (rev := fun x z => match find (rvb x z) Z with Some z' => z' | None => z end).
  assert (REV : forall x z, In x X -> In z Z -> In (prop x z) X -> In (rev x z) Z /\ rvb x z (rev x z) = true).
  { intros x z Hx Hz Hy. destruct (AIN x z Hx Hz Hy) as (_ & z' & Hz' & U). apply RB in U; auto. unfold rev.
    destruct (find (rvb x z) Z) as [z1|] eqn:E1; [apply find_some in E1; exact E1|]. pose proof (find_none _ _ E1 z' Hz') as Q. rewrite U in Q. discriminate. }
  assert (FL : total X (fun x => total Z (fun z => exp (lpx x) * (c * std_density n z) * A x z * (g (prop x z) - g x))) = 0).
  { apply (flow_cancels X Z prop rev (fun x z => exp (lpx x) * (c * std_density n z) * A x z) g NX NZ).
    - intros x z Hx Hz Hy. destruct (REV x z Hx Hz Hy) as [R1 R2]. destruct (RV x z (rev x z) Hx Hy (LZ z Hz) (LZ _ R1) R2) as (P1 & P2 & P3).
      assert (Hy' : In (prop (prop x z) (rev x z)) X) by (rewrite P1; exact Hx). split; [exact R1|]. split; [exact P1|]. split.
      + destruct (REV (prop x z) (rev x z) Hy R1 Hy') as [R3 R4]. exact (RU (prop x z) (rev x z) _ _ Hy Hy' (LZ _ R1) (LZ _ R3) (LZ z Hz) R4 P2).
      + rewrite (proj1 (AIN x z Hx Hz Hy)), (proj1 (AIN (prop x z) (rev x z) Hy R1 Hy')).
        transitivity (c * (exp (lpx (prop x z)) * std_density n (rev x z) * Rmin 1 (exp (rr (prop x z) (rev x z))))); [ring|]. rewrite <- P3. ring.
    - intros x z Hx Hz Hy. rewrite (AOUT x z Hx Hz Hy). ring. }
  assert (ONE : total Z (fun z => c * std_density n z) = 1).
  { rewrite <- (ex_const _ En 1). rewrite (GZ (fun _ => 1)). apply total_ext. intros; ring. }
  assert (EX : forall x, In x X -> ex E (fun k => after g (kern k x (lpx x) f d)) = g x + total Z (fun z => (c * std_density n z) * A x z * (g (prop x z) - g x))).
  { intros x Hx. rewrite (ex_ext _ E _ (fun k => (fun a b => after g (run k0 x (normal a n) (uniform b))) (split k 2 0) (split k 2 1))) by (intros k; rewrite (KR k k0 x (LX x Hx)); reflexivity).
    rewrite (proj1 (SP (fun a b => after g (run k0 x (normal a n) (uniform b))))).
    rewrite (GZ (fun z => ex Eu (fun b => after g (run k0 x z (uniform b))))).
    rewrite (total_ext Z _ (fun z => g x * (c * std_density n z) + 1 * ((c * std_density n z) * A x z * (g (prop x z) - g x)))).
    - rewrite total_lin, ONE. ring.
    - intros z Hz. rewrite (ex_ext _ Eu _ (fun b => g x + (g (prop x z) - g x) * flag_of (run k0 x z (uniform b)))).
      + rewrite ex_affine. fold (A x z). ring.
      + intros b. rewrite (M k0 x z (LX x Hx) (LZ z Hz) (uniform b)). destruct (Rltb _ _); cbn [after flag_of]; ring. }
  unfold expected_under. rewrite (total_ext X _ (fun x => wt x * g x + total Z (fun z => exp (lpx x) * (c * std_density n z) * A x z * (g (prop x z) - g x)))).
  - rewrite total_plus, FL. lra.
  - intros x Hx. rewrite (EX x Hx). unfold wt. rewrite Rmult_plus_distr_l. f_equal. rewrite <- total_scal. apply total_ext. intros; ring.
Qed.
End Metro.

(** A chain of steps. *)
Definition consistent : Prop := forall k x, length x = n -> exists y b, kern k x (lpx x) f d = Ok (y, lpx y, b) /\ length y = n.
Hypothesis LX : forall x, In x X -> length x = n.
Hypothesis CO : consistent.
Lemma scan_ok m : forall k x, length x = n -> exists l, serial_scan kern f d m k x (lpx x) = Ok l /\ length l = m.
Proof.
  induction m as [|m IH]; intros k x L; [exists []; auto|]. cbn [serial_scan]. destruct (CO (split k 2 1) x L) as (y & b & -> & Ly). cbn [rbind].
  destruct (IH (split k 2 0) y Ly) as (l & -> & Hl). cbn [rbind]. eexists. split; [reflexivity|]. cbn [length]. f_equal. exact Hl.
Qed.
Lemma chain_inv (P : expect key -> Prop) : (forall E, P E -> inv_step E) -> forall m j g E, (j < m)%nat -> key_chain P m E ->
  expected_under X wt (fun x => ex E (fun k => at_step j g (serial_scan kern f d m k x (lpx x)))) = expected_under X wt g.
Proof.
  intros HP m. induction m as [|m IH]; intros j g E Hj; [lia|]. intros (E0 & E1 & SP & P1 & C). pose proof (HP E1 P1) as I1. destruct j as [|j].
  - rewrite <- (I1 g). unfold expected_under. apply total_ext. intros x Hx. f_equal.
    rewrite (ex_ext _ E _ (fun k => (fun _ b => after g (kern b x (lpx x) f d)) (split k 2 0) (split k 2 1))).
    + rewrite (proj1 (SP (fun _ b => after g (kern b x (lpx x) f d)))), (proj2 (SP (fun _ b => after g (kern b x (lpx x) f d)))). apply ex_ext. intros b. apply ex_const.
    + intros k. cbn [serial_scan]. destruct (CO (split k 2 1) x (LX x Hx)) as (y & b & E' & Ly). rewrite E'. cbn [rbind].
      destruct (scan_ok m (split k 2 0) y Ly) as (l & -> & _). reflexivity.
  - set (gj := fun y => ex E0 (fun a => at_step j g (serial_scan kern f d m a y (lpx y)))).
    rewrite <- (IH j g E0) by (auto; lia). fold gj. change (expected_under X wt (fun x => ex E0 (fun k => at_step j g (serial_scan kern f d m k x (lpx x))))) with (expected_under X wt gj).
    rewrite <- (I1 gj). unfold expected_under. apply total_ext. intros x Hx. f_equal.
    set (H := fun a b => match kern b x (lpx x) f d with Ok (y, _, _) => at_step j g (serial_scan kern f d m a y (lpx y)) | Raise _ => 0 end).
    rewrite (ex_ext _ E _ (fun k => H (split k 2 0) (split k 2 1))).
    + rewrite (proj1 (SP H)), (proj2 (SP H)). apply ex_ext. intros b. unfold H. destruct (CO b x (LX x Hx)) as (y & b' & -> & Ly). reflexivity.
    + intros k. cbn [serial_scan]. unfold H. destruct (CO (split k 2 1) x (LX x Hx)) as (y & b & E' & Ly). rewrite E'. cbn [rbind].
      destruct (scan_ok m (split k 2 0) y Ly) as (l & -> & _). reflexivity.
Qed.
End Step.
