(** Contraction towards the target's mean. *)
From Coq Require Import Reals Lra Lia Permutation Classical.
From Coquelicot Require Import Coquelicot.
From Verif Require Import Prelude Num M_Core M_Kernels M_Strategies P_Lists Spec_Kernels RNum Spec_Real Spec_Inv P_Kernels P_Real1 P_Real2 P_Inv1 P_Inv2 P_Inv3 P_Inv4 P_Inv5 Spec_Erg.
From Verif Require P_Flow4.
Open Scope R_scope.

Lemma total_le {A} (l : list A) h h' : (forall a, In a l -> h a <= h' a) -> total l h <= total l h'.
Proof. induction l as [|a l IH]; intros H; cbn; [lra|]. pose proof (H a (or_introl eq_refl)). assert (total l h <= total l h') by (apply IH; intros; apply H; now right). unfold total in * . lra. Qed.
Lemma total_pos {A} (l : list A) h : (forall a, In a l -> 0 < h a) -> l <> [] -> 0 < total l h.
Proof.
  intros H N. destruct l as [|a l]; [contradiction|]. pose proof (H a (or_introl eq_refl)). cbn.
  assert (0 <= total l h). { replace 0 with (total l (fun _ => 0)) by (now apply total_0). apply total_le. intros b Hb. apply Rlt_le, H. now right. }
  unfold total in * . lra.
Qed.
Lemma total_sub (X Y : list (list R)) h : NoDup X -> NoDup Y -> (forall x, In x X -> In x Y) -> (forall y, In y Y -> ~ In y X -> h y = 0) -> total Y h = total X h.
Proof.
  intros NX NY XY H. rewrite (total_filter (fun y => mem y X) Y h).
  - apply total_perm, NoDup_Permutation; [now apply NoDup_filter|exact NX|]. intros x. rewrite filter_In, mem_true. split; [tauto|]. auto.
  - intros y Hy M. apply mem_false in M. auto.
Qed.

Section Contract.
Variables (X : list (list R)) (w : list R -> R).
Hypothesis NE : X <> [].
Hypothesis WP : forall x, In x X -> 0 < w x.
Notation mean := (target_mean X w).
Lemma tot_pos : 0 < total X w. Proof. now apply total_pos. Qed.
Lemma mean_range g lo hi : ranges X g lo hi -> lo <= mean g <= hi.
Proof.
  intros H. pose proof tot_pos as T. unfold target_mean, expected_under. split.
  - apply (Rmult_le_reg_r (total X w) _ _ T). replace (total X (fun x => w x * g x) / total X w * total X w) with (total X (fun x => w x * g x)) by (field; lra).
    rewrite <- total_scal. apply total_le. intros x Hx. rewrite Rmult_comm. apply Rmult_le_compat_l; [apply Rlt_le; auto|apply (H x Hx)].
  - apply (Rmult_le_reg_r (total X w) _ _ T). replace (total X (fun x => w x * g x) / total X w * total X w) with (total X (fun x => w x * g x)) by (field; lra).
    rewrite <- total_scal. apply total_le. intros x Hx. rewrite (Rmult_comm hi). apply Rmult_le_compat_l; [apply Rlt_le; auto|apply (H x Hx)].
Qed.
Definition contracts (rho : R) (S : (list R -> R) -> list R -> R) : Prop :=
  forall g lo hi, ranges X g lo hi -> exists c, forall x, In x X -> c <= S g x <= c + rho * (hi - lo).
Lemma contracts_ext rho S S' : (forall g x, In x X -> S g x = S' g x) -> contracts rho S -> contracts rho S'.
Proof. intros H C g lo hi B. destruct (C g lo hi B) as (c & Hc). exists c. intros x Hx. rewrite <- (H g x Hx). now apply Hc. Qed.
Lemma contracts_comp r1 r2 S1 S2 : contracts r1 S1 -> contracts r2 S2 -> contracts (r1 * r2) (fun g => S1 (S2 g)).
Proof.
  intros C1 C2 g lo hi B. destruct (C2 g lo hi B) as (c & Hc). destruct (C1 (S2 g) c (c + r2 * (hi - lo)) Hc) as (c' & H). exists c'. intros x Hx. pose proof (H x Hx). 
  replace (r1 * r2 * (hi - lo)) with (r1 * (c + r2 * (hi - lo) - c)) by ring. exact H0.
Qed.
Lemma contracts_range S : (forall g lo hi, ranges X g lo hi -> ranges X (S g) lo hi) -> contracts 1 S.
Proof. intros H g lo hi B. exists lo. intros x Hx. pose proof (H g lo hi B x Hx). lra. Qed.
Lemma contracts_id : contracts 1 (fun g => g).
Proof. apply contracts_range. auto. Qed.
Lemma converge rho S g lo hi : contracts rho S -> expected_under X w (S g) = expected_under X w g -> ranges X g lo hi -> forall x, In x X -> Rabs (S g x - mean g) <= rho * (hi - lo).
Proof.
  intros C I B x Hx. destruct (C g lo hi B) as (c & Hc). assert (M : c <= mean (S g) <= c + rho * (hi - lo)) by (apply mean_range; exact Hc).
  assert (E : mean (S g) = mean g) by (unfold target_mean; now rewrite I). rewrite E in M. pose proof (Hc x Hx). apply Rabs_le. lra.
Qed.
End Contract.

(** A Metropolis step stays between the extremes. *)
Section Metro.
Context {G : @Rng RNum}.
Variables (n : nat) (X : list (list R)) (f : @lpdf RNum) (d : @datad RNum) (kern : @skernel RNum G).
Variables (run : key -> list R -> list R -> outcome) (undoes : list R -> list R -> list R -> Prop).
Variables (prop : list R -> list R -> list R) (rr : list R -> list R -> R).
Hypothesis LX : forall x, In x X -> length x = n.
Hypothesis KR : forall k k0 x, length x = n -> kern k x (lpx f d x) f d = run k0 x (normal (split k 2 0) n) (uniform (split k 2 1)).
Hypothesis M : forall k x z, length x = n -> length z = n -> metropolis (run k x z) x (prop x z) (lpx f d x) (lpx f d (prop x z)) (rr x z).
Definition step_op (E : expect key) (g : list R -> R) (x : list R) : R := ex E (fun k => after g (kern k x (lpx f d x) f d)).
Lemma metro_range E : step_source X n run undoes E -> forall g lo hi, ranges X g lo hi -> ranges X (step_op E g) lo hi.
Proof.
  intros (En & Eu & Z & SP & (NZ & LZ & c & Hc & GZ) & H) g lo hi B x Hx. destruct (key_exists E) as [k0 _]. unfold step_op.
  set (A := fun x z => ex Eu (fun k => flag_of (run k0 x z (uniform k)))).
  assert (PR : forall z, length z = n -> proposes (run k0 x z) (prop x z)).
  { intros z Lz. apply (metropolis_proposes (run k0 x z) x (prop x z) (lpx f d x) (lpx f d (prop x z)) (rr x z) (prop x z) (M k0 x z (LX x Hx) Lz)). reflexivity. }
  assert (AB : forall z, In z Z -> lo <= g x + A x z * (g (prop x z) - g x) <= hi).
  { intros z Hz. pose proof (B x Hx) as Bx. destruct (H k0 x z (prop x z) Hx Hz (PR z (LZ z Hz))) as [(Hy & Q & _)|(_ & Q)].
    - pose proof (B _ Hy) as By. pose proof (Q _ (metropolis_accept _ _ _ _ _ _ (M k0 x z (LX x Hx) (LZ z Hz)))) as QA. fold (A x z) in QA. rewrite QA.
      assert (0 <= Rmin 1 (exp (rr x z)) <= 1). { split; [apply Rmin_glb; [lra|apply Rlt_le, exp_pos]|apply Rmin_l]. } set (t := Rmin 1 (exp (rr x z))) in * . split; nra.
    - unfold never_accepts in Q. fold (A x z) in Q. rewrite Q. lra. }
  assert (ONE : total Z (fun z => c * std_density n z) = 1).
  { rewrite <- (ex_const _ En 1). rewrite (GZ (fun _ => 1)). apply total_ext. intros; ring. }
  assert (EX : ex E (fun k => after g (kern k x (lpx f d x) f d)) = total Z (fun z => (c * std_density n z) * (g x + A x z * (g (prop x z) - g x)))).
  { rewrite (ex_ext _ E _ (fun k => (fun a b => after g (run k0 x (normal a n) (uniform b))) (split k 2 0) (split k 2 1))) by (intros k; rewrite (KR k k0 x (LX x Hx)); reflexivity).
    rewrite (proj1 (SP (fun a b => after g (run k0 x (normal a n) (uniform b))))).
    rewrite (GZ (fun z => ex Eu (fun b => after g (run k0 x z (uniform b))))). apply total_ext. intros z Hz. f_equal.
    rewrite (ex_ext _ Eu _ (fun b => g x + (g (prop x z) - g x) * flag_of (run k0 x z (uniform b)))).
    - rewrite ex_affine. fold (A x z). ring.
    - intros b. rewrite (M k0 x z (LX x Hx) (LZ z Hz) (uniform b)). destruct (Rltb _ _); cbn [after flag_of]; ring. }
  rewrite EX. assert (D0 : forall z, In z Z -> 0 <= c * std_density n z). { intros z Hz. apply Rmult_le_pos; [lra|]. apply Rlt_le, P_Flow4.std_density_pos. }
  assert (El : lo = total Z (fun z => lo * (c * std_density n z))) by (rewrite total_scal, ONE; ring). assert (Eh : hi = total Z (fun z => hi * (c * std_density n z))) by (rewrite total_scal, ONE; ring).
  split; [rewrite El|rewrite Eh]; apply total_le; intros z Hz; rewrite (Rmult_comm _ (c * std_density n z)); apply Rmult_le_compat_l; auto; apply (AB z Hz).
Qed.

(** Chains of steps contract with the product of the factors. *)
Hypothesis CO : consistent n f d kern.
Lemma chain_contracts (P : expect key -> Prop) rho : (forall E, P E -> contracts X rho (step_op E)) -> forall m j E, (j < m)%nat -> key_chain P m E ->
  contracts X (rho ^ (j + 1)) (fun g x => ex E (fun k => at_step j g (serial_scan kern f d m k x (lpx f d x)))).
Proof.
  intros HP m. induction m as [|m IH]; intros j E Hj; [lia|]. intros (E0 & E1 & SP & P1 & C). pose proof (HP E1 P1) as I1. destruct j as [|j].
  - cbn [Nat.add]. rewrite pow_1. apply (contracts_ext X rho (step_op E1)); [|exact I1]. intros g x Hx. unfold step_op. symmetry.
    rewrite (ex_ext _ E _ (fun k => (fun _ b => after g (kern b x (lpx f d x) f d)) (split k 2 0) (split k 2 1))).
    + rewrite (proj1 (SP (fun _ b => after g (kern b x (lpx f d x) f d)))), (proj2 (SP (fun _ b => after g (kern b x (lpx f d x) f d)))). apply ex_ext. intros b. apply ex_const.
    + intros k. cbn [serial_scan]. destruct (CO (split k 2 1) x (LX x Hx)) as (y & b & E' & Ly). rewrite E'. cbn [rbind].
      destruct (scan_ok n f d kern CO m (split k 2 0) y Ly) as (l & -> & _). reflexivity.
  - set (S2 := fun g y => ex E0 (fun a => at_step j g (serial_scan kern f d m a y (lpx f d y)))).
    replace (rho ^ (S j + 1)) with (rho * rho ^ (j + 1)) by reflexivity.
    apply (contracts_ext X _ (fun g => step_op E1 (S2 g))).
    + intros g x Hx. symmetry.
      set (H := fun a b => match kern b x (lpx f d x) f d with Ok (y, _, _) => at_step j g (serial_scan kern f d m a y (lpx f d y)) | Raise _ => 0 end).
      rewrite (ex_ext _ E _ (fun k => H (split k 2 0) (split k 2 1))).
      * rewrite (proj1 (SP H)), (proj2 (SP H)). apply ex_ext. intros b. unfold H. destruct (CO b x (LX x Hx)) as (y & b' & -> & Ly). reflexivity.
      * intros k. cbn [serial_scan]. unfold H. destruct (CO (split k 2 1) x (LX x Hx)) as (y & b & E' & Ly). rewrite E'. cbn [rbind].
        destruct (scan_ok n f d kern CO m (split k 2 0) y Ly) as (l & -> & _). reflexivity.
    + apply contracts_comp; [exact I1|]. apply IH; [lia|exact C].
Qed.
End Metro.
