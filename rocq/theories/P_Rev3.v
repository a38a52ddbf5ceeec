(** Calls of the samplers read the same backwards. *)
From Coq Require Import Reals Lra Lia Permutation.
From Verif Require Import Prelude Num M_Core M_Kernels M_Strategies M_PT P_Lists Spec_Kernels RNum Spec_Real Spec_HMC Spec_Inv Spec_InvPT P_Kernels P_Real1 P_Inv1 P_Inv2 P_Inv3 P_Inv4 P_Inv5 P_InvPT
  Spec_Erg P_Erg1 P_Erg2 P_Erg4 Spec_Lln P_Lln1 Spec_Rate P_Rate Spec_Cov P_Cov1 P_Cov2 P_Cov3 Spec_Warm P_Warm P_Rev1 P_Rev2 Spec_Rev.
Open Scope R_scope.

Section Local.
Context {G : @Rng RNum}.
Variables (X : list (list R)) (n : nat) (f : @lpdf RNum) (d : @datad RNum) (kern : @skernel RNum G) (P : expect key -> Prop) (E1 : expect key).
Hypothesis NS : normal_shape.
Hypothesis SX : states X n.
Hypothesis K : ideal_kernel X n f d kern P.
Hypothesis PE1 : P E1.
Notation op := (step_op f d kern E1).
Definition kl (x y : list R) : R := op (delta y) x.
Let CO : consistent n f d kern := proj1 (ideal_facts d X n kern NS SX f P K).
Lemma op_lin a g b h x : In x X -> op (fun y => a * g y + b * h y) x = a * op g x + b * op h x.
Proof. intros Hx. unfold step_op. rewrite <- ex_lin. apply ex_ext. intros k. destruct (CO k x (proj2 SX x Hx)) as (y & b' & -> & _). reflexivity. Qed.
Lemma op_loc g h x : In x X -> (forall y, In y X -> g y = h y) -> op g x = op h x.
Proof.
  intros Hx H. assert (A : ranges X (fun y => 1 * g y + -1 * h y) 0 0) by (intros y Hy; rewrite (H y Hy); lra).
  pose proof (ideal_range X n f d kern P SX K E1 PE1 _ 0 0 A x Hx) as B. rewrite op_lin in B by exact Hx. lra.
Qed.
Lemma op_kl g x : In x X -> op g x = Tk X kl g x.
Proof. exact (op_matrix X op (proj1 SX) op_lin op_loc g x). Qed.
Lemma kl_nn x y : In x X -> In y X -> 0 <= kl x y.
Proof. intros Hx Hy. apply (ideal_range X n f d kern P SX K E1 PE1 (delta y) 0 1); [|exact Hx]. intros z _. unfold delta. destruct (veq_dec z y); lra. Qed.
Lemma kl_one x : In x X -> total X (kl x) = 1.
Proof.
  intros Hx. assert (R1 : ranges X (fun _ => 1) 1 1) by (intros y _; lra). pose proof (ideal_range X n f d kern P SX K E1 PE1 _ 1 1 R1 x Hx) as B.
  rewrite op_kl in B by exact Hx. unfold Tk in B. rewrite (total_ext X _ (kl x)) in B by (intros; ring). lra.
Qed.
Lemma kl_bal x y : In x X -> In y X -> wt f d x * kl x y = wt f d y * kl y x.
Proof. exact (op_balance X op (proj1 SX) (wt f d) (ideal_self n X f d SX kern P E1 K PE1) x y). Qed.
Lemma serial_path m : forall F E x, key_chain (same_law E1) m E -> In x X -> ex E (fun k => F (visited (serial_scan kern f d m k x (lpx f d x)))) = PE X kl m F x.
Proof.
  induction m as [|m IH]; intros F E x.
  - intros _ _. cbn [serial_scan visited map PE]. apply ex_const.
  - intros (E0 & E1' & SP & SL & C) Hx. cbn [PE]. 
    set (J := fun a b => match kern b x (lpx f d x) f d with Ok (y, _, _) => F (y :: visited (serial_scan kern f d m a y (lpx f d y))) | Raise _ => 0 end).
    transitivity (op (fun y => ex E0 (fun a => F (y :: visited (serial_scan kern f d m a y (lpx f d y))))) x).
    + rewrite (ex_ext _ E _ (fun k => J (split k 2 0) (split k 2 1))).
      * rewrite (proj1 (SP J)), (proj2 (SP J)), SL. apply ex_ext. intros b. unfold J. destruct (CO b x (proj2 SX x Hx)) as (y & b' & -> & Ly). reflexivity.
      * intros k. cbn [serial_scan]. unfold J. destruct (CO (split k 2 1) x (proj2 SX x Hx)) as (y & b & E' & Ly). rewrite E'. cbn [rbind].
        destruct (scan_ok n f d kern CO m (split k 2 0) y Ly) as (l & -> & _). reflexivity.
    + rewrite op_kl by exact Hx. unfold Tk. apply total_ext. intros y Hy. f_equal. exact (IH (fun l => F (y :: l)) E0 y C Hy).
Qed.
Lemma local_backward m F E : key_chain (same_law E1) m E ->
  expected_under X (density f d) (fun x => ex E (fun k => F (x :: visited (serial_sample kern f d m k x)))) =
  expected_under X (density f d) (fun x => ex E (fun k => F (rev (x :: visited (serial_sample kern f d m k x))))).
Proof.
  intros C. refine (eq_trans _ (eq_trans (backward X (wt f d) kl kl_bal m F) _)).
  - apply total_ext. intros x Hx. f_equal. exact (serial_path m (fun l => F (x :: l)) E x C Hx).
  - apply total_ext. intros x Hx. f_equal. symmetry. exact (serial_path m (fun l => F (rev (x :: l))) E x C Hx).
Qed.
Hypothesis NE : X <> [].
Lemma pr_bal x y : In x X -> In y X -> target_prob X f d x * kl x y = target_prob X f d y * kl y x.
Proof.
  intros Hx Hy. pose proof (kl_bal x y Hx Hy) as B. unfold target_prob, Rdiv. change (density f d) with (wt f d). set (s := / total X (wt f d)).
  transitivity (s * (wt f d x * kl x y)); [ring|]. rewrite B. ring.
Qed.
Lemma local_cov m i j g E : (i <= j)%nat -> (j < m)%nat -> key_chain (same_law E1) m E ->
  local_autocov X kern f d m i j g E = lagk X (target_prob X f d) kl (fun x => g x - target_mean X (density f d) g) (j - i).
Proof.
  intros Hi Hj C. rewrite <- (PE_cov X (target_prob X f d) kl kl_one pr_bal (fun x => g x - target_mean X (density f d) g) m i j Hi Hj).
  unfold local_autocov. apply total_ext. intros x Hx. f_equal. exact (serial_path m (fun l => (g (nth i l []) - _) * (g (nth j l []) - _)) E x C Hx).
Qed.
Lemma pr_nn' x : In x X -> 0 <= target_prob X f d x.
Proof. intros _. apply pr_nn, NE. Qed.
Lemma local_even m i k g E : (i + (k + k) < m)%nat -> key_chain (same_law E1) m E -> 0 <= local_autocov X kern f d m i (i + (k + k)) g E.
Proof.
  intros H C. rewrite local_cov by (auto; lia). replace (i + (k + k) - i)%nat with (k + k)%nat by lia. exact (lagk_even X (target_prob X f d) kl pr_bal pr_nn' _ k).
Qed.
Lemma local_even_down m i k g E : (i + (S k + S k) < m)%nat -> key_chain (same_law E1) m E ->
  local_autocov X kern f d m i (i + (S k + S k)) g E <= local_autocov X kern f d m i (i + (k + k)) g E.
Proof.
  intros H C. rewrite !local_cov by (auto; lia). replace (i + (k + k) - i)%nat with (k + k)%nat by lia. replace (i + (S k + S k) - i)%nat with (S k + S k)%nat by lia.
  exact (lagk_down X (target_prob X f d) kl kl_nn kl_one pr_bal pr_nn' _ k).
Qed.
End Local.

Section Global.
Context {G : @Rng RNum} {NF : @NFOps RNum G}.
Variables (p : @nfp RNum G NF) (X Y : list (list R)) (f : @lpdf RNum) (d : @datad RNum) (q : list R -> R) (a : R) (dim n : nat) (E Ea Ed : expect key).
Hypothesis HS : samples_shape (nfp_model p) dim.
Hypothesis HB : (0 < nfp_bs p)%nat.
Hypothesis IG : ignores_n_steps f.
Hypothesis NX : NoDup X.
Hypothesis NY : NoDup Y.
Hypothesis XY : forall x, In x X -> In x Y.
Hypothesis NE : X <> [].
Hypothesis A0 : 0 < a.
Hypothesis HQ : forall y, q y = a * exp (m_logp (nfp_model p) y).
Hypothesis SP : splits2 E Ea Ed.
Hypothesis CA : key_chain (flow_tests X Y (density f d) q) n Ea.
Hypothesis FD : flow_source (nfp_model p) Y q (nfp_bs p) n Ed.
Notation m := (nfp_model p).
Notation qq := (P_Inv4.q m a).
Notation pr := (target_prob X f d).
Notation TT := (T X qq (ac m f d)).
Definition kg (x y : list R) : R := TT (delta y) x.
Lemma T_lin' b g c h x : TT (fun y => b * g y + c * h y) x = b * TT g x + c * TT h x.
Proof.
  unfold T. rewrite (total_ext X _ (fun y => b * (qq y * ac m f d x y * (g y - g x)) + c * (qq y * ac m f d x y * (h y - h x)))) by (intros; ring). rewrite total_lin. ring.
Qed.
Lemma T_kg g x : In x X -> TT g x = Tk X kg g x.
Proof.
  exact (op_matrix X TT NX (fun b g c h x _ => T_lin' b g c h x) (fun g h x Hx H => T_ext X qq (ac m f d) g h H x Hx) g x).
Qed.
Lemma kg_pr x y : In x X -> In y X -> pr x * kg x y = pr y * kg y x.
Proof.
  apply (op_balance X TT NX pr). intros u v. pose proof (T_self X pr qq (ac m f d) (fun x y Hx Hy => bal m X f d a A0 NE x y Hx Hy) u v) as Q. unfold B in Q.
  refine (eq_trans Q _). apply total_ext. intros; ring.
Qed.
Lemma kg_bal x y : In x X -> In y X -> density f d x * kg x y = density f d y * kg y x.
Proof.
  intros Hx Hy. pose proof (kg_pr x y Hx Hy) as B. pose proof (wsum_pos X f d NE) as W0. unfold target_prob in B.
  apply (Rmult_eq_reg_l (/ total X (density f d))); [|apply Rinv_neq_0_compat; lra]. unfold Rdiv in B. 
  transitivity (density f d x * / total X (density f d) * kg x y); [ring|]. rewrite B. ring.
Qed.
Lemma scan_PE k : forall F E' x, key_chain (src m X Y f d a) k E' -> In x X -> scan_path m Y f d a k E' F x = PE X kg k F x.
Proof.
  induction k as [|k IH]; intros F E' x.
  - intros _ _. unfold scan_path. cbn [iid PE]. exact (ex_const _ E' (F [])).
  - intros (E0 & E1 & S2 & S1 & C) Hx. rewrite (scan_path_S m Y f d a k E' E0 E1 F x S2).
    rewrite (flow_op_T m X Y f d a A0 (Q1 p Y q a n Ed HB HQ FD) NX NY XY E1 _ x S1 Hx), T_kg by exact Hx. cbn [PE]. unfold Tk. apply total_ext. intros y Hy. f_equal.
    exact (IH (fun l => F (y :: l)) E0 y C Hy).
Qed.
Lemma global_backward F :
  expected_under X (density f d) (fun x => ex E (fun k => F (x :: visited (group_sample p f d n k x)))) =
  expected_under X (density f d) (fun x => ex E (fun k => F (rev (x :: visited (group_sample p f d n k x))))).
Proof.
  pose proof (CA' p X Y f d q a n Ea HQ CA) as C.
  assert (L : forall H x, In x X -> ex E (fun k => H (visited (group_sample p f d n k x))) = PE X kg n H x).
  { intros H x Hx. rewrite (group_path p Y f d q a dim n E Ea Ed HS HB IG HQ SP FD H x). now apply scan_PE. }
  refine (eq_trans _ (eq_trans (backward X (density f d) kg kg_bal n F) _)).
  - apply total_ext. intros x Hx. f_equal. exact (L (fun l => F (x :: l)) x Hx).
  - apply total_ext. intros x Hx. f_equal. symmetry. exact (L (fun l => F (rev (x :: l))) x Hx).
Qed.
End Global.
