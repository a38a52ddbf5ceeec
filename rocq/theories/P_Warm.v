(** Distance to the target along chains. *)
From Coq Require Import Reals Lra Lia Permutation Classical.
From Verif Require Import Prelude Num M_Core M_Kernels M_Strategies M_Bundle P_Lists Spec_Kernels Spec_Train Spec_Bundle Spec_Prog RNum Spec_Real Spec_HMC Spec_Inv Spec_InvPT
  P_Kernels P_Real1 P_Real2 P_Inv1 P_Inv2 P_Inv3 P_InvPT P_Inv4 P_Inv5 P_Inv6 P_Inv7 Spec_Erg P_Erg1 P_Erg2 P_Erg3 P_Erg4 P_Lln1 Spec_Warm.
Open Scope R_scope.

Section Warm.
Variables (X : list (list R)) (w : list R -> R).
Hypothesis NE : X <> [].
Hypothesis WP : forall x, In x X -> 0 < w x.
(** An observable and an affine image of it. *)
Lemma mean_affine a b g : target_mean X w (fun x => a + b * g x) = a + b * target_mean X w g.
Proof.
  unfold target_mean, expected_under. rewrite (total_ext X _ (fun x => a * w x + b * (w x * g x))) by (intros; ring). rewrite total_lin. field.
  apply Rgt_not_eq, (tot_pos X w NE WP).
Qed.
Lemma mean_ext g h : (forall x, In x X -> g x = h x) -> target_mean X w g = target_mean X w h.
Proof. intros H. unfold target_mean, expected_under. f_equal. apply total_ext. intros x Hx. now rewrite H. Qed.
(** Composition with an operator that contracts and keeps the target. *)
Lemma off_op rho S (law : (list R -> R) -> R) delta : 0 <= rho ->
  (forall g h, (forall x, In x X -> g x = h x) -> law g = law h) ->
  (forall a b g, law (fun x => a + b * g x) = a + b * law g) ->
  contracts X rho S -> (forall g, expected_under X w (S g) = expected_under X w g) ->
  off_by X w delta law -> off_by X w (rho * delta) (fun g => law (S g)).
Proof.
  intros R0 LE LA C I O g Hg. destruct (C g 0 1 Hg) as (c & Hc). rewrite Rminus_0_r, Rmult_1_r in Hc.
  assert (MI : target_mean X w (S g) = target_mean X w g) by (unfold target_mean; now rewrite I). rewrite <- MI.
  destruct (Req_dec rho 0) as [->|N].
  - assert (K : forall x, In x X -> S g x = c + 0 * 0) by (intros x Hx; pose proof (Hc x Hx); lra).
    rewrite (LE _ _ K), (mean_ext _ _ K). rewrite (LA c 0 (fun _ => 0)), (mean_affine c 0 (fun _ => 0)). replace (c + 0 * law (fun _ => 0) - (c + 0 * target_mean X w (fun _ => 0))) with 0 by ring. rewrite Rabs_R0. lra.
  - set (h := fun x => (S g x - c) / rho). assert (Rp : 0 < rho) by lra.
    assert (K : forall x, In x X -> S g x = c + rho * h x) by (intros x _; unfold h; field; lra).
    assert (Hh : ranges X h 0 1).
    { intros x Hx. pose proof (Hc x Hx) as B. unfold h. split; apply (Rmult_le_reg_r rho); try exact Rp; replace ((S g x - c) / rho * rho) with (S g x - c) by (field; lra); lra. }
    rewrite (LE _ _ K), (mean_ext _ _ K), LA, mean_affine. replace (c + rho * law h - (c + rho * target_mean X w h)) with (rho * (law h - target_mean X w h)) by ring.
    rewrite Rabs_mult, (Rabs_pos_eq rho) by lra. apply Rmult_le_compat_l; [lra|]. now apply O.
Qed.
Lemma nu_ext nu g h : (forall x, In x X -> g x = h x) -> expected_under X nu g = expected_under X nu h.
Proof. intros H. apply total_ext. intros x Hx. now rewrite H. Qed.
Lemma nu_affine nu a b g : total X nu = 1 -> expected_under X nu (fun x => a + b * g x) = a + b * expected_under X nu g.
Proof. intros N. unfold expected_under. rewrite (total_ext X _ (fun x => a * nu x + b * (nu x * g x))) by (intros; ring). rewrite total_lin, N. ring. Qed.
Lemma off_start rho S nu delta : 0 <= rho -> total X nu = 1 -> contracts X rho S -> (forall g, expected_under X w (S g) = expected_under X w g) ->
  off_by X w delta (expected_under X nu) -> off_by X w (rho * delta) (fun g => expected_under X nu (S g)).
Proof. intros R0 N C I O. apply (off_op rho S (expected_under X nu) delta R0); auto using nu_ext, nu_affine. Qed.
End Warm.

(** The last step of a chain of Metropolis kernel steps. *)
Section Metro.
Context {G : @Rng RNum}.
Variables (n : nat) (X : list (list R)) (f : @lpdf RNum) (d : @datad RNum) (kern : @skernel RNum G).
Hypothesis LX : forall x, In x X -> length x = n.
Hypothesis CO : consistent n f d kern.
Notation op := (step_op f d kern).
Definition val (m j : nat) (E : expect key) (g : list R -> R) (x : list R) : R := ex E (fun k => at_step j g (serial_scan kern f d m k x (lpx f d x))).
Lemma val_0 m E E0 E1 g x : splits2 E E0 E1 -> length x = n -> val (S m) 0 E g x = op E1 g x.
Proof.
  intros SP Lx. unfold step_op, val.
  rewrite (ex_ext _ E _ (fun k => (fun _ b => after g (kern b x (lpx f d x) f d)) (split k 2 0) (split k 2 1))).
  - rewrite (proj1 (SP (fun _ b => after g (kern b x (lpx f d x) f d)))), (proj2 (SP (fun _ b => after g (kern b x (lpx f d x) f d)))). apply ex_ext. intros b. apply ex_const.
  - intros k. cbn [serial_scan]. destruct (CO (split k 2 1) x Lx) as (y & b & E' & Ly). rewrite E'. cbn [rbind].
    destruct (scan_ok n f d kern CO m (split k 2 0) y Ly) as (l & -> & _). reflexivity.
Qed.
Lemma val_S m j E E0 E1 g x : splits2 E E0 E1 -> length x = n -> val (S m) (S j) E g x = op E1 (val m j E0 g) x.
Proof.
  intros SP Lx. unfold step_op, val.
  set (H := fun a b => match kern b x (lpx f d x) f d with Ok (y, _, _) => at_step j g (serial_scan kern f d m a y (lpx f d y)) | Raise _ => 0 end).
  rewrite (ex_ext _ E _ (fun k => H (split k 2 0) (split k 2 1))).
  - rewrite (proj1 (SP H)), (proj2 (SP H)). apply ex_ext. intros b. unfold H. destruct (CO b x Lx) as (y & b' & -> & Ly). reflexivity.
  - intros k. cbn [serial_scan]. unfold H. destruct (CO (split k 2 1) x Lx) as (y & b & E' & Ly). rewrite E'. cbn [rbind].
    destruct (scan_ok n f d kern CO m (split k 2 0) y Ly) as (l & -> & _). reflexivity.
Qed.
(** [op] looks at lists of the right length only. *)
Lemma op_ext E g h x : length x = n -> (forall y, length y = n -> g y = h y) -> op E g x = op E h x.
Proof. intros Lx H. apply ex_ext. intros k. destruct (CO k x Lx) as (y & b & -> & Ly). cbn [after]. now apply H. Qed.
Lemma last_step (P : expect key -> Prop) m : forall j E, (S j < m)%nat -> key_chain P m E ->
  exists E', P E' /\ forall g x, length x = n -> val m (S j) E g x = val m j E (op E' g) x.
Proof.
  induction m as [|m IH]; intros j E Hj; [lia|]. intros (E0 & E1 & SP & P1 & C). destruct j as [|j].
  - destruct m as [|m]; [lia|]. destruct C as (E00 & E01 & SP' & P1' & C'). exists E01. split; [exact P1'|]. intros g x Lx.
    rewrite (val_S (S m) 0 E E0 E1 g x SP Lx), (val_0 (S m) E E0 E1 _ x SP Lx). apply op_ext; [exact Lx|]. intros y Ly. exact (val_0 m E0 E00 E01 g y SP' Ly).
  - destruct (IH j E0 ltac:(lia) C) as (E' & PE & H). exists E'. split; [exact PE|]. intros g x Lx.
    rewrite (val_S m (S j) E E0 E1 g x SP Lx), (val_S m j E E0 E1 _ x SP Lx). apply op_ext; [exact Lx|]. intros y Ly. exact (H g y Ly).
Qed.
End Metro.

Section Ideal.
Context {G : @Rng RNum}.
Variables (X : list (list R)) (n : nat) (f : @lpdf RNum) (d : @datad RNum) (kern : @skernel RNum G) (P : expect key -> Prop).
Hypothesis NS : normal_shape.
Hypothesis SX : states X n.
Hypothesis NE : X <> [].
Hypothesis K : ideal_kernel X n f d kern P.
Lemma ideal_range E : P E -> forall g lo hi, ranges X g lo hi -> ranges X (step_op f d kern E g) lo hi.
Proof.
  destruct SX as [ND LX]. destruct K as [ss A B|ss A B C|h M A B C D E' F].
  - exact (metro_range n X f d (grw_kernel ss) _ _ (w_prop ss) _ LX (fun k k0 x Lx => walk_KR n f d ss k k0 x Lx) (fun k x z Lx Lz => proj1 (w_facts n f d ss A B k x z Lx Lz)) E).
  - assert (MO : mala_ok_step ss n) by (destruct ss; exact A).
    exact (metro_range n X f d (mala_kernel ss) _ _ (l_prop f d ss) (l_rr f d ss) LX (fun k k0 x Lx => langevin_KR n f d ss k k0 x Lx) (fun k x z Lx Lz => proj1 (l_facts n f d ss MO C k x z Lx Lz)) E).
  - exact (metro_range n X f d (hmc_kernel h) _ _ (h_prop f d h M) (h_rr f d h M) LX (fun k k0 x Lx => ham_KR n f d h k k0 x Lx) (fun k x z Lx Lz => h_facts n f d h M A B k x z Lx Lz) E).
Qed.
Notation W := (density f d).
Lemma wp x : In x X -> 0 < W x. Proof. intros _. apply exp_pos. Qed.
Lemma kernel_first nu delta m E : total X nu = 1 -> (0 < m)%nat -> key_chain P m E -> off_by X W delta (expected_under X nu) ->
  off_by X W delta (fun g => expected_under X nu (fun x => ex E (fun k => at_step 0 g (serial_sample kern f d m k x)))).
Proof.
  intros N Hm KC O. destruct m as [|m]; [lia|]. destruct KC as (E0 & E1 & SP & P1 & C). destruct (ideal_facts d X n kern NS SX f P K) as [CO IV].
  pose proof (off_start X W NE wp 1 (step_op f d kern E1) nu delta ltac:(lra) N (contracts_range X _ (ideal_range E1 P1)) (IV E1 P1) O) as H. rewrite Rmult_1_l in H.
  intros g Hg. specialize (H g Hg). cbv beta in H. rewrite (nu_ext X nu (step_op f d kern E1 g) (fun x => ex E (fun k => at_step 0 g (serial_sample kern f d (S m) k x)))) in H; [exact H|].
  intros x Hx. symmetry. exact (val_0 n f d kern CO m E E0 E1 g x SP (proj2 SX x Hx)).
Qed.
Lemma kernel_next nu delta m j E : total X nu = 1 -> (S j < m)%nat -> key_chain P m E ->
  off_by X W delta (fun g => expected_under X nu (fun x => ex E (fun k => at_step j g (serial_sample kern f d m k x)))) ->
  off_by X W delta (fun g => expected_under X nu (fun x => ex E (fun k => at_step (S j) g (serial_sample kern f d m k x)))).
Proof.
  intros N Hj KC O. destruct (ideal_facts d X n kern NS SX f P K) as [CO IV].
  destruct (last_step n f d kern CO P m j E Hj KC) as (E' & PE & H).
  intros g Hg. assert (Q := O (step_op f d kern E' g) (ideal_range E' PE g 0 1 Hg)). 
  assert (MI : target_mean X W (step_op f d kern E' g) = target_mean X W g) by (unfold target_mean; f_equal; exact (IV E' PE g)). rewrite MI in Q.
  rewrite (nu_ext X nu _ (fun x => ex E (fun k => at_step j (step_op f d kern E' g) (serial_sample kern f d m k x)))); [exact Q|].
  intros x Hx. exact (H g x (proj2 SX x Hx)).
Qed.
End Ideal.

(** Flow steps. *)
Section Flow.
Context {G : @Rng RNum} {NF : @NFOps RNum G}.
Variables (m : mdl) (X Y : list (list R)) (f : @lpdf RNum) (d : @datad RNum) (c : R).
Hypothesis C0 : 0 < c.
Notation qq := (P_Inv4.q m c).
Hypothesis Q1 : total Y qq = 1.
Notation sop := (scan_op m Y f d c).
Notation fop := (flow_op m Y f d c).
Lemma sop_0 n E E0 E1 g x : splits2 E E0 E1 -> sop (S n) 0 E g x = fop E1 g x.
Proof.
  intros SP. unfold scan_op, flow_op. cbn [iid]. apply total_ext. intros y Hy. f_equal.
  rewrite (iid_ext _ _ _ _ (fun _ => ex E1 (fun b => g (P_Inv4.mv m f d b x y)))); [now apply iid_const|]. intros props _.
  rewrite (ex_ext _ E _ (fun k => (fun _ b => g (P_Inv4.mv m f d b x y)) (split k 2 0) (split k 2 1))) by (intros k; rewrite scan_cons; reflexivity).
  rewrite (proj1 (SP (fun _ b => g (P_Inv4.mv m f d b x y)))). apply ex_const.
Qed.
Lemma sop_S n j E E0 E1 g x : splits2 E E0 E1 -> sop (S n) (S j) E g x = fop E1 (sop n j E0 g) x.
Proof.
  intros SP. unfold flow_op, scan_op. cbn [iid]. apply total_ext. intros y Hy. f_equal.
  rewrite <- iid_ex. apply iid_ext. intros props _.
  set (H := fun a b => at_step j g (Ok (scan m f d a (P_Inv4.mv m f d b x y) props))).
  rewrite (ex_ext _ E _ (fun k => H (split k 2 0) (split k 2 1))) by (intros k; rewrite scan_cons; reflexivity).
  rewrite (proj1 (SP H)), (proj2 (SP H)). reflexivity.
Qed.
Lemma fop_ext E g h x : (forall y, g y = h y) -> fop E g x = fop E h x.
Proof. intros H. apply total_ext. intros y _. f_equal. apply ex_ext. intros b. apply H. Qed.
Lemma sop_last (P : expect key -> Prop) n : forall j E, (S j < n)%nat -> key_chain P n E ->
  exists E', P E' /\ forall g x, sop n (S j) E g x = sop n j E (fop E' g) x.
Proof.
  induction n as [|n IH]; intros j E Hj; [lia|]. intros (E0 & E1 & SP & P1 & C). destruct j as [|j].
  - destruct n as [|n]; [lia|]. destruct C as (E00 & E01 & SP' & P1' & C'). exists E01. split; [exact P1'|]. intros g x.
    rewrite (sop_S (S n) 0 E E0 E1 g x SP), (sop_0 (S n) E E0 E1 _ x SP). apply fop_ext. intros y. exact (sop_0 n E0 E00 E01 g y SP').
  - destruct (IH j E0 ltac:(lia) C) as (E' & PE & H). exists E'. split; [exact PE|]. intros g x.
    rewrite (sop_S n (S j) E E0 E1 g x SP), (sop_S n j E E0 E1 _ x SP). apply fop_ext. intros y. exact (H g y).
Qed.
Lemma sop_first (P : expect key -> Prop) n E : (0 < n)%nat -> key_chain P n E -> exists E', P E' /\ forall g x, sop n 0 E g x = fop E' g x.
Proof. intros Hn C. destruct n as [|n]; [lia|]. destruct C as (E0 & E1 & SP & P1 & _). exists E1. split; [exact P1|]. intros g x. exact (sop_0 n E E0 E1 g x SP). Qed.
Lemma fop_affine E a b g x : fop E (fun y => a + b * g y) x = a + b * fop E g x.
Proof.
  unfold flow_op. rewrite (total_ext Y _ (fun y => a * qq y + b * (qq y * ex E (fun t => g (P_Inv4.mv m f d t x y))))).
  - rewrite total_lin, Q1. ring.
  - intros y _. rewrite (ex_affine E a b). ring.
Qed.
Lemma sop_affine n : forall j E P a b g x, (j < n)%nat -> key_chain P n E -> sop n j E (fun y => a + b * g y) x = a + b * sop n j E g x.
Proof.
  induction n as [|n IH]; intros j E P a b g x Hj; [lia|]. intros (E0 & E1 & SP & P1 & C). destruct j as [|j].
  - rewrite !(sop_0 n E E0 E1 _ x SP). apply fop_affine.
  - rewrite !(sop_S n j E E0 E1 _ x SP). rewrite <- fop_affine. apply fop_ext. intros y. apply (IH j E0 P); auto. lia.
Qed.
End Flow.

Section Group.
Context {G : @Rng RNum} {NF : @NFOps RNum G}.
Variables (p : @nfp RNum G NF) (X Y : list (list R)) (f : @lpdf RNum) (d : @datad RNum) (q : list R -> R) (a W : R) (dim n : nat) (E Ea Ed : expect key).
Hypothesis HS : samples_shape (nfp_model p) dim.
Hypothesis HB : (0 < nfp_bs p)%nat.
Hypothesis IG : ignores_n_steps f.
Hypothesis NX : NoDup X.
Hypothesis NY : NoDup Y.
Hypothesis XY : forall x, In x X -> In x Y.
Hypothesis NE : X <> [].
Hypothesis A0 : 0 < a.
Hypothesis HQ : forall y, q y = a * exp (m_logp (nfp_model p) y).
Hypothesis SP : splits2 E Ea Ed.
Hypothesis CA : key_chain (flow_tests X Y (density f d) q) n Ea.
Hypothesis FD : flow_source (nfp_model p) Y q (nfp_bs p) n Ed.
Hypothesis CV : covers X (density f d) q W.
Notation qq := (P_Inv4.q (nfp_model p) a).
Notation sop := (scan_op (nfp_model p) Y f d a).
Notation fop := (flow_op (nfp_model p) Y f d a).
Lemma eqq y : qq y = q y. Proof. symmetry. apply HQ. Qed.
Lemma fd : flow_source (nfp_model p) Y qq (nfp_bs p) n Ed.
Proof.
  destruct FD as [D1 D2]. split.
  - intros s Hs h. etransitivity; [exact (D1 s Hs h)|]. symmetry. apply iid_qeq, eqq.
  - revert D2. apply chain_imp. intros E' H s Hs h. etransitivity; [exact (H s Hs h)|]. symmetry. apply iid_qeq, eqq.
Qed.
Lemma ca : key_chain (src (nfp_model p) X Y f d a) n Ea.
Proof. revert CA. apply chain_imp. intros E' H x' y Hx' Hy. specialize (H x' y Hx' Hy). cbv zeta in * . rewrite !eqq. exact H. Qed.
Lemma q1 : total Y qq = 1.
Proof. exact (source_one _ _ _ _ _ _ HB fd). Qed.
Lemma cv : covers X (wt f d) qq W. Proof. intros x Hx. rewrite eqq. exact (CV x Hx). Qed.
Lemma group_sop j g x : ex E (fun k => at_step j g (group_sample p f d n k x)) = sop n j Ea g x.
Proof.
  unfold scan_op. set (H := fun b1 b2 => at_step j g (Ok (scan (nfp_model p) f d b1 x (props_of p b2 n)))).
  rewrite (ex_ext _ E _ (fun k => H (split k 2 0) (split k 2 1))).
  - rewrite (proj1 (SP H)), (proj2 (SP H)). exact (flow_draws (nfp_model p) Y qq q1 p n Ed (fun props => ex Ea (fun b1 => at_step j g (Ok (scan (nfp_model p) f d b1 x props)))) eq_refl HB fd).
  - intros k. unfold H. destruct (group_is p f d dim HS HB IG n k x) as (props & -> & _ & ->). reflexivity.
Qed.
Lemma w1 : 1 <= W.
Proof. apply (covers_one X Y (density f d) qq W); auto using q1. - intros; apply exp_pos. - intros; apply Rmult_lt_0_compat; [exact A0|apply exp_pos]. - exact cv. Qed.
Lemma rho_nn : 0 <= 1 - 1 / W.
Proof. pose proof w1. assert (1 / W <= 1); [|lra]. apply (Rmult_le_reg_r W); [lra|]. replace (1 / W * W) with 1 by (field; lra). lra. Qed.
Lemma fop_con E' : src (nfp_model p) X Y f d a E' -> contracts X (1 - 1 / W) (fop E').
Proof. intros H. exact (flow_op_contracts (nfp_model p) X Y f d a W A0 q1 NE NX NY XY cv E' H). Qed.
Lemma fop_inv E' g : src (nfp_model p) X Y f d a E' -> expected_under X (density f d) (fop E' g) = expected_under X (density f d) g.
Proof. intros H. exact (one_step (nfp_model p) X Y f d a A0 q1 NX NY XY E' g H). Qed.
Lemma fop_in E' g h x : src (nfp_model p) X Y f d a E' -> (forall y, In y X -> g y = h y) -> In x X -> fop E' g x = fop E' h x.
Proof.
  intros S1 H Hx. assert (RG : ranges X (fun y => g y - h y) 0 0) by (intros y Hy; rewrite (H y Hy); lra).
  pose proof (flow_op_range (nfp_model p) X Y f d a A0 q1 E' S1 _ 0 0 RG x Hx) as Q. rewrite (flow_op_minus (nfp_model p) Y f d a) in Q. lra.
Qed.
Lemma sop_in n0 : forall j E' g h, (j < n0)%nat -> key_chain (src (nfp_model p) X Y f d a) n0 E' -> (forall y, In y X -> g y = h y) -> forall x, In x X -> sop n0 j E' g x = sop n0 j E' h x.
Proof.
  induction n0 as [|n0 IH]; intros j E' g h Hj; [lia|]. intros (E0 & E1 & SP' & S1 & C) H x Hx. destruct j as [|j].
  - rewrite !(sop_0 (nfp_model p) Y f d a q1 n0 E' E0 E1 _ x SP'). now apply fop_in.
  - rewrite !(sop_S (nfp_model p) Y f d a n0 j E' E0 E1 _ x SP'). apply fop_in; auto. intros y Hy. apply (IH j E0); auto. lia.
Qed.
Lemma flow_first nu delta : total X nu = 1 -> (0 < n)%nat -> off_by X (density f d) delta (expected_under X nu) ->
  off_by X (density f d) ((1 - 1 / W) * delta) (fun g => expected_under X nu (fun x => ex E (fun k => at_step 0 g (group_sample p f d n k x)))).
Proof.
  intros N Hn O. destruct (sop_first (nfp_model p) Y f d a q1 (src (nfp_model p) X Y f d a) n Ea Hn ca) as (E1 & S1 & H1).
  pose proof (off_start X (density f d) NE (fun x _ => exp_pos _) _ (fop E1) nu delta rho_nn N (fop_con E1 S1) (fun g => fop_inv E1 g S1) O) as H.
  intros g Hg. specialize (H g Hg). cbv beta in H. rewrite (nu_ext X nu (fop E1 g) (fun x => ex E (fun k => at_step 0 g (group_sample p f d n k x)))) in H; [exact H|].
  intros x Hx. rewrite group_sop. symmetry. apply H1.
Qed.
Lemma flow_next nu delta j : total X nu = 1 -> (S j < n)%nat ->
  off_by X (density f d) delta (fun g => expected_under X nu (fun x => ex E (fun k => at_step j g (group_sample p f d n k x)))) ->
  off_by X (density f d) ((1 - 1 / W) * delta) (fun g => expected_under X nu (fun x => ex E (fun k => at_step (S j) g (group_sample p f d n k x)))).
Proof.
  intros N Hj O. destruct (sop_last (nfp_model p) Y f d a q1 (src (nfp_model p) X Y f d a) n j Ea Hj ca) as (E' & PE & H).
  assert (O' : off_by X (density f d) delta (fun g => expected_under X nu (sop n j Ea g))).
  { intros g Hg. specialize (O g Hg). cbv beta in O. rewrite (nu_ext X nu _ (sop n j Ea g)) in O by (intros x _; apply group_sop). exact O. }
  pose proof (scan_contracts (nfp_model p) X Y f d a W A0 q1 NE NX NY XY cv n j Ea ltac:(lia) ca) as SC.
  pose proof (off_op X (density f d) NE (fun x _ => exp_pos _) _ (fop E') (fun g => expected_under X nu (sop n j Ea g)) delta rho_nn) as Q.
  assert (Q2 : off_by X (density f d) ((1 - 1 / W) * delta) (fun g => expected_under X nu (sop n j Ea (fop E' g)))).
  { apply Q; auto using fop_con, fop_inv.
    - intros g h Hgh. apply nu_ext. intros x Hx. apply (sop_in n j Ea g h); auto; [lia|exact ca].
    - intros b0 b1 g. rewrite (nu_ext X nu _ (fun x => b0 + b1 * sop n j Ea g x)) by (intros x _; apply (sop_affine (nfp_model p) Y f d a q1 n j Ea (src (nfp_model p) X Y f d a)); [lia|exact ca]). now apply nu_affine. }
  intros g Hg. specialize (Q2 g Hg). cbv beta in Q2. rewrite (nu_ext X nu _ (sop n j Ea (fop E' g))); [exact Q2|]. intros x _. rewrite group_sop. apply H.
Qed.
End Group.
