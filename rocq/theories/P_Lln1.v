(** Averages along a chain: positivity of path expectations. *)
From Coq Require Import Reals Lra Lia Permutation Classical.
From Verif Require Import Prelude Num M_Core M_Kernels M_Strategies P_Lists Spec_Kernels RNum Spec_Real Spec_Inv P_Kernels P_Real1 P_Real2 P_Inv1 P_Inv2 P_Inv3 P_Inv4 P_Inv5 Spec_Erg P_Erg1 P_Erg2 P_Erg4 Spec_Lln.
Open Scope R_scope.



Lemma pos_outs j r : pos j r = nth j (visited r) [].
Proof.
  destruct r as [l|e]; cbn [pos visited]; [|now destruct j]. revert j. induction l as [|[[x v] b] l IH]; intros [|j]; cbn; try reflexivity. apply IH.
Qed.

Definition in_path (X : list (list R)) (m : nat) (l : list (list R)) : Prop := length l = m /\ forall x, In x l -> In x X.
(** A functional on paths of [m] states that only looks at paths inside [X] and respects order. *)
Definition xmono (X : list (list R)) (m : nat) (K : (list (list R) -> R) -> R) : Prop :=
  forall F H, (forall l, in_path X m l -> F l <= H l) -> K F <= K H.
Lemma xmono_ext X m K K' : (forall F, K F = K' F) -> xmono X m K -> xmono X m K'.
Proof. intros E M F H Q. rewrite <- !E. now apply M. Qed.
Lemma in_path_cons X m x l : In x X -> in_path X m l -> in_path X (S m) (x :: l).
Proof. intros Hx (L & Q). split; [cbn; now rewrite L|]. intros y [<-|Hy]; auto. Qed.
Lemma ex_minus {T} (E : expect T) f g : ex E (fun t => f t - g t) = ex E f - ex E g.
Proof. rewrite (ex_ext _ E _ (fun t => 1 * f t + (-1) * g t)) by (intros; ring). rewrite ex_lin. ring. Qed.

(** One-step operators that keep ranges respect order. *)
Lemma op_mono (X : list (list R)) (S : (list R -> R) -> list R -> R) x g h :
  X <> [] -> (forall a b, S (fun y => a y - b y) x = S a x - S b x) -> (forall g lo hi, ranges X g lo hi -> ranges X (S g) lo hi) -> In x X ->
  (forall y, In y X -> g y <= h y) -> S g x <= S h x.
Proof.
  intros NE L Rg Hx H.
  assert (B : exists hi, ranges X (fun y => h y - g y) 0 hi).
  { exists (total X (fun y => h y - g y)). intros y Hy. pose proof (H y Hy). split; [lra|].
    apply (total_term X (fun y => h y - g y) y); [|exact Hy]. intros b Hb. pose proof (H b Hb). lra. }
  destruct B as (hi & B). pose proof (Rg _ _ _ B x Hx) as Q. rewrite L in Q. lra.
Qed.

(** Serial chains. *)
Section Serial.
Context {G : @Rng RNum}.
Variables (n : nat) (X : list (list R)) (f : @lpdf RNum) (d : @datad RNum) (kern : @skernel RNum G).
Hypothesis NE : X <> [].
Hypothesis LX : forall x, In x X -> length x = n.
Hypothesis CO : consistent n f d kern.
Lemma serial_mono (P : expect key -> Prop) : (forall E, P E -> forall g lo hi, ranges X g lo hi -> ranges X (step_op f d kern E g) lo hi) ->
  forall m E, key_chain P m E -> forall x, In x X -> xmono X m (fun F => ex E (fun k => F (visited (serial_scan kern f d m k x (lpx f d x))))).
Proof.
  intros HP m. induction m as [|m IH]; intros E.
  - intros _ x Hx F H Q. cbn [serial_scan visited map]. rewrite !ex_const. apply Q. split; [reflexivity|intros y []].
  - intros (E0 & E1 & SP & P1 & C) x Hx F H Q.
    assert (EQ : forall F, ex E (fun k => F (visited (serial_scan kern f d (S m) k x (lpx f d x)))) =
      step_op f d kern E1 (fun y => ex E0 (fun a => F (y :: visited (serial_scan kern f d m a y (lpx f d y))))) x).
    { intros F0. unfold step_op.
      set (J := fun a b => match kern b x (lpx f d x) f d with Ok (y, _, _) => F0 (y :: visited (serial_scan kern f d m a y (lpx f d y))) | Raise _ => 0 end).
      rewrite (ex_ext _ E _ (fun k => J (split k 2 0) (split k 2 1))).
      - rewrite (proj1 (SP J)), (proj2 (SP J)). apply ex_ext. intros b. unfold J. destruct (CO b x (LX x Hx)) as (y & b' & -> & Ly). reflexivity.
      - intros k. cbn [serial_scan]. unfold J. destruct (CO (split k 2 1) x (LX x Hx)) as (y & b & E' & Ly). rewrite E'. cbn [rbind].
        destruct (scan_ok n f d kern CO m (split k 2 0) y Ly) as (l & -> & _). reflexivity. }
    rewrite !EQ. apply (op_mono X (step_op f d kern E1) x _ _ NE); auto.
    + intros a b. unfold step_op. rewrite <- ex_minus. apply ex_ext. intros k. destruct (CO k x (LX x Hx)) as (y & b' & -> & _). reflexivity.
    + intros y Hy. apply (IH E0 C y Hy (fun l => F (y :: l)) (fun l => H (y :: l))). intros l Hl. apply Q. now apply in_path_cons.
Qed.
End Serial.

(** Flow chains. *)
Section Flow.
Context {G : @Rng RNum} {NF : @NFOps RNum G}.
Variables (m : mdl) (X Y : list (list R)) (f : @lpdf RNum) (d : @datad RNum) (c W : R).
Hypothesis C0 : 0 < c.
Notation q := (q m c).
Hypothesis Q1 : total Y q = 1.
Hypothesis NE : X <> [].
Hypothesis NX : NoDup X.
Hypothesis NY : NoDup Y.
Hypothesis XY : forall x, In x X -> In x Y.
Lemma flow_op_range E : src m X Y f d c E -> forall g lo hi, ranges X g lo hi -> ranges X (flow_op m Y f d c E g) lo hi.
Proof.
  intros H g lo hi B x Hx. set (A := fun y => test_prob E (fr m f d x y)).
  assert (ST : flow_op m Y f d c E g x = total Y (fun y => q y * (g x + A y * (g y - g x)))).
  { unfold flow_op. apply total_ext. intros y Hy. f_equal. rewrite (ex_ext _ E _ (fun b => g x + (g y - g x) * (if Rltb (ln (uniform b)) (fr m f d x y) then 1 else 0))).
    - rewrite ex_affine. unfold A, test_prob. ring.
    - intros b. unfold mv. destruct (Rltb _ _); ring. }
  assert (AB : forall y, In y Y -> lo <= g x + A y * (g y - g x) <= hi).
  { intros y Hy. pose proof (B x Hx) as Bx. destruct (src_r m X Y f d c C0 E x y H Hx Hy) as [S1 S2]. destruct (classic (In y X)) as [HX|HX].
    - pose proof (B y HX) as By. unfold A. rewrite (S1 HX). assert (0 <= Rmin 1 (exp (fr m f d x y)) <= 1). { split; [apply Rmin_glb; [lra|apply Rlt_le, exp_pos]|apply Rmin_l]. }
      set (t := Rmin 1 (exp (fr m f d x y))) in * . split; nra.
    - unfold A. rewrite (S2 HX). lra. }
  rewrite ST. assert (El : lo = total Y (fun y => lo * q y)) by (rewrite total_scal, Q1; ring). assert (Eh : hi = total Y (fun y => hi * q y)) by (rewrite total_scal, Q1; ring).
  split; [rewrite El at 1|rewrite Eh]; apply total_le; intros y Hy; rewrite (Rmult_comm _ (q y)); (apply Rmult_le_compat_l; [apply Rlt_le, (q_pos m c C0)|apply (AB y Hy)]).
Qed.
Lemma flow_op_minus E x a b : flow_op m Y f d c E (fun y => a y - b y) x = flow_op m Y f d c E a x - flow_op m Y f d c E b x.
Proof.
  unfold flow_op. rewrite (total_ext Y _ (fun y => 1 * (q y * ex E (fun t => a (mv m f d t x y))) + (-1) * (q y * ex E (fun t => b (mv m f d t x y))))).
  - rewrite total_lin. ring.
  - intros y _. rewrite ex_minus. ring.
Qed.
Definition scan_path (n : nat) (E : expect key) (F : list (list R) -> R) (x : list R) : R := iid Y q n (fun props => ex E (fun k => F (visited (Ok (scan m f d k x props))))).
Lemma scan_path_S n E E0 E1 F x : splits2 E E0 E1 -> scan_path (S n) E F x = flow_op m Y f d c E1 (fun y => scan_path n E0 (fun l => F (y :: l)) y) x.
Proof.
  intros SP. unfold flow_op, scan_path. cbn [iid]. apply total_ext. intros y Hy. f_equal. rewrite <- iid_ex. apply iid_ext. intros props _.
  set (H := fun a b => F (mv m f d b x y :: visited (Ok (scan m f d a (mv m f d b x y) props)))).
  rewrite (ex_ext _ E _ (fun k => H (split k 2 0) (split k 2 1))) by (intros k; rewrite scan_cons; reflexivity).
  rewrite (proj1 (SP H)), (proj2 (SP H)). reflexivity.
Qed.
Lemma scan_mono n : forall E, key_chain (src m X Y f d c) n E -> forall x, In x X -> xmono X n (fun F => scan_path n E F x).
Proof.
  induction n as [|n IH]; intros E.
  - intros _ x Hx F H Q. unfold scan_path. cbn [iid]. change (ex E (fun _ => F []) <= ex E (fun _ => H [])). rewrite !ex_const. apply Q. split; [reflexivity|intros y []].
  - intros (E0 & E1 & SP & S1 & CH) x Hx F H Q. rewrite !(scan_path_S n E E0 E1 _ x SP).
    apply (op_mono X (flow_op m Y f d c E1) x _ _ NE); auto.
    + intros a b. apply flow_op_minus.
    + now apply flow_op_range.
    + intros y Hy. apply (IH E0 CH y Hy (fun l => F (y :: l)) (fun l => H (y :: l))). intros l Hl. apply Q. now apply in_path_cons.
Qed.
End Flow.

Section Group.
Context {G : @Rng RNum} {NF : @NFOps RNum G}.
Lemma group_mono (p : @nfp RNum G NF) (X Y : list (list R)) (f : @lpdf RNum) (d : @datad RNum) (q : list R -> R) (a : R) (dim n : nat) (E Ea Ed : expect key) :
  samples_shape (nfp_model p) dim -> (0 < nfp_bs p)%nat -> ignores_n_steps f -> X <> [] ->
  NoDup X -> NoDup Y -> (forall x, In x X -> In x Y) ->
  0 < a -> (forall y, q y = a * exp (m_logp (nfp_model p) y)) ->
  splits2 E Ea Ed -> key_chain (flow_tests X Y (density f d) q) n Ea -> flow_source (nfp_model p) Y q (nfp_bs p) n Ed ->
  forall x, In x X -> xmono X n (fun F => ex E (fun k => F (visited (group_sample p f d n k x)))).
Proof.
  intros HS HB IG NE NX NY XY A0 HQ SP CA FD x Hx.
  assert (EQ : forall y, P_Inv4.q (nfp_model p) a y = q y) by (intros y; symmetry; apply HQ).
  set (qq := P_Inv4.q (nfp_model p) a).
  assert (FD' : flow_source (nfp_model p) Y qq (nfp_bs p) n Ed).
  { destruct FD as [D1 D2]. split.
    + intros s Hs h. etransitivity; [exact (D1 s Hs h)|]. symmetry. apply iid_qeq, EQ.
    + revert D2. apply chain_imp. intros E' H s Hs h. etransitivity; [exact (H s Hs h)|]. symmetry. apply iid_qeq, EQ. }
  assert (CA' : key_chain (src (nfp_model p) X Y f d a) n Ea).
  { revert CA. apply chain_imp. intros E' H x' y Hx' Hy. specialize (H x' y Hx' Hy). cbv zeta in * . rewrite !EQ. exact H. }
  assert (Q1 : total Y qq = 1).
  { destruct FD' as [D _]. pose proof (D 1%nat ltac:(lia) (fun _ => 1)) as Q. cbv beta in Q. refine (eq_trans _ (eq_trans (eq_sym Q) (ex_const _ Ed 1))). cbn [iid]. apply total_ext. intros; ring. }
  apply (xmono_ext X n (fun F => scan_path (nfp_model p) Y f d a n Ea F x)).
  - intros F. symmetry. unfold scan_path.
    set (H := fun b1 b2 => F (visited (Ok (scan (nfp_model p) f d b1 x (props_of p b2 n))))).
    rewrite (ex_ext _ E _ (fun k => H (split k 2 0) (split k 2 1))).
    + rewrite (proj1 (SP H)), (proj2 (SP H)). exact (flow_draws (nfp_model p) Y qq Q1 p n Ed (fun props => ex Ea (fun b1 => F (visited (Ok (scan (nfp_model p) f d b1 x props))))) eq_refl HB FD').
    + intros k. unfold H. destruct (group_is p f d dim HS HB IG n k x) as (props & -> & _ & ->). reflexivity.
  - exact (scan_mono (nfp_model p) X Y f d a A0 Q1 NE n Ea CA' x Hx).
Qed.
End Group.
