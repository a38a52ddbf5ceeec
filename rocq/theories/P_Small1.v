(** Small steps are accepted: the kernels. *)
From Coq Require Import Reals Psatz.
From Verif Require Import Prelude Num M_Core M_Kernels M_Strategies M_PT M_Net M_Mala P_Lists P_Kernels RNum MxR Spec_Kernels Spec_Prog Spec_Real Spec_HMC
  P_Real1 P_Real2 P_Jac P_Leapfrog P_HMC Spec_Net Spec_TreeR P_Gauss Spec_Mala P_Mala Spec_Units P_Units1 Spec_Small.

Lemma small_enough C c : 0 <= C -> 0 < c -> exists t, 0 < t /\ forall s, 0 < s < t -> s * C < c.
Proof.
  intros HC Hc. exists (c / (C + 1)). split; [apply Rdiv_lt_0_compat; lra|]. intros s [S0 S1].
  apply Rle_lt_trans with (s * (C + 1)); [nra|]. apply (Rmult_lt_compat_r (C + 1)) in S1; [|lra].
  replace (c / (C + 1) * (C + 1)) with c in S1 by (field; lra). exact S1.
Qed.
Lemma bounded_by n (g : nat -> R) : exists Z, 0 <= Z /\ forall i, (i < n)%nat -> Rabs (g i) <= Z.
Proof.
  exists (Rsum n (fun i => Rabs (g i))). split; [apply Rsum_nonneg; intros; apply Rabs_pos|].
  intros i Hi. apply (Rsum_term n (fun i => Rabs (g i))); [intros; apply Rabs_pos|exact Hi].
Qed.
Lemma Rsum_Rabs n g B : (forall i, (i < n)%nat -> Rabs (g i) <= B) -> Rabs (Rsum n g) <= INR n * B.
Proof.
  intros H. induction n as [|n IH]; [cbn [Rsum INR]; rewrite Rabs_R0; lra|]. rewrite S_INR. cbn [Rsum].
  eapply Rle_trans; [apply Rabs_triang|]. pose proof (H n ltac:(lia)). specialize (IH ltac:(auto)). lra.
Qed.
Lemma Rabs_mul_le a b A B : Rabs a <= A -> Rabs b <= B -> Rabs (a * b) <= A * B.
Proof. intros H1 H2. rewrite Rabs_mult. apply Rmult_le_compat; auto using Rabs_pos. Qed.
Lemma within_weaken n r r' x y : r <= r' -> within n r x y -> within n r' x y.
Proof. intros H (A & B & C). split; [auto|]. split; [auto|]. intros i Hi. pose proof (C i Hi). lra. Qed.
Lemma within_trans n r r' x y z : within n r x y -> within n r' y z -> within n (r + r') x z.
Proof.
  intros (A & B & C) (A' & B' & C'). split; [auto|]. split; [auto|]. intros i Hi.
  replace (nth i z 0 - nth i x 0) with ((nth i y 0 - nth i x 0) + (nth i z 0 - nth i y 0)) by ring.
  eapply Rle_lt_trans; [apply Rabs_triang|]. pose proof (C i Hi). pose proof (C' i Hi). lra.
Qed.

Section Small.
Context {G : @Rng RNum}.
Hypothesis NS : @normal_shape RNum G.
Variables (n : nat) (f : @lpdf RNum) (d : @datad RNum) (x : list R) (r B : R).
Hypothesis (R0 : 0 < r) (GS : @grad_shape RNum f d n).
Hypothesis UC : forall e, 0 < e -> exists t, 0 < t /\ forall y y', within n r x y -> within n r x y' -> within n t y y' ->
     Rabs (lp_val f y' d - lp_val f y d) < e.
Hypothesis (B0 : 0 <= B) (GB : forall y, within n r x y -> forall i, (i < n)%nat -> Rabs (nth i (lp_grad f y d) 0) <= B).

Lemma accept_small (k : key) : 0 < uniform k < 1 -> exists e, 0 < e /\ forall q, Rabs q < e -> @mh_accept RNum G k q = true.
Proof.
  intros [U0 U1]. rnorm. exists (- ln (uniform k)). split.
  - apply Ropp_0_gt_lt_contravar. rewrite <- ln_1. exact (ln_increasing _ _ U0 U1).
  - intros q Hq. rewrite mh_R. apply Rltb_true. apply Rabs_def2 in Hq. destruct Hq as [_ Hq]. rewrite Ropp_involutive in Hq. exact Hq.
Qed.

Notation goal K k := (forall e, 0 < e -> exists t, 0 < t /\ forall s y, 0 < s < t -> within n (r / 2) x y ->
  exists y', within n e y y' /\ K s k y (lp_val f y d) f d = Ok (y', lp_val f y' d, true)).

(** It is enough that the proposal moves by at most s * A and that the log-ratio differs from the difference in log-density
    by at most s * C. *)
Lemma by_bounds (K : R -> @skernel RNum G) (k : key) A C : 0 <= A -> 0 <= C -> 0 < uniform (split k 2 1) < 1 ->
  (exists t0, 0 < t0 /\ forall s y, 0 < s < t0 -> within n (r / 2) x y -> exists (y' : list R) (q : R), length y' = n /\
    (forall i, (i < n)%nat -> Rabs (nth i y' 0 - nth i y 0) <= s * A) /\
    (within n r x y' -> Rabs (q - (lp_val f y' d - lp_val f y d)) <= s * C) /\
    K s k y (lp_val f y d) f d = Ok (let c := mh_accept (split k 2 1) q in (if c then y' else y, if c then lp_val f y' d else lp_val f y d, c))) ->
  goal K k.
Proof.
  intros HA HC U (t0 & T0 & H) e He. destruct (accept_small _ U) as (e1 & E1 & Acc).
  destruct (UC (e1 / 2) ltac:(lra)) as (t1 & T1 & Near).
  destruct (small_enough A (Rmin e (Rmin t1 (r / 2))) HA) as (t2 & T2 & S2). { repeat apply Rmin_pos; lra. }
  destruct (small_enough C (e1 / 2) HC ltac:(lra)) as (t3 & T3 & S3).
  exists (Rmin t0 (Rmin t2 t3)). split; [repeat apply Rmin_pos; assumption|]. intros s y [S0 S1] Y.
  pose proof (Rmin_l t0 (Rmin t2 t3)). pose proof (Rmin_r t0 (Rmin t2 t3)). pose proof (Rmin_l t2 t3). pose proof (Rmin_r t2 t3).
  destruct (H s y ltac:(lra) Y) as (y' & q & L & M & Q & E). specialize (S2 s ltac:(lra)). specialize (S3 s ltac:(lra)).
  pose proof (Rmin_l e (Rmin t1 (r / 2))). pose proof (Rmin_r e (Rmin t1 (r / 2))). pose proof (Rmin_l t1 (r / 2)). pose proof (Rmin_r t1 (r / 2)).
  assert (W : forall c, s * A < c -> within n c y y').
  { intros c Hc. split; [apply Y|]. split; [exact L|]. intros i Hi. pose proof (M i Hi). lra. }
  assert (X' : within n r x y'). { replace r with (r / 2 + r / 2) by field. apply (within_trans n _ _ x y y' Y), W. lra. }
  exists y'. split; [apply W; lra|].
  assert (D : Rabs (lp_val f y' d - lp_val f y d) < e1 / 2). { apply Near; [apply (within_weaken n (r / 2)); [lra|exact Y]|exact X'|apply W; lra]. }
  specialize (Q X'). rewrite E, (Acc q); [reflexivity|].
  replace q with ((q - (lp_val f y' d - lp_val f y d)) + (lp_val f y' d - lp_val f y d)) by ring.
  eapply Rle_lt_trans; [apply Rabs_triang|]. rnorm. lra.
Qed.

Lemma step_times s ss i : (i < n)%nat -> ok_grw ss n \/ step_accepted ss n -> @step_of RNum (times s ss) i = s * step_of ss i.
Proof.
  intros Hi H. destruct ss as [c|v|v]; cbn [times step_of]; [reflexivity| |]; (assert (L : length v = n) by (destruct H as [H|H]; cbn in H; tauto || exact H));
  (rewrite (nth_indep _ 0 (s * 0)) by (rewrite map_length; rnorm; rewrite L; exact Hi)); exact (map_nth (Rmult s) v 0 i).
Qed.

(* ------------------------------------------------------------------ random walk *)
Lemma walk_small ss k : ok_grw ss n -> 0 < uniform (split k 2 1) < 1 -> goal (fun s => grw_kernel (times s ss)) k.
Proof.
  intros O U. destruct (bounded_by n (fun i => nth i (normal (split k 2 0) n) 0 * step_of ss i)) as (Z & Z0 & HZ).
  apply (by_bounds (fun s => grw_kernel (times s ss)) k Z 0 Z0 (Rle_refl 0) U). exists 1. split; [lra|]. intros s y [S0 _] Y.
  assert (O' : ok_grw (times s ss) n). { destruct ss; cbn in *; auto. rewrite map_length. exact O. }
  destruct (grw_out NS n (fun _ => 0) (times s ss) k f d y (lp_val f y d) (proj1 (proj2 Y)) O') as (y' & L & M & E).
  exists y'. eexists. split; [exact L|]. split; [|split; [|exact E]].
  - intros i Hi. pose proof (M i Hi) as Mi. rnorm. rewrite Mi. pose proof (step_times s ss i Hi (or_introl O)) as T. rnorm. rewrite T.
    pose proof (HZ i Hi) as Hz. rnorm.
    match goal with |- Rabs ?a <= _ => replace a with (s * (nth i (normal (split k 2 0) n) 0 * step_of ss i)) by (rnorm; ring) end.
    rewrite Rabs_mult, (Rabs_pos_eq s) by lra. apply Rmult_le_compat_l; [lra|exact Hz].
  - intros _. rnorm. match goal with |- Rabs ?a <= _ => replace a with 0 by ring end. rewrite Rabs_R0. lra.
Qed.

(* ------------------------------------------------------------------ MALA *)
Lemma langevin_small ss k : step_accepted ss n -> (forall i, (i < n)%nat -> step_of ss i <> 0) -> 0 < uniform (split k 2 1) < 1 ->
  goal (fun s => mala_kernel (times s ss)) k.
Proof.
  intros O N0 U. destruct (bounded_by n (fun i => nth i (normal (split k 2 0) n) 0)) as (Z & Z0 & HZ).
  destruct (bounded_by n (fun i => step_of ss i)) as (C & C0 & HC).
  apply (by_bounds (fun s => mala_kernel (times s ss)) k (C * C * B + C * Z) (INR n * (C * (Z * B + C * (B * B))))); [nra| |exact U|].
  { apply Rmult_le_pos; [apply pos_INR|]. apply Rmult_le_pos; [exact C0|]. nra. }
  exists 1. split; [lra|]. intros s y [S0 S1] Y.
  assert (X : within n r x y) by (apply (within_weaken n (r / 2)); [lra|exact Y]).
  assert (O' : step_accepted (times s ss) n). { destruct ss; cbn in *; auto. rewrite map_length. exact O. }
  assert (T : forall i, (i < n)%nat -> @step_of RNum (times s ss) i = s * step_of ss i) by (intros i Hi; apply step_times; auto).
  assert (N0' : forall i, (i < n)%nat -> @step_of RNum (times s ss) i <> 0).
  { intros i Hi. rewrite T by auto. apply Rmult_integral_contrapositive. split; [lra|auto]. }
  destruct (mala_out NS n (times s ss) k f d y (lp_val f y d) (proj1 (proj2 Y)) O' N0' (fun u Hu => GS u Hu)) as (y' & L & M & E).
  exists y'. eexists. split; [exact L|]. split; [|split; [|exact E]].
  - intros i Hi. pose proof (M i Hi) as Mi. unfold mala_mu in Mi. pose proof (T i Hi) as Ti. rnorm. rewrite Mi, Ti.
    pose proof (HZ i Hi) as Hz. pose proof (HC i Hi) as Hc. pose proof (GB y X i Hi) as Hg. rnorm.
    set (c := step_of ss i : R) in * . set (z := nth i (normal (split k 2 0) n) 0 : R) in * . set (g := nth i (lp_grad f y d) 0 : R) in * .
    change (Rabs (nth i y 0 + (s * c) ^ 2 * g / 2 + s * c * z - nth i y 0) <= s * (C * C * B + C * Z)).
    replace (nth i y 0 + (s * c) ^ 2 * g / 2 + s * c * z - nth i y 0) with (s * (s * (/ 2) * (c * c * g) + c * z)) by field.
    rewrite Rabs_mult, (Rabs_pos_eq s) by lra. apply Rmult_le_compat_l; [lra|].
    eapply Rle_trans; [apply Rabs_triang|]. apply Rplus_le_compat; [|now apply Rabs_mul_le].
    rewrite <- (Rmult_1_l (C * C * B)). apply Rabs_mul_le; [rewrite Rabs_pos_eq; lra|]. now apply Rabs_mul_le; [apply Rabs_mul_le|].
  - intros X'. match goal with |- Rabs (?v - ?p + ?q - ?v) <= _ => replace (v - p + q - v) with (q - p) by ring end.
    rewrite <- Rsum_minus. rewrite (Rsum_ext n _ (fun i => s * (- / 2 * (step_of ss i * (nth i (normal (split k 2 0) n) 0 * (nth i (lp_grad f y d) 0 + nth i (lp_grad f y' d) 0)
      + s * (step_of ss i * ((nth i (lp_grad f y d) 0 + nth i (lp_grad f y' d) 0) * (nth i (lp_grad f y d) 0 + nth i (lp_grad f y' d) 0) / 4))))))).
    + rewrite Rsum_scal, Rabs_mult, (Rabs_pos_eq s) by lra. apply Rmult_le_compat_l; [lra|]. apply Rsum_Rabs. intros i Hi.
      pose proof (HZ i Hi) as Hz. pose proof (HC i Hi) as Hc. pose proof (GB y X i Hi) as Hg. pose proof (GB y' X' i Hi) as Hg'. rnorm.
      set (c := step_of ss i : R) in * . set (z := nth i (normal (split k 2 0) n) 0 : R) in * . set (g := nth i (lp_grad f y d) 0 : R) in * .
      set (g' := nth i (lp_grad f y' d) 0 : R) in * .
      assert (Hs : Rabs (g + g') <= 2 * B) by (replace (2 * B) with (B + B) by ring; eapply Rle_trans; [apply Rabs_triang|apply Rplus_le_compat; assumption]).
      change (Rabs (- / 2 * (c * (z * (g + g') + s * (c * ((g + g') * (g + g') / 4))))) <= C * (Z * B + C * (B * B))).
      replace (C * (Z * B + C * (B * B))) with (/ 2 * (C * (Z * (2 * B) + 1 * (C * ((2 * B) * (2 * B) / 2))))) by field.
      apply Rabs_mul_le; [rewrite Rabs_Ropp, Rabs_pos_eq; lra|]. apply Rabs_mul_le; [exact Hc|].
      eapply Rle_trans; [apply Rabs_triang|]. apply Rplus_le_compat; [now apply Rabs_mul_le|]. apply Rabs_mul_le; [rewrite Rabs_pos_eq; lra|].
      apply Rabs_mul_le; [exact Hc|]. unfold Rdiv. apply Rabs_mul_le; [now apply Rabs_mul_le|]. rewrite Rabs_pos_eq; lra.
    + intros i Hi. pose proof (M i Hi) as Mi. unfold mala_mu in * . pose proof (T i Hi) as Ti. pose proof (N0 i Hi) as Ni. rnorm. rewrite Mi, Ti.
      set (c := step_of ss i : R) in * . set (z := nth i (normal (split k 2 0) n) 0 : R) in * . set (g := nth i (lp_grad f y d) 0 : R) in * .
      set (g' := nth i (lp_grad f y' d) 0 : R) in * . field. repeat split; try exact Ni; exact (Rgt_not_eq _ _ S0).
Qed.

(* ------------------------------------------------------------------ HMC *)
Section Hmc.
Variables (m l : list (list R)) (eps : R) (leaps : nat).
Hypothesis (SM : square_mat m n) (SL : square_mat l n).
Notation hk s := (@mkHmc RNum (CMat m) (s * eps) leaps l).
Variables (y p0 : list R) (P0 C s : R).
Hypothesis (Y : within n (r / 2) x y) (Lp : length p0 = n) (HP : forall i, (i < n)%nat -> Rabs (nth i p0 0) <= P0).
Hypothesis (HC : forall i, (i < n)%nat -> Rabs (cs m i) <= C) (P00 : 0 <= P0) (C0 : 0 <= C) (S0 : 0 < s <= 1).
Notation J := (INR (leaps + 2)).
Notation D := (Rabs eps * B).
Notation A := (Rabs eps * ((P0 + J * D) * C)).
Hypothesis (SA : s * (J * A) < r / 2).
Definition near_start (a : nat) (z : list R * list R) : Prop := ok n z /\
  (forall i, (i < n)%nat -> Rabs (nth i (fst z) 0 - nth i y 0) <= s * (INR a * A)) /\
  (forall i, (i < n)%nat -> Rabs (nth i (snd z) 0 - nth i p0 0) <= s * (INR a * D)).
Lemma D0 : 0 <= D.
Proof. apply Rmult_le_pos; [apply Rabs_pos|exact B0]. Qed.
Lemma A0 : 0 <= A.
Proof. apply Rmult_le_pos; [apply Rabs_pos|]. apply Rmult_le_pos; [|exact C0]. pose proof D0. pose proof (pos_INR (leaps + 2)). pose proof (Rmult_le_pos _ _ H0 H). lra. Qed.
Lemma up_to (a : nat) M : (a <= leaps + 2)%nat -> 0 <= M -> s * (INR a * M) <= s * (J * M) <= J * M.
Proof.
  intros Ha HM. apply le_INR in Ha. pose proof (pos_INR a). assert (INR a * M <= J * M) by now apply Rmult_le_compat_r.
  assert (0 <= INR a * M) by now apply Rmult_le_pos. destruct S0. split; nra.
Qed.
Lemma near_step c a z : Rabs (fst c) <= 1 -> Rabs (snd c) <= 1 -> (S a <= leaps + 2)%nat -> near_start a z ->
  near_start (S a) (leapfrog_one (hk s) m f d c z).
Proof.
  intros H1 H2 Ha (O & Q & P). pose proof D0 as HD. pose proof A0 as HA.
  change (leapfrog_one (hk s) m f d c z) with (kick f d (s * eps * snd c) (drift m (s * eps * fst c) z)).
  assert (O1 : ok n (drift m (s * eps * fst c) z)) by now apply drift_ok.
  assert (Q1 : forall i, (i < n)%nat -> Rabs (nth i (fst (drift m (s * eps * fst c) z)) 0 - nth i y 0) <= s * (INR (S a) * A)).
  { intros i Hi. rewrite (driftR m n _ _ _ O Hi).
    replace (nth i (fst z) 0 + s * eps * fst c * (nth i (snd z) 0 * cs m i) - nth i y 0)
      with ((nth i (fst z) 0 - nth i y 0) + s * (fst c * (eps * (nth i (snd z) 0 * cs m i)))) by ring.
    eapply Rle_trans; [apply Rabs_triang|]. rewrite S_INR.
    replace (s * ((INR a + 1) * A)) with (s * (INR a * A) + s * (1 * A)) by ring.
    apply Rplus_le_compat; [now apply Q|]. rewrite Rabs_mult, (Rabs_pos_eq s) by lra. apply Rmult_le_compat_l; [lra|].
    apply Rabs_mul_le; [exact H1|]. apply Rabs_mul_le; [apply Rle_refl|]. apply Rabs_mul_le; [|now apply HC].
    replace (nth i (snd z) 0) with (nth i p0 0 + (nth i (snd z) 0 - nth i p0 0)) by ring. eapply Rle_trans; [apply Rabs_triang|].
    apply Rplus_le_compat; [now apply HP|]. destruct (up_to a D ltac:(lia) HD) as [U1 U2]. pose proof (P i Hi). lra. }
  assert (X1 : within n r x (fst (drift m (s * eps * fst c) z))).
  { replace r with (r / 2 + r / 2) by field. apply (within_trans n _ _ x y _ Y). split; [apply Y|]. split; [apply O1|]. intros i Hi.
    pose proof (Q1 i Hi) as Qi. destruct (up_to (S a) A Ha HA) as [U1 U2]. lra. }
  split; [now apply kick_ok|]. split; [exact Q1|]. intros i Hi. rewrite (kickR f d n GS _ _ i O1 Hi). cbn [drift snd].
  replace (nth i (snd z) 0 + s * eps * snd c * nth i (lp_grad f (fst (drift m (s * eps * fst c) z)) d) 0 - nth i p0 0)
    with ((nth i (snd z) 0 - nth i p0 0) + s * (snd c * (eps * nth i (lp_grad f (fst (drift m (s * eps * fst c) z)) d) 0))) by ring.
  eapply Rle_trans; [apply Rabs_triang|]. rewrite S_INR. replace (s * ((INR a + 1) * D)) with (s * (INR a * D) + s * (1 * D)) by ring.
  apply Rplus_le_compat; [now apply P|]. rewrite Rabs_mult, (Rabs_pos_eq s) by lra. apply Rmult_le_compat_l; [lra|].
  apply Rabs_mul_le; [exact H2|]. apply Rabs_mul_le; [apply Rle_refl|]. now apply GB.
Qed.
Lemma near_fold co : Forall (fun c => Rabs (fst c) <= 1 /\ Rabs (snd c) <= 1) co -> forall a z, (a + length co <= leaps + 2)%nat -> near_start a z ->
  near_start (a + length co) (fold_left (fun z c => leapfrog_one (hk s) m f d c z) co z).
Proof.
  induction 1 as [|c co [H1 H2] _ IH]; intros a z Ha H; cbn [length fold_left] in *; [now rewrite Nat.add_0_r|].
  replace (a + S (length co))%nat with (S a + length co)%nat by lia. apply IH; [lia|]. apply near_step; auto; lia.
Qed.
Lemma leapfrog_near : near_start (leaps + 2) (leapfrog (hk s) m f d (y, p0)).
Proof.
  unfold leapfrog. cbn [h_leap]. assert (L : length (@leapfrog_coefs RNum leaps) = (leaps + 2)%nat).
  { unfold leapfrog_coefs. cbn [length]. rewrite app_length, repeat_length. cbn. lia. }
  assert (Q : near_start (0 + length (@leapfrog_coefs RNum leaps)) (fold_left (fun z c => leapfrog_one (hk s) m f d c z) (leapfrog_coefs leaps) (y, p0)));
    [|cbn [Nat.add] in Q; rewrite L in Q; exact Q].
  apply near_fold.
  - unfold leapfrog_coefs. assert (Hh : Rabs (@fhalf RNum) <= 1) by (change (@fhalf RNum) with (1 / 2); rewrite Rabs_pos_eq; lra).
    assert (H1 : Rabs (@f1 RNum) <= 1) by (change (@f1 RNum) with 1; rewrite Rabs_pos_eq; lra).
    constructor; [split; [change (Rabs 0 <= 1); rewrite Rabs_R0; lra|exact Hh]|].
    apply Forall_app. split; [|constructor; [split; [exact H1|exact Hh]|constructor]].
    apply Forall_forall. intros c Hc. apply repeat_spec in Hc. subst c. split; exact H1.
  - exact (Nat.eq_le_incl _ _ L).
  - split; [split; [apply Y|exact Lp]|]. cbn [INR fst snd]. split; intros i Hi; rewrite Rmult_0_l, Rmult_0_r;
      match goal with |- Rabs (?a - ?a) <= _ => replace (a - a) with 0 by ring end; rewrite Rabs_R0; lra.
Qed.
Lemma half_minus (a b : R) : 1 / 2 * a - 1 / 2 * b = / 2 * (a - b).
Proof. field. Qed.
Lemma kinetic_near : Rabs (kinetic p0 m - kinetic (snd (leapfrog (hk s) m f d (y, p0))) m) <= s * (/ 2 * (INR n * (J * D * (2 * P0 + J * D) * C))).
Proof.
  destruct leapfrog_near as ((Lq & Lp') & _ & P). set (p := snd (leapfrog (hk s) m f d (y, p0))) in * . pose proof D0 as HD.
  rewrite (kinetic_cs p0 m n SM Lp), (kinetic_cs p m n SM Lp').
  match goal with |- Rabs ?u <= _ => replace u with (/ 2 * Rsum n (fun j => nth j p0 0 ^ 2 * cs m j - nth j p 0 ^ 2 * cs m j)) end.
  2: { rewrite Rsum_minus. symmetry. exact (half_minus _ _). }
  replace (s * (/ 2 * (INR n * (J * D * (2 * P0 + J * D) * C)))) with (/ 2 * (INR n * (s * (J * D) * (2 * P0 + J * D) * C))) by ring.
  apply Rabs_mul_le; [rewrite Rabs_pos_eq; lra|]. apply Rsum_Rabs. intros i Hi.
  replace (nth i p0 0 ^ 2 * cs m i - nth i p 0 ^ 2 * cs m i) with ((- (nth i p 0 - nth i p0 0)) * (2 * nth i p0 0 + (nth i p 0 - nth i p0 0)) * cs m i) by ring.
  apply Rabs_mul_le; [|now apply HC]. apply Rabs_mul_le; [rewrite Rabs_Ropp; now apply P|].
  eapply Rle_trans; [apply Rabs_triang|]. apply Rplus_le_compat; [apply Rabs_mul_le; [rewrite Rabs_pos_eq; lra|now apply HP]|].
  destruct (up_to (leaps + 2) D (le_n _) HD) as [_ U]. exact (Rle_trans _ _ _ (P i Hi) U).
Qed.
End Hmc.
Lemma hamiltonian_small eps leaps m l k : square_mat m n -> square_mat l n -> 0 < uniform (split k 2 1) < 1 ->
  goal (fun s => hmc_kernel (@mkHmc RNum (CMat m) (s * eps) leaps l)) k.
Proof.
  intros SM SL U. set (z := normal (split k 2 0) n). assert (Lz : length z = n) by apply NS.
  set (p0 := hmc_momentum (@mkHmc RNum (CMat m) eps leaps l) z : list R).
  assert (Lp : length p0 = n) by now apply momentum_len.
  destruct (bounded_by n (fun i => nth i p0 0)) as (P0 & P00 & HP). destruct (bounded_by n (fun i => cs m i)) as (C & C0 & HC).
  pose proof (D0 eps) as HD. pose proof (A0 eps leaps P0 C P00 C0) as HA. pose proof (pos_INR (leaps + 2)) as HJ. pose proof (pos_INR n) as Hn.
  destruct (small_enough (INR (leaps + 2) * (Rabs eps * ((P0 + INR (leaps + 2) * (Rabs eps * B)) * C))) (r / 2)) as (t & T0 & T); [now apply Rmult_le_pos|lra|].
  pose proof (Rmult_le_pos _ _ HJ HD) as HJD. 
  apply (by_bounds (fun s => hmc_kernel (@mkHmc RNum (CMat m) (s * eps) leaps l)) k (INR (leaps + 2) * (Rabs eps * ((P0 + INR (leaps + 2) * (Rabs eps * B)) * C)))
    (/ 2 * (INR n * (INR (leaps + 2) * (Rabs eps * B) * (2 * P0 + INR (leaps + 2) * (Rabs eps * B)) * C)))); [now apply Rmult_le_pos| |exact U|].
  { apply Rmult_le_pos; [lra|]. apply Rmult_le_pos; [exact Hn|]. apply Rmult_le_pos; [|exact C0]. apply Rmult_le_pos; [exact HJD|]. lra. }
  exists (Rmin 1 t). split; [apply Rmin_pos; lra|]. intros s y [S0 S1] Y. pose proof (Rmin_l 1 t). pose proof (Rmin_r 1 t).
  specialize (T s ltac:(lra)). set (w := leapfrog (@mkHmc RNum (CMat m) (s * eps) leaps l) m f d (y, p0)).
  assert (S2 : 0 < s <= 1) by lra.
  pose proof (leapfrog_near m l eps leaps y p0 P0 C s Y Lp HP HC P00 C0 S2 T) as (O & Q & _). fold w in O, Q.
  exists (fst w). exists ((- lp_val f y d + kinetic p0 m) - (- lp_val f (fst w) d + kinetic (snd w) m)).
  split; [apply O|]. split; [exact Q|]. split.
  - intros _. pose proof (kinetic_near m l eps leaps SM y p0 P0 C s Y Lp HP HC P00 C0 S2 T) as Kn. fold w in Kn.
    match goal with |- Rabs ?a <= _ => replace a with (kinetic p0 m - kinetic (snd w) m) by ring end. exact Kn.
  - unfold hmc_kernel. cbn [h_cond]. rnorm. rewrite (proj1 (proj2 Y)). rewrite (proj2 (square_iff m n) SM). fold z.
    change (hmc_momentum (@mkHmc RNum (CMat m) (s * eps) leaps l) z) with p0. fold w. cbv zeta. f_equal.
    replace (hmc_ratio (@mkHmc RNum (CMat m) (s * eps) leaps l) m f d (lp_val f y d) p0 w)
      with (- lp_val f y d + kinetic p0 m - (- lp_val f (fst w) d + kinetic (snd w) m)) by reflexivity.
    destruct (mh_accept _ _); [|reflexivity]. do 2 f_equal. cbn. now rewrite Ropp_involutive.
Qed.
End Small.
