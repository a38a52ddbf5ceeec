(** Small steps are accepted: MALA with a matrix. *)
From Coq Require Import Reals Psatz.
From Verif Require Import Prelude Num M_Core M_Kernels M_Strategies M_PT M_Net M_Mala P_Lists P_Kernels RNum MxR Spec_Kernels Spec_Prog Spec_Real Spec_HMC
  P_Real1 P_Real2 P_Jac P_Leapfrog P_HMC Spec_Net Spec_TreeR P_Gauss Spec_Mala P_Mala Spec_Units P_Units1 Spec_Small P_Small1.

Notation fs := (fun (l : list (list R)) (v : list R) => (@forward_subst RNum l v [] : list R)).
Lemma fs_linear n (l : list (list R)) : cholesky_shape n l -> exists b : nat -> nat -> R, forall v i, length v = n -> (i < n)%nat ->
  nth i (fs l v) 0 = Rsum n (fun k => b i k * nth k v 0).
Proof.
  intros C. set (e := fun j => map (fun i => @mid i j) (seq 0 n)). set (b := fun k j => nth k (fs l (e j)) 0).
  assert (Le : forall j, length (e j) = n) by (intros; unfold e; now rewrite map_length, seq_length).
  assert (Ee : forall j i, (i < n)%nat -> nth i (e j) 0 = mid i j) by (intros j i Hi; exact (nth_map_seq (fun i => mid i j) n i 0 Hi)).
  exists b. intros v i Hv Hi. set (t := map (fun i => Rsum n (fun k => b i k * nth k v 0)) (seq 0 n)).
  assert (Nt : forall k, (k < n)%nat -> nth k t 0 = Rsum n (fun j => b k j * nth j v 0)) by (intros k Hk; exact (nth_map_seq (fun i => Rsum n (fun k => b i k * nth k v 0)) n k 0 Hk)).
  rewrite <- Nt by auto. assert (E : (fs l v : list R) = t); [|now rewrite E].
  apply (tri_inj n l C v); [now apply fs_len|unfold t; now rewrite map_length, seq_length|]. clear i Hi. intros i Hi.
  etransitivity; [exact (fs_solves n l C v i Hv Hi)|].
  rewrite (Rsum_ext n _ (fun k => Rsum n (fun j => nth j v 0 * (ent l i k * b k j)))).
  2: { intros k Hk. rewrite Nt by auto. rewrite <- Rsum_scal. apply Rsum_ext. intros; ring. }
  rewrite Rsum_swap. rewrite (Rsum_ext n _ (fun j => nth j v 0 * mid i j)).
  - symmetry. rewrite (Rsum_single n _ i Hi); [unfold mid; rewrite Nat.eqb_refl; cbn; ring|]. intros j _ Hj. unfold mid. destruct (Nat.eqb_spec i j); [congruence|]. cbn. ring.
  - intros j Hj. rewrite Rsum_scal. f_equal. rewrite <- (Ee j i Hi). exact (fs_solves n l C (e j) i (Le j) Hi).
Qed.
Lemma bounded2 n (g : nat -> nat -> R) : exists Z, 0 <= Z /\ forall i j, (i < n)%nat -> (j < n)%nat -> Rabs (g i j) <= Z.
Proof.
  exists (Rsum n (fun i => Rsum n (fun j => Rabs (g i j)))). split; [apply Rsum_nonneg; intros; apply Rsum_nonneg; intros; apply Rabs_pos|].
  intros i j Hi Hj. eapply Rle_trans; [apply (Rsum_term n (fun j => Rabs (g i j)) j); [intros; apply Rabs_pos|exact Hj]|].
  apply (Rsum_term n (fun i => Rsum n (fun j => Rabs (g i j))) i); [intros; apply Rsum_nonneg; intros; apply Rabs_pos|exact Hi].
Qed.
(** The norm |l^-1 v|^2 moves by at most s * constant between v and v + s e. *)
Lemma norm_near n (l : list (list R)) (w : list R) E : cholesky_shape n l -> length w = n -> 0 <= E -> exists C, 0 <= C /\
  forall s (v e : list R), 0 < s <= 1 -> length v = n -> length e = n -> (forall i, (i < n)%nat -> Rabs (nth i e 0) <= E) ->
  (forall i, (i < n)%nat -> nth i v 0 = - (nth i w 0 + s * nth i e 0)) ->
  Rabs (Rsum n (fun i => nth i (fs l w) 0 ^ 2) - Rsum n (fun i => nth i (fs l v) 0 ^ 2)) <= s * C.
Proof.
  intros Cl Lw E0. destruct (fs_linear n l Cl) as (b & Hb). destruct (bounded2 n b) as (K & K0 & HK).
  destruct (bounded_by n (fun i => nth i (fs l w) 0)) as (W & W0 & HW). pose proof (pos_INR n) as Hn.
  set (M := INR n * (K * E)). assert (M0 : 0 <= M) by (unfold M; repeat apply Rmult_le_pos; auto).
  exists (INR n * (M * (2 * W + M))). split; [apply Rmult_le_pos; [auto|apply Rmult_le_pos; lra]|].
  intros s v e [S0 S1] Lv Le He Hv. rewrite <- Rsum_minus.
  set (be := fun i => Rsum n (fun k => b i k * nth k e 0)).
  assert (Hbe : forall i, (i < n)%nat -> Rabs (be i) <= M). { intros i Hi. apply Rsum_Rabs. intros k Hk. apply Rabs_mul_le; auto. }
  rewrite (Rsum_ext n _ (fun i => s * (- be i * (2 * nth i (fs l w) 0 + s * be i)))).
  - rewrite Rsum_scal, Rabs_mult, (Rabs_pos_eq s) by lra. apply Rmult_le_compat_l; [lra|]. apply Rsum_Rabs. intros i Hi.
    apply Rabs_mul_le; [rewrite Rabs_Ropp; auto|]. eapply Rle_trans; [apply Rabs_triang|]. apply Rplus_le_compat.
    + apply Rabs_mul_le; [rewrite Rabs_pos_eq; lra|exact (HW i Hi)].
    + rewrite <- (Rmult_1_l M). apply Rabs_mul_le; [rewrite Rabs_pos_eq; lra|auto].
  - intros i Hi. assert (Ev : nth i (fs l v) 0 = - (nth i (fs l w) 0 + s * be i)).
    { refine (eq_trans (Hb v i Lv Hi) _). refine (eq_trans _ (f_equal (fun q => - (q + s * be i)) (eq_sym (Hb w i Lw Hi)))). unfold be. rewrite <- Rsum_scal, <- Rsum_plus, <- Rsum_opp. apply Rsum_ext. intros k Hk.
      rewrite Hv by auto. ring. }
    assert (Al : forall p q c : R, q = - (p + s * c) -> p ^ 2 - q ^ 2 = s * (- c * (2 * p + s * c))) by (intros p q c ->; ring).
    exact (Al _ _ _ Ev).
Qed.

Section Small.
Context {G : @Rng RNum}.
Hypothesis NS : @normal_shape RNum G.
Variables (n : nat) (f : @lpdf RNum) (d : @datad RNum) (x : list R) (r B : R).
Hypothesis (R0 : 0 < r) (GS : @grad_shape RNum f d n).
Hypothesis UC : forall e, 0 < e -> exists t, 0 < t /\ forall y y', within n r x y -> within n r x y' -> within n t y y' ->
     Rabs (lp_val f y' d - lp_val f y d) < e.
Hypothesis (B0 : 0 <= B) (GB : forall y, within n r x y -> forall i, (i < n)%nat -> Rabs (nth i (lp_grad f y d) 0) <= B).
Notation goal K k := (forall e, 0 < e -> exists t, 0 < t /\ forall s y, 0 < s < t -> within n (r / 2) x y ->
  exists y', within n e y y' /\ K s k y (lp_val f y d) f d = Ok (y', lp_val f y' d, true)).
Notation sdt s dt := (map (map (Rmult s)) dt : list (list R)).

Lemma sdt_ent (dt : list (list R)) s i j : Spec_Net.square n dt -> (i < n)%nat -> (j < n)%nat -> ent (sdt s dt) i j = s * ent dt i j.
Proof.
  intros H Hi Hj. unfold ent. rewrite (nth_map' (A := list R) (B := list R) (map (Rmult s)) dt i [] []) by (rewrite (proj1 H); exact Hi).
  apply mapR. rewrite (sq_row n dt i H Hi). exact Hj.
Qed.
Lemma sdt_square (dt : list (list R)) s : Spec_Net.square n dt -> Spec_Net.square n (sdt s dt).
Proof.
  intros [H1 H2]. split; [now rewrite map_length|]. intros w Hw. apply in_map_iff in Hw. destruct Hw as (u & <- & Hu). rewrite map_length. now apply H2.
Qed.
Lemma matrix_small chol (dt : list (list R)) k : chol_law chol -> Spec_Net.square n dt -> squares_factor n dt -> 0 < uniform (split k 2 1) < 1 ->
  goal (fun s => mat_mala_kernel chol (sdt s dt)) k.
Proof.
  intros CL SD SF U. set (z := normal (split k 2 0) n : list R). assert (Lz : length z = n) by apply NS.
  set (w := map (fun i => Rsum n (fun j => ent dt i j * nth j z 0)) (seq 0 n)).
  assert (Lw : length w = n) by (unfold w; now rewrite map_length, seq_length).
  assert (Nw : forall i, (i < n)%nat -> nth i w 0 = Rsum n (fun j => ent dt i j * nth j z 0)) by (intros i Hi; exact (nth_map_seq (fun i => Rsum n (fun j => ent dt i j * nth j z 0)) n i 0 Hi)).
  destruct (bounded_by n (fun i => nth i w 0)) as (W & W0 & HW). destruct (bounded2 n (ent dt)) as (D & D0 & HD). pose proof (pos_INR n) as Hn.
  assert (E0 : 0 <= INR n * (D * D * B)) by (repeat apply Rmult_le_pos; auto).
  assert (MU1 : matrix_in_units n (fun _ => 1) dt (sdt 1 dt)).
  { split; [exact SD|]. split; [now apply sdt_square|]. intros i j Hi Hj. split; [now right|]. now apply sdt_ent. }
  pose proof (chol_scaled n (fun _ => 1) ltac:(intros; lra) chol dt _ CL SF MU1) as (C0 & _ & _).
  destruct (norm_near n (chol (@mat_sq RNum dt)) w (INR n * (D * D * B)) C0 Lw E0) as (Q & Q0 & HQ).
  apply (by_bounds n f d x r R0 UC (fun s => mat_mala_kernel chol (sdt s dt)) k (INR n * (D * D * B) + W) (/ 2 * Q)); [lra|lra|exact U|].
  exists 1. split; [lra|]. intros s y [S0 S1] Y.
  assert (X : within n r x y) by (apply (within_weaken n (r / 2)); [lra|exact Y]). assert (Ly : length y = n) by apply Y.
  assert (SS : Spec_Net.square n (sdt s dt)) by now apply sdt_square.
  assert (MU : matrix_in_units n (fun _ => s) dt (sdt s dt)).
  { split; [exact SD|]. split; [exact SS|]. intros i j Hi Hj. split; [now right|]. now apply sdt_ent. }
  pose proof (chol_scaled n (fun _ => s) ltac:(intros; lra) chol dt _ CL SF MU) as (_ & C1 & CQ).
  assert (SQ : forall i j, (i < n)%nat -> (j < n)%nat -> ent (sdt s dt) i j ^ 2 = s * s * ent dt i j ^ 2) by (intros; now rewrite sdt_ent by auto; ring).
  set (g := lp_grad f y d : list R). assert (Lg : length g = n) by exact (GS y Ly).
  set (y' := mat_mala_propose (sdt s dt) y g z : list R). assert (Ly' : length y' = n) by now apply propose_len.
  set (g' := lp_grad f y' d : list R). assert (Lg' : length g' = n) by exact (GS y' Ly').
  assert (MV : forall i, (i < n)%nat -> nth i y' 0 = nth i y 0 + s * (s * (/ 2 * Rsum n (fun j => ent dt i j ^ 2 * nth j g 0))) + s * nth i w 0).
  { intros i Hi. unfold y'. etransitivity; [exact (propose_R n _ y g z i SS Ly Lg Lz Hi)|]. rewrite Nw by auto.
    rewrite (Rsum_ext n (fun j => ent (sdt s dt) i j ^ 2 * nth j g 0) (fun j => s * s * (ent dt i j ^ 2 * nth j g 0))) by (intros j Hj; rewrite SQ by auto; ring).
    rewrite (Rsum_ext n (fun j => ent (sdt s dt) i j * nth j z 0) (fun j => s * (ent dt i j * nth j z 0))) by (intros j Hj; rewrite sdt_ent by auto; ring).
    rewrite !Rsum_scal. field. }
  assert (HS : forall (u : list R), (forall i, (i < n)%nat -> Rabs (nth i u 0) <= B) -> forall i, (i < n)%nat ->
     Rabs (Rsum n (fun j => ent dt i j ^ 2 * nth j u 0)) <= INR n * (D * D * B)).
  { intros u Hu i Hi. apply Rsum_Rabs. intros j Hj. replace (ent dt i j ^ 2) with (ent dt i j * ent dt i j) by ring. apply Rabs_mul_le; [apply Rabs_mul_le; auto|auto]. }
  exists y'. exists (@mat_mala_ratio RNum chol (sdt s dt) f d y y'). split; [exact Ly'|]. split; [|split].
  - intros i Hi. rewrite MV by auto.
    match goal with |- Rabs ?a <= _ => replace a with (s * (s * (/ 2 * Rsum n (fun j => ent dt i j ^ 2 * nth j g 0)) + nth i w 0)) by ring end.
    rewrite Rabs_mult, (Rabs_pos_eq s) by lra. apply Rmult_le_compat_l; [lra|]. eapply Rle_trans; [apply Rabs_triang|]. apply Rplus_le_compat; [|exact (HW i Hi)].
    replace (INR n * (D * D * B)) with (1 * (1 * (INR n * (D * D * B)))) by ring. apply Rabs_mul_le; [rewrite Rabs_pos_eq; lra|].
    apply Rabs_mul_le; [rewrite Rabs_pos_eq; lra|]. apply HS; [exact (GB y X)|exact Hi].
  - intros X'. pose proof (ratio_R chol n _ f d y y' SS C1 Ly Ly') as ER. cbv beta in ER. fold g g' in ER.
    pose proof (mean_len n (sdt s dt) y g SS Ly) as M1. pose proof (mean_len n (sdt s dt) y' g' SS Ly') as M2.
    set (e := map (fun i => / 2 * (Rsum n (fun j => ent dt i j ^ 2 * nth j g 0) + Rsum n (fun j => ent dt i j ^ 2 * nth j g' 0))) (seq 0 n)).
    assert (Le : length e = n) by (unfold e; now rewrite map_length, seq_length).
    assert (Ne : forall i, (i < n)%nat -> nth i e 0 = / 2 * (Rsum n (fun j => ent dt i j ^ 2 * nth j g 0) + Rsum n (fun j => ent dt i j ^ 2 * nth j g' 0)))
      by (intros i Hi; exact (nth_map_seq (fun i => / 2 * (Rsum n (fun j => ent dt i j ^ 2 * nth j g 0) + Rsum n (fun j => ent dt i j ^ 2 * nth j g' 0))) n i 0 Hi)).
    set (v := map (fun i => - (nth i w 0 + s * nth i e 0)) (seq 0 n)).
    assert (Lv : length v = n) by (unfold v; now rewrite map_length, seq_length).
    assert (Nv : forall i, (i < n)%nat -> nth i v 0 = - (nth i w 0 + s * nth i e 0)) by (intros i Hi; exact (nth_map_seq (fun i => - (nth i w 0 + s * nth i e 0)) n i 0 Hi)).
    assert (MM : forall (u q : list R) i, length u = n -> length q = n -> (i < n)%nat ->
      @nth R i (@mat_mala_mean RNum (sdt s dt) u q) 0 = nth i u 0 + s * (s * (/ 2 * Rsum n (fun j => ent dt i j ^ 2 * nth j q 0)))).
    { intros u q i Hu Hq Hi. etransitivity; [exact (mean_R n _ u q i SS Hu Hq Hi)|].
      rewrite (Rsum_ext n (fun j => ent (sdt s dt) i j ^ 2 * nth j q 0) (fun j => s * s * (ent dt i j ^ 2 * nth j q 0))) by (intros j Hj; rewrite SQ by auto; ring).
      rewrite Rsum_scal. field. }
    assert (V1 : Rsum n (fun i => nth i (fs (chol (@mat_sq RNum (sdt s dt))) (@vsub RNum y' (mat_mala_mean (sdt s dt) y g))) 0 ^ 2) =
                 Rsum n (fun i => nth i (fs (chol (@mat_sq RNum dt)) w) 0 ^ 2)).
    { apply (norm_scaled n (fun _ => s) ltac:(intros; lra)); auto; [rlen; lia|]. intros i Hi. rewrite vsubR by lia. rewrite MM, MV by auto. ring. }
    assert (V2 : Rsum n (fun i => nth i (fs (chol (@mat_sq RNum (sdt s dt))) (@vsub RNum y (mat_mala_mean (sdt s dt) y' g'))) 0 ^ 2) =
                 Rsum n (fun i => nth i (fs (chol (@mat_sq RNum dt)) v) 0 ^ 2)).
    { apply (norm_scaled n (fun _ => s) ltac:(intros; lra)); auto; [rlen; lia|]. intros i Hi. rewrite vsubR by lia. rewrite MM, MV, Nv, Ne by auto. field. }
    assert (S2 : 0 < s <= 1) by lra.
    assert (He : forall i, (i < n)%nat -> Rabs (nth i e 0) <= INR n * (D * D * B)).
    { intros i Hi. rewrite Ne by auto. replace (INR n * (D * D * B)) with (/ 2 * (INR n * (D * D * B) + INR n * (D * D * B))) by field.
      apply Rabs_mul_le; [rewrite Rabs_pos_eq; lra|]. eapply Rle_trans; [apply Rabs_triang|].
      apply Rplus_le_compat; [exact (HS g (GB y X) i Hi)|exact (HS g' (GB y' X') i Hi)]. }
    pose proof (HQ s v e S2 Lv Le He Nv) as F. replace (s * (/ 2 * Q)) with (/ 2 * (s * Q)) by ring.
    assert (Al : forall a q p p1 v1 u : R, q = a + / 2 * p - / 2 * p1 -> p = v1 -> p1 = u -> Rabs (v1 - u) <= s * Q -> Rabs (q - a) <= / 2 * (s * Q)).
    { intros a q p p1 v1 u -> -> -> H. replace (a + / 2 * v1 - / 2 * u - a) with (/ 2 * (v1 - u)) by ring. apply Rabs_mul_le; [rewrite Rabs_pos_eq; lra|exact H]. }
    exact (Al _ _ _ _ _ _ ER V1 V2 F).
  - unfold mat_mala_kernel. rnorm. rewrite Ly. pose proof (sq_bool n _ SS) as SB. rnorm. rewrite SB. fold z g y'. reflexivity.
Qed.
End Small.
