(** Proofs of C55: the Gaussian base distribution and Composable. *)
From Coq Require Import Reals Psatz.
From Coquelicot Require Import Coquelicot.
From Verif Require Import Prelude Num M_Core M_Kernels M_Flow M_Net P_Lists RNum MxR Spec_Jac P_Jac Spec_Real Spec_Flow P_Real1 P_Flow4 P_Flow5 Spec_Net.
Open Scope R_scope.

Lemma fsum_map2_mul (a b : list R) : @fsum RNum (map2 fmul a b) = Rsum (Nat.min (length a) (length b)) (fun j => nth j a 0 * nth j b 0).
Proof.
  rewrite fsumR. rewrite map2_length. apply Rsum_ext. intros i Hi. exact (map2R Rmult a b i ltac:(lia) ltac:(lia)).
Qed.
Lemma vdot_R (a b : list R) n : length a = n -> length b = n -> @vdot RNum a b = Rsum n (fun j => nth j a 0 * nth j b 0).
Proof. intros Ha Hb. unfold vdot. etransitivity; [exact (fsum_map2_mul a b)|]. rewrite Ha, Hb, Nat.min_id. reflexivity. Qed.

(* ------------------------------------------------------------------ forward substitution *)
Lemma fs_gen (l : list (list R)) : forall (y acc : list R), length l = length y ->
  (forall i, (i < length l)%nat -> (length acc + length l <= length (nth i l []))%nat) ->
  let r := @forward_subst RNum l y acc in
  length r = (length acc + length l)%nat /\
  (forall i, (i < length acc)%nat -> @nth R i r 0 = nth i acc 0) /\
  (forall i, (i < length l)%nat ->
    @nth R (length acc + i) r 0 = (nth i y 0 - Rsum (length acc + i) (fun j => nth j (nth i l []) 0 * @nth R j r 0)) / nth (length acc + i) (nth i l []) 0).
Proof.
  induction l as [|row l IH]; intros [|b y] acc E Hl; try discriminate; cbv zeta.
  - cbn. split; [lia|split; auto; intros; lia].
  - cbn [forward_subst]. set (z := (_ /. _)%num). injection E as E.
    assert (La : length (acc ++ [z]) = S (length acc)) by (rewrite app_length; cbn; lia).
    destruct (IH y (acc ++ [z]) E) as (L & H1 & H2).
    { intros i Hi. rnorm. rewrite La. specialize (Hl (S i) ltac:(cbn; lia)). cbn in Hl. rnorm. lia. }
    rnorm. rewrite La in * . set (r := forward_subst l y (acc ++ [z])) in * .
    assert (Hz : @nth R (length acc) r 0 = z).
    { rewrite H1 by lia. rewrite app_nth2 by lia. now rewrite Nat.sub_diag. }
    assert (Ha : forall i, (i < length acc)%nat -> @nth R i r 0 = nth i acc 0).
    { intros i Hi. rewrite H1 by lia. now rewrite app_nth1. }
    split; [cbn; lia|]. split; [exact Ha|].
    intros [|i] Hi.
    + rewrite !Nat.add_0_r. rewrite Hz. unfold z. cbn [nth].
      specialize (Hl 0%nat ltac:(cbn; lia)). cbn [nth length] in Hl.
      pose proof (fsum_map2_mul row acc) as Q. rewrite Nat.min_r in Q by (rnorm; lia). rnorm. cbn [fsub fdiv RNum]. rewrite Q.
      apply (f_equal2 Rdiv); [|reflexivity]. apply (f_equal2 Rminus); [reflexivity|]. apply Rsum_ext. intros j Hj. now rewrite Ha.
    + cbn [nth]. replace (length acc + S i)%nat with (S (length acc) + i)%nat by lia. apply H2. cbn in Hi. lia.
Qed.

Section Tri.
Variables (n : nat) (l : list (list R)).
Hypothesis Hc : cholesky_shape n l.
Lemma tri_row i : (i < n)%nat -> length (nth i l []) = n.
Proof. destruct Hc as [[L H] _]. intros Hi. apply H, nth_In. lia. Qed.
Lemma tri_pos i : (i < n)%nat -> 0 < ent l i i.
Proof. apply Hc. Qed.
Lemma fs_nth (y : list R) i : length y = n -> (i < n)%nat ->
  @nth R i (@forward_subst RNum l y []) 0 = (nth i y 0 - Rsum i (fun j => ent l i j * @nth R j (forward_subst l y []) 0)) / ent l i i.
Proof.
  intros Hy Hi. destruct Hc as [[L H] _]. destruct (fs_gen l y []) as (_ & _ & K); [congruence| |exact (K i ltac:(lia))].
  intros j Hj. rewrite tri_row by lia. cbn. lia.
Qed.
Lemma fs_len (y : list R) : length y = n -> length (@forward_subst RNum l y []) = n.
Proof.
  intros Hy. destruct Hc as [[L H] _]. destruct (fs_gen l y []) as (K & _ & _); [congruence| |exact (eq_trans K L)].
  intros j Hj. rewrite tri_row by lia. cbn. lia.
Qed.
(** Rows of a lower triangular matrix stop at the diagonal. *)
Lemma tri_sum i (z : nat -> R) : (i < n)%nat -> Rsum n (fun j => ent l i j * z j) = Rsum i (fun j => ent l i j * z j) + ent l i i * z i.
Proof.
  intros Hi. change (Rsum i (fun j => ent l i j * z j) + ent l i i * z i) with (Rsum (S i) (fun j => ent l i j * z j)).
  assert (Hz : forall j, (i < j < n)%nat -> ent l i j = 0) by (intros; apply Hc; lia). clear Hc.
  induction n as [|k IH]; [lia|]. destruct (Nat.eq_dec i k) as [->|Hne]; [reflexivity|].
  cbn [Rsum]. cbn [Rsum] in IH. rewrite IH by (try lia; intros; apply Hz; lia). rewrite (Hz k) by lia. ring.
Qed.
(** It solves l z = y ... *)
Lemma fs_solves (y : list R) i : length y = n -> (i < n)%nat ->
  Rsum n (fun j => ent l i j * @nth R j (@forward_subst RNum l y []) 0) = nth i y 0.
Proof.
  intros Hy Hi. rewrite tri_sum by auto. rewrite (fs_nth y i Hy Hi). pose proof (tri_pos i Hi). field. lra.
Qed.
(** ... uniquely. *)
Lemma tri_inj (y z z' : list R) : length z = n -> length z' = n ->
  (forall i, (i < n)%nat -> Rsum n (fun j => ent l i j * nth j z 0) = Rsum n (fun j => ent l i j * nth j z' 0)) -> z = z'.
Proof.
  intros Hz Hz' H. apply (list_eq_nth (0 : R)); [congruence|]. rewrite Hz. intros i. induction i as [i IH] using lt_wf_ind. intros Hi.
  specialize (H i Hi). rewrite !tri_sum in H by auto.
  rewrite (Rsum_ext i (fun j => ent l i j * nth j z 0) (fun j => ent l i j * nth j z' 0)) in H by (intros j Hj; rewrite (IH j) by lia; reflexivity).
  apply Rplus_eq_reg_l in H. pose proof (tri_pos i Hi). apply (Rmult_eq_reg_l (ent l i i)); auto; lra.
Qed.
Variable mean : list R.
Hypothesis Hm : length mean = n.
Let T (x : list R) : list R := @forward_subst RNum l (@vsub RNum x mean) [].
Let S (z : list R) : list R := @gaussian_of_noise RNum mean l z.
Lemma sub_len (x : list R) : length x = n -> length (@vsub RNum x mean) = n.
Proof. intros. rlen. lia. Qed.
Lemma T_len (x : list R) : length x = n -> length (T x) = n.
Proof. intros. apply fs_len. now apply sub_len. Qed.
Lemma S_len (z : list R) : length z = n -> length (S z) = n.
Proof. intros. unfold S, gaussian_of_noise. destruct Hc as [[L _] _]. rlen. lia. Qed.
Lemma S_nth (z : list R) i : length z = n -> (i < n)%nat -> @nth R i (S z) 0 = nth i mean 0 + Rsum n (fun j => ent l i j * nth j z 0).
Proof.
  intros Hz Hi. unfold S, gaussian_of_noise. destruct Hc as [[L _] _]. rewrite vaddR by (rlen; lia). apply (f_equal2 Rplus); [reflexivity|].
  assert (Li : (i < length l)%nat) by lia. etransitivity; [exact (nth_map' (fun row => @vdot RNum row z) l i [] 0 Li)|]. apply vdot_R; auto. now apply tri_row.
Qed.
Lemma ST (x : list R) : length x = n -> S (T x) = x.
Proof.
  intros Hx. apply (list_eq_nth (0 : R)); [rewrite S_len; auto using T_len|]. rewrite S_len by (now apply T_len). intros i Hi.
  rewrite S_nth by auto using T_len. unfold T. rewrite fs_solves by auto using sub_len. rewrite vsubR by lia. ring.
Qed.
Lemma TS (z : list R) : length z = n -> T (S z) = z.
Proof.
  intros Hz. apply (tri_inj []); auto. { apply T_len. now apply S_len. } intros i Hi.
  unfold T at 1. rewrite fs_solves by auto using sub_len, S_len. pose proof (S_len z Hz). rewrite vsubR by lia. rewrite S_nth by auto. ring.
Qed.
Lemma T_dif (x : list R) i : length x = n -> (i < n)%nat -> dif n (fun y => @nth R i (T y) 0) x.
Proof.
  intros Hx. induction i as [i IH] using lt_wf_ind. intros Hi.
  apply (dif_ext n x Hx (fun y => / ent l i i * ((nth i y 0 - nth i mean 0) - Rsum i (fun j => ent l i j * @nth R j (T y) 0)))).
  - intros y Hy. unfold T at 2. rewrite fs_nth by auto using sub_len. rewrite vsubR by lia. fold (T y). unfold Rdiv. ring.
  - apply dif_scal; auto. apply dif_minus; auto.
    + apply dif_minus; auto; [now apply dif_proj|apply dif_const].
    + apply dif_Rsum; auto. intros j Hj. apply dif_scal; auto. apply IH; lia.
Qed.
Lemma S_jac (z : list R) : length z = n -> is_jac n n S z (ent l).
Proof.
  intros Hz i Hi. apply (is_dif_ext n (fun y => nth i mean 0 + Rsum n (fun j => ent l i j * nth j y 0))); auto.
  - intros y Hy. symmetry. now apply S_nth.
  - assert (D : forall k, (k <= n)%nat -> is_dif n (fun y => Rsum k (fun j => ent l i j * nth j y 0)) z (fun j => Rsum k (fun q => ent l i q * mid q j))).
    { induction k as [|k IH]; intros Hk; cbn [Rsum]; [apply is_dif_const|]. apply is_dif_plus; [apply IH; lia|]. apply is_dif_scal. apply is_dif_proj. lia. }
    eapply is_dif_gext; [|apply is_dif_plus; [apply is_dif_const|apply (D n (le_n n))]]. intros j Hj. cbn beta.
    rewrite (Rsum_single n _ j Hj); [unfold mid; rewrite Nat.eqb_refl; ring|].
    intros q Hq Hne. unfold mid. destruct (Nat.eqb_spec q j); [contradiction|ring].
Qed.
Lemma det_l : mdet n (ent l) = Rprod n (fun i => ent l i i) /\ 0 < Rprod n (fun i => ent l i i).
Proof.
  split; [apply mdet_lower; intros; apply Hc; lia|]. apply Rprod_pos. intros. now apply tri_pos.
Qed.
Lemma T_jac (x : list R) : length x = n -> exists J, is_jac n n T x J /\ mdet n J * Rprod n (fun i => ent l i i) = 1.
Proof.
  intros Hx. assert (H : forall i, exists g, (i < n)%nat -> is_dif n (fun y => @nth R i (T y) 0) x g).
  { intros i. destruct (lt_dec i n) as [Hi|Hi]; [|exists (fun _ => 0); lia]. destruct (T_dif x i Hx Hi) as [g Hg]. now exists g. }
  apply ClassicalEpsilon.choice in H. destruct H as [J HJ]. exists J.
  assert (HJ' : is_jac n n T x J) by (intros i Hi; now apply HJ). split; auto.
  pose proof (is_jac_chain n n n T S x J (ent l) HJ' T_len (S_jac (T x) (T_len x Hx))) as HC.
  assert (HI : is_jac n n (fun y : list R => y) x (mmul n (ent l) J)) by (apply (is_jac_ext n n (fun y => S (T y))); auto; intros; now apply ST).
  assert (E : forall i j, (i < n)%nat -> (j < n)%nat -> mmul n (ent l) J i j = mid i j).
  { intros i j Hi Hj. refine (is_dif_partial_val n (fun y => nth i y 0) x (mmul n (ent l) J i) j _ Hx Hj (HI i Hi) _).
    exact (is_dif_partial n (fun y => nth i y 0) x (mid i) j Hx Hj (is_dif_proj n i x Hi)). }
  rewrite <- (proj1 det_l), Rmult_comm, <- mdet_mul. rewrite (@mdet_ext n _ mid) by auto. apply mdet_id.
Qed.
Lemma logp_R (x : list R) : length x = n ->
  @gaussian_logp RNum mean l x = - / 2 * Rsum n (fun i => @nth R i (T x) 0 ^ 2) - INR n / 2 * ln (2 * PI) - Rsum n (fun i => ln (ent l i i)).
Proof.
  intros Hx. unfold gaussian_logp. fold (T x). pose proof (vdot_R (T x) (T x) n (T_len x Hx) (T_len x Hx)) as V. rnorm. cbn [F RNum] in * . rewrite V, Hm.
  change (@fofZ RNum (Z.of_nat n)) with (IZR (Z.of_nat n)). rewrite <- INR_IZR_INZ.
  assert (E : @fsum RNum (map (fun i => fln (nth i (nth i l []) f0)) (seq 0 n)) = Rsum n (fun i => ln (ent l i i))).
  { rewrite fsumR. rewrite map_length, seq_length. apply Rsum_ext. intros i Hi. exact (nth_map_seq (fun i => ln (ent l i i)) n i 0 Hi). }
  cbn [F RNum] in E. rewrite E. cbn [fsub fmul fdiv fneg fln RNum]. rewrite (Rsum_ext n _ (fun i => @nth R i (T x) 0 ^ 2)) by (intros; ring).
  change (@f1 RNum) with 1. change (@f2 RNum) with 2. change (@fpi RNum) with PI. replace (- (1) / 2) with (- / 2) by field. reflexivity.
Qed.
Lemma gaussian_density_proof (x : list R) : length x = n ->
  exists d, density_through n T (std_density n) x d /\ 0 < d /\ @gaussian_logp RNum mean l x = ln d.
Proof.
  intros Hx. destruct (T_jac x Hx) as (J & HJ & D). destruct det_l as [_ Hp]. set (P := Rprod n (fun i => ent l i i)) in * .
  assert (E : Rabs (mdet n J) = / P).
  { rewrite <- (Rabs_pos_eq (/ P)) by (left; now apply Rinv_0_lt_compat). f_equal. apply (Rmult_eq_reg_r P); [|lra]. rewrite D. field. lra. }
  exists (std_density n (T x) * Rabs (mdet n J)). split; [exists J; auto|].
  pose proof (std_density_pos n (T x)) as Sp. rewrite E. assert (Ip : 0 < / P) by (now apply Rinv_0_lt_compat).
  split; [now apply Rmult_lt_0_compat|]. rewrite ln_mult by auto. rewrite ln_Rinv by auto.
  rewrite std_density_gauss, ln_gauss by (intros; lra). rewrite logp_R by auto.
  unfold P. rewrite ln_Rprod by (intros; now apply tri_pos). 
  rewrite (Rsum_ext n (fun i => - (nth i (T x) 0 - 0) ^ 2 / (2 * 1 ^ 2) - ln (Rabs 1) - ln (2 * PI) / 2) (fun i => - / 2 * nth i (T x) 0 ^ 2 - ln (2 * PI) / 2)).
  - rewrite Rsum_minus, Rsum_scal, Rsum_const. ring_simplify. rnorm. field.
  - intros i Hi. rewrite Rabs_R1, ln_1. field.
Qed.
End Tri.
