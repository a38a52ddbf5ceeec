(** Calculus of [is_dif] and [is_jac]. *)
From Coq Require Import Reals Psatz List.
From Coquelicot Require Import Coquelicot.
From Verif Require Import Prelude P_Lists RNum MxR Spec_Jac.

Lemma dist1_nonneg n x y : 0 <= dist1 n x y.
Proof. apply Rsum_nonneg. intros. apply Rabs_pos. Qed.
Lemma dist1_coord n x y j : (j < n)%nat -> Rabs (nth j y 0 - nth j x 0) <= dist1 n x y.
Proof.
  intros Hj. unfold dist1. induction n as [|n IH]; [lia|]. cbn [Rsum].
  destruct (Nat.eq_dec j n) as [->|H].
  - pose proof (Rsum_nonneg n (fun j => Rabs (nth j y 0 - nth j x 0)) ltac:(intros; apply Rabs_pos)). lra.
  - pose proof (IH ltac:(lia)). pose proof (Rabs_pos (nth n y 0 - nth n x 0)). lra.
Qed.
Lemma Rabs_Rsum n f : Rabs (Rsum n f) <= Rsum n (fun i => Rabs (f i)).
Proof. induction n; cbn [Rsum]; [rewrite Rabs_R0; lra|]. eapply Rle_trans; [apply Rabs_triang|]. lra. Qed.
Lemma Rsum_term n f k : (forall i, (i < n)%nat -> 0 <= f i) -> (k < n)%nat -> f k <= Rsum n f.
Proof.
  induction n; intros H Hk; [lia|]. cbn [Rsum]. destruct (Nat.eq_dec k n) as [->|].
  - pose proof (Rsum_nonneg n f ltac:(auto)). lra.
  - pose proof (IHn ltac:(auto) ltac:(lia)). pose proof (H n ltac:(lia)). lra.
Qed.

Lemma is_dif_ext n phi psi x g : length x = n -> (forall y, length y = n -> phi y = psi y) -> is_dif n phi x g -> is_dif n psi x g.
Proof.
  intros Hx H D eps He. destruct (D eps He) as (del & Hd & K). exists del. split; auto. intros y Hy Hd'.
  rewrite <- !H by auto. now apply K.
Qed.
Lemma is_dif_gext n phi x g g' : (forall j, (j < n)%nat -> g j = g' j) -> is_dif n phi x g -> is_dif n phi x g'.
Proof.
  intros H D eps He. destruct (D eps He) as (del & Hd & K). exists del. split; auto. intros y Hy Hd'.
  rewrite (Rsum_ext n (fun j => g' j * _) (fun j => g j * (nth j y 0 - nth j x 0))) by (intros; now rewrite H). now apply K.
Qed.
Lemma is_dif_const n c x : is_dif n (fun _ => c) x (fun _ => 0).
Proof.
  intros eps He. exists 1. split; [lra|]. intros y _ _. rewrite Rsum_0 by (intros; ring).
  replace (c - c - 0) with 0 by ring. rewrite Rabs_R0. pose proof (dist1_nonneg n x y). nra.
Qed.
Lemma is_dif_proj n k x : (k < n)%nat -> is_dif n (fun y => nth k y 0) x (fun j => mid k j).
Proof.
  intros Hk eps He. exists 1. split; [lra|]. intros y _ _.
  rewrite (Rsum_single n _ k Hk).
  - unfold mid. rewrite Nat.eqb_refl. replace (_ - _ - _) with 0 by (cbn; ring). rewrite Rabs_R0. pose proof (dist1_nonneg n x y). nra.
  - intros i _ Hi. unfold mid. destruct (Nat.eqb_spec k i); [congruence|]. cbn; ring.
Qed.
Lemma is_dif_plus n phi psi x g h : is_dif n phi x g -> is_dif n psi x h ->
  is_dif n (fun y => phi y + psi y) x (fun j => g j + h j).
Proof.
  intros D E eps He. destruct (D (eps / 2)) as (d1 & P1 & K1); [lra|]. destruct (E (eps / 2)) as (d2 & P2 & K2); [lra|].
  exists (Rmin d1 d2). split; [now apply Rmin_pos|]. intros y Hy Hd.
  specialize (K1 y Hy (Rlt_le_trans _ _ _ Hd (Rmin_l _ _))). specialize (K2 y Hy (Rlt_le_trans _ _ _ Hd (Rmin_r _ _))).
  rewrite (Rsum_ext n _ (fun j => g j * (nth j y 0 - nth j x 0) + h j * (nth j y 0 - nth j x 0))) by (intros; ring).
  rewrite Rsum_plus. set (A := Rsum n _) in * . set (B := Rsum n (fun j => h j * _)) in * .
  replace (phi y + psi y - (phi x + psi x) - (A + B)) with ((phi y - phi x - A) + (psi y - psi x - B)) by ring.
  eapply Rle_trans; [apply Rabs_triang|]. lra.
Qed.
Lemma is_dif_scal n c phi x g : is_dif n phi x g -> is_dif n (fun y => c * phi y) x (fun j => c * g j).
Proof.
  intros D eps He. pose proof (Rabs_pos c).
  destruct (D (eps / (Rabs c + 1))) as (d1 & P1 & K1). { apply Rdiv_lt_0_compat; lra. }
  exists d1. split; auto. intros y Hy Hd. specialize (K1 y Hy Hd).
  rewrite (Rsum_ext n _ (fun j => c * (g j * (nth j y 0 - nth j x 0)))) by (intros; ring). rewrite Rsum_scal.
  replace (_ - _ - _) with (c * (phi y - phi x - Rsum n (fun j => g j * (nth j y 0 - nth j x 0)))) by ring.
  rewrite Rabs_mult. eapply Rle_trans; [apply Rmult_le_compat_l; [auto|exact K1]|].
  pose proof (dist1_nonneg n x y).
  replace (Rabs c * (eps / (Rabs c + 1) * dist1 n x y)) with ((Rabs c / (Rabs c + 1)) * (eps * dist1 n x y)) by (field; lra).
  rewrite <- (Rmult_1_l (eps * dist1 n x y)) at 2. apply Rmult_le_compat_r; [nra|].
  apply Rmult_le_reg_r with (Rabs c + 1); [lra|]. unfold Rdiv. rewrite Rmult_assoc, Rinv_l by lra. lra.
Qed.

(** Lipschitz bound near x. *)
Lemma is_dif_lip n phi x g : is_dif n phi x g -> exists del, 0 < del /\
  forall y, length y = n -> dist1 n x y < del -> Rabs (phi y - phi x) <= (Rsum n (fun j => Rabs (g j)) + 1) * dist1 n x y.
Proof.
  intros D. destruct (D 1 Rlt_0_1) as (del & Hd & K). exists del. split; auto. intros y Hy H. specialize (K y Hy H).
  set (L := Rsum n (fun j => g j * _)) in * .
  assert (HL : Rabs L <= Rsum n (fun j => Rabs (g j)) * dist1 n x y).
  { unfold L. eapply Rle_trans; [apply Rabs_Rsum|]. rewrite Rmult_comm, <- Rsum_scal. apply Rsum_le. intros i Hi.
    rewrite Rabs_mult, Rmult_comm. apply Rmult_le_compat_r; [apply Rabs_pos|]. now apply dist1_coord. }
  replace (phi y - phi x) with ((phi y - phi x - L) + L) by ring.
  eapply Rle_trans; [apply Rabs_triang|]. nra.
Qed.

(** Uniform choice of a radius over finitely many coordinates. *)
Lemma finite_delta (m : nat) (P : nat -> R -> Prop) :
  (forall i, (i < m)%nat -> exists del, 0 < del /\ P i del) ->
  (forall i d d', 0 < d' -> d' <= d -> P i d -> P i d') ->
  exists del, 0 < del /\ forall i, (i < m)%nat -> P i del.
Proof.
  intros H M. induction m as [|m IH].
  - exists 1. split; [lra|]. intros; lia.
  - destruct IH as (d1 & P1 & K1). { intros; apply H; lia. }
    destruct (H m) as (d2 & P2 & K2); [lia|]. exists (Rmin d1 d2).
    assert (0 < Rmin d1 d2) by now apply Rmin_pos. split; auto. intros i Hi.
    destruct (Nat.eq_dec i m) as [->|].
    + apply (M m d2); auto. apply Rmin_r.
    + apply (M i d1); auto. apply Rmin_l. apply K1. lia.
Qed.

Lemma is_jac_near n m T x J : is_jac n m T x J -> forall eps, 0 < eps -> exists del, 0 < del /\
  forall y, length y = n -> dist1 n x y < del -> forall i, (i < m)%nat ->
    Rabs (nth i (T y) 0 - nth i (T x) 0 - Rsum n (fun j => J i j * (nth j y 0 - nth j x 0))) <= eps * dist1 n x y.
Proof.
  intros D eps He.
  destruct (finite_delta m (fun i del => forall y, length y = n -> dist1 n x y < del ->
    Rabs (nth i (T y) 0 - nth i (T x) 0 - Rsum n (fun j => J i j * (nth j y 0 - nth j x 0))) <= eps * dist1 n x y)) as (del & Hd & K).
  - intros i Hi. exact (D i Hi eps He).
  - intros i d d' _ Hd K y Hy H. apply K; auto. lra.
  - exists del. split; auto.
Qed.
Lemma is_jac_lip n m T x J : is_jac n m T x J -> exists C del, 0 < C /\ 0 < del /\
  forall y, length y = n -> dist1 n x y < del -> dist1 m (T x) (T y) <= C * dist1 n x y.
Proof.
  intros D.
  exists (Rsum m (fun i => Rsum n (fun j => Rabs (J i j)) + 1) + 1).
  destruct (finite_delta m (fun i del => forall y, length y = n -> dist1 n x y < del ->
    Rabs (nth i (T y) 0 - nth i (T x) 0) <= (Rsum n (fun j => Rabs (J i j)) + 1) * dist1 n x y)) as (del & Hd & K).
  - intros i Hi. exact (is_dif_lip _ _ _ _ (D i Hi)).
  - intros i d d' _ Hd K y Hy H. apply K; auto. lra.
  - exists del. split; [|split; auto].
    + pose proof (Rsum_nonneg m (fun i => Rsum n (fun j => Rabs (J i j)) + 1)). enough (0 <= Rsum m (fun i => Rsum n (fun j => Rabs (J i j)) + 1)) by lra.
      apply H. intros. pose proof (Rsum_nonneg n (fun j => Rabs (J i j))). enough (0 <= Rsum n (fun j => Rabs (J i j))) by lra. apply H1. intros. apply Rabs_pos.
    + intros y Hy H. pose proof (dist1_nonneg n x y). unfold dist1 at 1.
      eapply Rle_trans; [apply Rsum_le; intros i Hi; apply (K i Hi y Hy H)|].
      rewrite (Rsum_ext m _ (fun i => dist1 n x y * (Rsum n (fun j => Rabs (J i j)) + 1))) by (intros; ring).
      rewrite Rsum_scal. nra.
Qed.

(** Chain rule. *)
Lemma is_dif_chain n m T phi x J g : is_jac n m T x J -> (forall y, length y = n -> length (T y) = m) ->
  is_dif m phi (T x) g -> is_dif n (fun y => phi (T y)) x (fun j => Rsum m (fun k => g k * J k j)).
Proof.
  intros D L E eps He.
  destruct (is_jac_lip _ _ _ _ _ D) as (C & d0 & HC & Hd0 & K0).
  set (B := Rsum m (fun k => Rabs (g k))).
  assert (HB : 0 <= B) by (apply Rsum_nonneg; intros; apply Rabs_pos).
  assert (He1 : 0 < eps / (2 * (B + 1))) by (apply Rdiv_lt_0_compat; lra).
  assert (He2 : 0 < eps / (2 * C)) by (apply Rdiv_lt_0_compat; lra).
  destruct (is_jac_near _ _ _ _ _ D _ He1) as (d1 & Hd1 & K1).
  destruct (E _ He2) as (d2 & Hd2 & K2).
  assert (Hd2' : 0 < d2 / C) by now apply Rdiv_lt_0_compat.
  exists (Rmin d0 (Rmin d1 (d2 / C))). split; [repeat apply Rmin_pos; auto|]. intros y Hy Hd.
  assert (A0 : dist1 n x y < d0) by (eapply Rlt_le_trans; [exact Hd|apply Rmin_l]).
  assert (A1 : dist1 n x y < d1) by (eapply Rlt_le_trans; [exact Hd|eapply Rle_trans; [apply Rmin_r|apply Rmin_l]]).
  assert (A2 : dist1 n x y < d2 / C) by (eapply Rlt_le_trans; [exact Hd|eapply Rle_trans; [apply Rmin_r|apply Rmin_r]]).
  specialize (K0 y Hy A0). pose proof (K1 y Hy A1) as K1'. pose proof (dist1_nonneg n x y) as HD.
  assert (A3 : dist1 m (T x) (T y) < d2).
  { eapply Rle_lt_trans; [exact K0|]. apply (Rmult_lt_compat_l C) in A2; auto. replace (C * (d2 / C)) with d2 in A2 by (field; lra). lra. }
  specialize (K2 (T y) (L y Hy) A3).
  set (U := fun k => nth k (T y) 0 - nth k (T x) 0).
  set (V := fun k => Rsum n (fun j => J k j * (nth j y 0 - nth j x 0))).
  assert (ES : Rsum n (fun j => Rsum m (fun k => g k * J k j) * (nth j y 0 - nth j x 0)) = Rsum m (fun k => g k * V k)).
  { rewrite (Rsum_ext n _ (fun j => Rsum m (fun k => g k * (J k j * (nth j y 0 - nth j x 0))))).
    - rewrite Rsum_swap. apply Rsum_ext. intros k _. rewrite Rsum_scal. reflexivity.
    - intros j _. rewrite Rmult_comm, <- Rsum_scal. apply Rsum_ext. intros; ring. }
  rewrite ES. clear ES.
  assert (EU : Rsum m (fun k => g k * U k) - Rsum m (fun k => g k * V k) = Rsum m (fun k => g k * (U k - V k))).
  { rewrite <- Rsum_minus. apply Rsum_ext. intros; ring. }
  replace (phi (T y) - phi (T x) - Rsum m (fun k => g k * V k))
    with ((phi (T y) - phi (T x) - Rsum m (fun k => g k * U k)) + Rsum m (fun k => g k * (U k - V k))) by lra.
  eapply Rle_trans; [apply Rabs_triang|].
  assert (B1 : Rabs (phi (T y) - phi (T x) - Rsum m (fun k => g k * U k)) <= eps / 2 * dist1 n x y).
  { eapply Rle_trans; [exact K2|]. replace (eps / 2 * dist1 n x y) with (eps / (2 * C) * (C * dist1 n x y)) by (field; lra).
    apply Rmult_le_compat_l; lra. }
  assert (B2 : Rabs (Rsum m (fun k => g k * (U k - V k))) <= eps / 2 * dist1 n x y).
  { eapply Rle_trans; [apply Rabs_Rsum|].
    apply Rle_trans with (Rsum m (fun k => (eps / (2 * (B + 1)) * dist1 n x y) * Rabs (g k))).
    - apply Rsum_le. intros k Hk. rewrite Rabs_mult, Rmult_comm. apply Rmult_le_compat_r; [apply Rabs_pos|]. exact (K1' k Hk).
    - rewrite Rsum_scal. fold B.
      replace (eps / (2 * (B + 1)) * dist1 n x y * B) with ((eps / 2 * dist1 n x y) * (B / (B + 1))) by (field; lra).
      rewrite <- (Rmult_1_r (eps / 2 * dist1 n x y)) at 2. apply Rmult_le_compat_l; [nra|].
      apply Rmult_le_reg_r with (B + 1); [lra|]. unfold Rdiv. rewrite Rmult_assoc, Rinv_l by lra. lra. }
  lra.
Qed.
Lemma is_jac_chain n m p T S x J K : is_jac n m T x J -> (forall y, length y = n -> length (T y) = m) ->
  is_jac m p S (T x) K -> is_jac n p (fun y => S (T y)) x (mmul m K J).
Proof. intros D L E i Hi. exact (is_dif_chain n m T (fun y => nth i (S y) 0) x J (K i) D L (E i Hi)). Qed.

Lemma is_jac_ext n m T S x J : length x = n -> (forall y, length y = n -> T y = S y) -> is_jac n m T x J -> is_jac n m S x J.
Proof. intros Hx H D i Hi. apply (is_dif_ext n (fun y => nth i (T y) 0)); auto. intros. now rewrite H. Qed.
Lemma is_jac_id n x : is_jac n n (fun y => y) x mid.
Proof. intros i Hi. now apply is_dif_proj. Qed.

(** Moving one coordinate. *)
Lemma is_dif_1 phi c l : is_derive phi c l -> is_dif 1 (fun y => phi (nth 0 y 0)) [c] (fun _ => l).
Proof.
  intros D eps He. apply is_derive_Reals in D. destruct (D eps He) as [del K].
  exists del. split; [apply cond_pos|]. intros y Hy Hd. unfold dist1 in * . cbn [Rsum nth] in * .
  set (t := nth 0 y 0) in * . destruct (Req_dec (t - c) 0) as [E|NE].
  - replace t with c by lra. replace (_ - _ - _) with 0 by ring. replace (c - c) with 0 by ring. rewrite Rabs_R0. lra.
  - assert (Hh : Rabs (t - c) < del) by lra. specialize (K (t - c) NE Hh). replace (c + (t - c)) with t in K by ring.
    replace (phi t - phi c - (0 + l * (t - c))) with (((phi t - phi c) / (t - c) - l) * (t - c)) by (field; lra).
    rewrite Rabs_mult, Rplus_0_l. apply Rmult_le_compat_r; [apply Rabs_pos|]. lra.
Qed.
(** Composition with a function of one variable. *)
Lemma is_dif_comp n (u : R -> R) phi x g l : is_dif n phi x g -> is_derive u (phi x) l ->
  is_dif n (fun y => u (phi y)) x (fun j => l * g j).
Proof.
  intros D U. assert (J : is_jac n 1 (fun y => [phi y]) x (fun _ => g)).
  { intros i Hi. assert (i = 0%nat) by lia; subst. exact D. }
  pose proof (is_dif_chain n 1 (fun y => [phi y]) (fun w => u (nth 0 w 0)) x (fun _ => g) (fun _ => l) J ltac:(auto) (is_dif_1 u (phi x) l U)) as Q.
  cbn [nth] in Q. eapply is_dif_gext; [|exact Q]. intros j Hj. cbn [Rsum]. ring.
Qed.
Lemma is_dif_mult n phi psi x g h : is_dif n phi x g -> is_dif n psi x h ->
  is_dif n (fun y => phi y * psi y) x (fun j => psi x * g j + phi x * h j).
Proof.
  intros D E.
  assert (S1 : is_dif n (fun y => / 4 * (phi y + psi y) ^ 2 + - / 4 * (phi y + -1 * psi y) ^ 2) x
     (fun j => / 4 * (2 * (phi x + psi x) * (g j + h j)) + - / 4 * (2 * (phi x + -1 * psi x) * (g j + -1 * h j)))).
  { apply is_dif_plus; apply is_dif_scal.
    - apply (is_dif_comp n (fun t => t ^ 2) (fun y => phi y + psi y)); [now apply is_dif_plus|]. auto_derive; auto. ring.
    - apply (is_dif_comp n (fun t => t ^ 2) (fun y => phi y + -1 * psi y)); [apply is_dif_plus; auto; now apply is_dif_scal|]. auto_derive; auto. ring. }
  assert (EQ : forall y, / 4 * (phi y + psi y) ^ 2 + - / 4 * (phi y + -1 * psi y) ^ 2 = phi y * psi y) by (intros; field).
  intros eps He. destruct (S1 eps He) as (del & Hd & K). exists del. split; auto. intros y Hy Hdd. specialize (K y Hy Hdd).
  rewrite !EQ in K. rewrite (Rsum_ext n _ (fun j => (/ 4 * (2 * (phi x + psi x) * (g j + h j)) + - / 4 * (2 * (phi x + -1 * psi x) * (g j + -1 * h j))) * (nth j y 0 - nth j x 0))); auto.
  intros; field.
Qed.

(** Entries of a derivative are the partial derivatives. *)
Lemma is_dif_partial n phi x g j : length x = n -> (j < n)%nat -> is_dif n phi x g ->
  is_derive (fun t : R => phi (set_nth j t x)) (nth j x 0) (g j).
Proof.
  intros Hx Hj D. apply is_derive_Reals. intros eps He. destruct (D (eps / 2)) as (del & Hd & K); [lra|].
  exists (mkposreal del Hd). intros h Hh Hh'. cbn in Hh'.
  set (y := set_nth j (nth j x 0 + h) x).
  assert (Ly : length y = n) by (unfold y; now rewrite set_nth_length).
  assert (Ex : set_nth j (nth j x 0) x = x).
  { apply (list_eq_nth 0); [now rewrite set_nth_length|]. intros i Hi. rewrite set_nth_length in Hi.
    destruct (Nat.eq_dec i j) as [->|]; [apply nth_set_nth_eq; auto|apply nth_set_nth_neq; auto]. }
  assert (Hs : forall F : nat -> R -> R, (forall i, F i 0 = 0) -> Rsum n (fun i => F i (nth i y 0 - nth i x 0)) = F j h).
  { intros F0 HF. rewrite (Rsum_single n _ j Hj).
    - unfold y. rewrite nth_set_nth_eq by lia. f_equal. ring.
    - intros i Hi Hij. unfold y. rewrite nth_set_nth_neq by auto. replace (nth i x 0 - nth i x 0) with 0 by ring. apply HF. }
  assert (Hdist : dist1 n x y = Rabs h) by (unfold dist1; apply (Hs (fun _ t => Rabs t)); intros; apply Rabs_R0).
  assert (Hlin : Rsum n (fun i => g i * (nth i y 0 - nth i x 0)) = g j * h) by (apply (Hs (fun i t => g i * t)); intros; ring).
  specialize (K y Ly ltac:(lra)). rewrite Hlin, Hdist in K. cbv beta. change (AbsRing.sort R_AbsRing) with R. rewrite Ex. fold y.
  replace ((phi y - phi x) / h - g j) with ((phi y - phi x - g j * h) / h) by (field; auto).
  unfold Rdiv. rewrite Rabs_mult, Rabs_Rinv by auto. pose proof (Rabs_pos_lt h Hh).
  apply Rle_lt_trans with (eps / 2 * Rabs h * / Rabs h).
  - apply Rmult_le_compat_r; auto. left. now apply Rinv_0_lt_compat.
  - rewrite Rmult_assoc, Rinv_r by lra. lra.
Qed.
Lemma is_dif_partial_val n phi x g j l : length x = n -> (j < n)%nat -> is_dif n phi x g ->
  is_derive (fun t : R => phi (set_nth j t x)) (nth j x 0) l -> g j = l.
Proof.
  intros Hx Hj D E. pose proof (is_dif_partial n phi x g j Hx Hj D) as Q.
  rewrite <- (is_derive_unique _ _ _ Q). now apply is_derive_unique.
Qed.

(** Determinant of a map that leaves the coordinates of S unchanged, and whose other coordinates
    depend only on themselves and on those of S. *)
Lemma shear_det n T x J (S : nat -> bool) (D : nat -> R) : length x = n -> is_jac n n T x J ->
  (forall i y, (i < n)%nat -> length y = n -> S i = true -> nth i (T y) 0 = nth i y 0) ->
  (forall i j t, (i < n)%nat -> (j < n)%nat -> i <> j -> S i = false -> S j = false ->
      nth i (T (set_nth j t x)) 0 = nth i (T x) 0) ->
  (forall i, (i < n)%nat -> S i = false -> is_derive (fun t : R => nth i (T (set_nth i t x)) 0) (nth i x 0) (D i)) ->
  mdet n J = Rprod n (fun i => if S i then 1 else D i).
Proof.
  intros Hx HJ H1 H2 H3.
  assert (R1 : forall i j, (i < n)%nat -> (j < n)%nat -> S i = true -> J i j = mid i j).
  { intros i j Hi Hj Si. apply (is_dif_partial_val n (fun y => nth i (T y) 0) x (J i) j); auto.
    apply (is_derive_ext (fun t => nth i (set_nth j t x) 0)).
    - intros t. symmetry. apply H1; auto. rewrite set_nth_length. auto.
    - unfold mid. destruct (Nat.eqb_spec i j) as [->|Hij].
      + apply (is_derive_ext (fun t => t)); [|apply (is_derive_id (K := R_AbsRing))]. intros t. symmetry. apply (nth_set_nth_eq (A := R)). rewrite Hx. auto.
      + apply (is_derive_ext (fun _ => nth i x 0)); [|apply (is_derive_const (K := R_AbsRing) (V := R_NormedModule))]. intros t. symmetry. apply (nth_set_nth_neq (A := R)); auto. }
  rewrite (@mdet_shear n J S).
  - apply Rprod_ext. intros i Hi. destruct (S i) eqn:Si.
    + rewrite R1 by auto. unfold mid. now rewrite Nat.eqb_refl.
    + apply (is_dif_partial_val n (fun y => nth i (T y) 0) x (J i) i); auto.
  - intros i j Hi Hj Hij Hn. destruct (S i) eqn:Si.
    { exfalso. apply Hn. rewrite R1 by auto. unfold mid. destruct (Nat.eqb_spec i j); [congruence|reflexivity]. }
    split; auto. destruct (S j) eqn:Sj; auto. exfalso. apply Hn.
    apply (is_dif_partial_val n (fun y => nth i (T y) 0) x (J i) j); auto.
    apply (is_derive_ext (fun _ => nth i (T x) 0)); [|apply (is_derive_const (K := R_AbsRing) (V := R_NormedModule))].
    intros t. rewrite H2; auto.
Qed.
