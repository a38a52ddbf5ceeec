(** The exact-real instance of the arithmetic interface, and finite sums and products. *)
From Coq Require Import Reals Psatz.
From Verif Require Import Prelude Num.

(** Exact real arithmetic.  Sums and products never overflow and there is no NaN; a number counts as finite if
    it is below 2^128 in absolute value, the range of float32, and [fninf] is -2^128, a number outside it.
    [ln] and division are total: theorems are stated where their arguments are in the domain. *)
Definition Rbig : R := IZR 340282366920938463463374607431768211456.
Definition Rltb (x y : R) : bool := if Rlt_dec x y then true else false.
Definition Rleb (x y : R) : bool := if Rle_dec x y then true else false.
Definition RNum : Num := {|
  F := R; fofZ := IZR; fpi := PI; fninf := (- Rbig)%R;
  fadd := Rplus; fsub := Rminus; fmul := Rmult; fdiv := Rdiv; fneg := Ropp;
  fexp := exp; fln := ln; fsqrt := sqrt; ftanh := tanh;
  flt := Rltb;
  fle := Rleb;
  fnan := fun _ => false; ffinite := fun x => Rltb (Rabs x) Rbig |}.

Open Scope R_scope.
Lemma finite_R (x : R) : Rabs x < Rbig -> @ffinite RNum x = true.
Proof. intros H. cbn. unfold Rltb. destruct (Rlt_dec (Rabs x) Rbig); [reflexivity|contradiction]. Qed.
Lemma ninf_R : @ffinite RNum (@fninf RNum) = false.
Proof. cbn. unfold Rltb. rewrite Rabs_Ropp, Rabs_pos_eq by (unfold Rbig; lra). destruct (Rlt_dec Rbig Rbig); [lra|reflexivity]. Qed.

(** f 0 + ... + f (n - 1) and f 0 * ... * f (n - 1). *)
Fixpoint Rsum (n : nat) (f : nat -> R) : R :=
  match n with O => 0 | S n' => Rsum n' f + f n' end.
Fixpoint Rprod (n : nat) (f : nat -> R) : R :=
  match n with O => 1 | S n' => Rprod n' f * f n' end.

Lemma Rsum_ext n f g : (forall i, (i < n)%nat -> f i = g i) -> Rsum n f = Rsum n g.
Proof. induction n; intros H; simpl; auto. rewrite IHn, H; auto. Qed.
Lemma Rprod_ext n f g : (forall i, (i < n)%nat -> f i = g i) -> Rprod n f = Rprod n g.
Proof. induction n; intros H; simpl; auto. rewrite IHn, H; auto. Qed.
Lemma Rsum_S n f : Rsum (S n) f = f 0%nat + Rsum n (fun i => f (S i)).
Proof. induction n; [simpl; ring|]. change (Rsum (S n) f + f (S n) = f 0%nat + (Rsum n (fun i => f (S i)) + f (S n))). rewrite IHn. ring. Qed.
Lemma Rprod_S n f : Rprod (S n) f = f 0%nat * Rprod n (fun i => f (S i)).
Proof. induction n; [simpl; ring|]. change (Rprod (S n) f * f (S n) = f 0%nat * (Rprod n (fun i => f (S i)) * f (S n))). rewrite IHn. ring. Qed.
Lemma Rsum_plus n f g : Rsum n (fun i => f i + g i) = Rsum n f + Rsum n g.
Proof. induction n; simpl; [ring|rewrite IHn; ring]. Qed.
Lemma Rsum_minus n f g : Rsum n (fun i => f i - g i) = Rsum n f - Rsum n g.
Proof. induction n; simpl; [ring|rewrite IHn; ring]. Qed.
Lemma Rsum_scal n c f : Rsum n (fun i => c * f i) = c * Rsum n f.
Proof. induction n; simpl; [ring|rewrite IHn; ring]. Qed.
Lemma Rsum_opp n f : Rsum n (fun i => - f i) = - Rsum n f.
Proof. induction n; simpl; [ring|rewrite IHn; ring]. Qed.
Lemma Rsum_const n c : Rsum n (fun _ => c) = INR n * c.
Proof. induction n; [simpl; ring|]. rewrite S_INR. simpl Rsum. rewrite IHn. ring. Qed.
Lemma Rsum_0 n f : (forall i, (i < n)%nat -> f i = 0) -> Rsum n f = 0.
Proof. intros H. rewrite (Rsum_ext n f (fun _ => 0)) by auto. rewrite Rsum_const. ring. Qed.
Lemma Rsum_swap n m f : Rsum n (fun i => Rsum m (fun j => f i j)) = Rsum m (fun j => Rsum n (fun i => f i j)).
Proof. induction n; simpl. - rewrite Rsum_0; auto. - rewrite IHn, <- Rsum_plus. reflexivity. Qed.
Lemma Rsum_single n f k : (k < n)%nat -> (forall i, (i < n)%nat -> i <> k -> f i = 0) -> Rsum n f = f k.
Proof.
  induction n; intros Hk H; [lia|]. simpl. destruct (Nat.eq_dec k n) as [->|Hn].
  - rewrite Rsum_0. ring. intros; apply H; lia.
  - rewrite IHn by (try lia; intros; apply H; lia). rewrite (H n) by lia. ring.
Qed.
Lemma Rsum_nonneg n f : (forall i, (i < n)%nat -> 0 <= f i) -> 0 <= Rsum n f.
Proof. induction n; simpl; intros H; [lra|]. pose proof (IHn ltac:(auto)). pose proof (H n ltac:(lia)). lra. Qed.
Lemma Rsum_le n f g : (forall i, (i < n)%nat -> f i <= g i) -> Rsum n f <= Rsum n g.
Proof. induction n; simpl; intros H; [lra|]. pose proof (IHn ltac:(auto)). pose proof (H n ltac:(lia)). lra. Qed.
Lemma Rprod_mult n f g : Rprod n (fun i => f i * g i) = Rprod n f * Rprod n g.
Proof. induction n; simpl; [ring|rewrite IHn; ring]. Qed.
Lemma Rprod_pos n f : (forall i, (i < n)%nat -> 0 < f i) -> 0 < Rprod n f.
Proof. induction n; simpl; intros H; [lra|]. apply Rmult_lt_0_compat; auto. Qed.
Lemma exp_Rsum n f : exp (Rsum n f) = Rprod n (fun i => exp (f i)).
Proof. induction n; simpl; [apply exp_0|]. rewrite exp_plus, IHn. auto. Qed.
Lemma ln_Rprod n f : (forall i, (i < n)%nat -> 0 < f i) -> ln (Rprod n f) = Rsum n (fun i => ln (f i)).
Proof. induction n; simpl; intros H; [apply ln_1|]. rewrite ln_mult, IHn; auto. apply Rprod_pos; auto. Qed.

Existing Instance RNum.
Canonical Structure RNum.

Lemma fsum_Rsum (l : list R) : fsum l = Rsum (length l) (fun i => nth i l 0).
Proof.
  induction l as [|a l IH]; [reflexivity|]. cbn [length]. rewrite Rsum_S. cbn [nth].
  change (fsum (a :: l)) with (a + fsum l). rewrite IH. reflexivity.
Qed.
Lemma INR_ofZ n : fofZ (Z.of_nat n) = INR n.
Proof. symmetry. apply INR_IZR_INZ. Qed.

Lemma flt_R x y : flt x y = true <-> (x < y)%R.
Proof. cbn. unfold Rltb. destruct (Rlt_dec x y); split; auto; discriminate. Qed.
Lemma flt_R_false x y : flt x y = false <-> ~ (x < y)%R.
Proof. cbn. unfold Rltb. destruct (Rlt_dec x y); split; auto; try discriminate; tauto. Qed.
Lemma fle_R x y : fle x y = true <-> (x <= y)%R.
Proof. cbn. unfold Rleb. destruct (Rle_dec x y); split; auto; discriminate. Qed.
Lemma fle_R_false x y : fle x y = false <-> (y < x)%R.
Proof. cbn. unfold Rleb. destruct (Rle_dec x y); split; auto; try discriminate; lra. Qed.

Lemma fmax_R x y : fmax x y = Rmax x y.
Proof. unfold fmax. cbn. unfold Rmax, Rleb. destruct (Rle_dec x y); reflexivity. Qed.
Lemma fmin_R x y : fmin x y = Rmin x y.
Proof. unfold fmin. cbn. unfold Rmin, Rleb. destruct (Rle_dec x y); reflexivity. Qed.
Lemma fclip_R x lo hi : fclip x lo hi = Rmin (Rmax x lo) hi.
Proof. unfold fclip. now rewrite fmax_R, fmin_R. Qed.
