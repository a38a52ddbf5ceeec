(** Determinants of real matrices, through mathcomp: the reals as a mathcomp field, and a
    nat-indexed interface. *)
From Coq Require Import Reals ClassicalEpsilon.
From Verif Require Import RNum.
From mathcomp Require Import all_ssreflect fingroup perm all_algebra.
Set Implicit Arguments.
Unset Strict Implicit.
Unset Printing Implicit Defensive.
Import GRing.Theory.
Local Close Scope R_scope.
Local Open Scope ring_scope.

Definition eqr (x y : R) : bool := if Req_EM_T x y then true else false.
Lemma eqrP : Equality.axiom eqr.
Proof. by move=> x y; rewrite /eqr; case: Req_EM_T => H; constructor. Qed.
Definition R_eqMixin := EqMixin eqrP.
Canonical R_eqType := Eval hnf in EqType R R_eqMixin.

Definition pickR (P : pred R) (n : nat) : option R :=
  match excluded_middle_informative (exists x, P x) with
  | left H => Some (proj1_sig (constructive_indefinite_description _ H))
  | right _ => None
  end.
Lemma pickR_some P n x : pickR P n = Some x -> P x.
Proof.
  rewrite /pickR; case: excluded_middle_informative => // H [<-].
  exact: proj2_sig (constructive_indefinite_description _ H).
Qed.
Lemma pickR_ex (P : pred R) : (exists x, P x) -> exists n, pickR P n.
Proof. by move=> H; exists 0%N; rewrite /pickR; case: excluded_middle_informative. Qed.
Lemma pickR_ext (P Q : pred R) : P =1 Q -> pickR P =1 pickR Q.
Proof.
  move=> PQ n. have -> : P = Q by apply: FunctionalExtensionality.functional_extensionality.
  by [].
Qed.
Definition R_choiceMixin := Choice.Mixin pickR_some pickR_ex pickR_ext.
Canonical R_choiceType := Eval hnf in ChoiceType R R_choiceMixin.

Lemma RaddA : associative Rplus. Proof. by move=> x y z; rewrite Rplus_assoc. Qed.
Lemma RmulA : associative Rmult. Proof. by move=> x y z; rewrite Rmult_assoc. Qed.
Definition R_zmodMixin := ZmodMixin RaddA Rplus_comm Rplus_0_l Rplus_opp_l.
Canonical R_zmodType := Eval hnf in ZmodType R R_zmodMixin.
Lemma Rmul_addl : left_distributive Rmult Rplus. Proof. by move=> x y z; rewrite Rmult_plus_distr_r. Qed.
Lemma R1_neq0 : R1 != R0 :> R. Proof. by apply/eqP; exact: R1_neq_R0. Qed.
Definition R_comRingMixin := ComRingMixin RmulA Rmult_comm Rmult_1_l Rmul_addl R1_neq0.
Canonical R_ringType := Eval hnf in RingType R R_comRingMixin.
Canonical R_comRingType := Eval hnf in ComRingType R Rmult_comm.

(** Determinant of the n x n matrix with entries M i j. *)
Definition mx_of (n : nat) (M : nat -> nat -> R) : 'M[R]_n := \matrix_(i < n, j < n) M i j.
Definition mdet (n : nat) (M : nat -> nat -> R) : R := \det (mx_of n M).

Lemma Rsum_big n f : Rsum n f = (\sum_(i < n) f i)%R.
Proof. elim: n => [|n IH]; first by rewrite big_ord0. by rewrite big_ord_recr /= -IH. Qed.
Lemma Rprod_big n f : Rprod n f = (\prod_(i < n) f i)%R.
Proof. elim: n => [|n IH]; first by rewrite big_ord0. by rewrite big_ord_recr /= -IH. Qed.

Lemma mx_of_ext n A B : (forall i j, (i < n)%coq_nat -> (j < n)%coq_nat -> A i j = B i j) -> mx_of n A = mx_of n B.
Proof. move=> H; apply/matrixP => i j; rewrite !mxE; apply: H; exact/ltP. Qed.
Lemma mdet_ext n A B : (forall i j, (i < n)%coq_nat -> (j < n)%coq_nat -> A i j = B i j) -> mdet n A = mdet n B.
Proof. by move=> H; rewrite /mdet (mx_of_ext H). Qed.

Definition mmul (n : nat) (A B : nat -> nat -> R) : nat -> nat -> R := fun i j => Rsum n (fun k => Rmult (A i k) (B k j)).
Lemma mx_of_mul n A B : mx_of n (mmul n A B) = (mx_of n A *m mx_of n B)%R.
Proof. apply/matrixP => i j; rewrite !mxE /mmul Rsum_big; apply: eq_bigr => k _; by rewrite !mxE. Qed.
Lemma mdet_mul n A B : mdet n (mmul n A B) = Rmult (mdet n A) (mdet n B).
Proof. by rewrite /mdet mx_of_mul det_mulmx. Qed.

Definition mid (i j : nat) : R := if Nat.eqb i j then R1 else R0.
Lemma mx_of_id n : mx_of n mid = (1%:M)%R.
Proof.
  apply/matrixP => i j; rewrite !mxE /mid.
  case: (Nat.eqb_spec i j) => H.
  - have -> : i = j by apply: val_inj. by rewrite eqxx.
  - by case: eqP => // E; case: H; rewrite E.
Qed.
Lemma mdet_id n : mdet n mid = R1.
Proof. by rewrite /mdet mx_of_id det1. Qed.

Lemma mat_inv_comm n A B :
  (forall i j, (i < n)%coq_nat -> (j < n)%coq_nat -> mmul n A B i j = mid i j) ->
  forall i j, (i < n)%coq_nat -> (j < n)%coq_nat -> mmul n B A i j = mid i j.
Proof.
  move=> H i j Hi Hj. have E : (mx_of n A *m mx_of n B = 1%:M)%R by rewrite -mx_of_mul (mx_of_ext H) mx_of_id.
  move/mulmx1C: E. rewrite -mx_of_mul -mx_of_id => /matrixP /(_ (Ordinal (introT ltP Hi)) (Ordinal (introT ltP Hj))).
  by rewrite !mxE.
Qed.

(** A matrix whose off-diagonal entries sit in rows outside S and columns inside S, and whose rows
    in S are unit rows: its determinant is the product of its diagonal. *)
Lemma mdet_shear n (M : nat -> nat -> R) (S : nat -> bool) :
  (forall i j, (i < n)%coq_nat -> (j < n)%coq_nat -> i <> j -> M i j <> R0 -> S i = false /\ S j = true) ->
  mdet n M = Rprod n (fun i => M i i).
Proof.
  move=> H. rewrite /mdet /determinant (bigD1 1%g) //= odd_perm1 expr0 mul1r.
  rewrite [X in (_ + X)%R]big1 ?addr0; last first.
  - move=> s s1. have [i si] : exists i, s i != i.
    { apply/existsP; rewrite -negb_forall; apply: contra s1 => /forallP E. by apply/eqP/permP => i; rewrite perm1; apply/eqP. }
    case: (boolP (\prod_(i < n) mx_of n M i (s i) == 0)%R) => [/eqP -> | nz]; first by rewrite mulr0.
    have nz1 : forall k, (mx_of n M k (s k) != 0)%R by move=> k; apply: contra nz => /eqP E; rewrite (bigD1 k) //= E mul0r.
    have A : forall k : 'I_n, s k != k -> S k = false /\ S (s k) = true.
    { move=> k sk. apply: (H k (s k)); try exact/ltP.
      - by move=> E; case/eqP: sk; apply: val_inj.
      - by move: (nz1 k); rewrite mxE => /eqP. }
    have [_ S1] := A i si.
    have si2 : s (s i) != s i by apply: contra si => /eqP /perm_inj ->.
    have [S2 _] := A (s i) si2. by rewrite S1 in S2.
  - rewrite Rprod_big; apply: eq_bigr => i _; by rewrite perm1 mxE.
Qed.

(** Small cases, to see that this is the usual determinant. *)
Lemma mdet_1 M : mdet 1 M = M 0%N 0%N.
Proof. by rewrite /mdet det_mx11 mxE. Qed.
Lemma mdet_2 M : mdet 2 M = Rminus (Rmult (M 0%N 0%N) (M 1%N 1%N)) (Rmult (M 0%N 1%N) (M 1%N 0%N)).
Proof.
  rewrite /mdet (expand_det_row _ ord0) !big_ord_recl big_ord0 /cofactor !det_mx11 !mxE /=.
  rewrite addr0 /bump /= expr0 expr1 mul1r mulN1r mulrN. by [].
Qed.

(** Lower triangular matrices; transposes. *)
Lemma mdet_lower n (M : nat -> nat -> R) : (forall i j, (i < n)%coq_nat -> (j < n)%coq_nat -> (i < j)%coq_nat -> M i j = R0) ->
  mdet n M = Rprod n (fun i => M i i).
Proof.
  move=> H. rewrite /mdet det_trig; last first.
  - apply/is_trig_mxP => i j ij. rewrite mxE. apply: H; exact/ltP.
  - rewrite Rprod_big; apply: eq_bigr => i _; by rewrite mxE.
Qed.
Lemma mdet_transpose n (M : nat -> nat -> R) : mdet n (fun i j => M j i) = mdet n M.
Proof.
  rewrite /mdet -[RHS]det_tr; congr (\det _); apply/matrixP => i j; by rewrite !mxE.
Qed.
