(** Paths of a reversible finite chain read the same in both directions. *)
From Coq Require Import Reals Lra Lia Permutation.
From Verif Require Import Prelude Num M_Core RNum Spec_Real Spec_Inv P_Inv1 P_Cov1.
Open Scope R_scope.

Definition delta (y x : list R) : R := if veq_dec x y then 1 else 0.
Lemma delta_sum (X : list (list R)) (h : list R -> R) x : NoDup X -> In x X -> total X (fun y => h y * delta y x) = h x.
Proof.
  intros N. induction N as [|a l Ha N IH]; [intros []|]. intros [->|Hx]; change (total (?a :: ?l) ?g) with (g a + total l g).
  - rewrite (total_0 l); [unfold delta; destruct (veq_dec x x); [ring|contradiction]|]. intros b Hb. unfold delta. destruct (veq_dec x b); [subst; contradiction|ring].
  - rewrite (IH Hx). unfold delta. destruct (veq_dec x a); [subst; contradiction|ring].
Qed.

(** Linear operators that only look at the states are matrices. *)
Section Matrix.
Variables (X : list (list R)) (S : (list R -> R) -> list R -> R).
Hypothesis NX : NoDup X.
Hypothesis LIN : forall a g b h x, In x X -> S (fun y => a * g y + b * h y) x = a * S g x + b * S h x.
Hypothesis EXT : forall g h x, In x X -> (forall y, In y X -> g y = h y) -> S g x = S h x.
Lemma op_total (c : list R -> R) x L : In x X -> S (fun z => total L (fun y => c y * delta y z)) x = total L (fun y => c y * S (delta y) x).
Proof.
  intros Hx. induction L as [|y L IH].
  - change (S (fun _ => 0) x = 0). rewrite (EXT _ (fun z => 0 * (fun _ => 0) z + 0 * (fun _ => 0) z) x Hx) by (intros; ring). rewrite LIN by exact Hx. ring.
  - change (total (y :: L) (fun y => c y * S (delta y) x)) with (c y * S (delta y) x + total L (fun y => c y * S (delta y) x)). rewrite <- IH.
    rewrite (EXT _ (fun z => c y * delta y z + 1 * total L (fun y => c y * delta y z)) x Hx).
    + rewrite LIN by exact Hx. ring.
    + intros z _. change (total (y :: L) (fun y => c y * delta y z)) with (c y * delta y z + total L (fun y => c y * delta y z)). ring.
Qed.
Lemma op_matrix g x : In x X -> S g x = total X (fun y => S (delta y) x * g y).
Proof.
  intros Hx. rewrite (EXT g (fun z => total X (fun y => g y * delta y z)) x Hx).
  - rewrite op_total by exact Hx. apply total_ext. intros; ring.
  - intros y Hy. symmetry. now apply delta_sum.
Qed.
Lemma op_balance (w : list R -> R) : (forall u v, total X (fun x => w x * (u x * S v x)) = total X (fun x => w x * (v x * S u x))) ->
  forall x y, In x X -> In y X -> w x * S (delta y) x = w y * S (delta x) y.
Proof.
  intros H x y Hx Hy. pose proof (H (delta x) (delta y)) as Q.
  assert (E : forall a b, In a X -> total X (fun z => w z * (delta a z * S (delta b) z)) = w a * S (delta b) a).
  { intros a b Ha. rewrite (total_ext X _ (fun z => (w z * S (delta b) z) * delta z a)).
    - exact (delta_sum X (fun z => w z * S (delta b) z) a NX Ha).
    - intros z _. unfold delta. destruct (veq_dec z a), (veq_dec a z); subst; try contradiction; ring. }
  rewrite (E x y Hx), (E y x Hy) in Q. exact Q.
Qed.
End Matrix.

Section Paths.
Variables (X : list (list R)) (w : list R -> R) (kk : list R -> list R -> R).
Hypothesis KN : forall x y, In x X -> In y X -> 0 <= kk x y.
Hypothesis K1 : forall x, In x X -> total X (kk x) = 1.
Hypothesis KB : forall x y, In x X -> In y X -> w x * kk x y = w y * kk y x.
Hypothesis WN : forall x, In x X -> 0 <= w x.
Fixpoint PE (m : nat) (F : list (list R) -> R) (x : list R) : R :=
  match m with O => F [] | S m' => total X (fun y => kk x y * PE m' (fun l => F (y :: l)) y) end.
Lemma PE_ext m : forall F H x, (forall l, F l = H l) -> PE m F x = PE m H x.
Proof using. induction m as [|m IH]; intros F H x E; cbn [PE]; [apply E|]. apply total_ext. intros y _. f_equal. apply IH. intros; apply E. Qed.
Lemma PE_scal m : forall c F x, PE m (fun l => c * F l) x = c * PE m F x.
Proof using.
  induction m as [|m IH]; intros c F x; cbn [PE]; [reflexivity|]. rewrite <- total_scal. apply total_ext. intros y _. rewrite (IH c (fun l => F (y :: l))). ring.
Qed.
Lemma PE_total {A} m : forall (L : list A) F x, PE m (fun l => total L (fun a => F a l)) x = total L (fun a => PE m (F a) x).
Proof using.
  induction m as [|m IH]; intros L F x; cbn [PE]; [reflexivity|]. rewrite tot_swap. apply total_ext. intros y _.
  rewrite (IH L (fun a l => F a (y :: l))). rewrite <- total_scal. reflexivity.
Qed.
Lemma last_cons' {A} (y x : A) l : last (y :: l) x = last l y.
Proof using. revert x y. induction l as [|a l IH]; intros x y; [reflexivity|]. change (last (y :: a :: l) x) with (last (a :: l) x). exact (eq_trans (IH x a) (eq_sym (IH y a))). Qed.
Lemma PE_snoc m : forall F x, PE (S m) F x = PE m (fun l => total X (fun y => kk (last l x) y * F (l ++ [y]))) x.
Proof using.
  induction m as [|m IH]; intros F x; [reflexivity|]. change (PE (S (S m)) F x) with (total X (fun y => kk x y * PE (S m) (fun l => F (y :: l)) y)).
  cbn [PE]. apply total_ext. intros y _. f_equal. refine (eq_trans (IH (fun l => F (y :: l)) y) _). apply PE_ext. intros l. rewrite last_cons'. reflexivity.
Qed.
Lemma rev_head (y : list R) l : rev (y :: l) = last l y :: tl (rev (y :: l)).
Proof using.
  induction l as [|a l IH] using rev_ind; [reflexivity|]. change (y :: l ++ [a]) with ((y :: l) ++ [a]). rewrite rev_app_distr. cbn [rev app tl]. f_equal. symmetry. apply last_last.
Qed.
Lemma backward m : forall F, total X (fun x => w x * PE m (fun l => F (x :: l)) x) = total X (fun x => w x * PE m (fun l => F (rev (x :: l))) x).
Proof using KB.
  induction m as [|m IH]; intros F; [reflexivity|].
  set (F' := fun p => match p with y :: l => total X (fun x => kk y x * F (x :: y :: l)) | [] => 0 end).
  transitivity (total X (fun y => w y * PE m (fun l => F' (y :: l)) y)).
  - cbn [PE]. rewrite (total_ext X _ (fun x => total X (fun y => w x * kk x y * PE m (fun l => F (x :: y :: l)) y))) by (intros x _; rewrite <- total_scal; apply total_ext; intros; ring).
    rewrite tot_swap. apply total_ext. intros y Hy. unfold F'. rewrite (PE_total m X (fun x l => kk y x * F (x :: y :: l)) y), <- total_scal.
    apply total_ext. intros x Hx. rewrite (PE_scal m (kk y x) (fun l => F (x :: y :: l)) y). rewrite (KB x y Hx Hy). ring.
  - rewrite IH. apply total_ext. intros y _. f_equal. rewrite (PE_snoc m). apply PE_ext. intros l. rewrite (rev_head y l) at 1. unfold F'.
    apply total_ext. intros x _. rewrite <- (rev_head y l). f_equal. f_equal. change (y :: l ++ [x]) with ((y :: l) ++ [x]). now rewrite rev_app_distr.
Qed.

(** Correlations along paths. *)
Definition Tk (g : list R -> R) (x : list R) : R := total X (fun y => kk x y * g y).
Fixpoint Tkn (k : nat) (g : list R -> R) : list R -> R := match k with O => g | S k' => Tk (Tkn k' g) end.
Lemma Tk_ext g h x : (forall y, In y X -> g y = h y) -> Tk g x = Tk h x.
Proof using. intros E. apply total_ext. intros y Hy. now rewrite (E y Hy). Qed.
Lemma PE_const m a : forall x, In x X -> PE m (fun _ => a) x = a.
Proof using K1.
  induction m as [|m IH]; intros x Hx; cbn [PE]; [reflexivity|]. rewrite (total_ext X _ (fun y => a * kk x y)) by (intros y Hy; rewrite (IH y Hy); ring).
  rewrite total_scal, (K1 x Hx). ring.
Qed.
Lemma PE_one u n : forall j x, (j < n)%nat -> In x X -> PE n (fun l => u (nth j l [])) x = Tkn (S j) u x.
Proof using K1.
  induction n as [|n IH]; intros j x Hj Hx; [lia|]. cbn [PE]. change (Tkn (S j) u x) with (Tk (Tkn j u) x). apply Tk_ext. intros y Hy. destruct j as [|j].
  - cbn [nth]. now apply PE_const.
  - cbn [nth]. apply IH; auto. lia.
Qed.
Lemma PE_two u n : forall i j x, (i <= j)%nat -> (j < n)%nat -> In x X -> PE n (fun l => u (nth i l []) * u (nth j l [])) x = Tkn (S i) (fun y => u y * Tkn (j - i) u y) x.
Proof using K1.
  induction n as [|n IH]; intros i j x Hi Hj Hx; [lia|]. cbn [PE]. change (Tkn (S i) (fun y => u y * Tkn (j - i) u y) x) with (Tk (Tkn i (fun y => u y * Tkn (j - i) u y)) x).
  apply Tk_ext. intros y Hy. destruct i as [|i].
  - destruct j as [|j].
    + cbn [nth]. now apply PE_const.
    + cbn [nth]. rewrite (PE_scal n (u y) (fun l => u (nth j l [])) y), (PE_one u n j y) by (auto; lia). reflexivity.
  - destruct j as [|j]; [lia|]. cbn [nth]. rewrite (IH i j y) by (auto; lia). reflexivity.
Qed.
Definition Bk (g h : list R -> R) : R := total X (fun x => w x * (g x * h x)).
Lemma Bk_self g h : Bk g (Tk h) = Bk (Tk g) h.
Proof using KB.
  unfold Bk, Tk. rewrite (total_ext X _ (fun x => total X (fun y => w x * kk x y * (g x * h y)))) by (intros x _; rewrite <- !total_scal; apply total_ext; intros; ring).
  rewrite tot_swap. apply total_ext. intros y Hy. rewrite (Rmult_comm (total _ _) (h y)), <- !total_scal. apply total_ext. intros x Hx. rewrite (KB x y Hx Hy). ring.
Qed.
Lemma Tk_inv g : total X (fun x => w x * Tk g x) = total X (fun x => w x * g x).
Proof using KB K1.
  pose proof (Bk_self (fun _ => 1) g) as H. unfold Bk in H.
  rewrite (total_ext X (fun x => w x * Tk g x) (fun x => w x * (1 * Tk g x))) by (intros; ring). rewrite H. apply total_ext. intros x Hx.
  assert (E : Tk (fun _ => 1) x = 1) by (unfold Tk; rewrite (total_ext X _ (kk x)) by (intros; ring); exact (K1 x Hx)). rewrite E. ring.
Qed.
Lemma Tkn_inv k g : total X (fun x => w x * Tkn k g x) = total X (fun x => w x * g x).
Proof using KB K1. induction k as [|k IH]; [reflexivity|]. cbn [Tkn]. now rewrite Tk_inv. Qed.
Lemma Bk_ext g h g' h' : (forall x, In x X -> g x = g' x) -> (forall x, In x X -> h x = h' x) -> Bk g h = Bk g' h'.
Proof using. intros A B. apply total_ext. intros x Hx. now rewrite (A x Hx), (B x Hx). Qed.
Lemma Tkn_self j : forall k g h, Bk g (Tkn (j + k) h) = Bk (Tkn j g) (Tkn k h).
Proof using KB.
  induction j as [|j IH]; intros k g h; [reflexivity|]. cbn [Nat.add Tkn]. rewrite Bk_self. rewrite IH.
  assert (C : forall i g, Tkn i (Tk g) = Tk (Tkn i g)). { clear. intros i g. induction i as [|i IH]; [reflexivity|]. cbn [Tkn]. now rewrite IH. }
  now rewrite C.
Qed.
Lemma Bk_nonneg g : 0 <= Bk g g.
Proof using WN. apply tot_nn. intros x Hx. pose proof (WN x Hx). nra. Qed.
Lemma jensen g x : In x X -> (Tk g x)^2 <= Tk (fun y => (g y)^2) x.
Proof using KN K1.
  intros Hx. set (a := Tk g x). assert (P : 0 <= total X (fun y => kk x y * (g y - a)^2)).
  { apply tot_nn. intros y Hy. apply Rmult_le_pos; [auto|apply pow2_ge_0]. }
  rewrite (total_ext X _ (fun y => 1 * (kk x y * (g y)^2) + 1 * ((-2 * a) * (kk x y * g y) + a^2 * kk x y))) in P by (intros; ring).
  rewrite !total_lin, (K1 x Hx) in P. fold (Tk g x) in P. fold (Tk (fun y => (g y)^2) x) in P. fold a in P. nra.
Qed.
Lemma Bk_shrinks g : Bk (Tk g) (Tk g) <= Bk g g.
Proof using KN K1 KB WN.
  unfold Bk. apply Rle_trans with (total X (fun x => w x * Tk (fun y => (g y)^2) x)).
  - apply P_Erg1.total_le. intros x Hx. apply Rmult_le_compat_l; [auto|]. pose proof (jensen g x Hx). lra.
  - rewrite Tk_inv. right. apply total_ext. intros; ring.
Qed.
Definition lagk (u : list R -> R) (k : nat) : R := Bk u (Tkn k u).
Lemma lagk_even u k : 0 <= lagk u (k + k).
Proof using KB WN. unfold lagk. rewrite Tkn_self. apply Bk_nonneg. Qed.
Lemma lagk_down u k : lagk u (S k + S k) <= lagk u (k + k).
Proof using KN K1 KB WN. unfold lagk. rewrite !Tkn_self. apply Bk_shrinks. Qed.
Lemma PE_cov u n i j : (i <= j)%nat -> (j < n)%nat ->
  total X (fun x => w x * PE n (fun l => u (nth i l []) * u (nth j l [])) x) = lagk u (j - i).
Proof using KB K1.
  intros Hi Hj. rewrite (total_ext X _ (fun x => w x * Tkn (S i) (fun y => u y * Tkn (j - i) u y) x)) by (intros x Hx; now rewrite (PE_two u n i j x Hi Hj Hx)).
  exact (Tkn_inv (S i) (fun y => u y * Tkn (j - i) u y)).
Qed.
End Paths.
