(** Independence of parallel chains: the loops. *)
From Coq Require Import Reals Lra Lia Permutation Classical.
From Verif Require Import Prelude Num M_Core M_Kernels M_Strategies P_Lists Spec_Kernels RNum Spec_Real Spec_Inv P_Inv1 P_Inv2 P_Inv5 Spec_Erg P_Erg1 P_Erg2 Spec_Lln P_Lln1 P_Lln2 P_Lln3 Spec_Par.
Open Scope R_scope.

Lemma Rprod_one n : Rprod n (fun _ => 1) = 1.
Proof. induction n as [|n IH]; cbn [Rprod]; [reflexivity|]. rewrite IH. ring. Qed.
Lemma Rprod_mul n f g : Rprod n (fun i => f i * g i) = Rprod n f * Rprod n g.
Proof. induction n as [|n IH]; cbn [Rprod]; [ring|]. rewrite IH. ring. Qed.
Lemma Rprod_single n i v : (i < n)%nat -> Rprod n (fun j => if (j =? i)%nat then v else 1) = v.
Proof.
  induction n as [|n IH]; intros H; [lia|]. cbn [Rprod]. destruct (Nat.eqb_spec n i) as [->|N].
  - rewrite (Rprod_ext i _ (fun _ => 1)); [rewrite Rprod_one; ring|]. intros j Hj. destruct (Nat.eqb_spec j i); [lia|reflexivity].
  - rewrite IH by lia. ring.
Qed.
Lemma Rprod_pair n i j a b : (i < n)%nat -> (j < n)%nat -> i <> j -> Rprod n (fun l => if (l =? i)%nat then a else if (l =? j)%nat then b else 1) = a * b.
Proof.
  intros Hi Hj N. rewrite (Rprod_ext n _ (fun l => (if (l =? i)%nat then a else 1) * (if (l =? j)%nat then b else 1))).
  - rewrite Rprod_mul, !Rprod_single by assumption. reflexivity.
  - intros l _. destruct (Nat.eqb_spec l i), (Nat.eqb_spec l j); try lia; ring.
Qed.

Section One.
Context {K A : Type} (E : expect K) (n : nat) (l : nat -> K -> A).
Lemma independent_pair i j (u v : A -> R) : independent E n l -> (i < n)%nat -> (j < n)%nat -> i <> j ->
  ex E (fun k => u (l i k) * v (l j k)) = ex E (fun k => u (l i k)) * ex E (fun k => v (l j k)).
Proof.
  intros I Hi Hj N. pose proof (I (fun t x => if (t =? i)%nat then u x else if (t =? j)%nat then v x else 1)) as Q.
  rewrite (ex_ext _ E _ (fun k => u (l i k) * v (l j k))) in Q.
  - rewrite Q. rewrite <- (Rprod_pair n i j _ _ Hi Hj N). apply Rprod_ext. intros t Ht. destruct (Nat.eqb_spec t i) as [->|]; [reflexivity|].
    destruct (Nat.eqb_spec t j) as [->|]; [reflexivity|]. apply ex_const.
  - intros k. rewrite <- (Rprod_pair n i j (u (l i k)) (v (l j k)) Hi Hj N). apply Rprod_ext. intros t Ht.
    destruct (Nat.eqb_spec t i) as [->|]; [reflexivity|]. destruct (Nat.eqb_spec t j) as [->|]; reflexivity.
Qed.
Lemma independent_map {B} (h : nat -> A -> B) : independent E n l -> independent E n (fun i k => h i (l i k)).
Proof. intros I u. exact (I (fun i x => u i (h i x))). Qed.
Lemma independent_ext (l' : nat -> K -> A) : (forall i k, (i < n)%nat -> l i k = l' i k) -> independent E n l -> independent E n l'.
Proof.
  intros H I u. rewrite (ex_ext _ E _ (fun k => Rprod n (fun i => u i (l i k)))) by (intros k; apply Rprod_ext; intros i Hi; now rewrite H).
  rewrite I. apply Rprod_ext. intros i Hi. apply ex_ext. intros k. now rewrite H.
Qed.
End One.

(** The square of the pooled sum. *)
Lemma pooled_square {K} (E : expect K) (T : nat -> K -> R) (S2 M : R) n : independent E n T ->
  (forall i, (i < n)%nat -> ex E (fun k => T i k ^ 2) <= S2) -> (forall i, (i < n)%nat -> Rabs (ex E (T i)) <= M) ->
  forall m, (m <= n)%nat -> ex E (fun k => Rsum m (fun i => T i k) ^ 2) <= INR m * S2 + INR m ^ 2 * M ^ 2.
Proof.
  intros I H2 H1. induction m as [|m IH]; intros Hm.
  - cbn [Rsum]. rewrite (ex_ext _ E _ (fun _ => 0)) by (intros; ring). rewrite ex_const. cbn. lra.
  - cbn [Rsum]. rewrite (ex_ext _ E _ (fun k => 1 * (1 * Rsum m (fun i => T i k) ^ 2 + 2 * (Rsum m (fun i => T i k) * T m k)) + 1 * T m k ^ 2)) by (intros; ring).
    rewrite !ex_lin.
    assert (X : forall p, (p <= m)%nat -> ex E (fun k => Rsum p (fun i => T i k) * T m k) = Rsum p (fun i => ex E (T i)) * ex E (T m) /\ Rabs (Rsum p (fun i => ex E (T i))) <= INR p * M).
    { induction p as [|p IHp]; intros Hp.
      - cbn [Rsum]. rewrite (ex_ext _ E _ (fun _ => 0)) by (intros; ring). rewrite ex_const, Rabs_R0. cbn. lra.
      - destruct IHp as [A B]; [lia|]. cbn [Rsum]. rewrite (ex_ext _ E _ (fun k => 1 * (Rsum p (fun i => T i k) * T m k) + 1 * (T p k * T m k))) by (intros; ring).
        rewrite ex_lin, A. split.
        + rewrite (independent_pair E n T p m (fun x => x) (fun x => x) I) by lia. rewrite (ex_ext _ E (fun k => T p k) (T p)), (ex_ext _ E (fun k => T m k) (T m)) by reflexivity. ring.
        + rewrite S_INR. eapply Rle_trans; [apply Rabs_triang|]. pose proof (H1 p ltac:(lia)). lra. }
    destruct (X m (le_n m)) as [A B]. rewrite A. pose proof (H2 m ltac:(lia)) as Q2. pose proof (H1 m ltac:(lia)) as Q1. pose proof (IH ltac:(lia)) as Q0.
    assert (C : Rsum m (fun i => ex E (T i)) * ex E (T m) <= INR m * M * M).
    { eapply Rle_trans; [apply Rle_abs|]. rewrite Rabs_mult. apply Rmult_le_compat; auto using Rabs_pos. }
    rewrite S_INR. assert (0 <= M) by (pose proof (Rabs_pos (ex E (T m))); lra). pose proof (pos_INR m). nra.
Qed.

Section Loops.
Context {G : @Rng RNum}.
Lemma splits_all_has E n Es i : splits_all E n Es -> (i < n)%nat -> split_has E n i (Es i).
Proof.
  intros H Hi h. pose proof (H (fun j k => if (j =? i)%nat then h k else 1)) as Q.
  rewrite (ex_ext _ E _ (fun k => h (split k n i))) in Q.
  - rewrite Q. rewrite <- (Rprod_single n i (ex (Es i) h) Hi). apply Rprod_ext. intros j Hj. destruct (Nat.eqb_spec j i) as [->|]; [reflexivity|apply ex_const].
  - intros k. rewrite <- (Rprod_single n i (h (split k n i)) Hi). apply Rprod_ext. intros j Hj. destruct (Nat.eqb_spec j i) as [->|]; reflexivity.
Qed.
Lemma sources_source chains P Q n : forall E i, (i < chains)%nat -> loops_sources chains P Q n E -> loops_source chains i P Q n E.
Proof.
  induction n as [|n IH]; intros E i Hi; [auto|]. intros (E0 & E1 & Ec & E00 & E01 & Ed & SP & HC & PP & SP0 & HD & QQ & L).
  exists E0, E1, (Ec i), E00, E01, (Ed i). repeat (split; auto using splits_all_has).
Qed.
Variables (chains : nat) (s1 s2 : key -> list R -> res (list (list R * R * bool))).
Variables (p1 t1 e1 p2 t2 e2 : nat) (P Q : expect key -> Prop).
Notation rows i := (rows chains i s1 s2 p1 t1 e1 p2 t2 e2).
Notation cend i := (cend chains i s1 s2 e1 e2).
Section Step.
Variables (E E0 E1 E00 E01 : expect key) (Ec Ed : nat -> expect key).
Hypothesis SP : splits2 E E0 E1.
Hypothesis HC : splits_all E1 chains Ec.
Hypothesis SP0 : splits2 E0 E00 E01.
Hypothesis HD : splits_all E01 chains Ed.
(** what chain i does with its own keys [b] (local), [b'] (global) and the carried key [a] *)
Definition one_loop (i n : nat) (x : list R) (F : list (list R) * list R -> R) (b b' a : key) : R :=
  let v1 := visited (s1 b x) in let v2 := visited (s2 b' (nth e1 v1 [])) in
  F (sel p1 t1 v1 ++ sel p2 t2 v2 ++ rows i n a (nth e2 v2 []), cend i n a (nth e2 v2 [])).
Lemma loop_is i n x F k : F (rows i (S n) k x, cend i (S n) k x) = one_loop i n x F (split (split k 2 1) chains i) (split (split (split k 2 0) 2 1) chains i) (split (split k 2 0) 2 0).
Proof. rewrite (rows_S chains i s1 s2 (S e1) p1 t1 e1 (S e2) p2 t2 e2 (le_n _) (le_n _)). cbn [P_Inv5.cend]. unfold one_loop, kn, x2, r2, x1, r1. rewrite !pos_outs. reflexivity. Qed.
Lemma loop_one i n x F : (i < chains)%nat -> ex E (fun k => F (rows i (S n) k x, cend i (S n) k x)) = ex (Ec i) (fun b => ex (Ed i) (fun b' => ex E00 (fun a => one_loop i n x F b b' a))).
Proof.
  intros Hi. rewrite (ex_ext _ E _ _ (loop_is i n x F)).
  set (H := fun a b => one_loop i n x F (split b chains i) (split (split a 2 1) chains i) (split a 2 0)).
  refine (eq_trans (proj1 (SP H)) _). rewrite (proj2 (SP H)). rewrite <- (splits_all_has _ _ _ i HC Hi). apply ex_ext. intros b. unfold H.
  set (H2 := fun a' b' => one_loop i n x F (split b chains i) (split b' chains i) a').
  refine (eq_trans (proj1 (SP0 H2)) _). rewrite (proj2 (SP0 H2)). rewrite <- (splits_all_has _ _ _ i HD Hi). reflexivity.
Qed.
Lemma loop_all n (x : nat -> list R) (u : nat -> list (list R) * list R -> R) :
  (forall (y : nat -> list R) (u : nat -> list (list R) * list R -> R), ex E00 (fun k => Rprod chains (fun i => u i (rows i n k (y i), cend i n k (y i)))) = Rprod chains (fun i => ex E00 (fun k => u i (rows i n k (y i), cend i n k (y i))))) ->
  ex E (fun k => Rprod chains (fun i => u i (rows i (S n) k (x i), cend i (S n) k (x i)))) =
  Rprod chains (fun i => ex (Ec i) (fun b => ex (Ed i) (fun b' => ex E00 (fun a => one_loop i n (x i) (u i) b b' a)))).
Proof.
  intros IH. rewrite (ex_ext _ E _ (fun k => Rprod chains (fun i => one_loop i n (x i) (u i) (split (split k 2 1) chains i) (split (split (split k 2 0) 2 1) chains i) (split (split k 2 0) 2 0))))
    by (intros k; apply Rprod_ext; intros i _; apply loop_is).
  set (H := fun a b => Rprod chains (fun i => one_loop i n (x i) (u i) (split b chains i) (split (split a 2 1) chains i) (split a 2 0))).
  refine (eq_trans (proj1 (SP H)) _). rewrite (proj2 (SP H)).
  refine (eq_trans _ (HC (fun i b => ex (Ed i) (fun b' => ex E00 (fun a => one_loop i n (x i) (u i) b b' a))))). apply ex_ext. intros b. unfold H.
  set (H2 := fun a' b' => Rprod chains (fun i => one_loop i n (x i) (u i) (split b chains i) (split b' chains i) a')).
  refine (eq_trans (proj1 (SP0 H2)) _). rewrite (proj2 (SP0 H2)).
  refine (eq_trans _ (HD (fun i b' => ex E00 (fun a => one_loop i n (x i) (u i) (split b chains i) b' a)))). apply ex_ext. intros b'. unfold H2, one_loop. cbv zeta.
  set (v1 := fun i => visited (s1 (split b chains i) (x i))). set (v2 := fun i => visited (s2 (split b' chains i) (nth e1 (v1 i) []))).
  exact (IH (fun i => nth e2 (v2 i) []) (fun i r => u i (sel p1 t1 (v1 i) ++ sel p2 t2 (v2 i) ++ fst r, snd r))).
Qed.
End Step.
Lemma loops_independent n : forall E, loops_sources chains P Q n E -> forall x : nat -> list R, independent E chains (fun i k => (rows i n k (x i), cend i n k (x i))).
Proof.
  induction n as [|n IH]; intros E.
  - intros _ x u. unfold P_Lln3.rows. cbn [Nat.mul seq map P_Inv5.cend]. rewrite ex_const. apply Rprod_ext. intros i _. symmetry. apply ex_const.
  - intros (E0 & E1 & Ec & E00 & E01 & Ed & SP & HC & _ & SP0 & HD & _ & L) x u.
    rewrite (loop_all E E0 E1 E00 E01 Ec Ed SP HC SP0 HD n x u).
    + apply Rprod_ext. intros i Hi. symmetry. exact (loop_one E E0 E1 E00 E01 Ec Ed SP HC SP0 HD i n (x i) (u i) Hi).
    + intros y u'. exact (IH E00 L y u').
Qed.
End Loops.
