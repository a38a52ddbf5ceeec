(** Production loops leave the target invariant: chains of blocks. *)
From Coq Require Import Reals Lra Lia Permutation Classical.
From Verif Require Import Prelude Num M_Core M_Kernels M_Strategies P_Lists Spec_Kernels RNum Spec_Real Spec_Inv P_Inv1 P_Inv2.
Open Scope R_scope.

Section Blocks.
Context {G : @Rng RNum}.
Variables (X : list (list R)) (w : list R -> R).
Notation EU := (expected_under X w).
Variables (chains i : nat) (s1 s2 : key -> list R -> res (list (list R * R * bool))).
Variables (p1 t1 e1 p2 t2 e2 : nat).
Definition pos (j : nat) (r : res (list (list R * R * bool))) : list R := match r with Ok l => fst (fst (nth j l ([], 0, false))) | Raise _ => [] end.
Definition r1 (k : key) (x : list R) := s1 (split (split k 2 1) chains i) x.
Definition x1 (k : key) (x : list R) : list R := pos e1 (r1 k x).
Definition r2 (k : key) (x : list R) := s2 (split (split (split k 2 0) 2 1) chains i) (x1 k x).
Definition x2 (k : key) (x : list R) : list R := pos e2 (r2 k x).
Definition kn (k : key) : key := split (split k 2 0) 2 0.
Fixpoint crow (n : nat) (k : key) (x : list R) (s : nat) : list R :=
  match n with
  | O => []
  | S n' => if (s <? p1)%nat then pos (s * t1) (r1 k x)
            else if (s <? p1 + p2)%nat then pos ((s - p1) * t2) (r2 k x)
            else crow n' (kn k) (x2 k x) (s - (p1 + p2))
  end.
Fixpoint cend (n : nat) (k : key) (x : list R) : list R := match n with O => x | S n' => cend n' (kn k) (x2 k x) end.
Definition binv (samp : key -> list R -> res (list (list R * R * bool))) (j : nat) (E : expect key) : Prop :=
  forall g, EU (fun x => ex E (fun k => g (pos j (samp k x)))) = EU g.
Variables (P Q : expect key -> Prop).
Hypothesis B1 : forall E, P E -> (forall j, (j < p1)%nat -> binv s1 (j * t1) E) /\ binv s1 e1 E.
Hypothesis B2 : forall E, Q E -> (forall j, (j < p2)%nat -> binv s2 (j * t2) E) /\ binv s2 e2 E.

Section One.
Variables (E E0 E1 Ec E00 E01 Ed : expect key).
Hypothesis SP : splits2 E E0 E1.
Hypothesis HC : split_has E1 chains i Ec.
Hypothesis SP0 : splits2 E0 E00 E01.
Hypothesis HD : split_has E01 chains i Ed.
Hypothesis PP : P Ec.
Hypothesis QQ : Q Ed.
Lemma first_block j g : binv s1 j Ec -> EU (fun x => ex E (fun k => g (pos j (r1 k x)))) = EU g.
Proof.
  intros B. rewrite <- (B g). unfold expected_under. apply total_ext. intros x Hx. f_equal. unfold r1.
  set (H := fun (_ b : key) => g (pos j (s1 (split b chains i) x))).
  refine (eq_trans (proj1 (SP H)) _). unfold H. rewrite ex_const. exact (HC (fun k => g (pos j (s1 k x)))).
Qed.
Lemma second_block j g : binv s2 j Ed -> EU (fun x => ex E (fun k => g (pos j (r2 k x)))) = EU g.
Proof.
  intros B. rewrite <- (B g). set (g' := fun y => ex Ed (fun k => g (pos j (s2 k y)))).
  rewrite <- (proj2 (B1 Ec PP) g'). unfold expected_under. apply total_ext. intros x Hx. f_equal. unfold r2, x1, r1.
  set (H := fun a b => g (pos j (s2 (split (split a 2 1) chains i) (pos e1 (s1 (split b chains i) x))))).
  refine (eq_trans (proj1 (SP H)) _). rewrite (proj2 (SP H)). rewrite <- HC. apply ex_ext. intros b. unfold H, g'.
  set (y := pos e1 (s1 (split b chains i) x)).
  set (H2 := fun (_ b' : key) => g (pos j (s2 (split b' chains i) y))).
  refine (eq_trans (proj1 (SP0 H2)) _). unfold H2. rewrite ex_const. exact (HD (fun k => g (pos j (s2 k y)))).
Qed.
Lemma rest_block (rest : key -> list R -> R) : EU (fun x => ex E (fun k => rest (kn k) (x2 k x))) = EU (fun x => ex E00 (fun k => rest k x)).
Proof.
  set (g := fun y => ex E00 (fun k => rest k y)). rewrite <- (proj2 (B2 Ed QQ) g). set (g' := fun y => ex Ed (fun k => g (pos e2 (s2 k y)))).
  rewrite <- (proj2 (B1 Ec PP) g'). unfold expected_under. apply total_ext. intros x Hx. f_equal. unfold kn, x2, r2, x1, r1.
  set (H := fun a b => rest (split a 2 0) (pos e2 (s2 (split (split a 2 1) chains i) (pos e1 (s1 (split b chains i) x))))).
  refine (eq_trans (proj1 (SP H)) _). rewrite (proj2 (SP H)). rewrite <- HC. apply ex_ext. intros b. unfold H, g'.
  set (y := pos e1 (s1 (split b chains i) x)).
  set (H2 := fun a' b' => rest a' (pos e2 (s2 (split b' chains i) y))).
  refine (eq_trans (proj1 (SP0 H2)) _). rewrite (proj2 (SP0 H2)). rewrite <- HD. reflexivity.
Qed.
End One.
Lemma crow_inv n : forall E s g, loops_source chains i P Q n E -> (s < n * (p1 + p2))%nat ->
  EU (fun x => ex E (fun k => g (crow n k x s))) = EU g.
Proof.
  induction n as [|n IH]; intros E s g; [lia|]. intros (E0 & E1 & Ec & E00 & E01 & Ed & SP & HC & PP & SP0 & HD & QQ & L) Hs. cbn [crow].
  destruct (Nat.ltb_spec s p1) as [H1|H1]; [|destruct (Nat.ltb_spec s (p1 + p2)) as [H2|H2]].
  - apply (first_block E E0 E1 Ec SP HC). now apply (proj1 (B1 Ec PP)).
  - apply (second_block E E0 E1 Ec E00 E01 Ed SP HC SP0 HD PP). apply (proj1 (B2 Ed QQ)). lia.
  - rewrite (rest_block E E0 E1 Ec E00 E01 Ed SP HC SP0 HD PP QQ (fun k x => g (crow n k x (s - (p1 + p2))))). apply IH; [exact L|]. cbn in Hs. lia.
Qed.
Lemma cend_inv n : forall E g, loops_source chains i P Q n E -> EU (fun x => ex E (fun k => g (cend n k x))) = EU g.
Proof.
  induction n as [|n IH]; intros E g.
  - intros _. unfold expected_under. apply total_ext. intros x _. f_equal. exact (ex_const _ E (g x)).
  - intros (E0 & E1 & Ec & E00 & E01 & Ed & SP & HC & PP & SP0 & HD & QQ & L). cbn [cend].
    rewrite (rest_block E E0 E1 Ec E00 E01 Ed SP HC SP0 HD PP QQ (fun k x => g (cend n k x))). apply IH, L.
Qed.
End Blocks.
