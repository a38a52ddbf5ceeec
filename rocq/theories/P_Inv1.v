(** Finite reversible moves leave the target's expectations unchanged. *)
From Coq Require Import Reals Lra Lia Permutation.
From Verif Require Import Prelude Num M_Core M_Kernels M_Strategies Spec_Kernels RNum Spec_Real Spec_Inv.
Open Scope R_scope.

Lemma total_ext {A} (l : list A) h h' : (forall a, In a l -> h a = h' a) -> total l h = total l h'.
Proof. induction l as [|a l IH]; intros H; [reflexivity|]. unfold total in * . cbn. rewrite (H a (or_introl eq_refl)). f_equal. apply IH. intros; apply H; now right. Qed.
Lemma total_app {A} (l l' : list A) h : total (l ++ l') h = total l h + total l' h.
Proof. induction l as [|a l IH]; unfold total in * ; cbn in * ; [lra|]. rewrite IH. lra. Qed.
Lemma total_lin {A} (l : list A) a f b g : total l (fun t => a * f t + b * g t) = a * total l f + b * total l g.
Proof. induction l as [|c l IH]; unfold total in * ; cbn in * ; [lra|]. rewrite IH. lra. Qed.
Lemma total_plus {A} (l : list A) f g : total l (fun t => f t + g t) = total l f + total l g.
Proof. rewrite (total_ext l _ (fun t => 1 * f t + 1 * g t)) by (intros; lra). rewrite total_lin. lra. Qed.
Lemma total_scal {A} (l : list A) c f : total l (fun t => c * f t) = c * total l f.
Proof. rewrite (total_ext l _ (fun t => c * f t + 0 * f t)) by (intros; lra). rewrite total_lin. lra. Qed.
Lemma total_map {A B} (T : A -> B) l h : total (map T l) h = total l (fun a => h (T a)).
Proof. induction l as [|a l IH]; [reflexivity|]. unfold total in * . cbn. now rewrite IH. Qed.
Lemma total_perm {A} (l l' : list A) h : Permutation l l' -> total l h = total l' h.
Proof. induction 1; unfold total in * ; cbn in * ; lra. Qed.
Lemma total_0 {A} (l : list A) h : (forall a, In a l -> h a = 0) -> total l h = 0.
Proof. intros H. induction l as [|a l IH]; [reflexivity|]. unfold total in * . cbn. rewrite (H a (or_introl eq_refl)), IH by (intros; apply H; now right). lra. Qed.
Lemma total_filter {A} (p : A -> bool) l h : (forall a, In a l -> p a = false -> h a = 0) -> total l h = total (filter p l) h.
Proof.
  intros H. induction l as [|a l IH]; [reflexivity|]. cbn [filter]. assert (IH' := IH (fun b Hb => H b (or_intror Hb))). destruct (p a) eqn:E.
  - unfold total in * . cbn. now rewrite IH'.
  - unfold total in * . cbn. rewrite (H a (or_introl eq_refl) E). rewrite IH'. lra.
Qed.
Lemma total_prod {A B} (l : list A) (m : list B) h : total (list_prod l m) h = total l (fun a => total m (fun b => h (a, b))).
Proof. induction l as [|a l IH]; [reflexivity|]. cbn [list_prod]. rewrite total_app, total_map, IH. reflexivity. Qed.
Lemma nodup_prod {A B} (l : list A) (m : list B) : NoDup l -> NoDup m -> NoDup (list_prod l m).
Proof.
  intros Hl Hm. induction Hl as [|a l Ha Hl IH]; [constructor|]. cbn [list_prod].
  assert (D : NoDup (map (fun y => (a, y)) m)) by (apply FinFun.Injective_map_NoDup; [intros x y E; now injection E|exact Hm]).
  revert IH. generalize (list_prod l m) (in_prod_iff l m). intros q Q Hq.
  assert (S : forall y, In y (map (fun y => (a, y)) m) -> ~ In y q).
  { intros y H1 H2. apply in_map_iff in H1 as (b & <- & _). apply Q in H2. tauto. }
  clear Q. induction D as [|y r Hy D IH]; [exact Hq|]. cbn. constructor.
  - rewrite in_app_iff. intros [H|H]; [auto|]. apply (S y (or_introl eq_refl) H).
  - apply IH. intros; apply S. now right.
Qed.
Lemma veq_dec (x y : list R) : {x = y} + {x <> y}. Proof. apply list_eq_dec, Req_EM_T. Qed.
Definition mem (x : list R) (X : list (list R)) : bool := if in_dec veq_dec x X then true else false.
Lemma mem_true x X : mem x X = true <-> In x X. Proof. unfold mem. destruct (in_dec veq_dec x X); split; intros; auto; discriminate. Qed.
Lemma mem_false x X : mem x X = false <-> ~ In x X. Proof. unfold mem. destruct (in_dec veq_dec x X); split; intros; auto; try discriminate; contradiction. Qed.

(** The flow of probability along undoable moves cancels. *)
Section Flow.
Variables (X Z : list (list R)) (prop rev : list R -> list R -> list R) (phi : list R -> list R -> R) (g : list R -> R).
Hypothesis NX : NoDup X.
Hypothesis NZ : NoDup Z.
Hypothesis inside : forall x z, In x X -> In z Z -> In (prop x z) X ->
  In (rev x z) Z /\ prop (prop x z) (rev x z) = x /\ rev (prop x z) (rev x z) = z /\ phi (prop x z) (rev x z) = phi x z.
Hypothesis outside : forall x z, In x X -> In z Z -> ~ In (prop x z) X -> phi x z = 0.
Let T (p : list R * list R) := (prop (fst p) (snd p), rev (fst p) (snd p)).
Let P := filter (fun p => mem (prop (fst p) (snd p)) X) (list_prod X Z).
Lemma P_in p : In p P <-> In (fst p) X /\ In (snd p) Z /\ In (prop (fst p) (snd p)) X.
Proof. unfold P. rewrite filter_In. destruct p as [x z]. cbn [fst snd]. rewrite in_prod_iff, mem_true. tauto. Qed.
Lemma T_P p : In p P -> In (T p) P /\ T (T p) = p /\ phi (fst (T p)) (snd (T p)) = phi (fst p) (snd p).
Proof.
  rewrite P_in. intros (A & B & C). destruct (inside _ _ A B C) as (D & E & F' & H). unfold T. cbn [fst snd]. split; [|split].
  - apply P_in. cbn [fst snd]. rewrite E. auto.
  - rewrite E, F'. now destruct p.
  - exact H.
Qed.
Lemma T_perm : Permutation (map T P) P.
Proof.
  assert (NP : NoDup P) by (apply NoDup_filter, nodup_prod; auto). apply NoDup_Permutation.
  - assert (I : forall p q, In p P -> In q P -> T p = T q -> p = q).
    { intros p q Hp Hq E. rewrite <- (proj1 (proj2 (T_P p Hp))), <- (proj1 (proj2 (T_P q Hq))), E. reflexivity. }
    clear inside outside. revert I. induction NP as [|p l Hp NP IH]; intros I; [constructor|]. cbn. constructor.
    + rewrite in_map_iff. intros (q & E & Hq). apply Hp. rewrite <- (I q p); auto; [now right|now left].
    + apply IH. intros; apply I; auto; now right.
  - exact NP.
  - intros q. rewrite in_map_iff. split.
    + intros (p & <- & Hp). apply T_P, Hp.
    + intros Hq. exists (T q). split; [apply T_P, Hq|apply T_P, Hq].
Qed.
Lemma flow_cancels : total X (fun x => total Z (fun z => phi x z * (g (prop x z) - g x))) = 0.
Proof.
  refine (eq_trans (eq_sym (total_prod X Z (fun p => phi (fst p) (snd p) * (g (prop (fst p) (snd p)) - g (fst p))))) _).
  rewrite (total_filter (fun p => mem (prop (fst p) (snd p)) X)).
  2:{ intros [x z] H E. apply in_prod_iff in H as [A B]. cbn [fst snd] in * . apply mem_false in E. rewrite (outside x z A B E). ring. }
  fold P. rewrite (total_ext P _ (fun p => 1 * (phi (fst (T p)) (snd (T p)) * g (fst (T p))) + -1 * (phi (fst p) (snd p) * g (fst p)))).
  2:{ intros p Hp. rewrite (proj2 (proj2 (T_P p Hp))). unfold T at 1. cbn [fst]. ring. }
  rewrite total_lin. rewrite <- (total_map T P (fun p => phi (fst p) (snd p) * g (fst p))), (total_perm _ _ _ T_perm). ring.
Qed.
End Flow.

Lemma ex_plus {T} (E : expect T) f g : ex E (fun t => f t + g t) = ex E f + ex E g.
Proof. rewrite (ex_ext _ E _ (fun t => 1 * f t + 1 * g t)) by (intros; lra). rewrite ex_lin. lra. Qed.
Lemma ex_scal {T} (E : expect T) c f : ex E (fun t => c * f t) = c * ex E f.
Proof. rewrite (ex_ext _ E _ (fun t => c * f t + 0 * f t)) by (intros; lra). rewrite ex_lin. lra. Qed.
Lemma ex_affine {T} (E : expect T) a b f : ex E (fun t => a + b * f t) = a + b * ex E f.
Proof. rewrite ex_plus, ex_const, ex_scal. reflexivity. Qed.
Lemma ex_total {T A} (E : expect T) (l : list A) f : ex E (fun t => total l (fun a => f a t)) = total l (fun a => ex E (f a)).
Proof. induction l as [|a l IH]; [exact (ex_const _ E 0)|]. unfold total in * . cbn [fold_right]. rewrite ex_plus. now rewrite IH. Qed.
