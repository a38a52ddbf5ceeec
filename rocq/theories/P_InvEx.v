(** A concrete ideal random source: keys are trees, expectations are finite weighted averages. *)
From Coq Require Import Reals Lra Lia Classical.
From Verif Require Import Prelude Num M_Core M_Kernels M_Strategies M_Bundle Spec_Kernels P_Kernels Spec_Train Spec_Bundle Spec_Prog
  RNum Spec_Real Spec_HMC Spec_Inv P_Real1 P_Inv1 P_Inv2 P_Inv3 P_Inv4 P_Inv7.
Open Scope R_scope.

Definition wexp {T} (l : list (R * T)) (H : total l fst = 1) : expect T.
Proof.
  refine (mkExpect T (fun h => total l (fun p => fst p * h (snd p))) _ _ _).
  - intros f g Q. apply total_ext. intros a _. now rewrite Q.
  - intros a f b g. rewrite <- total_lin. apply total_ext. intros p _. ring.
  - intros c. rewrite (total_ext l _ (fun p => c * fst p)) by (intros; ring). rewrite total_scal, H. ring.
Defined.
Lemma wexp_ex {T} l H (h : T -> R) : ex (wexp l H) h = total l (fun p => fst p * h (snd p)). Proof. reflexivity. Qed.

Inductive ktree := Lf (z u : R) | Nd (a b : ktree).
Fixpoint lastv (k : ktree) : R := match k with Lf z _ => z | Nd _ b => lastv b end.
Fixpoint lastu (k : ktree) : R := match k with Lf _ u => u | Nd _ b => lastu b end.
Definition tsplit (k : ktree) (n c : nat) : ktree :=
  match k, n, c with Nd a b, 2%nat, O => a | Nd a b, 2%nat, 1%nat => b | _, _, _ => k end.
#[global] Instance TRng : @Rng RNum := @mkRng RNum ktree tsplit (fun k n => repeat (lastv k) n) lastv lastu (fun _ n => seq 0 n) (fun _ _ c => repeat 0%nat c).

Definition has (P : expect ktree -> Prop) : Prop := exists l H, P (wexp l H).
Definition prodw (l1 l2 : list (R * ktree)) : list (R * ktree) := map (fun p => (fst (fst p) * fst (snd p), Nd (snd (fst p)) (snd (snd p)))) (list_prod l1 l2).
Lemma prodw_tot l1 l2 h : total (prodw l1 l2) (fun p => fst p * h (snd p)) = total l1 (fun a => fst a * total l2 (fun b => fst b * h (Nd (snd a) (snd b)))).
Proof.
  unfold prodw. rewrite total_map, total_prod. apply total_ext. intros a _. rewrite <- total_scal. apply total_ext. intros b _. cbn [fst snd]. ring.
Qed.
Lemma prodw_norm l1 l2 : total l1 fst = 1 -> total l2 fst = 1 -> total (prodw l1 l2) fst = 1.
Proof.
  intros H1 H2. rewrite (total_ext _ fst (fun p => fst p * (fun _ => 1) (snd p))) by (intros; ring). rewrite (prodw_tot l1 l2 (fun _ => 1)).
  rewrite (total_ext l1 _ fst); [exact H1|]. intros a _. rewrite (total_ext l2 _ fst) by (intros; ring). rewrite H2. ring.
Qed.
Lemma total_swap {A B} (l : list A) (m : list B) h : total l (fun a => total m (fun b => h a b)) = total m (fun b => total l (fun a => h a b)).
Proof.
  induction l as [|x l IH]; cbn [total fold_right].
  - symmetry. apply total_0. reflexivity.
  - fold (total l (fun a => total m (fun b => h a b))). rewrite IH. rewrite <- total_plus. reflexivity.
Qed.
Lemma prodw_splits l1 l2 H1 H2 : @splits2 TRng (wexp (prodw l1 l2) (prodw_norm l1 l2 H1 H2)) (wexp l1 H1) (wexp l2 H2).
Proof.
  intros h. split.
  - rewrite wexp_ex. refine (eq_trans (prodw_tot l1 l2 (fun k => h (tsplit k 2 0) (tsplit k 2 1))) _). reflexivity.
  - rewrite !wexp_ex. cbn [ex wexp]. rewrite (total_ext l1 _ (fun a => total l2 (fun b => fst a * (fst b * h (snd a) (snd b))))) by (intros; symmetry; apply total_scal).
    rewrite total_swap. apply total_ext. intros b _. rewrite <- total_scal. apply total_ext. intros a _. rewrite <- !Rmult_assoc, (Rmult_comm (fst a) (fst b)). reflexivity.
Qed.
Lemma has_split (P Q S : expect ktree -> Prop) : (forall E E0 E1, @splits2 TRng E E0 E1 -> P E0 -> Q E1 -> S E) -> has P -> has Q -> has S.
Proof.
  intros H (l1 & H1 & A) (l2 & H2 & B). exists (prodw l1 l2), (prodw_norm _ _ H1 H2). eapply H; [apply prodw_splits|exact A|exact B].
Qed.
(** The same with weights that are not negative. *)
Definition hasw (P : expect ktree -> Prop) : Prop := exists l H, (forall p, In p l -> 0 <= fst p) /\ P (wexp l H).
Lemma hasw_has P : hasw P -> has P. Proof. intros (l & H & _ & A). exists l, H. exact A. Qed.
Lemma hasw_split (P Q S : expect ktree -> Prop) : (forall E E0 E1, @splits2 TRng E E0 E1 -> P E0 -> Q E1 -> S E) -> hasw P -> hasw Q -> hasw S.
Proof.
  intros H (l1 & H1 & N1 & A) (l2 & H2 & N2 & B). exists (prodw l1 l2), (prodw_norm _ _ H1 H2). split; [|eapply H; [apply prodw_splits|exact A|exact B]].
  intros p Hp. unfold prodw in Hp. apply in_map_iff in Hp as ([a b] & <- & Hp). apply in_prod_iff in Hp as [Ha Hb]. cbn [fst snd]. apply Rmult_le_pos; auto.
Qed.
Lemma hasw_one : hasw (fun _ => True).
Proof. exists [(1, Lf 0 0)]. assert (H : total [(1, Lf 0 0)] fst = 1) by (cbn; ring). exists H. split; [|exact I]. intros p [<-|[]]. cbn. lra. Qed.
Lemma hasw_chain P n : hasw P -> hasw (@key_chain TRng P n).
Proof.
  intros H. induction n as [|n IH]; [exact hasw_one|]. refine (hasw_split _ _ _ _ IH H). intros E E0 E1 S A B. cbn [key_chain]. exists E0, E1. auto.
Qed.
Lemma has_one : has (fun _ => True). Proof. exists [(1, Lf 0 0)]. assert (H : total [(1, Lf 0 0)] fst = 1) by (cbn; ring). exists H. exact I. Qed.
Lemma has_chain P n : has P -> has (@key_chain TRng P n).
Proof.
  intros H. induction n as [|n IH]; [exact has_one|]. refine (has_split _ _ _ _ IH H). intros E E0 E1 S A B. cbn [key_chain]. exists E0, E1. auto.
Qed.
Lemma has_loops P Q n : has P -> has Q -> has (@loops_source TRng 1 0 P Q n).
Proof.
  intros H1 H2. induction n as [|n IH]; [exact has_one|].
  refine (has_split (fun E0 => exists E00 E01, @splits2 TRng E0 E00 E01 /\ Q E01 /\ @loops_source TRng 1 0 P Q n E00) P _ _ _ H1).
  - intros E E0 E1 S (E00 & E01 & S' & A & B) C. cbn [loops_source]. exists E0, E1, E1, E00, E01, E01.
    assert (D : forall E' : expect ktree, @split_has TRng E' 1 0 E').
    { intros E' h. apply ex_ext. intros k. f_equal. unfold split. destruct k; reflexivity. }
    repeat (split; auto).
  - refine (has_split _ _ _ _ IH H2). intros E E0 E1 S A B. exists E0, E1. auto.
Qed.

(** Leaves. *)
Definition Zs : list (list R) := [[-1]; [0]; [1]].
Definition zmass : R := / (std_density 1 [-1] + std_density 1 [0] + std_density 1 [1]).
Lemma normal_pdf_pos mu s y : s <> 0 -> 0 < normal_pdf mu s y.
Proof.
  intros H. unfold normal_pdf. apply Rdiv_lt_0_compat; [apply exp_pos|]. apply Rmult_lt_0_compat; [apply Rabs_pos_lt, H|]. apply sqrt_lt_R0. pose proof PI_RGT_0. lra.
Qed.
Lemma std_pos z : 0 < std_density 1 z.
Proof. unfold std_density. cbn [Rprod]. rewrite Rmult_1_l. apply normal_pdf_pos. lra. Qed.
Definition zleaf : list (R * ktree) := map (fun z => (zmass * std_density 1 z, Lf (nth 0 z 0) 0)) Zs.
Lemma zmass_pos : 0 < zmass.
Proof. apply Rinv_0_lt_compat. pose proof (std_pos [-1]). pose proof (std_pos [0]). pose proof (std_pos [1]). lra. Qed.
Lemma zleaf_norm : total zleaf fst = 1.
Proof.
  unfold zleaf. rewrite total_map. cbn [fst]. rewrite total_scal. unfold Zs, total, fold_right, zmass. pose proof (std_pos [-1]). pose proof (std_pos [0]). pose proof (std_pos [1]). field. lra.
Qed.
Lemma zs_nodup : NoDup Zs.
Proof. unfold Zs. repeat constructor; cbn; intros H; repeat (destruct H as [H|H]; [injection H; lra|]); auto. Qed.
Lemma zleaf_gauss : @gaussian_on TRng Zs 1 (wexp zleaf zleaf_norm).
Proof.
  split; [exact zs_nodup|]. split.
  - intros z [<-|[<-|[<-|[]]]]; reflexivity.
  - exists zmass. split; [exact zmass_pos|]. intros h. rewrite wexp_ex. unfold zleaf. rewrite total_map. apply total_ext.
    intros z [<-|[<-|[<-|[]]]]; reflexivity.
Qed.
(** A uniform number that is 1/4 with probability [p] and 3/4 otherwise. *)
Definition uleaf (p : R) : list (R * ktree) := [(p, Lf 0 (1/4)); (1 - p, Lf 0 (3/4))].
Lemma uleaf_norm p : total (uleaf p) fst = 1. Proof. cbn. ring. Qed.
Definition Eu (p : R) : expect ktree := wexp (uleaf p) (uleaf_norm p).
Lemma ln34 : ln (3/4) < 0. Proof. rewrite <- ln_1. apply ln_increasing; lra. Qed.
Lemma test_one p r : 0 <= r -> @test_prob TRng (Eu p) r = 1.
Proof.
  intros H. unfold test_prob, Eu. rewrite wexp_ex. unfold uleaf, total, fold_right. cbn [fst snd uniform TRng lastu].
  assert (ln (1/4) < ln (3/4)) by (apply ln_increasing; lra). pose proof ln34. rewrite !(proj2 (flt_R _ _)) by lra. ring.
Qed.
Lemma test_mid p r : ln (1/4) < r <= ln (3/4) -> @test_prob TRng (Eu p) r = p.
Proof.
  intros [H1 H2]. unfold test_prob, Eu. rewrite wexp_ex. unfold uleaf, total, fold_right. cbn [fst snd uniform TRng lastu].
  rewrite (proj2 (flt_R _ _)) by lra. rewrite (proj2 (flt_R_false _ _)) by lra. ring.
Qed.
Lemma test_low p r : r <= ln (1/4) -> @test_prob TRng (Eu p) r = 0.
Proof.
  intros H. unfold test_prob, Eu. rewrite wexp_ex. unfold uleaf, total, fold_right. cbn [fst snd uniform TRng lastu].
  assert (ln (1/4) < ln (3/4)) by (apply ln_increasing; lra). rewrite !(proj2 (flt_R_false _ _)) by lra. ring.
Qed.
Lemma metro_acc p (run : outcome) x y lx ly r : metropolis run x y lx ly r -> @test_prob TRng (Eu p) r = Rmin 1 (exp r) -> @accepts_as_uniform TRng (Eu p) run.
Proof.
  intros M T q A. rewrite (accept_unique _ _ _ A (metropolis_accept _ _ _ _ _ _ M)). rewrite <- T. apply ex_ext. intros k. rewrite (M (uniform k)). destruct (Rltb _ _); reflexivity.
Qed.
Lemma metro_never p (run : outcome) x y lx ly r : metropolis run x y lx ly r -> @test_prob TRng (Eu p) r = 0 -> @never_accepts TRng (Eu p) run.
Proof.
  intros M T. unfold never_accepts. rewrite <- T. apply ex_ext. intros k. rewrite (M (uniform k)). destruct (Rltb _ _); reflexivity.
Qed.

(** The target: three states 0, 1, 2 with weights 1, 2 sqrt(e), 1. *)
Definition tv (v : R) : R := if Req_EM_T v 1 then 1/2 + ln 2 else if Req_EM_T v 0 then 0 else if Req_EM_T v 2 then 0 else -10.
Definition tf : @lpdf RNum := @mkLpdf RNum (fun x _ => tv (nth 0 x 0)) (fun x _ => [2 - 2 * nth 0 x 0]).
Definition Xs : list (list R) := [[0]; [1]; [2]].
Ltac tvs := unfold tv; repeat (destruct (Req_EM_T _ _); try lra).
Lemma tv0 : tv 0 = 0. Proof. tvs. Qed.
Lemma tv1 : tv 1 = 1/2 + ln 2. Proof. tvs. Qed.
Lemma tv2 : tv 2 = 0. Proof. tvs. Qed.
Lemma tv3 v : v <> 0 -> v <> 1 -> v <> 2 -> tv v = -10. Proof. intros. tvs. Qed.
Lemma xs_states : states Xs 1.
Proof.
  split.
  - unfold Xs. repeat constructor; cbn; intros H; repeat (destruct H as [H|H]; [injection H; lra|]); auto.
  - intros x [<-|[<-|[<-|[]]]]; reflexivity.
Qed.
Lemma ln2_pos : 0 < ln 2. Proof. rewrite <- ln_1. apply ln_increasing; lra. Qed.
Lemma ln14 : ln (1/4) = - (2 * ln 2).
Proof. replace (1/4) with (/ (2 * 2)) by field. rewrite ln_Rinv, ln_mult by lra. ring. Qed.
Lemma exp_mln2 : exp (- ln 2) = / 2. Proof. rewrite exp_Ropp, exp_ln by lra. reflexivity. Qed.
Lemma half_low : - ln 2 <= ln (3/4).
Proof. replace (- ln 2) with (ln (/2)) by (rewrite ln_Rinv; lra). apply Rlt_le, ln_increasing; lra. Qed.
Lemma ln2_lt1 : ln 2 < 1.
Proof. rewrite <- (ln_exp 1). apply ln_increasing; [lra|]. pose proof (exp_ineq1 1 ltac:(lra)). lra. Qed.
Lemma half_ok : @test_prob TRng (Eu (1/2)) (- ln 2) = Rmin 1 (exp (- ln 2)).
Proof.
  pose proof ln2_pos. pose proof half_low. rewrite test_mid by (rewrite ln14; lra). rewrite exp_mln2, Rmin_right by lra. lra.
Qed.
Lemma up_ok p r : 0 <= r -> @test_prob TRng (Eu p) r = Rmin 1 (exp r).
Proof.
  intros H. rewrite test_one by exact H. rewrite Rmin_left; [reflexivity|]. rewrite <- exp_0. destruct H as [H| <-]; [apply Rlt_le, exp_increasing, H|apply Rle_refl].
Qed.

Section Steps.
Variables (tvf : R -> R) (run : ktree -> list R -> list R -> outcome) (prop : list R -> list R -> list R) (rr : list R -> list R -> R).
Hypothesis M : forall k x z, In x Xs -> In z Zs -> metropolis (run k x z) x (prop x z) (tvf (nth 0 x 0)) (tvf (nth 0 (prop x z) 0)) (rr x z).
Lemma step_at p undoes :
  (forall x z, In x Xs -> In z Zs ->
    (In (prop x z) Xs /\ @test_prob TRng (Eu p) (rr x z) = Rmin 1 (exp (rr x z)) /\ exists z', In z' Zs /\ undoes x z z') \/
    (~ In (prop x z) Xs /\ @test_prob TRng (Eu p) (rr x z) = 0)) -> forall E, @splits2 TRng E (wexp zleaf zleaf_norm) (Eu p) -> @step_source TRng Xs 1 run undoes E.
Proof.
  intros H E SP. exists (wexp zleaf zleaf_norm), (Eu p), Zs. split; [exact SP|]. split; [exact zleaf_gauss|].
  intros k x z y Hx Hz P. apply (metropolis_proposes _ _ _ _ _ _ y (M k x z Hx Hz)) in P. subst y.
  destruct (H x z Hx Hz) as [(A & B & C)|[A B]]; [left|right].
  - split; [exact A|]. split; [|exact C]. exact (metro_acc p _ _ _ _ _ _ (M k x z Hx Hz) B).
  - split; [exact A|]. exact (metro_never p _ _ _ _ _ _ (M k x z Hx Hz) B).
Qed.
Lemma step_hasw p undoes : 0 <= p <= 1 ->
  (forall x z, In x Xs -> In z Zs ->
    (In (prop x z) Xs /\ @test_prob TRng (Eu p) (rr x z) = Rmin 1 (exp (rr x z)) /\ exists z', In z' Zs /\ undoes x z z') \/
    (~ In (prop x z) Xs /\ @test_prob TRng (Eu p) (rr x z) = 0)) -> hasw (@step_source TRng Xs 1 run undoes).
Proof.
  intros RP H. refine (hasw_split (fun E => E = wexp zleaf zleaf_norm) (fun E => E = Eu p) _ _ _ _).
  3: { exists (uleaf p), (uleaf_norm p). split; [|reflexivity]. intros t [<-|[<-|[]]]; cbn; lra. }
  2: { exists zleaf, zleaf_norm. split; [|reflexivity]. intros t Ht. unfold zleaf in Ht. apply in_map_iff in Ht as (z & <- & _). cbn [fst]. apply Rmult_le_pos; apply Rlt_le; [exact zmass_pos|apply std_pos]. }
  intros E E0 E1 SP -> ->. exact (step_at p undoes H E SP).
Qed.
Lemma step_has p undoes :
  (forall x z, In x Xs -> In z Zs ->
    (In (prop x z) Xs /\ @test_prob TRng (Eu p) (rr x z) = Rmin 1 (exp (rr x z)) /\ exists z', In z' Zs /\ undoes x z z') \/
    (~ In (prop x z) Xs /\ @test_prob TRng (Eu p) (rr x z) = 0)) -> has (@step_source TRng Xs 1 run undoes).
Proof. intros H. exists (prodw zleaf (uleaf p)), (prodw_norm _ _ zleaf_norm (uleaf_norm p)). exact (step_at p undoes H _ (prodw_splits _ _ zleaf_norm (uleaf_norm p))). Qed.
Lemma back_of x z z' : In x Xs -> In z Zs -> In (prop x z) Xs -> In z' Zs -> prop (prop x z) z' = x -> @back TRng run x z z'.
Proof.
  intros Hx Hz Hy Hz' E k y P. apply (metropolis_proposes _ _ _ _ _ _ y (M k x z Hx Hz)) in P. subst y.
  apply (metropolis_proposes _ _ _ _ _ _ x (M k (prop x z) z' Hy Hz')). now symmetry.
Qed.
End Steps.

Lemma x_len x : In x Xs -> length x = 1%nat. Proof. intros [<-|[<-|[<-|[]]]]; reflexivity. Qed.
Lemma z_len x : In x Zs -> length x = 1%nat. Proof. intros [<-|[<-|[<-|[]]]]; reflexivity. Qed.
Definition one : @stepsize RNum := @SScalar RNum 1.

Lemma one_ne i : (i < 1)%nat -> step_of one i <> 0. Proof. intros _. cbn. lra. Qed.

(** Random walk. *)
Lemma walk_prop a b : w_prop one [a] [b] = [a + b].
Proof. unfold w_prop, one. cbn. f_equal. ring. Qed.
Lemma walk_M k x z : In x Xs -> In z Zs -> metropolis (@grw_run TRng one k tf [] x z) x (w_prop one x z) (tv (nth 0 x 0)) (tv (nth 0 (w_prop one x z) 0)) (tv (nth 0 (w_prop one x z) 0) - tv (nth 0 x 0)).
Proof. intros Hx Hz. apply (@w_facts TRng 1 tf [] one I one_ne k x z (x_len x Hx) (z_len z Hz)). Qed.
Lemma e12 : 1/2 < ln 2.
Proof.
  assert (exp (1/2) < 2). { pose proof exp_le_3. pose proof (exp_pos (1/2)). assert (exp (1/2) * exp (1/2) = exp 1) by (rewrite <- exp_plus; f_equal; field). nra. }
  rewrite <- (ln_exp (1/2)). apply ln_increasing; [apply exp_pos|exact H].
Qed.
Definition pw : R := exp (- (1/2 + ln 2)).
Lemma half_range : 0 <= 1/2 <= 1. Proof. lra. Qed.
Lemma in0 : In [0] Xs. Proof. left. reflexivity. Qed.
Lemma in1 : In [1] Xs. Proof. right. left. reflexivity. Qed.
Lemma in2 : In [2] Xs. Proof. right. right. left. reflexivity. Qed.
Lemma zn : In [-1] Zs. Proof. left. reflexivity. Qed.
Lemma z0 : In [0] Zs. Proof. right. left. reflexivity. Qed.
Lemma z1 : In [1] Zs. Proof. right. right. left. reflexivity. Qed.
Lemma down_ok : @test_prob TRng (Eu pw) (- (1/2 + ln 2)) = Rmin 1 (exp (- (1/2 + ln 2))).
Proof.
  pose proof e12. pose proof half_low. pose proof ln2_pos. rewrite test_mid by (rewrite ln14; lra). rewrite Rmin_right; [reflexivity|].
  assert (Q : exp (- (1/2 + ln 2)) < exp 0) by (apply exp_increasing; lra). rewrite exp_0 in Q. lra.
Qed.
Lemma out v : v <> 0 -> v <> 1 -> v <> 2 -> ~ In [v] Xs.
Proof. intros A B C [H|[H|[H|[]]]]; injection H; lra. Qed.
Lemma walk_has : has (@step_source TRng Xs 1 (fun k x z => @grw_run TRng one k tf [] x z) (@back TRng (fun k x z => @grw_run TRng one k tf [] x z))).
Proof.
  apply (step_has tv _ (w_prop one) (fun x z => tv (nth 0 (w_prop one x z) 0) - tv (nth 0 x 0)) walk_M pw).
  pose proof ln2_pos. pose proof ln2_lt1. pose proof e12.
  assert (CASE : forall a b y b', In [a] Xs -> In [b] Zs -> a + b = y -> In [y] Xs -> In [b'] Zs -> y + b' = a ->
    @test_prob TRng (Eu pw) (tv y - tv a) = Rmin 1 (exp (tv y - tv a)) ->
    In (w_prop one [a] [b]) Xs /\ @test_prob TRng (Eu pw) (tv (nth 0 (w_prop one [a] [b]) 0) - tv (nth 0 [a] 0)) = Rmin 1 (exp (tv (nth 0 (w_prop one [a] [b]) 0) - tv (nth 0 [a] 0))) /\
    exists z', In z' Zs /\ @back TRng (fun k x z => @grw_run TRng one k tf [] x z) [a] [b] z').
  { intros a b y b' Ha Hb Ey Hy Hb' Ea T. assert (EP : w_prop one [a] [b] = [y]) by (rewrite walk_prop; congruence). rewrite EP. cbn [nth]. split; [exact Hy|]. split; [exact T|].
    exists [b']. split; [exact Hb'|]. apply (back_of tv _ _ _ walk_M); auto; rewrite EP; [exact Hy|]. rewrite walk_prop. congruence. }
  assert (DN : forall v, tv v = 0 -> @test_prob TRng (Eu pw) (tv v - tv 1) = Rmin 1 (exp (tv v - tv 1))).
  { intros v Ev. rewrite Ev, tv1. replace (0 - (1/2 + ln 2)) with (- (1/2 + ln 2)) by ring. exact down_ok. }
  intros x z [<-|[<-|[<-|[]]]] [<-|[<-|[<-|[]]]].
  - right. rewrite walk_prop. cbn [nth]. split; [apply out; lra|]. apply test_low. rewrite tv3, tv0, ln14 by lra. lra.
  - left. apply (CASE 0 0 0 0); auto using in0, in1, in2, zn, z0, z1; try ring. apply up_ok; rewrite ?tv0; lra.
  - left. apply (CASE 0 1 1 (-1)); auto using in0, in1, in2, zn, z0, z1; try ring. apply up_ok; rewrite ?tv0, ?tv1; lra.
  - left. apply (CASE 1 (-1) 0 1); auto using in0, in1, in2, zn, z0, z1, tv0; try ring.
  - left. apply (CASE 1 0 1 0); auto using in0, in1, in2, zn, z0, z1; try ring. apply up_ok; rewrite ?tv1; lra.
  - left. apply (CASE 1 1 2 (-1)); auto using in0, in1, in2, zn, z0, z1, tv2; try ring.
  - left. apply (CASE 2 (-1) 1 1); auto using in0, in1, in2, zn, z0, z1; try ring. apply up_ok; rewrite ?tv1, ?tv2; lra.
  - left. apply (CASE 2 0 2 0); auto using in0, in1, in2, zn, z0, z1; try ring. apply up_ok; rewrite ?tv2; lra.
  - right. rewrite walk_prop. cbn [nth]. split; [apply out; lra|]. apply test_low. rewrite tv3, tv2, ln14 by lra. lra.
Qed.

(** Langevin: the mean of the proposal is 1 from everywhere. *)
Lemma lang_prop a b : @l_prop tf [] one [a] [b] = [1 + b].
Proof. unfold l_prop, one, mala_propose, mala_mean. cbn. f_equal. unfold Num.f2. cbn. field. Qed.
Lemma tf_grad : @grad_shape RNum tf [] 1. Proof. intros x _. reflexivity. Qed.
Lemma lang_M k x z : In x Xs -> In z Zs -> metropolis (@mala_run TRng one k tf [] x z) x (@l_prop tf [] one x z) (tv (nth 0 x 0)) (tv (nth 0 (@l_prop tf [] one x z) 0)) (@l_rr tf [] one x z).
Proof. intros Hx Hz. apply (@l_facts TRng 1 tf [] one I tf_grad k x z (x_len x Hx) (z_len z Hz)). Qed.
Lemma lang_rr a b : @l_rr tf [] one [a] [b] = (tv (1 + b) + b * b / 2) - (tv a + (a - 1) * (a - 1) / 2).
Proof. unfold l_rr. rewrite lang_prop. unfold mala_ratio, mvn_logpdf, one. cbn [ss_sq rbind lp_val lp_grad tf mala_mean].
  cbn. unfold Num.f2, Num.f1. cbn. field. Qed.

Lemma rr_cases a b : In [a] Xs -> In [b] Zs -> let r := (tv (1 + b) + b * b / 2) - (tv a + (a - 1) * (a - 1) / 2) in
  In [1 + b] Xs /\ In [a - 1] Zs /\ @test_prob TRng (Eu (1/2)) r = Rmin 1 (exp r).
Proof.
  pose proof ln2_pos. intros Ha Hb r. unfold r.
  assert (A : (a = 0 \/ a = 1 \/ a = 2) /\ (b = -1 \/ b = 0 \/ b = 1)).
  { split; [destruct Ha as [H1|[H1|[H1|[]]]]|destruct Hb as [H1|[H1|[H1|[]]]]]; injection H1; lra. }
  assert (TA : tv a + (a - 1) * (a - 1) / 2 = 1/2 \/ (a = 1 /\ tv a + (a - 1) * (a - 1) / 2 = 1/2 + ln 2)).
  { destruct A as [[-> |[-> | ->]] _]; [left|right|left]; rewrite ?tv0, ?tv1, ?tv2; lra. }
  assert (TB : tv (1 + b) + b * b / 2 = 1/2 \/ tv (1 + b) + b * b / 2 = 1/2 + ln 2).
  { destruct A as [_ [-> |[-> | ->]]]; [left; replace (1 + -1) with 0 by ring|right; replace (1 + 0) with 1 by ring|left; replace (1 + 1) with 2 by ring]; rewrite ?tv0, ?tv1, ?tv2; lra. }
  split; [|split].
  - destruct A as [_ [-> |[-> | ->]]]; [replace (1 + -1) with 0 by ring; exact in0|replace (1 + 0) with 1 by ring; exact in1|replace (1 + 1) with 2 by ring; exact in2].
  - destruct A as [[-> |[-> | ->]] _]; [replace (0 - 1) with (-1) by ring; exact zn|replace (1 - 1) with 0 by ring; exact z0|replace (2 - 1) with 1 by ring; exact z1].
  - destruct TA as [-> |[_ ->]], TB as [-> | ->].
    + apply up_ok. lra.
    + apply up_ok. lra.
    + replace (1/2 - (1/2 + ln 2)) with (- ln 2) by ring. exact half_ok.
    + apply up_ok. lra.
Qed.
Lemma xs_single x : In x Xs -> exists a, x = [a]. Proof. intros [<-|[<-|[<-|[]]]]; eauto. Qed.
Lemma zs_single x : In x Zs -> exists a, x = [a]. Proof. intros [<-|[<-|[<-|[]]]]; eauto. Qed.
Lemma lang_hasw : hasw (@step_source TRng Xs 1 (fun k x z => @mala_run TRng one k tf [] x z) (@back TRng (fun k x z => @mala_run TRng one k tf [] x z))).
Proof.
  apply (step_hasw tv _ (@l_prop tf [] one) (@l_rr tf [] one) lang_M (1/2) _ half_range).
  intros x z Hx Hz. destruct (xs_single x Hx) as [a ->], (zs_single z Hz) as [b ->]. left.
  destruct (rr_cases a b Hx Hz) as (A & B & C). rewrite lang_rr, lang_prop. split; [exact A|]. split; [exact C|]. exists [a - 1]. split; [exact B|].
  apply (back_of tv _ _ _ lang_M); auto; rewrite lang_prop; [exact A|]. rewrite lang_prop. f_equal. ring.
Qed.

Lemma lang_has : has (@step_source TRng Xs 1 (fun k x z => @mala_run TRng one k tf [] x z) (@back TRng (fun k x z => @mala_run TRng one k tf [] x z))).
Proof. exact (hasw_has _ lang_hasw). Qed.

(** Hamiltonian. *)
Definition hm : @hmc RNum := @mkHmc RNum (@CMat RNum [[1]]) 1 0 [[1]].
Lemma ham_mom b : @hmc_momentum RNum hm [b] = [b].
Proof. unfold hmc_momentum. cbn. f_equal. unfold Num.f0. cbn. ring. Qed.
Lemma ham_end a b : @h_end tf [] hm [[1]] [a] [b] = ([1 + b], [1 - a]).
Proof.
  unfold h_end. rewrite ham_mom. cbn. unfold Num.f0, Num.f1, Num.f2, Num.fhalf. cbn.
  unfold leapfrog_one. cbn. unfold Num.f0. cbn.
  match goal with |- ([?u], [?v]) = _ => assert (Q1 : u = 1 + b) by field; assert (Q2 : v = 1 - a) by field end. exact (f_equal2 (fun u v => ([u], [v])) Q1 Q2).
Qed.
Lemma ham_rr a b : @h_rr tf [] hm [[1]] [a] [b] = (tv (1 + b) + b * b / 2) - (tv a + (a - 1) * (a - 1) / 2).
Proof.
  unfold h_rr, h_prop. rewrite ham_end. cbn [fst snd]. rewrite ham_mom. cbn. unfold Num.fsq, Num.f0, Num.f1, Num.f2, Num.fhalf. cbn. field.
Qed.
Lemma hm_sq : square_mat [[1]] 1. Proof. split; [reflexivity|]. intros r [<-|[]]. reflexivity. Qed.
Lemma hm_fac : factors_inverse [[1]] [[1]] 1.
Proof. intros i j Hi Hj. assert (i = 0%nat) by lia. assert (j = 0%nat) by lia. subst. cbn. unfold entry, delta. cbn. ring. Qed.
Lemma hm_diag : diagonal_mat [[1]] 1. Proof. intros i j Hi Hj. lia. Qed.
Lemma ham_M k x z : In x Xs -> In z Zs -> metropolis (@hmc_run TRng hm k tf [] x z) x (@h_prop tf [] hm [[1]] x z) (tv (nth 0 x 0)) (tv (nth 0 (@h_prop tf [] hm [[1]] x z) 0)) (@h_rr tf [] hm [[1]] x z).
Proof. intros Hx Hz. apply (@h_facts TRng 1 tf [] hm [[1]] eq_refl hm_sq k x z (x_len x Hx) (z_len z Hz)). Qed.
Lemma ham_has : has (@step_source TRng Xs 1 (fun k x z => @hmc_run TRng hm k tf [] x z) (momentum_back hm [[1]] tf [])).
Proof.
  apply (step_has tv _ (@h_prop tf [] hm [[1]]) (@h_rr tf [] hm [[1]]) ham_M (1/2)).
  intros x z Hx Hz. destruct (xs_single x Hx) as [a ->], (zs_single z Hz) as [b ->]. left.
  destruct (rr_cases a b Hx Hz) as (A & B & C). rewrite ham_rr. unfold h_prop. rewrite ham_end. cbn [fst]. split; [exact A|]. split; [exact C|]. exists [a - 1]. split; [exact B|].
  unfold momentum_back. pose proof (ham_end a b) as Q. unfold h_end in Q. rewrite Q, ham_mom. cbn. f_equal. ring.
Qed.
Lemma t_normal : @normal_shape RNum TRng. Proof. intros k n. cbn. apply repeat_length. Qed.

(** A flow that draws 0, 1, 2 or 3. *)
Definition lq (y : list R) : R := if Req_EM_T (nth 0 y 0) 1 then 1/2 else 0.
#[global] Instance TNF : @NFOps RNum TRng := @mkNFOps RNum TRng unit unit unit (fun _ y => lq y) (fun _ k s => repeat [lastv k] s) (fun m _ _ st => (0, m, st)) (fun m _ => m).
Definition Ys : list (list R) := [[0]; [1]; [2]; [3]].
Definition aq : R := / (3 + exp (1/2)).
Definition qq (y : list R) : R := aq * exp (lq y).
Lemma lq1 : lq [1] = 1/2. Proof. unfold lq. cbn. destruct (Req_EM_T 1 1); lra. Qed.
Lemma lqn v : v <> 1 -> lq [v] = 0. Proof. intros H. unfold lq. cbn. destruct (Req_EM_T v 1); lra. Qed.
Lemma aq_pos : 0 < aq. Proof. apply Rinv_0_lt_compat. pose proof (exp_pos (1/2)). lra. Qed.
Definition yleaf : list (R * ktree) := map (fun y => (qq y, Lf (nth 0 y 0) 0)) Ys.
Lemma yleaf_norm : total yleaf fst = 1.
Proof.
  unfold yleaf. rewrite total_map. unfold Ys, total, fold_right, qq. cbn [fst]. rewrite lq1, !lqn, exp_0 by lra. unfold aq. pose proof (exp_pos (1/2)). field. lra.
Qed.
Definition draws1 (E : expect ktree) : Prop := forall s, (s <= 1)%nat -> @draws_from TRng TNF tt Ys qq s E.
Lemma yleaf_draws : draws1 (wexp yleaf yleaf_norm).
Proof.
  intros s Hs h. rewrite wexp_ex. unfold yleaf. rewrite total_map. destruct s as [|[|]]; [| |lia].
  - cbn [iid m_sample TNF repeat fst snd lastv]. rewrite (total_ext Ys _ (fun y => h [] * qq y)) by (intros; ring). rewrite total_scal.
    pose proof yleaf_norm as Q. unfold yleaf in Q. rewrite total_map in Q. cbn [fst] in Q. refine (eq_trans (f_equal (fun t => h [] * t) Q) _). ring.
  - cbn [iid]. apply total_ext. intros y [<-|[<-|[<-|[<-|[]]]]]; reflexivity.
Qed.
Lemma lastv_split k : lastv (tsplit k 2 1) = lastv k. Proof. destruct k; reflexivity. Qed.
Lemma draws_split E E0 E1 : @splits2 TRng E E0 E1 -> draws1 E1 -> draws1 E.
Proof.
  intros S D s Hs h. rewrite <- (D s Hs h). destruct (S (fun _ b => h (m_sample (tt : @mdl RNum TRng TNF) b s))) as [A _].
  rewrite ex_const in A. rewrite <- A. apply ex_ext. intros k. f_equal. cbn. now rewrite lastv_split.
Qed.
Lemma flow_hasw n : hasw (@flow_source TRng TNF tt Ys qq 1 n).
Proof.
  assert (YL : hasw draws1).
  { exists yleaf, yleaf_norm. split; [|exact yleaf_draws]. intros t Ht. unfold yleaf in Ht. apply in_map_iff in Ht as (y & <- & _). cbn [fst]. unfold qq. apply Rmult_le_pos; apply Rlt_le; [exact aq_pos|apply exp_pos]. }
  induction n as [|n IH].
  - destruct YL as (l & H & W & D). exists l, H. split; [exact W|]. split; [exact D|exact I].
  - refine (hasw_split _ _ _ _ IH YL). intros E E0 E1 S [_ A] B. split; [exact (draws_split _ _ _ S B)|]. cbn [key_chain]. exists E0, E1. auto.
Qed.
Lemma flow_has n : has (@flow_source TRng TNF tt Ys qq 1 n). Proof. exact (hasw_has _ (flow_hasw n)). Qed.
Lemma in_Ys v : In [v] Ys -> v = 0 \/ v = 1 \/ v = 2 \/ v = 3. Proof. intros [H|[H|[H|[H|[]]]]]; injection H; lra. Qed.
Lemma ln_qq y : ln (qq y) = ln aq + lq y. Proof. unfold qq. rewrite ln_mult, ln_exp by (apply aq_pos || apply exp_pos). reflexivity. Qed.
Lemma tests_hasw : hasw (@flow_tests TRng Xs Ys (density tf []) qq).
Proof.
  pose proof ln2_pos. pose proof ln2_lt1. exists (uleaf (1/2)), (uleaf_norm (1/2)). split; [intros t [<-|[<-|[]]]; cbn; lra|]. intros x y Hx Hy r. fold (Eu (1/2)).
  assert (Er : r = (tv (nth 0 y 0) - lq y) - (tv (nth 0 x 0) - lq x)).
  { unfold r, density. rewrite !ln_exp, !ln_qq. change (lp_val tf y []) with (tv (nth 0 y 0)). change (lp_val tf x []) with (tv (nth 0 x 0)).
    generalize (tv (nth 0 y 0)) (tv (nth 0 x 0)) (lq x) (lq y) (ln aq). intros. ring. } clearbody r.
  assert (TA : tv (nth 0 x 0) - lq x = 0 \/ tv (nth 0 x 0) - lq x = ln 2).
  { destruct Hx as [<-|[<-|[<-|[]]]]; cbn [nth]; rewrite ?lq1, ?lqn, ?tv0, ?tv1, ?tv2 by lra; lra. }
  split.
  - intros Hy'. assert (TB : tv (nth 0 y 0) - lq y = 0 \/ tv (nth 0 y 0) - lq y = ln 2).
    { destruct Hy' as [<-|[<-|[<-|[]]]]; cbn [nth]; rewrite ?lq1, ?lqn, ?tv0, ?tv1, ?tv2 by lra; lra. }
    rewrite Er. destruct TA as [-> | ->], TB as [-> | ->]; try (apply up_ok; lra). replace (0 - ln 2) with (- ln 2) by ring. exact half_ok.
  - intros Hy'. apply test_low. rewrite Er, ln14. destruct Hy as [<-|[<-|[<-|[<-|[]]]]].
    + contradiction (Hy' in0).
    + contradiction (Hy' in1).
    + contradiction (Hy' in2).
    + cbn [nth]. rewrite tv3, lqn by lra. destruct TA as [-> | ->]; lra.
Qed.
Lemma tests_has : has (@flow_tests TRng Xs Ys (density tf []) qq). Proof. exact (hasw_has _ tests_hasw). Qed.
Lemma ys_nodup : NoDup Ys.
Proof. unfold Ys. repeat constructor; cbn; intros H; repeat (destruct H as [H|H]; [injection H; lra|]); auto. Qed.
Lemma xs_ys x : In x Xs -> In x Ys. Proof. intros [<-|[<-|[<-|[]]]]; [left|right; left|right; right; left]; reflexivity. Qed.
Lemma t_samples : @samples_shape RNum TRng TNF tt 1.
Proof. intros k n. split; [apply repeat_length|]. intros x Hx. apply repeat_spec in Hx. now subst. Qed.

(** The bundle: one chain, two local and two global steps per loop, two production loops. *)
Definition tcfg : @config RNum TRng TNF := @mkConfig RNum TRng TNF (Lf 0 0) 1 1 tf 2 2 0 2 1 one 1 1 1 1 1 1 1 (fun _ => tt) tt (fun _ => tt).
Lemma t_ok : @run_ok RNum TRng TNF tcfg [] [[0]] (fun _ => True).
Proof.
  constructor; try reflexivity; try (cbn; lia).
  - intros x [<-|[]]. reflexivity.
  - exact tf_grad.
  - exact ninf_R.
  - exact t_normal.
  - intros k n c. split; [apply repeat_length|]. intros Hn i Hi. apply repeat_spec in Hi. subst i. exact Hn.
  - split; [|split; auto]. intros [] _. exact t_samples.
Qed.
Lemma t_counts : counts_ok tcfg. Proof. constructor; try (cbn; lia). Qed.
Definition thb := match @rqspline_mala_bundle RNum TRng TNF tcfg with Ok p => p | Raise _ => ([], mkBundle [] [] []) end.
Lemma t_loops : has (@loops_source TRng 1 0 (@local_source TRng TNF tcfg [] Xs) (@global_source TRng TNF tcfg [] tt Xs Ys qq) 2).
Proof.
  apply has_loops.
  - exact (has_chain _ 2 lang_has).
  - refine (has_split _ _ _ _ (has_chain _ 2 tests_has) (flow_has 2)). intros E E0 E1 S A B. exists E0, E1. auto.
Qed.
