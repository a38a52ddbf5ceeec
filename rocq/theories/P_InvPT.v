(** Parallel tempering leaves the product of the tempered densities invariant. *)
From Coq Require Import Reals Lra Lia Permutation Classical.
From Coquelicot Require Import Coquelicot.
From Verif Require Import Prelude Num M_Core M_Kernels M_Strategies M_PT M_Bundle P_Lists Spec Spec_Core P_Buffer P_Core Spec_Steps P_Steps
  Spec_Kernels P_Kernels P_Sampler Spec_Train P_Train P_Train2 Spec_PT P_PT P_PT2 P_PT3 P_PT4 Spec_Bundle Spec_Prog RNum Spec_Real Spec_HMC P_Real1 Spec_Inv P_Inv1 P_Inv2 P_Inv3 Spec_InvPT.
Open Scope R_scope.

Lemma total_flat_map {A B} (f : A -> list B) l h : total (flat_map f l) h = total l (fun a => total (f a) h).
Proof. induction l as [|a l IH]; [reflexivity|]. cbn [flat_map]. rewrite total_app, IH. reflexivity. Qed.
Lemma ens_total X m h : total (ensembles X (S m)) h = total X (fun x => total (ensembles X m) (fun l => h (x :: l))).
Proof. cbn [ensembles]. rewrite total_flat_map. apply total_ext. intros x _. apply total_map. Qed.
Lemma ens_in X m xs : In xs (ensembles X m) <-> length xs = m /\ forall x, In x xs -> In x X.
Proof.
  revert xs. induction m as [|m IH]; intros xs; cbn [ensembles].
  - split; [intros [<-|[]]; split; [reflexivity|intros x []]|]. intros [H _]. destruct xs; [now left|discriminate].
  - rewrite in_flat_map. split.
    + intros (x & Hx & H). apply in_map_iff in H as (l & <- & Hl). apply IH in Hl as [L A]. split; [cbn; congruence|]. intros y [<-|Hy]; auto.
    + intros [L A]. destruct xs as [|x xs]; [discriminate|]. exists x. split; [apply A; now left|]. apply in_map. apply IH. split; [now injection L|]. intros y Hy. apply A. now right.
Qed.

Lemma ens_nodup X m : NoDup X -> NoDup (ensembles X m).
Proof.
  intros HX. induction m as [|m IH]; cbn [ensembles]; [repeat constructor; auto|].
  assert (E : flat_map (fun x => map (cons x) (ensembles X m)) X = map (fun p => fst p :: snd p) (list_prod X (ensembles X m))).
  { clear. generalize (ensembles X m). intros l. induction X as [|x X IH]; [reflexivity|]. cbn [flat_map list_prod]. rewrite map_app, map_map, IH. reflexivity. }
  rewrite E. apply FinFun.Injective_map_NoDup; [|apply nodup_prod; auto]. intros [a b] [a' b'] H. cbn in H. now injection H as -> ->.
Qed.
Lemma ens_swap X m i : NoDup X -> (i + 1 < m)%nat -> Permutation (map (swap_at i) (ensembles X m)) (ensembles X m).
Proof.
  intros HX Hi. apply NoDup_Permutation.
  - apply FinFun.Injective_map_NoDup; [|apply ens_nodup, HX]. intros a b H. rewrite <- (swap_at_invol i a), <- (swap_at_invol i b). congruence.
  - apply ens_nodup, HX.
  - assert (A : forall xs, In xs (ensembles X m) -> In (swap_at i xs) (ensembles X m)).
    { intros xs H. apply ens_in in H as [L H]. apply ens_in. rewrite swap_at_length. split; [exact L|]. intros x Hx. apply H. revert Hx. apply Permutation_in. symmetry. apply swap_at_perm. }
    intros xs. split.
    + intros H. apply in_map_iff in H as (ys & <- & H). auto.
    + intros H. apply in_map_iff. exists (swap_at i xs). rewrite swap_at_invol. auto.
Qed.

Section PTinv.
Context {G : @Rng RNum}.
Variables (t : @tempered RNum) (d : @datad RNum).
Notation lp := (fun x => tempered_call t x d).

(** Exchange. *)
Section Exch.
Variables (X : list (list R)) (temps : list R).
Notation m := (length temps).
Lemma exch_expect n : forall i (h : list (list R) -> R) xs E, In xs (ensembles X m) -> (i + n < m)%nat ->
  key_chain (swap_tests X temps (l_pdf (t_base t)) d) n E ->
  ex E (fun k => h (fst (fst (@exchange_scan RNum G temps n i k xs (map lp xs))))) = sweepE t d temps n i h xs.
Proof.
  induction n as [|n IH]; intros i h xs E Hx Hi HK; [exact (ex_const _ E (h xs))|].
  destruct HK as (E0 & E1 & S & P & HK). pose proof (proj1 (proj1 (ens_in _ _ _) Hx)) as Lx. cbn [sweepE]. unfold stepE.
  assert (Hs : In (swap_at i xs) (ensembles X m)).
  { apply ens_in in Hx as [L H]. apply ens_in. rewrite swap_at_length. split; [exact L|]. intros x H'. apply H. revert H'. apply Permutation_in. symmetry. apply swap_at_perm. }
  set (H2 := fun a b : key => if Rltb (ln (uniform b)) (ratioR t d temps xs i)
    then h (fst (fst (@exchange_scan RNum G temps n (i + 1) a (swap_at i xs) (map lp (swap_at i xs))))) else h (fst (fst (@exchange_scan RNum G temps n (i + 1) a xs (map lp xs))))).
  transitivity (ex E (fun k => H2 (split k 2 0) (split k 2 1))).
  { apply ex_ext. intros k. cbn [exchange_scan]. rewrite exchange_ratio_R by (change (@length (list (@F RNum)) xs) with (@length (list R) xs); rewrite Lx; lia). unfold mh_accept, H2.
    change (@flt RNum (@fln RNum (uniform (split k 2 1))) (ratioR t d temps xs i)) with (Rltb (ln (uniform (split k 2 1))) (ratioR t d temps xs i)).
    destruct (Rltb _ _).
    - rewrite swap_at_map. destruct (@exchange_scan RNum G temps n (i + 1) _ _ _) as [[? ?] ?]. reflexivity.
    - destruct (@exchange_scan RNum G temps n (i + 1) _ _ _) as [[? ?] ?]. reflexivity. }
  destruct (S H2) as [S1 S2]. rewrite S1, S2. set (A := sweepE t d temps n (i + 1) h (swap_at i xs)). set (B := sweepE t d temps n (i + 1) h xs).
  transitivity (ex E1 (fun b => B + (A - B) * (if Rltb (ln (uniform b)) (ratioR t d temps xs i) then 1 else 0))).
  { apply ex_ext. intros b. unfold H2. destruct (Rltb _ _).
    - rewrite (IH (i + 1)%nat h (swap_at i xs) E0 Hs) by (auto; lia). unfold A, B. ring.
    - rewrite (IH (i + 1)%nat h xs E0 Hx) by (auto; lia). unfold B. ring. }
  rewrite ex_affine. pose proof (P xs i Hx) as Q. cbv zeta in Q.
  assert (Er : @swap_log_ratio RNum temps (fun x => lp_val (l_pdf (t_base t)) x d) xs i = ratioR t d temps xs i) by reflexivity.
  rewrite Er in Q. unfold test_prob in Q. rewrite Q by lia. fold A. fold B. ring.
Qed.
Lemma exch_inv h E : NoDup X -> (0 < m)%nat -> key_chain (swap_tests X temps (l_pdf (t_base t)) d) (m - 1) E ->
  expected_under (ensembles X m) (ensemble_density t d temps) (fun xs => ex E (fun k => h (fst (fst (@exchange RNum G t d temps k xs))))) =
  expected_under (ensembles X m) (ensemble_density t d temps) h.
Proof.
  intros HX Hm HK. refine (eq_trans _ (sweepE_invariant t d temps m (ensembles X m) _ (fun i => ens_swap X m i HX) (m - 1) 0 h _)).
  - unfold expected_under. apply total_ext. intros xs Hx. f_equal. unfold exchange. pose proof (proj1 (proj1 (ens_in _ _ _) Hx)) as Lx.
    assert (L2 : @length (list (@F RNum)) xs = m) by exact Lx. rewrite L2. apply exch_expect; auto. lia.
  - intros xs Hx. apply (proj1 (proj1 (ens_in _ _ _) Hx)).
  - lia.
Qed.
End Exch.

(** Moves. *)
Section Moves.
Variables (X : list (list R)) (n : nat) (kern : @skernel RNum G) (steps : nat).
Hypothesis NS : normal_shape.
Hypothesis SX : states X n.
Lemma ideal_facts f P : ideal_kernel X n f d kern P -> consistent n f d kern /\ forall E, P E -> inv_step X f d kern E.
Proof.
  intros K. destruct K as [ss A B|ss A B C|h M A B C D E F].
  - split; [exact (walk_consistent n f d NS ss A B)|exact (walk_inv n X f d SX ss A B)].
  - assert (MO : mala_ok_step ss n) by (destruct ss; exact A). split; [exact (langevin_consistent n f d NS ss MO C)|exact (langevin_inv n X f d SX ss MO B C)].
  - split; [exact (ham_consistent n f d NS h M A B C F)|exact (ham_inv n X f d SX h M A B C D E F)].
Qed.
Definition mv (T : R) (k : key) (x : list R) : list R :=
  match @individual_step RNum G steps kern t d k x T with Ok o => fst (fst o) | Raise _ => [] end.
Lemma last_nth' {A} (l : list A) a : (0 < length l)%nat -> nth_error l (length l - 1) = Some (last l a).
Proof.
  induction l as [|b l IH]; intros H; [cbn in H; lia|]. destruct l as [|c l]; [reflexivity|].
  cbn [length] in * . replace (S (S (length l)) - 1)%nat with (S (S (length l) - 1)) by lia. cbn [nth_error]. rewrite IH by lia. reflexivity.
Qed.
Lemma mv_inv T E g : walker_source X n (tempered_lpdf t T) d kern steps E ->
  expected_under X (density (tempered_lpdf t T) d) (fun x => ex E (fun k => g (mv T k x))) = expected_under X (density (tempered_lpdf t T) d) g /\
  (forall k x, In x X -> exists o, @individual_step RNum G steps kern t d k x T = Ok o /\ fst (fst o) = mv T k x).
Proof.
  intros (P & K & KC). destruct (ideal_facts _ _ K) as [CO HP]. set (f := @tempered_lpdf RNum t T) in * .
  assert (OKS : forall k x, In x X -> exists l, serial_scan kern f d steps k x (lpx f d x) = Ok l /\ length l = steps).
  { intros k x Hx. exact (scan_ok n f d kern CO steps k x (proj2 SX x Hx)). }
  assert (EQ : forall k x, In x X -> exists o, @individual_step RNum G steps kern t d k x T = Ok o /\ fst (fst o) = mv T k x /\
     forall l, serial_scan kern f d steps k x (lpx f d x) = Ok l -> mv T k x = last (map (fun o => fst (fst o)) l) x).
  { intros k x Hx. destruct (OKS k x Hx) as (l & El & Ll). unfold mv. unfold individual_step. change (@tempered_log_pdf RNum t T x d) with (lpx f d x). fold f. rewrite El. cbn [rbind].
    destruct (match last_opt l with Some _ => _ | None => _ end) as [xf lpf] eqn:EL. eexists. split; [reflexivity|]. split; [reflexivity|]. cbn [fst].
    intros l' Hl'. injection Hl' as <-. rewrite <- (last_opt_last l x (lpx f d x)). rewrite EL. reflexivity. }
  split; [|intros k x Hx; destruct (EQ k x Hx) as (o & A & B & _); eauto].
  destruct (Nat.eq_dec steps 0) as [Z|NZ].
  - unfold expected_under. apply total_ext. intros x Hx. f_equal. refine (eq_trans _ (ex_const _ E (g x))). apply ex_ext. intros k.
    destruct (EQ k x Hx) as (o & _ & _ & C). destruct (OKS k x Hx) as (l & El & Ll). rewrite (C l El). destruct l; [reflexivity|]. cbn in Ll. lia.
  - refine (eq_trans _ (chain_inv n X f d kern (proj2 SX) CO P HP steps (steps - 1) g E _ KC)); [|lia].
    unfold expected_under. apply total_ext. intros x Hx. f_equal. apply ex_ext. intros k.
    destruct (EQ k x Hx) as (o & _ & _ & C). destruct (OKS k x Hx) as (l & El & Ll). rewrite (C l El). rewrite El. cbn [at_step].
    pose proof (last_nth' l ([], 0, false) ltac:(rewrite Ll; lia)) as Q. rewrite Ll in Q.
    refine (eq_trans _ (eq_sym (f_equal (fun o : option (list R * R * bool) => match o with Some (x0, _, _) => g x0 | None => 0 end) Q))).
    assert (E2 : last (map (fun o => fst (fst o)) l) x = fst (fst (last l ([], 0, false)))).
    { assert (Hl : (0 < length l)%nat) by lia. clear -Hl. induction l as [|a l IH]; [cbn in Hl; lia|]. destruct l as [|b l]; [reflexivity|]. cbn [map last] in * . apply IH. cbn. lia. }
    rewrite E2. destruct (last l ([], 0, false)) as [[? ?] ?]. reflexivity.
Qed.
Definition mvs (ks : list key) (xs : list (list R)) (ts : list R) : list (list R) :=
  map (fun kxt => mv (snd kxt) (fst (fst kxt)) (snd (fst kxt))) (combine (combine ks xs) ts).
Fixpoint wprod (ts : list R) (xs : list (list R)) : R :=
  match ts, xs with T :: ts', x :: xs' => density (tempered_lpdf t T) d x * wprod ts' xs' | _, _ => 1 end.
Lemma wprod_density : forall ts xs, length xs = length ts -> ensemble_density t d ts xs = wprod ts xs.
Proof.
  unfold ensemble_density. induction ts as [|T ts IH]; intros [|x xs] L; try discriminate; [reflexivity|].
  cbn [length]. rewrite Rprod_S. cbn [nth wprod]. rewrite (IH xs) by (now injection L). reflexivity.
Qed.
Lemma mvs_inv : forall Ws ts h, Forall2 (fun W T => walker_source X n (tempered_lpdf t T) d kern steps W) Ws ts ->
  total (ensembles X (length ts)) (fun xs => wprod ts xs * ex_keys Ws (fun ks => h (mvs ks xs ts))) = total (ensembles X (length ts)) (fun xs => wprod ts xs * h xs).
Proof.
  induction Ws as [|W Ws IH]; intros ts h F; inversion F as [|? T ? ts' HW F']; subst; [reflexivity|]. cbn [length]. rewrite !ens_total. cbn [ex_keys].
  set (Hh := fun y => total (ensembles X (length ts')) (fun l => wprod ts' l * h (y :: l))).
  transitivity (expected_under X (density (tempered_lpdf t T) d) (fun x => ex W (fun k => Hh (mv T k x)))).
  - unfold expected_under. apply total_ext. intros x Hx. cbn [wprod].
    rewrite (total_ext _ _ (fun l => density (tempered_lpdf t T) d x * (wprod ts' l * ex W (fun k => ex_keys Ws (fun ks => h (mv T k x :: mvs ks l ts')))))).
    + rewrite total_scal. f_equal. rewrite (total_ext _ _ (fun l => ex W (fun k => wprod ts' l * ex_keys Ws (fun ks => h (mv T k x :: mvs ks l ts'))))) by (intros; symmetry; apply ex_scal).
      rewrite <- ex_total. apply ex_ext. intros k. unfold Hh. exact (IH ts' (fun l => h (mv T k x :: l)) F').
    + intros l _. rewrite Rmult_assoc. reflexivity.
  - rewrite (proj1 (mv_inv T W Hh HW)). unfold expected_under. apply total_ext. intros x _. unfold Hh. rewrite <- total_scal. apply total_ext. intros l _. cbn [wprod]. ring.
Qed.
Lemma ens_step_ok : forall (ks : list key) ts xs, length ks = length xs -> length xs = length ts -> (forall x, In x xs -> In x X) ->
  Forall (fun T => exists W, walker_source X n (tempered_lpdf t T) d kern steps W) ts ->
  rmapM (fun kxt => rmap (fun o => fst (fst o)) (@individual_step RNum G steps kern t d (fst (fst kxt)) (snd (fst kxt)) (snd kxt))) (combine (combine ks xs) ts) = Ok (mvs ks xs ts).
Proof.
  induction ks as [|k ks IH]; intros ts xs L1 L2 HX F; destruct xs as [|x xs]; try discriminate L1; destruct ts as [|T ts]; try discriminate L2; [reflexivity|].
  inversion F as [|? ? (W & HW) F']; subst. destruct (proj2 (mv_inv T W (fun _ => 0) HW) k x (HX x (or_introl eq_refl))) as (o & E1 & E2).
  cbn [combine rmapM fst snd]. rewrite E1. cbn [rmap rbind]. rewrite (IH ts xs) by (auto; try (now injection L1); try (now injection L2); intros; apply HX; now right).
  cbn [rbind]. unfold mvs. cbn [combine map fst snd]. rewrite E2. reflexivity.
Qed.
Lemma ensemble_is ts k xs : In xs (ensembles X (length ts)) -> Forall (fun T => exists W, walker_source X n (tempered_lpdf t T) d kern steps W) ts ->
  @ensemble_step RNum G steps kern t d ts k xs = Ok (mvs (map (split k (length ts)) (seq 0 (length ts))) xs ts).
Proof.
  intros H FA. apply ens_in in H as [L HX]. unfold ensemble_step. change (@length (list (@Num.F RNum)) xs) with (@length (list R) xs). rewrite L, Nat.eqb_refl.
  apply ens_step_ok; auto. rewrite map_length, seq_length. now symmetry.
Qed.
End Moves.
End PTinv.
