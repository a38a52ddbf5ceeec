From Coq Require Import Reals Permutation Psatz.
From Coquelicot Require Import Coquelicot.
From Verif Require Import Prelude Num M_Core M_Kernels M_Strategies M_PT P_Lists Spec Spec_Core P_Buffer P_Core Spec_Steps P_Steps
  Spec_Kernels P_Kernels P_Sampler Spec_Train P_Train P_Train2 RNum Spec_Real P_Real1 Spec_PT.
Close Scope R_scope.

(* ------------------------------------------------------------------ C38 *)
Lemma swap_at_spec {A} i (l : list A) : i + 1 < length l -> exchanged i l (swap_at i l).
Proof.
  revert l. induction i as [|i IH]; intros [|a l] H; cbn in H; try lia.
  - destruct l as [|b r]; cbn in H; [lia|]. unfold exchanged. cbn. repeat split; auto; try lia.
    intros [|[|j]] H1 H2; cbn; auto; exfalso; lia.
  - specialize (IH l ltac:(lia)) as (H1 & H2 & H3 & H4 & H5). unfold exchanged. cbn [swap_at].
    repeat split; cbn; try lia; auto.
    intros [|j] Hj1 Hj2; cbn; [reflexivity|]. apply H5; lia.
Qed.
Lemma swap_at_length {A} i (l : list A) : length (swap_at i l) = length l.
Proof. revert l. induction i as [|i IH]; intros [|a l]; cbn; auto. destruct l; auto. Qed.
Lemma swap_at_perm {A} i (l : list A) : Permutation l (swap_at i l).
Proof.
  revert l. induction i as [|i IH]; intros [|a l]; cbn; auto.
  destruct l; auto. apply perm_swap.
Qed.
Lemma swap_at_map {A B} (f : A -> B) i l : swap_at i (map f l) = map f (swap_at i l).
Proof.
  revert l. induction i as [|i IH]; intros [|a l]; cbn; auto.
  - destruct l; auto.
  - rewrite IH. auto.
Qed.
Lemma swap_at_invol {A} i (l : list A) : swap_at i (swap_at i l) = l.
Proof.
  revert l. induction i as [|i IH]; intros [|a l]; cbn; auto.
  - destruct l; auto.
  - rewrite IH; auto.
Qed.

Section Exch.
Context {N : Num} {G : Rng} {NF : NFOps}.

Lemma nth_lp (lp : vec -> F) (xs : list vec) i : i < length xs -> nth i (map lp xs) f0 = lp (nth i xs []).
Proof. intros. apply nth_map'. auto. Qed.

Lemma exchange_scan_spec temps (lp : vec -> F) : forall n i k xs ys lps accs,
  i + n < length xs ->
  exchange_scan temps n i k xs (map lp xs) = (ys, lps, accs) ->
  Permutation xs ys /\ lps = map lp ys /\ length accs = n /\ length ys = length xs /\
  exists ens, length ens = S n /\ nth 0 ens [] = xs /\ nth n ens [] = ys /\
   forall j, j < n ->
    nth j accs false = (fln (uniform (scan_key k j)) <.? swap_log_ratio temps lp (nth j ens []) (i + j)) /\
    if nth j accs false then exchanged (i + j) (nth j ens []) (nth (j + 1) ens [])
    else nth (j + 1) ens [] = nth j ens [].
Proof.
  induction n as [|n IH]; intros i k xs ys lps accs Hi H; cbn in H.
  - injection H as <- <- <-. repeat split; auto. exists [xs]. cbn. split; [auto|]. split; [auto|]. split; [auto|]. intros j Hj. exfalso. lia.
  - set (acc := mh_accept (split k 2 1) (exchange_ratio temps (map lp xs) i)) in H.
    replace (if acc then swap_at i (map lp xs) else map lp xs) with (map lp (if acc then swap_at i xs else xs)) in H
      by (destruct acc; auto; rewrite swap_at_map; auto).
    set (xs' := if acc then swap_at i xs else xs) in H.
    destruct (exchange_scan temps n (i + 1) (split k 2 0) xs' (map lp xs')) as [[xf lf] af] eqn:E.
    injection H as <- <- <-.
    assert (Hl : length xs' = length xs) by (unfold xs'; destruct acc; auto; apply swap_at_length).
    assert (Hp : Permutation xs xs') by (unfold xs'; destruct acc; auto; apply swap_at_perm).
    apply IH in E as (Hperm & -> & Hal & Hyl & ens & He1 & He2 & He3 & He4); [|lia].
    split; [eapply perm_trans; eauto|]. split; [auto|]. split; [cbn; lia|]. split; [lia|].
    exists (xs :: ens). cbn. split; [lia|]. split; auto. split; auto.
    intros [|j] Hj.
    + cbn [nth]. destruct ens as [|e0 ens]; [cbn in He1; lia|]. cbn [nth] in He2. subst e0.
      rewrite Nat.add_0_r. split.
      * unfold acc, mh_accept, exchange_ratio, swap_log_ratio, scan_key. rewrite !nth_lp by lia. reflexivity.
      * unfold xs'. destruct acc; auto. apply swap_at_spec. lia.
    + specialize (He4 j ltac:(lia)). replace (i + 1 + j) with (i + S j) in He4 by lia. exact He4.
Qed.

Lemma C38_proof t d temps k xs ys lps accs :
  exchange t d temps k xs = (ys, lps, accs) ->
  Permutation xs ys /\ lps = map (fun x => tempered_call t x d) ys /\
  exists ens, sweep_of temps (fun x => tempered_call t x d) k xs ys accs ens.
Proof.
  intros H. unfold exchange in H. destruct xs as [|x xs].
  - cbn in H. injection H as <- <- <-. repeat split; auto. exists [[]].
    unfold sweep_of. cbn. split; [auto|]. split; [auto|]. split; [auto|]. split; [auto|]. intros i Hi. exfalso. lia.
  - apply exchange_scan_spec in H as (Hp & Hl & Ha & Hy & ens & He1 & He2 & He3 & He4); [|cbn; lia].
    repeat split; auto. exists ens. unfold sweep_of. rewrite Ha. repeat split; auto; apply He4; auto.
Qed.
End Exch.

(* ------------------------------------------------------------------ C39 *)
Section Balance.
Local Open Scope R_scope.
Variables (t : @tempered RNum) (d : datad) (temps : list R).

Definition lpR (x : list R) : R := tempered_call t x d.
Definition ratioR (xs : list (list R)) (i : nat) : R :=
  (1 / nth (i + 1) temps 0 - 1 / nth i temps 0) * (lpR (nth i xs []) - lpR (nth (i + 1) xs [])).

Lemma exchange_ratio_R xs i : (i + 1 < length xs)%nat ->
  @exchange_ratio RNum temps (map (fun x => tempered_call t x d) xs) i = ratioR xs i.
Proof.
  intros H. unfold exchange_ratio, ratioR, lpR.
  rewrite (nth_map' (fun x => tempered_call t x d) xs i [] f0) by lia.
  rewrite (nth_map' (fun x => tempered_call t x d) xs (i + 1) [] f0) by lia. reflexivity.
Qed.

Lemma swap_prob_value xs i : (i + 1 < length xs)%nat -> swap_prob temps t d xs i (Rmin 1 (exp (ratioR xs i))).
Proof.
  intros H. unfold swap_prob.
  replace (Rmin 1 (exp (ratioR xs i))) with (Rmin 1 (exp (ratioR xs i)) * 1 + (1 - Rmin 1 (exp (ratioR xs i))) * 0) by ring.
  apply is_RInt_ext with (fun u => if Rltb (ln u) (ratioR xs i) then 1 else 0); [|apply accept_mixture].
  intros u _. cbn [exchange_scan]. rewrite exchange_ratio_R by auto. cbn [snd hd].
  unfold mh_accept. cbn [uniform split tape hd]. reflexivity.
Qed.

Lemma Rprod_swap (f : nat -> list R -> R) : forall i (xs : list (list R)), (i + 1 < length xs)%nat ->
  f i (nth i xs []) * f (i + 1)%nat (nth (i + 1) xs []) * Rprod (length xs) (fun j => f j (nth j (swap_at i xs) [])) =
  f i (nth (i + 1) xs []) * f (i + 1)%nat (nth i xs []) * Rprod (length xs) (fun j => f j (nth j xs [])).
Proof.
  intros i xs. revert f i. induction xs as [|a xs IH]; intros f i H; [cbn in H; lia|].
  destruct i as [|i].
  - destruct xs as [|b xs]; [cbn in H; lia|]. cbn [length swap_at]. rewrite !Rprod_S. cbn [nth Nat.add]. ring.
  - cbn [length] in * . rewrite !Rprod_S. cbn [nth swap_at Nat.add].
    specialize (IH (fun j => f (S j)) i ltac:(lia)). cbn beta in IH.
    set (A := f (S i) (nth i xs [])) in * . set (B := f (S (i + 1)) (nth (i + 1) xs [])) in * .
    set (C := f (S i) (nth (i + 1) xs [])) in * . set (D := f (S (i + 1)) (nth i xs [])) in * .
    replace (A * B * (f 0%nat a * Rprod (length xs) (fun i0 : nat => f (S i0) (nth i0 (swap_at i xs) []))))
      with (f 0%nat a * (A * B * Rprod (length xs) (fun i0 : nat => f (S i0) (nth i0 (swap_at i xs) [])))) by ring.
    rewrite IH. ring.
Qed.

Lemma ensemble_density_pos xs : 0 < ensemble_density t d temps xs.
Proof. apply Rprod_pos. intros. apply exp_pos. Qed.

Lemma ensemble_swap xs i : (i + 1 < length xs)%nat ->
  ensemble_density t d temps (swap_at i xs) = ensemble_density t d temps xs * exp (ratioR xs i).
Proof.
  intros H. unfold ensemble_density. rewrite swap_at_length.
  pose proof (Rprod_swap (fun j x => exp (tempered_log_pdf t (nth j temps 0) x d)) i xs H) as E. cbn beta in E.
  set (P1 := Rprod _ _) in E |- * . set (P2 := Rprod (length xs) (fun j => exp (tempered_log_pdf t (nth j temps 0) (nth j xs []) d))) in E |- * .
  clearbody P1 P2.
  set (Ti := nth i temps 0) in * . set (Tj := nth (i + 1) temps 0) in * .
  set (x := nth i xs []) in * . set (y := nth (i + 1) xs []) in * .
  rewrite <- !exp_plus in E.
  assert (Hr : tempered_log_pdf t Ti y d + tempered_log_pdf t Tj x d =
               tempered_log_pdf t Ti x d + tempered_log_pdf t Tj y d + ratioR xs i).
  { unfold tempered_log_pdf, ratioR, lpR, tempered_call. fold x y Ti Tj.
    set (px := lp_val (t_prior t) x d). set (py := lp_val (t_prior t) y d).
    set (lx := logpdf_call (t_base t) x d). set (ly := logpdf_call (t_base t) y d).
    clearbody px py lx ly. cbn in px, py, lx, ly.
    change (1 / Ti * ly + py + (1 / Tj * lx + px) = 1 / Ti * lx + px + (1 / Tj * ly + py) + (1 / Tj - 1 / Ti) * (lx - ly)). ring. }
  change ((exp (tempered_log_pdf t Ti x d + tempered_log_pdf t Tj y d) * P1)%R =
   (exp (tempered_log_pdf t Ti y d + tempered_log_pdf t Tj x d) * P2)%R) in E.
  rewrite Hr in E. rewrite (exp_plus (tempered_log_pdf t Ti x d + tempered_log_pdf t Tj y d) (ratioR xs i)) in E.
  set (q := tempered_log_pdf t Ti x d + tempered_log_pdf t Tj y d) in * .
  pose proof (exp_pos q). apply Rmult_eq_reg_l with (exp q); [|lra]. rewrite E. clearbody q. ring.
Qed.

Lemma ratio_swap xs i : (i + 1 < length xs)%nat -> ratioR (swap_at i xs) i = - ratioR xs i.
Proof.
  intros H. unfold ratioR. destruct (swap_at_spec i xs H) as (H1 & _ & H3 & H4 & _).
  rewrite (nth_error_nth' xs [] (n := i + 1)) in H3 by lia.
  rewrite (nth_error_nth' xs [] (n := i)) in H4 by lia.
  rewrite (nth_error_nth _ _ [] H3), (nth_error_nth _ _ [] H4). ring.
Qed.

Lemma C39_proof xs i a b : (i + 1 < length xs)%nat ->
  swap_prob temps t d xs i a -> swap_prob temps t d (swap_at i xs) i b ->
  ensemble_density t d temps xs * a = ensemble_density t d temps (swap_at i xs) * b.
Proof.
  intros H Ha Hb.
  assert (a = Rmin 1 (exp (ratioR xs i))) as ->.
  { rewrite <- (is_RInt_unique _ _ _ _ Ha). apply is_RInt_unique, swap_prob_value; auto. }
  assert (b = Rmin 1 (exp (ratioR (swap_at i xs) i))) as ->.
  { rewrite <- (is_RInt_unique _ _ _ _ Hb). apply is_RInt_unique, swap_prob_value. rewrite swap_at_length; auto. }
  rewrite ratio_swap by auto. apply balance_exp; try apply ensemble_density_pos.
  rewrite ensemble_swap by auto. pose proof (ensemble_density_pos xs). field. lra.
Qed.

(** A whole sweep leaves the product of the tempered densities invariant. *)
Definition stepE (i : nat) (h : list (list R) -> R) (xs : list (list R)) : R :=
  let p := Rmin 1 (exp (ratioR xs i)) in p * h (swap_at i xs) + (1 - p) * h xs.
Fixpoint sweepE (n i : nat) (h : list (list R) -> R) (xs : list (list R)) : R :=
  match n with O => h xs | S n' => stepE i (sweepE n' (i + 1) h) xs end.

Lemma sweep_expect n : forall i h xs, (i + n < length xs)%nat ->
  is_expect n (fun us => h (fst (fst (@exchange_scan RNum tape temps n i us xs (map (fun x => tempered_call t x d) xs)))))
    (sweepE n i h xs).
Proof.
  induction n as [|n IH]; intros i h xs H; [reflexivity|].
  cbn [is_expect sweepE].
  exists (fun u => if Rltb (ln u) (ratioR xs i) then sweepE n (i + 1) h (swap_at i xs) else sweepE n (i + 1) h xs).
  split; [|apply accept_mixture].
  intros u. set (xs' := if Rltb (ln u) (ratioR xs i) then swap_at i xs else xs).
  assert (Hl : length xs' = length xs) by (unfold xs'; destruct (Rltb _ _); auto; apply swap_at_length).
  specialize (IH (i + 1)%nat h xs' ltac:(lia)).
  assert (E : (if Rltb (ln u) (ratioR xs i) then sweepE n (i + 1) h (swap_at i xs) else sweepE n (i + 1) h xs) = sweepE n (i + 1) h xs')
    by (unfold xs'; destruct (Rltb _ _); reflexivity).
  rewrite E. clear E.
  assert (Hstep : forall us, fst (fst (@exchange_scan RNum tape temps (S n) i (u :: us) xs (map (fun x => tempered_call t x d) xs))) =
     fst (fst (@exchange_scan RNum tape temps n (i + 1) us xs' (map (fun x => tempered_call t x d) xs')))).
  { intros us. cbn [exchange_scan]. rewrite exchange_ratio_R by lia.
    unfold mh_accept. cbn [uniform split tape hd tl].
    change (@flt RNum (@fln RNum u) (ratioR xs i)) with (Rltb (ln u) (ratioR xs i)).
    unfold xs'. destruct (Rltb (ln u) (ratioR xs i)).
    - rewrite swap_at_map. destruct (@exchange_scan RNum tape temps n (i + 1) us _ _) as [[? ?] ?]. reflexivity.
    - destruct (@exchange_scan RNum tape temps n (i + 1) us _ _) as [[? ?] ?]. reflexivity. }
  clear -IH Hstep. revert IH.
  assert (Hext : forall n f g v, (forall us, f us = g us) -> is_expect n g v -> is_expect n f v).
  { clear. induction n as [|n IH]; intros f g v Hfg; cbn.
    - rewrite Hfg. auto.
    - intros (q & Hq & Hi). exists q. split; auto. intros u. eapply IH; [|apply Hq]. intros us. apply Hfg. }
  apply Hext. intros us. rewrite Hstep. reflexivity.
Qed.

Lemma Rsum_list_cons {A} (f : A -> R) a l : Rsum_list f (a :: l) = f a + Rsum_list f l.
Proof. reflexivity. Qed.
Lemma Rsum_list_perm {A} (f : A -> R) l m : Permutation l m -> Rsum_list f l = Rsum_list f m.
Proof. induction 1; rewrite ?Rsum_list_cons; lra. Qed.
Lemma Rsum_list_map {A B} (f : B -> R) (g : A -> B) l : Rsum_list f (map g l) = Rsum_list (fun a => f (g a)) l.
Proof. induction l; auto. cbn [map]. rewrite !Rsum_list_cons, IHl; auto. Qed.
Lemma Rsum_list_ext {A} (f g : A -> R) l : (forall a, In a l -> f a = g a) -> Rsum_list f l = Rsum_list g l.
Proof. induction l; auto. intros H. rewrite !Rsum_list_cons, H, IHl; auto; intros; try apply H; cbn; auto. Qed.
Lemma Rsum_list_plus {A} (f g : A -> R) l : Rsum_list (fun a => f a + g a) l = Rsum_list f l + Rsum_list g l.
Proof. induction l; [cbn; lra|]. rewrite !Rsum_list_cons, IHl. lra. Qed.

Lemma stepE_invariant i h (S : list (list (list R))) m : (i + 1 < m)%nat -> (forall xs, In xs S -> length xs = m) ->
  Permutation (map (swap_at i) S) S ->
  Rsum_list (fun xs => ensemble_density t d temps xs * stepE i h xs) S =
  Rsum_list (fun xs => ensemble_density t d temps xs * h xs) S.
Proof.
  intros Hi Hlen HP.
  set (p := fun xs => Rmin 1 (exp (ratioR xs i))). set (D := ensemble_density t d temps).
  transitivity (Rsum_list (fun xs => D xs * p xs * h (swap_at i xs)) S + Rsum_list (fun xs => D xs * (1 - p xs) * h xs) S).
  { rewrite <- Rsum_list_plus. apply Rsum_list_ext. intros xs _. unfold stepE. fold (p xs). unfold D. ring. }
  assert (E : Rsum_list (fun xs => D xs * p xs * h (swap_at i xs)) S = Rsum_list (fun xs => D xs * p xs * h xs) S).
  { rewrite <- (Rsum_list_perm (fun xs => D xs * p xs * h xs) _ _ HP), Rsum_list_map.
    apply Rsum_list_ext. intros xs Hx. f_equal. apply C39_proof.
    - rewrite (Hlen _ Hx); auto.
    - apply swap_prob_value. rewrite (Hlen _ Hx); auto.
    - apply swap_prob_value. rewrite swap_at_length, (Hlen _ Hx); auto. }
  rewrite E, <- Rsum_list_plus. apply Rsum_list_ext. intros xs _. unfold D. ring.
Qed.

Lemma sweepE_invariant m (S : list (list (list R))) : (forall xs, In xs S -> length xs = m) ->
  (forall i, (i + 1 < m)%nat -> Permutation (map (swap_at i) S) S) ->
  forall n i h, (i + n < m)%nat ->
  Rsum_list (fun xs => ensemble_density t d temps xs * sweepE n i h xs) S =
  Rsum_list (fun xs => ensemble_density t d temps xs * h xs) S.
Proof.
  intros Hlen HP. induction n as [|n IH]; intros i h Hi; [reflexivity|]. cbn [sweepE].
  rewrite (stepE_invariant i _ S m) by (auto; lia || (apply HP; lia)). apply IH. lia.
Qed.

Lemma C39_sweep_proof m (S : list (list (list R))) (h : list (list R) -> R) : (0 < m)%nat ->
  (forall xs, In xs S -> length xs = m) ->
  (forall i, (i + 1 < m)%nat -> Permutation (map (swap_at i) S) S) ->
  exists E : list (list R) -> R,
    (forall xs, In xs S -> is_expect (m - 1) (fun us => h (fst (fst (@exchange RNum tape t d temps us xs)))) (E xs)) /\
    Rsum_list (fun xs => ensemble_density t d temps xs * E xs) S =
    Rsum_list (fun xs => ensemble_density t d temps xs * h xs) S.
Proof.
  intros Hm Hlen HP. exists (sweepE (m - 1) 0 h). split.
  - intros xs Hx. unfold exchange. pose proof (Hlen _ Hx) as Hl.
    assert (El : (@length (list (@F RNum)) xs - 1 = m - 1)%nat) by (rewrite <- Hl; reflexivity).
    rewrite El. apply sweep_expect. change (0 + (m - 1) < @length (list R) xs)%nat. lia.
  - apply sweepE_invariant with m; auto. lia.
Qed.
End Balance.
