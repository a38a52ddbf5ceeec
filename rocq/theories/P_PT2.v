From Coq Require Import Reals Permutation Psatz.
From Coquelicot Require Import Coquelicot.
From Verif Require Import Prelude Num M_Core M_Kernels M_Strategies M_PT M_Bundle P_Lists Spec Spec_Core P_Buffer P_Core Spec_Steps P_Steps
  Spec_Kernels P_Kernels P_Sampler Spec_Train P_Train P_Train2 RNum Spec_Real P_Real1 Spec_PT P_PT.
Close Scope R_scope.

(* ------------------------------------------------------------------ C40 *)
Section Adapt.
Context {N : Num}.

Lemma adapt_fold temps damp m : m + 2 <= length temps ->
  let new := fold_left (fun new i =>
      set_nth i (nth (i - 1) new f0
                 +. (nth i temps f0 -. nth (i - 1) temps f0) *. fexp (nth (i - 1) damp f0)) new)
    (seq 1 m) temps in
  length new = length temps /\ nth 0 new f0 = nth 0 temps f0 /\
  (forall i, m < i -> nth i new f0 = nth i temps f0) /\
  (forall i, 1 <= i <= m -> nth i new f0 = nth (i - 1) new f0
      +. (nth i temps f0 -. nth (i - 1) temps f0) *. fexp (nth (i - 1) damp f0)).
Proof.
  induction m as [|m IH]; intros Hm new.
  - subst new. cbn [seq fold_left]. repeat split; auto. intros i Hi. lia.
  - specialize (IH ltac:(lia)). cbn zeta in IH. subst new. rewrite seq_S, fold_left_app. cbn [fold_left].
    set (p := fold_left _ (seq 1 m) temps) in * . clearbody p. destruct IH as (H1 & H2 & H3 & H4).
    split; [rewrite set_nth_length; auto|].
    split; [rewrite nth_set_nth_neq by lia; auto|].
    split; [intros i Hi; rewrite nth_set_nth_neq by lia; apply H3; lia|].
    intros i Hi. destruct (Nat.eq_dec i (1 + m)) as [->|Hn].
    + rewrite nth_set_nth_eq by lia. rewrite nth_set_nth_neq by lia. reflexivity.
    + rewrite !nth_set_nth_neq by lia. apply H4. lia.
Qed.

Lemma adapt_small temps accs : length temps <= 2 -> adapt_temperature temps accs = temps.
Proof.
  intros H. unfold adapt_temperature, adapt_loop. replace (length temps - 2) with 0 by lia. reflexivity.
Qed.
Lemma adapt_ends temps accs :
  length (adapt_temperature temps accs) = length temps /\
  nth 0 (adapt_temperature temps accs) f0 = nth 0 temps f0 /\
  nth (length temps - 1) (adapt_temperature temps accs) f0 = nth (length temps - 1) temps f0.
Proof.
  destruct (le_lt_dec (length temps) 2) as [H|H]; [rewrite adapt_small by auto; auto|].
  unfold adapt_temperature, adapt_loop.
  match goal with |- context [damping ?a ?b] => set (damp := damping a b) end.
  destruct (adapt_fold temps damp (length temps - 2) ltac:(lia)) as (H1 & H2 & H3 & H4).
  repeat split; auto. apply H3. lia.
Qed.

Lemma C40_ends_proof hist temps :
  length (adaptations temps hist) = length temps /\
  nth 0 (adaptations temps hist) f0 = nth 0 temps f0 /\
  nth (length temps - 1) (adaptations temps hist) f0 = nth (length temps - 1) temps f0.
Proof.
  revert temps. induction hist as [|a hist IH]; intros temps; [cbn; auto|].
  unfold adaptations in * . cbn [fold_left]. destruct (adapt_ends temps a) as (H1 & H2 & H3).
  destruct (IH (adapt_temperature temps a)) as (I1 & I2 & I3). rewrite H1 in * . rewrite I1, I2, I3. auto.
Qed.
End Adapt.

Section AdaptR.
Local Open Scope R_scope.

Lemma fsum_b2f (accs : list (list bool)) j :
  @fsum RNum (map (fun a => b2f (nth j a false)) accs) = INR (length (filter (fun a => nth j a false) accs)).
Proof.
  induction accs as [|a accs IH]; [reflexivity|]. cbn [map filter].
  change (@fsum RNum (b2f (nth j a false) :: map (fun a0 => b2f (nth j a0 false)) accs))
    with (@b2f RNum (nth j a false) + @fsum RNum (map (fun a0 => b2f (nth j a0 false)) accs)).
  rewrite IH. destruct (nth j a false); cbn [length].
  - rewrite S_INR. change (@b2f RNum true) with 1. apply Rplus_comm.
  - change (@b2f RNum false) with 0. apply Rplus_0_l.
Qed.
Lemma rate_R n accs j : (j < n)%nat -> nth j (@acceptance_rate RNum n accs) 0 = accept_fraction accs j.
Proof.
  intros H. unfold acceptance_rate. rewrite nth_map_seq by auto. unfold fmean. rewrite fsum_b2f, map_length, INR_ofZ. reflexivity.
Qed.
Lemma damping_R n accs j : (j + 1 < n)%nat ->
  nth j (@damping RNum (length accs) (acceptance_rate n accs)) 0 =
  100 / INR (length accs) * (accept_fraction accs j - accept_fraction accs (j + 1)).
Proof.
  intros H. unfold damping. rewrite nth_map_seq.
  2:{ unfold acceptance_rate. rewrite map_length, seq_length. lia. }
  change (100 / @fofZ RNum (Z.of_nat (length accs)) * (@nth R j (acceptance_rate n accs) 0 - @nth R (j + 1) (acceptance_rate n accs) 0)
   = 100 / INR (length accs) * (accept_fraction accs j - accept_fraction accs (j + 1))).
  rewrite !rate_R by lia. rewrite INR_ofZ. reflexivity.
Qed.

Lemma C40_gap_proof (temps : list R) accs i : (1 <= i)%nat -> (i + 1 < length temps)%nat ->
  let temps' : list R := @adapt_temperature RNum temps accs in
  nth i temps' 0 - nth (i - 1) temps' 0 =
  (nth i temps 0 - nth (i - 1) temps 0) *
    exp (100 / INR (length accs) * (accept_fraction accs (i - 1) - accept_fraction accs i)).
Proof.
  intros H1 H2 temps'. unfold adapt_temperature, adapt_loop in temps'.
  set (damp := damping _ _) in temps'.
  destruct (@adapt_fold RNum temps damp (length temps - 2) ltac:(change (@length R temps - 2 + 2 <= @length R temps)%nat; lia)) as (_ & _ & _ & H4).
  specialize (H4 i ltac:(change (1 <= i <= @length R temps - 2)%nat; lia)).
  fold temps' in H4.
  change (@nth R i temps' 0 = @nth R (i - 1) temps' 0 + (nth i temps 0 - nth (i - 1) temps 0) * exp (@nth R (i - 1) damp 0)) in H4.
  rewrite H4. subst damp. rewrite (damping_R _ accs) by (change (i - 1 + 1 < @length R temps - 1)%nat; lia).
  replace (i - 1 + 1)%nat with i by lia. ring.
Qed.

Lemma adapt_ladder (temps : list R) accs : interior_ladder temps -> interior_ladder (@adapt_temperature RNum temps accs).
Proof.
  intros [Hs Hp]. destruct (@adapt_ends RNum temps accs) as (Hl & H0 & Hn).
  set (temps' := @adapt_temperature RNum temps accs) in * .
  change (@length R temps' = @length R temps) in Hl. change (@nth R 0 temps' 0 = @nth R 0 temps 0) in H0.
  change (@nth R (@length R temps - 1) temps' 0 = @nth R (@length R temps - 1) temps 0) in Hn.
  assert (A : forall i, (i + 2 < length temps)%nat -> @nth R i temps' 0 < @nth R (i + 1) temps' 0).
  { intros i Hi. pose proof (C40_gap_proof temps accs (i + 1) ltac:(lia) ltac:(lia)) as G. fold temps' in G. cbn zeta in G.
    change (@F RNum) with R in G.
    replace (i + 1 - 1)%nat with i in G by lia.
    pose proof (Hs i Hi).
    match type of G with _ = ?a * exp ?b => pose proof (Rmult_lt_0_compat a (exp b) ltac:(lra) (exp_pos b)) as Hpos end.
    lra. }
  split.
  - rewrite Hl. exact A.
  - rewrite Hl. intros i Hi.
    destruct (Nat.eq_dec i (length temps - 1)) as [->|Hne]; [rewrite Hn; apply Hp; lia|].
    assert (B : forall i, (i + 1 < length temps)%nat -> 0 < @nth R i temps' 0).
    { clear i Hi Hne. induction i as [|i IH]; intros Hi; [rewrite H0; apply Hp; lia|].
      specialize (IH ltac:(lia)). pose proof (A i ltac:(lia)). replace (i + 1)%nat with (S i) in * by lia. lra. }
    apply B. lia.
Qed.
Lemma C40_order_proof hist (temps : list R) : interior_ladder temps -> interior_ladder (@adaptations RNum temps hist).
Proof.
  revert temps. induction hist as [|a hist IH]; intros temps H; [exact H|].
  unfold adaptations. cbn [fold_left]. apply IH. apply adapt_ladder, H.
Qed.
Lemma C40_sorted_refuted_proof : exists (temps : list R) hist,
  strictly_sorted temps /\ interior_ladder temps /\ ~ strictly_sorted (@adaptations RNum temps hist).
Proof.
  exists [1; 2; 3], [[[true; false]]]. split; [|split].
  - intros [|[|i]] Hi; cbn in Hi |- *; try lra. lia.
  - split; [intros [|i] Hi; cbn in Hi |- *; try lra; lia|]. intros [|[|[|i]]] Hi; cbn in Hi |- *; try lra. lia.
  - intros H. pose proof (H 1%nat) as H1. unfold adaptations in H1. cbn [fold_left] in H1.
    destruct (@adapt_ends RNum [1; 2; 3] [[true; false]]) as (Hl & H0 & Hn).
    pose proof (C40_gap_proof [1; 2; 3] [[true; false]] 1 ltac:(auto) ltac:(cbn; lia)) as G. cbn zeta in G.
    set (T := @adapt_temperature RNum [1; 2; 3] [[true; false]]) in * .
    change (@length R T = 3%nat) in Hl. change (@nth R 0 T 0 = 1) in H0. change (@nth R 2 T 0 = 3) in Hn.
    rewrite Hl in H1. specialize (H1 ltac:(lia)). change (1 + 1)%nat with 2%nat in H1. change (1 - 1)%nat with 0%nat in G.
    rewrite H0 in G. rewrite Hn in H1.
    assert (E : accept_fraction [[true; false]] 0 - accept_fraction [[true; false]] 1 = 1).
    { unfold accept_fraction. cbn. field. }
    rewrite E in G. cbn [nth length INR] in G.
    pose proof (exp_ineq1 (100 / 1 * 1) ltac:(lra)) as Hx.
    clearbody T. set (y := @nth R 1 T 0) in * . clearbody y. lra.
Qed.
End AdaptR.

