(** C68: histograms of arrays of reals; binary32. *)
From Coq Require Import Reals Psatz.
From Verif Require Import Prelude Num M_Core M_Strategies M_Files Spec Spec_Kernels P_Lists P_Core RNum P_Real1 Spec_Files P_Files2.
Open Scope R_scope.

Section RealHist.
Variable trunc : R -> nat.

Lemma ofZ_INR n : @fofZ RNum (Z.of_nat n) = INR n.
Proof. cbn. now rewrite <- INR_IZR_INZ. Qed.
Lemma edge_last lo hi n : (0 < n)%nat -> edge lo hi n n = hi.
Proof. intros Hn. unfold edge. assert (INR n <> 0) by (apply not_0_INR; lia). field. auto. Qed.
Lemma edges_nth lo hi n i : (0 < n)%nat -> (i <= n)%nat -> @nth R i (@bin_edges RNum lo hi n) 0 = edge lo hi n i.
Proof.
  intros Hn Hi. unfold bin_edges.
  refine (eq_trans (@nth_map_seq R (fun i0 => if (i0 =? n)%nat then hi else lo + IZR (Z.of_nat i0) * ((hi - lo) / IZR (Z.of_nat n))) (S n) i 0 _) _); [lia|].
  destruct (Nat.eqb_spec i n) as [->|H]; [symmetry; now apply edge_last|]. unfold edge. now rewrite <- !INR_IZR_INZ.
Qed.
Lemma edges_nth' (lo hi : R) n i : (0 < n)%nat -> (i <= n)%nat -> @nth (@F RNum) i (@bin_edges RNum lo hi n) (@f0 RNum) = edge lo hi n i.
Proof. exact (edges_nth lo hi n i). Qed.
Lemma edge_step lo hi n i : edge lo hi n (S i) = edge lo hi n i + (hi - lo) / INR n.
Proof. unfold edge. rewrite S_INR. ring. Qed.
Lemma edge_mono lo hi n i j : lo < hi -> (0 < n)%nat -> (i <= j)%nat -> edge lo hi n i <= edge lo hi n j.
Proof.
  intros Hlt Hn H. unfold edge. apply Rplus_le_compat_l, Rmult_le_compat_r; [|now apply le_INR].
  assert (0 < INR n) by (apply lt_0_INR; lia). apply Rlt_le, Rdiv_lt_0_compat; lra.
Qed.
Lemma in_bin_unique lo hi n i j x : lo < hi -> (0 < n)%nat -> (i < n)%nat -> (j < n)%nat -> in_bin lo hi n i x -> in_bin lo hi n j x -> i = j.
Proof.
  intros Hlt Hn. revert i j.
  assert (W : forall i j, (i < n)%nat -> (j < n)%nat -> in_bin lo hi n i x -> in_bin lo hi n j x -> (i < j)%nat -> False).
  { intros i j Hi Hj [H1 H2] [H3 _] Hij. destruct H2 as [H2|[H2 _]]; [|lia]. pose proof (edge_mono lo hi n (S i) j Hlt Hn Hij). lra. }
  intros i j Hi Hj H1 H2. destruct (Nat.lt_trichotomy i j) as [H|[H|H]]; [exfalso; eapply (W i j); eauto|auto|exfalso; eapply (W j i); eauto].
Qed.
Lemma bin_of_in lo hi n x : near_trunc n trunc -> lo < hi -> (0 < n)%nat -> lo <= x <= hi ->
  (@bin_of RNum trunc lo hi n x < n)%nat /\ in_bin lo hi n (@bin_of RNum trunc lo hi n x) x.
Proof.
  intros HT Hlt Hn Hx. assert (Pn : 0 < INR n) by (apply lt_0_INR; lia).
  unfold bin_of. rewrite ofZ_INR. change (((x -. lo) /. (hi -. lo) *. INR n)%num) with (((x - lo) / (hi - lo) * INR n)%R).
  set (f := (x - lo) / (hi - lo) * INR n).
  assert (Pf : 0 <= f). { unfold f. apply Rmult_le_pos; [|lra]. apply Rmult_le_pos; [lra|]. apply Rlt_le, Rinv_0_lt_compat. lra. }
  assert (Xf : x = lo + f * ((hi - lo) / INR n)) by (unfold f; field; lra).
  assert (W : 0 < (hi - lo) / INR n) by (apply Rdiv_lt_0_compat; lra).
  assert (Uf : f <= INR n). { apply (Rmult_le_reg_r ((hi - lo) / INR n)); [exact W|]. replace (INR n * ((hi - lo) / INR n)) with (hi - lo) by (field; lra). lra. }
  destruct (HT f (conj Pf Uf)) as [Hi [T1 T2]]. set (i := trunc f) in * . clearbody i. clearbody f.
  assert (EL : forall j, INR j <= f -> edge lo hi n j <= x) by (intros j Hj; unfold edge; rewrite Xf; apply Rplus_le_compat_l, Rmult_le_compat_r; lra).
  assert (EU : forall j, f < INR j -> x < edge lo hi n j) by (intros j Hj; unfold edge; rewrite Xf; apply Rplus_lt_compat_l, Rmult_lt_compat_r; lra).
  assert (EL' : forall j, edge lo hi n j <= x -> INR j <= f) by (intros j Hj; destruct (Rle_lt_dec (INR j) f) as [Hq|Hq]; [exact Hq|]; apply EU in Hq; lra).
  assert (EU' : forall j, x < edge lo hi n j -> f < INR j) by (intros j Hj; destruct (Rlt_le_dec f (INR j)) as [Hq|Hq]; [exact Hq|]; apply EL in Hq; lra).
  set (i1 := if (i =? n)%nat then (n - 1)%nat else i).
  assert (B1 : (i1 < n)%nat /\ INR i1 - 1 <= f /\ (f < INR i1 + 2 /\ (i1 = (n - 1)%nat -> f <= INR (S i1)))).
  { unfold i1. destruct (Nat.eqb_spec i n) as [->|Hne].
    - split; [lia|]. assert (En : INR n = INR (n - 1) + 1) by (rewrite <- S_INR; f_equal; lia). split; [lra|]. split; [lra|]. intros _. rewrite S_INR. lra.
    - split; [lia|]. split; [lra|]. split; [lra|]. intros E. assert (En : INR n = INR (S i)) by (f_equal; lia). lra. }
  clearbody i1. clear T1 T2 Hi. destruct B1 as (L1 & T1 & T2 & T3).
  rewrite (edges_nth' lo hi n i1) by lia.
  destruct (Rlt_le_dec x (edge lo hi n i1)) as [C|C].
  - assert (@flt RNum x (edge lo hi n i1) = true) as -> by (cbn; unfold Rltb; destruct (Rlt_dec _ _); [reflexivity|contradiction]).
    apply EU' in C. assert (P1 : (0 < i1)%nat). { destruct i1; [cbn in C; lra|lia]. }
    assert (S1 : S (i1 - 1) = i1) by lia. rewrite S1. rewrite (edges_nth' lo hi n i1) by lia.
    assert (@fle RNum (edge lo hi n i1) x = false) as ->. { cbn. unfold Rleb. apply EU in C. destruct (Rle_dec _ _); [lra|reflexivity]. }
    cbn [andb]. split; [lia|]. split.
    + apply EL. assert (E : INR i1 = INR (i1 - 1) + 1) by (rewrite <- S_INR; f_equal; lia). lra.
    + left. rewrite S1. now apply EU.
  - assert (@flt RNum x (edge lo hi n i1) = false) as -> by (apply flt_R_false; lra).
    rewrite (edges_nth' lo hi n (S i1)) by lia.
    destruct (Rlt_le_dec x (edge lo hi n (S i1))) as [D|D].
    + assert (@fle RNum (edge lo hi n (S i1)) x = false) as ->. { cbn. unfold Rleb. destruct (Rle_dec _ _); [lra|reflexivity]. }
      cbn [andb]. split; [exact L1|]. split; [exact C|]. left. exact D.
    + assert (@fle RNum (edge lo hi n (S i1)) x = true) as ->. { cbn. unfold Rleb. destruct (Rle_dec _ _); [reflexivity|contradiction]. }
      destruct (Nat.eqb_spec i1 (n - 1)) as [E|E]; cbn [andb negb].
      * split; [exact L1|]. split; [exact C|]. right. split; [lia|]. apply EL' in D. specialize (T3 E). rewrite Xf. assert (Ef : f = INR (S i1)) by lra. rewrite Ef. replace (S i1) with n by lia. field. lra.
      * split; [lia|]. split; [exact D|]. left. apply EU. rewrite !S_INR. lra.
Qed.

Lemma fminR x y : @fmin RNum x y = Rmin x y.
Proof. unfold fmin. cbn. unfold Rleb, Rmin. destruct (Rle_dec x y); reflexivity. Qed.
Lemma fmaxR x y : @fmax RNum x y = Rmax x y.
Proof. unfold fmax. cbn. unfold Rleb, Rmax. destruct (Rle_dec x y); reflexivity. Qed.
Lemma amin_spec (l : list R) (x : R) : In (@amin RNum x l) (x :: l) /\ forall y, In y (x :: l) -> @amin RNum x l <= y.
Proof.
  unfold amin. revert x. induction l as [|z l IH]; intros x; [cbn; split; [auto|intros y [<-|[]]; lra]|]. cbn [fold_left].
  rewrite fminR. destruct (IH (Rmin x z)) as [H1 H2]. split.
  - destruct H1 as [H1|H1]; [|right; right; exact H1]. rewrite <- H1. unfold Rmin. destruct (Rle_dec x z); [now left|right; now left].
  - pose proof (H2 (Rmin x z) (or_introl eq_refl)). intros y [<-|[<-|Hy]]; [pose proof (Rmin_l x z); lra|pose proof (Rmin_r x z); lra|apply H2; now right].
Qed.
Lemma amax_spec (l : list R) (x : R) : In (@amax RNum x l) (x :: l) /\ forall y, In y (x :: l) -> y <= @amax RNum x l.
Proof.
  unfold amax. revert x. induction l as [|z l IH]; intros x; [cbn; split; [auto|intros y [<-|[]]; lra]|]. cbn [fold_left].
  rewrite fmaxR. destruct (IH (Rmax x z)) as [H1 H2]. split.
  - destruct H1 as [H1|H1]; [|right; right; exact H1]. rewrite <- H1. unfold Rmax. destruct (Rle_dec x z); [right; now left|now left].
  - pose proof (H2 (Rmax x z) (or_introl eq_refl)). intros y [<-|[<-|Hy]]; [pose proof (Rmax_l x z); lra|pose proof (Rmax_r x z); lra|apply H2; now right].
Qed.
Lemma sum_counts (l : list nat) n : (forall i, In i l -> (i < n)%nat) -> fold_right Nat.add 0%nat (bincount n l) = length l.
Proof.
  intros H. unfold bincount. induction l as [|a l IH].
  - cbn. assert (A : forall m s, fold_right Nat.add 0%nat (map (fun _ : nat => 0%nat) (seq s m)) = 0%nat) by (induction m; intros s; cbn; auto). apply A.
  - cbn [length]. rewrite <- IH by (intros; apply H; now right).
    assert (Ha : (a < n)%nat) by (apply H; now left).
    assert (G : forall m s, fold_right Nat.add 0%nat (map (fun i => count_occ Nat.eq_dec (a :: l) i) (seq s m)) =
               (fold_right Nat.add 0 (map (fun i => count_occ Nat.eq_dec l i) (seq s m)) + if (s <=? a) && (a <? s + m) then 1 else 0)%nat).
    { induction m; intros s; cbn [seq map fold_right].
      - destruct (Nat.leb_spec s a), (Nat.ltb_spec a (s + 0)); cbn; lia.
      - rewrite IHm. cbn [count_occ]. destruct (Nat.eq_dec a s) as [->|Hne];
        repeat match goal with |- context [(?x <=? ?y)%nat] => destruct (Nat.leb_spec x y) | |- context [(?x <? ?y)%nat] => destruct (Nat.ltb_spec x y) end; cbn; lia. }
    rewrite G. destruct (Nat.leb_spec 0 a), (Nat.ltb_spec a (0 + n)); cbn; lia.
Qed.
Lemma count_filter (l : list (list nat)) (g : list nat -> nat) i :
  count_occ Nat.eq_dec (map g l) i = length (filter (fun ix => (g ix =? i)%nat) l).
Proof. induction l as [|a l IH]; [reflexivity|]. cbn. destruct (Nat.eq_dec (g a) i) as [E|E]; [rewrite E, Nat.eqb_refl; cbn; now rewrite IH|]. apply Nat.eqb_neq in E. now rewrite E. Qed.

Lemma counts_of (b : @buffer RNum) (n : nat) (lo hi : R) : near_trunc n trunc -> lo < hi -> (0 < n)%nat ->
  (forall ix, valid_index (ashape (b_data b)) ix -> lo <= aget (b_data b) ix <= hi) ->
  let counts := bincount n (map (@bin_of RNum trunc lo hi n) (@flatten RNum (b_data b))) in
  length counts = n /\ fold_right Nat.add 0%nat counts = slots (ashape (b_data b)) /\
  forall i, (i < n)%nat -> exists l, slots_where (ashape (b_data b)) (fun ix => in_bin lo hi n i (aget (b_data b) ix)) l /\ nth i counts 0%nat = length l.
Proof.
  intros HT Hlt Hn Hr counts. split; [unfold counts, bincount; now rewrite map_length, seq_length|]. split.
  - unfold counts. rewrite sum_counts; [unfold flatten; rewrite !map_length; apply indices_length|].
    intros i Hi. unfold flatten in Hi. rewrite map_map in Hi. apply in_map_iff in Hi as (ix & <- & Hix). apply bin_of_in; auto. apply Hr. now apply indices_valid.
  - intros i Hi. exists (filter (fun ix => (@bin_of RNum trunc lo hi n (aget (b_data b) ix) =? i)%nat) (indices (ashape (b_data b)))). split.
    + split; [apply NoDup_filter, indices_nodup|]. intros ix. rewrite filter_In, indices_valid. split.
      * intros [H1 H2]. split; [exact H1|]. apply Nat.eqb_eq in H2. rewrite <- H2. apply bin_of_in; auto.
      * intros [H1 H2]. split; [exact H1|]. apply Nat.eqb_eq. destruct (bin_of_in lo hi n (aget (b_data b) ix) HT Hlt Hn (Hr ix H1)) as [B1 B2]. eapply in_bin_unique; eauto.
    + unfold counts, bincount. rewrite (nth_map_seq (fun i => count_occ Nat.eq_dec (map (@bin_of RNum trunc lo hi n) (@flatten RNum (b_data b))) i)) by exact Hi.
      unfold flatten. rewrite map_map. apply count_filter.
Qed.
Lemma hist_edges (lo hi : R) n : (0 < n)%nat -> length (@bin_edges RNum lo hi n) = S n /\ forall i, (i <= n)%nat -> @nth R i (@bin_edges RNum lo hi n) 0 = edge lo hi n i.
Proof. intros Hn. split; [unfold bin_edges; now rewrite map_length, seq_length|]. intros i Hi. now apply edges_nth. Qed.
Lemma hist_real (b : @buffer RNum) (n : nat) : (0 < n)%nat -> near_trunc n trunc -> (forall ix, valid_index (ashape (b_data b)) ix -> @ffinite RNum (aget (b_data b) ix) = true) ->
  exists counts edges lo hi, @get_distribution RNum trunc b n = Ok (counts, edges) /\ lo < hi /\
    ((slots (ashape (b_data b)) = 0%nat /\ lo = 0 /\ hi = 1) \/ extremes (b_data b) lo hi \/
     exists v, extremes (b_data b) v v /\ lo = v - 1 / 2 /\ hi = v + 1 / 2) /\
    length edges = S n /\ (forall i, (i <= n)%nat -> @nth R i edges 0 = edge lo hi n i) /\
    length counts = n /\ fold_right Nat.add 0%nat counts = slots (ashape (b_data b)) /\
    forall i, (i < n)%nat -> exists l, slots_where (ashape (b_data b)) (fun ix => in_bin lo hi n i (aget (b_data b) ix)) l /\ nth i counts 0%nat = length l.
Proof.
  intros Hn HT Hfin. unfold get_distribution. destruct (Nat.eqb_spec n 0); [lia|].
  assert (HF : forall y, In y (@flatten RNum (b_data b)) <-> exists ix, valid_index (ashape (b_data b)) ix /\ aget (b_data b) ix = y).
  { intros y. unfold flatten. rewrite in_map_iff. split; intros (ix & H1 & H2); exists ix; [split; [now apply indices_valid|auto]|split; [auto|now apply indices_valid]]. }
  assert (HS : @flatten RNum (b_data b) = [] -> slots (ashape (b_data b)) = 0%nat).
  { intros H. rewrite <- indices_length. unfold flatten in H. apply map_eq_nil in H. now rewrite H. }
  assert (HC : forall lo hi, lo < hi -> (forall ix, valid_index (ashape (b_data b)) ix -> lo <= aget (b_data b) ix <= hi) ->
     ((slots (ashape (b_data b)) = 0%nat /\ lo = 0 /\ hi = 1) \/ extremes (b_data b) lo hi \/
     exists v, extremes (b_data b) v v /\ lo = v - 1 / 2 /\ hi = v + 1 / 2) ->
     @outer_edges RNum (@flatten RNum (b_data b)) = Ok (lo, hi) ->
     exists counts edges lo hi, (let* (lo, hi) := @outer_edges RNum (@flatten RNum (b_data b)) in
        Ok (bincount n (map (@bin_of RNum trunc lo hi n) (@flatten RNum (b_data b))), @bin_edges RNum lo hi n)) = Ok (counts, edges) /\ lo < hi /\
    ((slots (ashape (b_data b)) = 0%nat /\ lo = 0 /\ hi = 1) \/ extremes (b_data b) lo hi \/
     exists v, extremes (b_data b) v v /\ lo = v - 1 / 2 /\ hi = v + 1 / 2) /\
    length edges = S n /\ (forall i, (i <= n)%nat -> @nth R i edges 0 = edge lo hi n i) /\
    length counts = n /\ fold_right Nat.add 0%nat counts = slots (ashape (b_data b)) /\
    forall i, (i < n)%nat -> exists l, slots_where (ashape (b_data b)) (fun ix => in_bin lo hi n i (aget (b_data b) ix)) l /\ nth i counts 0%nat = length l).
  { intros lo hi Hlt Hr Hk He. exists (bincount n (map (@bin_of RNum trunc lo hi n) (@flatten RNum (b_data b)))), (@bin_edges RNum lo hi n), lo, hi.
    rewrite He. split; [reflexivity|]. split; [exact Hlt|]. split; [exact Hk|]. destruct (hist_edges lo hi n Hn) as [A1 A2]. split; [exact A1|]. split; [exact A2|]. now apply counts_of. }
  destruct (@flatten RNum (b_data b)) as [|x l] eqn:E; [|].
  - apply (HC 0 1); [lra| |left; split; [now apply HS|split; reflexivity]|reflexivity].
    intros ix Hix. exfalso. apply (proj2 (HF (aget (b_data b) ix))). eauto.
  - destruct (amin_spec l x) as [L1 L2], (amax_spec l x) as [M1 M2]. cbn [outer_edges] in * .
    assert (A1 : @ffinite RNum (@amin RNum x l) = true) by (apply HF in L1 as (ix & Hix & <-); auto).
    assert (A2 : @ffinite RNum (@amax RNum x l) = true) by (apply HF in M1 as (ix & Hix & <-); auto).
    rewrite A1, A2 in * . cbn [andb] in * . clear A1 A2.
    set (lo := @amin RNum x l) in *; set (hi := @amax RNum x l) in * . clearbody lo hi.
    assert (X : extremes (b_data b) lo hi).
    { split; [now apply HF|]. split; [now apply HF|]. intros ix Hix. assert (In (aget (b_data b) ix) (x :: l)) by (apply HF; eauto). split; [now apply L2|now apply M2]. }
    assert (Hlh : lo <= hi) by (apply L2, M1).
    destruct (Rle_lt_or_eq_dec _ _ Hlh) as [Hlt|Heq].
    + apply (HC lo hi); auto; [apply X|]. assert (@fle RNum hi lo = false) as ->. { cbn. unfold Rleb. destruct (Rle_dec hi lo); [lra|reflexivity]. } now rewrite andb_false_r.
    + subst hi. apply (HC (lo - 1 / 2) (lo + 1 / 2)); [lra| |right; right; exists lo; auto|].
      * intros ix Hix. destruct X as (_ & _ & X). specialize (X ix Hix). lra.
      * assert (@fle RNum lo lo = true) as ->. { cbn. unfold Rleb. destruct (Rle_dec lo lo); [reflexivity|lra]. } reflexivity.
Qed.
End RealHist.
