(** The law of large numbers for the global steps. *)
From Coq Require Import Reals Lra Lia Permutation Classical.
From Verif Require Import Prelude Num M_Core M_Kernels M_Strategies P_Lists Spec_Kernels RNum Spec_Real Spec_Inv P_Kernels P_Real1 P_Real2 P_Inv1 P_Inv2 P_Inv3 P_Inv4 P_Inv5 Spec_Erg P_Erg1 P_Erg2 P_Erg4 Spec_Lln P_Lln1.
Open Scope R_scope.

Lemma at_pos' j g (l : list (list R * R * bool)) : (j < length l)%nat -> at_step j g (Ok l) = g (pos j (Ok l)).
Proof.
  intros Hj. cbn [at_step pos]. destruct (nth_error l j) as [[[x v] b]|] eqn:E.
  - now rewrite (nth_error_nth l j ([], 0, false) E).
  - apply nth_error_None in E. lia.
Qed.
Lemma total_nth (l : list (list R)) h : total l h = total (seq 0 (length l)) (fun j => h (nth j l [])).
Proof.
  induction l as [|x l IH]; [reflexivity|]. cbn [length seq]. rewrite <- seq_shift.
  change (h x + total l h = h x + total (map S (seq 0 (length l))) (fun j => h (nth j (x :: l) []))). rewrite total_map, IH. reflexivity.
Qed.
Lemma total_abs {A} (l : list A) h c : (forall a, In a l -> Rabs (h a) <= c a) -> Rabs (total l h) <= total l c.
Proof.
  induction l as [|a l IH]; intros H; unfold total in * ; cbn [fold_right]; [rewrite Rabs_R0; lra|]. eapply Rle_trans; [apply Rabs_triang|].
  pose proof (H a (or_introl eq_refl)). pose proof (IH (fun b Hb => H b (or_intror Hb))). lra.
Qed.
Lemma total_cst {A} (l : list A) c : total l (fun _ => c) = INR (length l) * c.
Proof. induction l as [|a l IH]; [cbn; ring|]. unfold total in * . cbn [fold_right]. rewrite IH. cbn [length]. rewrite S_INR. ring. Qed.
Lemma geo (W : R) n : 1 <= W -> total (seq 0 n) (fun j => (1 - 1 / W) ^ (j + 1)) = (W - 1) * (1 - (1 - 1 / W) ^ n).
Proof.
  intros HW. induction n as [|n IH]; [cbn; ring|]. rewrite seq_S, total_app, IH. unfold total. cbn [fold_right]. rewrite Nat.add_comm. cbn [Nat.add pow]. 
  assert (WI : W * (1 / W) = 1) by (field; lra). set (e := 1 / W) in * . set (r := (1 - e) ^ n). 
  replace ((W - 1) * (1 - (1 - e) * r)) with ((W - 1) * (1 - r) + r * (W * e - e)) by ring. rewrite WI. ring.
Qed.
Lemma rate_range (W : R) : 1 <= W -> 0 <= 1 - 1 / W <= 1.
Proof. intros HW. assert (0 < 1 / W <= 1); [|lra]. split; [apply Rdiv_lt_0_compat; lra|]. apply (Rmult_le_reg_r W); [lra|]. replace (1 / W * W) with 1 by (field; lra). lra. Qed.
Lemma geo_le W n : 1 <= W -> total (seq 0 n) (fun j => (1 - 1 / W) ^ (j + 1)) <= W - 1.
Proof. intros HW. rewrite geo by exact HW. pose proof (rate_range W HW) as Q. assert (0 <= (1 - 1 / W) ^ n) by (apply pow_le; lra). nra. Qed.
Lemma mean_shift (X : list (list R)) (w g : list R -> R) mu : 0 < total X w -> target_mean X w (fun y => g y - mu) = target_mean X w g - mu.
Proof.
  intros T. unfold target_mean, expected_under. rewrite (total_ext X _ (fun x => 1 * (w x * g x) + (- mu) * w x)) by (intros; ring). rewrite total_lin. field. lra.
Qed.
(** Squares and probabilities of averages from squares of sums. *)
Lemma average_sq g l mu n : length l = n -> (0 < n)%nat -> (average g l - mu) ^ 2 = / (INR n) ^ 2 * (total l (fun y => g y - mu)) ^ 2.
Proof.
  intros L Hn. assert (0 < INR n) by (apply lt_0_INR; lia). unfold average. rewrite L.
  assert (E : total l (fun y => g y - mu) = total l g - INR n * mu).
  { rewrite (total_ext l _ (fun y => 1 * g y + (-1) * mu)) by (intros; ring). rewrite (total_lin l 1 g (-1) (fun _ => mu)), total_cst, L. ring. }
  rewrite E. field. lra.
Qed.
Lemma cheby (r d : R) : 0 < d -> (if Rle_dec d (Rabs r) then 1 else 0) <= / d ^ 2 * r ^ 2.
Proof.
  intros H. assert (P : 0 < d ^ 2) by (apply pow_lt, H). assert (I : 0 < / d ^ 2) by (apply Rinv_0_lt_compat, P). destruct (Rle_dec d (Rabs r)) as [L|L].
  - apply (Rmult_le_reg_l (d ^ 2) _ _ P). replace (d ^ 2 * (/ d ^ 2 * r ^ 2)) with (r ^ 2) by (field; lra). rewrite <- (pow2_abs r). cbn. nra.
  - pose proof (pow2_ge_0 r). apply Rmult_le_pos; lra.
Qed.
(** From a bound for the square of the sum to the two bounds for the average. *)
Lemma from_sum {K} (E : expect K) (X : list (list R)) (n : nat) (l : K -> list (list R)) g mu B :
  (0 < n)%nat -> (forall k, length (l k) = n) -> xmono X n (fun F => ex E (fun k => F (l k))) ->
  ex E (fun k => (total (l k) (fun y => g y - mu)) ^ 2) <= INR n ^ 2 * B ->
  mean_square_error E g l mu <= B /\ forall delta, 0 < delta -> error_probability E g l mu delta <= B / delta ^ 2.
Proof.
  intros Hn L M H. assert (P : 0 < INR n ^ 2) by (apply pow_lt, lt_0_INR; lia).
  assert (A : mean_square_error E g l mu <= B).
  { unfold mean_square_error. rewrite (ex_ext _ E _ (fun k => / INR n ^ 2 * (total (l k) (fun y => g y - mu)) ^ 2)) by (intros k; now apply average_sq).
    rewrite ex_scal. apply (Rmult_le_reg_l (INR n ^ 2) _ _ P). rewrite <- Rmult_assoc, Rinv_r, Rmult_1_l by lra. exact H. }
  split; [exact A|]. intros delta Hd. assert (D : 0 < delta ^ 2) by (apply pow_lt, Hd). unfold error_probability.
  apply Rle_trans with (ex E (fun k => / delta ^ 2 * (average g (l k) - mu) ^ 2)).
  - apply (M (fun l => if Rle_dec delta (Rabs (average g l - mu)) then 1 else 0) (fun l => / delta ^ 2 * (average g l - mu) ^ 2)). intros l' _. now apply cheby.
  - rewrite ex_scal. unfold Rdiv. rewrite Rmult_comm. apply Rmult_le_compat_r; [apply Rlt_le, Rinv_0_lt_compat, D|exact A].
Qed.

Section Flow.
Context {G : @Rng RNum} {NF : @NFOps RNum G}.
Variables (m : mdl) (X Y : list (list R)) (f : @lpdf RNum) (d : @datad RNum) (c W : R).
Hypothesis C0 : 0 < c.
Notation q := (q m c).
Hypothesis Q1 : total Y q = 1.
Hypothesis NE : X <> [].
Hypothesis NX : NoDup X.
Hypothesis NY : NoDup Y.
Hypothesis XY : forall x, In x X -> In x Y.
Hypothesis CV : covers X (wt f d) q W.
Notation path n E F x := (scan_path m Y f d c n E F x).
Definition path_ex (n : nat) (E : expect key) (x : list R) : expect (list (list R)).
Proof.
  refine (mkExpect _ (fun F => path n E F x) _ _ _).
  - intros F H Q. unfold scan_path. apply iid_ext. intros l _. apply ex_ext. intros k. apply Q.
  - intros a F b H. unfold scan_path. rewrite <- iid_lin. apply iid_ext. intros l _. apply ex_lin.
  - intros a. unfold scan_path. rewrite (iid_ext _ _ _ _ (fun _ => a)); [now apply iid_const|]. intros l _. apply ex_const.
Defined.
Lemma path_len n E x F H : (forall l, length l = n -> F l = H l) -> path n E F x = path n E H x.
Proof.
  intros Q. unfold scan_path. apply iid_ext. intros l Hl. apply ex_ext. intros k. apply Q. cbn [visited]. rewrite map_length, scan_length. exact Hl.
Qed.
Variables (g : list R -> R) (lo hi : R).
Hypothesis RG : ranges X g lo hi.
Hypothesis M0 : target_mean X (wt f d) g = 0.
Notation D := (hi - lo).
Lemma zero_in : lo <= 0 <= hi.
Proof. rewrite <- M0. apply mean_range; auto. intros; apply exp_pos. Qed.
Lemma g_abs y : In y X -> Rabs (g y) <= D.
Proof. intros Hy. pose proof (RG y Hy). pose proof zero_in. apply Rabs_le. lra. Qed.
Lemma path_sum n E x : key_chain (src m X Y f d c) n E -> In x X -> Rabs (path n E (fun l => total l g) x) <= (W - 1) * D.
Proof.
  intros CH Hx. pose proof (W_one m X Y f d c W C0 Q1 NE NX NY XY CV) as W1. pose proof zero_in as Z.
  rewrite (path_len n E x _ (fun l => total (seq 0 n) (fun j => g (nth j l [])))) by (intros l Hl; rewrite total_nth, Hl; reflexivity).
  change (path n E (fun l => total (seq 0 n) (fun j => g (nth j l []))) x) with (ex (path_ex n E x) (fun l => total (seq 0 n) (fun j => g (nth j l [])))).
  rewrite (ex_total (path_ex n E x) (seq 0 n) (fun j l => g (nth j l []))).
  apply Rle_trans with (total (seq 0 n) (fun j => (1 - 1 / W) ^ (j + 1) * D)).
  - apply total_abs. intros j Hj. apply in_seq in Hj. cbn [path_ex ex].
    assert (EQ : path n E (fun l => g (nth j l [])) x = scan_op m Y f d c n j E g x).
    { unfold scan_path, scan_op. apply iid_ext. intros props Hp. apply ex_ext. intros k. rewrite <- pos_outs. symmetry.
      apply at_pos'. cbn. rewrite scan_length. lia. }
    rewrite EQ. 
    pose proof (converge X (wt f d) NE (fun x _ => exp_pos _) _ (scan_op m Y f d c n j E) g lo hi (scan_contracts m X Y f d c W C0 Q1 NE NX NY XY CV n j E ltac:(lia) CH)
      (scan_inv m X Y f d c C0 Q1 NX NY XY n j g E ltac:(lia) CH) RG x Hx) as Q. rewrite M0, Rminus_0_r in Q. exact Q.
  - rewrite (total_ext (seq 0 n) _ (fun j => D * (1 - 1 / W) ^ (j + 1))) by (intros; ring). rewrite total_scal. pose proof (geo_le W n W1). nra.
Qed.
Lemma path_square n : forall E x, key_chain (src m X Y f d c) n E -> In x X -> path n E (fun l => (total l g) ^ 2) x <= INR n * ((2 * W - 1) * D ^ 2).
Proof.
  pose proof (W_one m X Y f d c W C0 Q1 NE NX NY XY CV) as W1. pose proof zero_in as Z.
  induction n as [|n IH]; intros E x.
  - intros _ Hx. change (ex (path_ex 0 E x) (fun l => (total l g) ^ 2) <= INR 0 * ((2 * W - 1) * D ^ 2)). cbn [path_ex ex]. rewrite (path_len 0 E x _ (fun _ => 0)).
    + change (ex (path_ex 0 E x) (fun _ => 0) <= INR 0 * ((2 * W - 1) * D ^ 2)). rewrite ex_const. cbn [INR]. lra.
    + intros [|y l] Hl; [|discriminate]. cbn. ring.
  - intros (E0 & E1 & SP & S1 & CH) Hx. rewrite (scan_path_S m Y f d c n E E0 E1 _ x SP).
    set (B := INR (S n) * ((2 * W - 1) * D ^ 2)).
    assert (C : flow_op m Y f d c E1 (fun _ => B) x = B).
    { unfold flow_op. rewrite (total_ext Y _ (fun y => B * q y)) by (intros; rewrite ex_const; ring). rewrite total_scal, Q1. ring. }
    rewrite <- C. apply (op_mono X (flow_op m Y f d c E1) x _ _ NE); auto.
    + intros a b. apply flow_op_minus.
    + now apply (flow_op_range m X Y f d c C0 Q1).
    + intros y Hy.
      assert (EX : path n E0 (fun l => total (y :: l) g ^ 2) y = g y ^ 2 + 2 * g y * path n E0 (fun l => total l g) y + path n E0 (fun l => total l g ^ 2) y).
      { change (ex (path_ex n E0 y) (fun l => total (y :: l) g ^ 2) = g y ^ 2 + 2 * g y * ex (path_ex n E0 y) (fun l => total l g) + ex (path_ex n E0 y) (fun l => total l g ^ 2)).
        rewrite (ex_ext _ (path_ex n E0 y) (fun l => total (y :: l) g ^ 2) (fun l => 1 * (g y ^ 2 + 2 * g y * total l g) + 1 * total l g ^ 2)).
        - rewrite ex_lin, ex_affine. ring.
        - intros l. unfold total. cbn [fold_right]. ring. }
      rewrite EX. pose proof (IH E0 y CH Hy) as V. pose proof (path_sum n E0 y CH Hy) as M. pose proof (g_abs y Hy) as A.
      unfold B. rewrite S_INR. set (v := path n E0 (fun l => total l g ^ 2) y) in * . set (u := path n E0 (fun l => total l g) y) in * .
      assert (g y ^ 2 <= D ^ 2) by (rewrite <- (pow2_abs (g y)); apply pow_incr; split; [apply Rabs_pos|exact A]).
      assert (2 * g y * u <= 2 * (D * ((W - 1) * D))).
      { apply Rle_trans with (2 * (Rabs (g y) * Rabs u)); [rewrite <- Rabs_mult; pose proof (Rle_abs (g y * u)); lra|].
        apply Rmult_le_compat_l; [lra|]. apply Rmult_le_compat; auto; apply Rabs_pos. }
      nra.
Qed.
End Flow.

Section Group.
Context {G : @Rng RNum} {NF : @NFOps RNum G}.
Lemma group_square (p : @nfp RNum G NF) (X Y : list (list R)) (f : @lpdf RNum) (d : @datad RNum) (q : list R -> R) (a W : R) (dim n : nat) g lo hi (E Ea Ed : expect key) x :
  samples_shape (nfp_model p) dim -> (0 < nfp_bs p)%nat -> ignores_n_steps f ->
  NoDup X -> NoDup Y -> (forall x, In x X -> In x Y) ->
  0 < a -> (forall y, q y = a * exp (m_logp (nfp_model p) y)) -> covers X (density f d) q W ->
  splits2 E Ea Ed -> key_chain (flow_tests X Y (density f d) q) n Ea -> flow_source (nfp_model p) Y q (nfp_bs p) n Ed ->
  (0 < n)%nat -> ranges X g lo hi -> In x X ->
  mean_square_error E g (fun k => visited (group_sample p f d n k x)) (target_mean X (density f d) g) <= (2 * W - 1) * (hi - lo) ^ 2 / INR n /\
  forall delta, 0 < delta ->
  error_probability E g (fun k => visited (group_sample p f d n k x)) (target_mean X (density f d) g) delta <= (2 * W - 1) * (hi - lo) ^ 2 / INR n / delta ^ 2.
Proof.
  intros HS HB IG NX NY XY A0 HQ CV SP CA FD Hn RG Hx. assert (NE : X <> []) by (intros ->; exact Hx).
  assert (T : 0 < total X (density f d)) by (apply total_pos; [intros; apply exp_pos|exact NE]).
  assert (EQ : forall y, P_Inv4.q (nfp_model p) a y = q y) by (intros y; symmetry; apply HQ).
  set (qq := P_Inv4.q (nfp_model p) a).
  assert (FD' : flow_source (nfp_model p) Y qq (nfp_bs p) n Ed).
  { destruct FD as [D1 D2]. split.
    + intros s Hs h. etransitivity; [exact (D1 s Hs h)|]. symmetry. apply iid_qeq, EQ.
    + revert D2. apply chain_imp. intros E' H s Hs h. etransitivity; [exact (H s Hs h)|]. symmetry. apply iid_qeq, EQ. }
  assert (CA' : key_chain (src (nfp_model p) X Y f d a) n Ea).
  { revert CA. apply chain_imp. intros E' H x' y Hx' Hy. specialize (H x' y Hx' Hy). cbv zeta in * . rewrite !EQ. exact H. }
  assert (CV' : covers X (wt f d) qq W). { intros y Hy. unfold qq. rewrite EQ. exact (CV y Hy). }
  assert (Q1 : total Y qq = 1) by exact (source_one _ _ _ _ _ _ HB FD').
  set (mu := target_mean X (density f d) g).
  apply (from_sum E X n); auto.
  - intros k. destruct (group_is p f d dim HS HB IG n k x) as (props & _ & Lp & ->). cbn [visited]. rewrite map_length, scan_length. exact Lp.
  - exact (group_mono p X Y f d q a dim n E Ea Ed HS HB IG NE NX NY XY A0 HQ SP CA FD x Hx).
  - assert (EX : ex E (fun k => total (visited (group_sample p f d n k x)) (fun y => g y - mu) ^ 2) = scan_path (nfp_model p) Y f d a n Ea (fun l => total l (fun y => g y - mu) ^ 2) x).
    { unfold scan_path. set (H := fun b1 b2 => total (visited (Ok (scan (nfp_model p) f d b1 x (props_of p b2 n)))) (fun y => g y - mu) ^ 2).
      rewrite (ex_ext _ E _ (fun k => H (split k 2 0) (split k 2 1))).
      + rewrite (proj1 (SP H)), (proj2 (SP H)).
        exact (flow_draws (nfp_model p) Y qq Q1 p n Ed (fun props => ex Ea (fun b1 => total (visited (Ok (scan (nfp_model p) f d b1 x props))) (fun y => g y - mu) ^ 2)) eq_refl HB FD').
      + intros k. unfold H. destruct (group_is p f d dim HS HB IG n k x) as (props & -> & _ & ->). reflexivity. }
    rewrite EX. assert (R0 : ranges X (fun y => g y - mu) (lo - mu) (hi - mu)) by (intros y Hy; pose proof (RG y Hy); lra).
    assert (M0 : target_mean X (wt f d) (fun y => g y - mu) = 0) by (etransitivity; [exact (mean_shift X (density f d) g mu T)|unfold mu; ring]).
    pose proof (path_square (nfp_model p) X Y f d a W A0 Q1 NE NX NY XY CV' (fun y => g y - mu) (lo - mu) (hi - mu) R0 M0 n Ea x CA' Hx) as Q.
    replace (hi - mu - (lo - mu)) with (hi - lo) in Q by ring. eapply Rle_trans; [exact Q|]. apply Req_le. field. apply Rgt_not_eq. apply lt_0_INR; lia.
Qed.
End Group.
