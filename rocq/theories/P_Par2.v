(** Independence of the chains of the production phase, and the pooled average. *)
From Coq Require Import Reals Lra Lia Permutation Classical.
From Verif Require Import Prelude Num M_Core M_Kernels M_Strategies M_PT M_Bundle P_Lists P_Buffer
  Spec Spec_Core P_Core Spec_Sampler P_Sampler Spec_Steps P_Steps Spec_Kernels P_Kernels P_StepsK P_Steps2 Spec_Train P_Train P_Train2
  P_Kernels2 Spec_Bundle P_Bundle P_Bundle2 P_Bundle3 P_Bundle4 P_Bundle5 Spec_Prog P_Prog1 P_Prog2 RNum Spec_Real Spec_Inv P_Inv1 P_Inv2 P_Inv3 P_Inv4 P_Inv5 P_Inv6 P_Inv7
  Spec_Erg P_Erg1 P_Erg2 P_Erg3 P_Erg4 Spec_Lln P_Lln1 P_Lln2 P_Lln3 P_Lln4 P_InvPT Spec_Par P_Par1.
Open Scope R_scope.

Lemma total_seq n (f : nat -> R) : total (seq 0 n) f = Rsum n f.
Proof. induction n as [|n IH]; [reflexivity|]. rewrite seq_S, total_app, IH. cbn. ring. Qed.
Lemma flat_const {A} (f : nat -> list A) m n a : (forall i, length (f i) = m) -> length (flat_map f (seq a n)) = (n * m)%nat.
Proof. intros H. revert a. induction n as [|n IH]; intros a; [reflexivity|]. cbn [seq flat_map]. rewrite app_length, IH, H. cbn. reflexivity. Qed.

Section Final.
Context {G : @Rng RNum} {NF : @NFOps RNum G}.
Variables (c : @config RNum G NF) (d : @datad RNum) (good : mdl -> Prop) (xs0 : list (list R)).
Hypothesis OK : run_ok c d xs0 good.
Hypothesis HTl : (0 < c_local_th c)%nat.
Hypothesis HTg : (0 < c_global_th c)%nat.
Hypothesis HO : counts_ok c.
Variables (k0 k1 : key) (xs1 xs : list (list R)) (w1 : world) (m : mdl).
Hypothesis TR : run_order (base_strategies c 100) (repeat_phase (c_train_loops c) training_phase ++ ["reset_steppers"; "update_state"]%string) k0 xs0 d (w0 c) = (Ok (k1, xs1), w1).
Hypothesis HM : content_of w1 "model" = CPlain (RModel m).
Hypothesis SH : shaped c xs.
Notation run k := (run_order (base_strategies c 100) (repeat_phase (c_prod_loops c) production_phase) k xs d w1).
Notation slots := (phase_slots c (c_prod_loops c)).
Notation result k i := (chain_result (run k) "positions_production" (c_n_dims c) slots i).
Notation rowsof i k := (rows (c_n_chains c) i (sloc c d) (sglo c d m) (pl c) (c_local_th c) (el c) (pg c) (c_global_th c) (eg c) (c_prod_loops c) k (nth i xs [])).
Notation endof i k := (cend (c_n_chains c) i (sloc c d) (sglo c d m) (el c) (eg c) (c_prod_loops c) k (nth i xs [])).
Lemma result_is i k : (i < c_n_chains c)%nat -> result k i = (rowsof i k, endof i k).
Proof.
  intros HI. destruct (trained c d good xs0 OK HTl HTg k0 k1 xs1 w1 TR) as (m' & ost & tr & loss & Hg & _ & Ew).
  assert (m' = m) by (pose proof (f_equal (fun t => match t with CPlain (RModel y) => y | _ => m end) HM) as E'; rewrite Ew in E'; exact E'). subst m'.
  pose proof (produced c d good xs0 OK HTl HTg HO m ost tr loss k xs i Hg SH HI) as Q. cbv zeta in Q. rewrite <- Ew in Q. destruct Q as [Q1 Q2].
  unfold chain_result. f_equal; [|exact Q2]. unfold recorded_rows, rows. rewrite phase_slots_eq. apply map_ext_in. intros s Hs. apply in_seq in Hs.
  apply Q1. rewrite phase_slots_eq. exact (proj2 Hs).
Qed.
Lemma production_independent P Q E : loops_sources (c_n_chains c) P Q (c_prod_loops c) E -> independent E (c_n_chains c) (fun i k => result k i).
Proof.
  intros L. apply (independent_ext E (c_n_chains c) (fun i k => (rowsof i k, endof i k))).
  - intros i k Hi. symmetry. now apply result_is.
  - exact (loops_independent (c_n_chains c) (sloc c d) (sglo c d m) (pl c) (c_local_th c) (el c) (pg c) (c_global_th c) (eg c) P Q (c_prod_loops c) E L (fun i => nth i xs [])).
Qed.

Variables (X Y : list (list R)) (q : list R -> R) (a W : R).
Notation f := (c_logpdf c).
Hypothesis SX : states X (c_n_dims c).
Hypothesis NE : X <> [].
Hypothesis NY : NoDup Y.
Hypothesis XY : forall x, In x X -> In x Y.
Hypothesis A0 : 0 < a.
Hypothesis HQ : forall y, q y = a * exp (m_logp m y).
Hypothesis CV : covers X (density f d) q W.
Hypothesis S0 : forall j, (j < c_n_dims c)%nat -> step_of (c_step c) j <> 0.
Hypothesis IG : ignores_n_steps f.
Hypothesis GM : good m.
Hypothesis XS : forall x, In x xs -> In x X.
Hypothesis NC : (0 < c_n_chains c)%nat.
Variable E : expect key.
Hypothesis LS : loops_sources (c_n_chains c) (Pl c d X) (Pg c d X Y m q) (c_prod_loops c) E.
Variables (g : list R -> R) (lo hi : R).
Hypothesis RG : ranges X g lo hi.
Hypothesis HS : (0 < slots)%nat.
Notation mu := (target_mean X (density f d) g).
Notation per := (pl c + pg c)%nat.
Notation pool k := (pooled_rows (snd (run k)) "positions_production" (c_n_dims c) (c_n_chains c) slots).
Notation T i k := (total (rowsof i k) (fun y => g y - mu)).
Notation D := (hi - lo).
Lemma pool_total k : total (pool k) (fun y => g y - mu) = Rsum (c_n_chains c) (fun i => T i k).
Proof.
  unfold pooled_rows. rewrite total_flat_map, total_seq. apply Rsum_ext. intros i Hi. pose proof (f_equal fst (result_is i k Hi)) as Q. cbn [chain_result fst] in Q.
  exact (f_equal (fun l => total l (fun y => g y - mu)) Q).
Qed.
Lemma pool_length k : length (pool k) = (c_n_chains c * slots)%nat.
Proof. unfold pooled_rows. apply flat_const. intros i. unfold recorded_rows. now rewrite map_length, seq_length. Qed.
Lemma start_in i : (i < c_n_chains c)%nat -> In (nth i xs []) X.
Proof. intros Hi. apply XS, nth_In. refine (eq_ind_r (fun t => (i < t)%nat) Hi (proj1 SH)). Qed.
Lemma pooled_bound : ex E (fun k => total (pool k) (fun y => g y - mu) ^ 2) <=
  INR (c_n_chains c) * (INR (c_prod_loops c) * (INR per ^ 2 * (2 * W + 1) * D ^ 2)) + INR (c_n_chains c) ^ 2 * (INR per * W * D) ^ 2.
Proof.
  assert (LSi : forall i, (i < c_n_chains c)%nat -> loops_source (c_n_chains c) i (Pl c d X) (Pg c d X Y m q) (c_prod_loops c) E) by (intros i Hi; now apply sources_source).
  pose proof (cover_one c d good xs0 OK HTl HTg X Y m q a W 0 SX NE NY XY A0 HQ CV NC E (LSi 0%nat NC) HS) as W1.
  destruct (counts c HTl HTg HO 0 NC) as (K1 & K2 & K3 & K4).
  destruct (cblocks c d good xs0 OK HTl HTg HO X Y m q a W 0 SX NE NY XY A0 HQ CV S0 IG GM NC) as [CC1 CC2].
  destruct (blocks c d good xs0 OK HTl HTg HO X Y m q a 0 SX NY XY A0 HQ S0 IG GM NC) as [BB1 BB2].
  assert (WP : forall y, In y X -> 0 < density f d y) by (intros; apply exp_pos).
  pose proof (R0 c d X g lo hi RG) as RR. pose proof (Z0 c d X NE g) as ZZ.
  rewrite (ex_ext _ E _ (fun k => Rsum (c_n_chains c) (fun i => T i k) ^ 2)) by (intros k; now rewrite pool_total).
  apply (pooled_square E (fun i k => T i k) _ _ (c_n_chains c)); [| | |lia].
  - apply (independent_map E (c_n_chains c) (fun i k => (rowsof i k, endof i k)) (fun _ r => total (fst r) (fun y => g y - mu))).
    exact (loops_independent (c_n_chains c) (sloc c d) (sglo c d m) (pl c) (c_local_th c) (el c) (pg c) (c_global_th c) (eg c) _ _ (c_prod_loops c) E LS (fun i => nth i xs [])).
  - intros i Hi.
    pose proof (rows_square X (density f d) (c_n_chains c) i (sloc c d) (sglo c d m) (c_local c) (pl c) (c_local_th c) (el c) (c_global c) (pg c) (c_global_th c) (eg c) (Pl c d X) (Pg c d X Y m q) W
      W1 NE WP CC1 CC2 BB1 BB2 (lmono c d good xs0 OK HO X SX NE S0) (gmono c d good xs0 OK X Y m q a SX NE NY XY A0 HQ IG GM) K1 K3 K2 K4 (fun y => g y - mu) (lo - mu) (hi - mu) RR ZZ (c_prod_loops c) E (nth i xs []) (LSi i Hi) (start_in i Hi)) as SQ.
    replace (hi - mu - (lo - mu)) with D in SQ by ring. exact SQ.
  - intros i Hi.
    pose proof (rows_sum X (density f d) (c_n_chains c) i (sloc c d) (sglo c d m) (c_local c) (pl c) (c_local_th c) (el c) (c_global c) (pg c) (c_global_th c) (eg c) (Pl c d X) (Pg c d X Y m q) W
      W1 NE WP CC1 CC2 BB1 BB2 K2 K4 (fun y => g y - mu) (lo - mu) (hi - mu) RR ZZ (c_prod_loops c) E (nth i xs []) (LSi i Hi) (start_in i Hi)) as SM.
    replace (hi - mu - (lo - mu)) with D in SM by ring. exact SM.
Qed.
Notation B := ((2 * W + 1) * D ^ 2 / (INR (c_prod_loops c) * INR (c_n_chains c)) + (W * D / INR (c_prod_loops c)) ^ 2).
Lemma production_pooled : mean_square_error E g (fun k => pool k) mu <= B /\
  (monotone E -> forall delta, 0 < delta -> error_probability E g (fun k => pool k) mu delta <= B / delta ^ 2).
Proof.
  assert (SI : slots = (c_prod_loops c * per)%nat) by (rewrite phase_slots_eq; reflexivity). assert (LP : (0 < c_prod_loops c)%nat /\ (0 < per)%nat) by nia. destruct LP as [LP PP0].
  assert (N0 : 0 < INR (c_prod_loops c)) by (apply lt_0_INR; exact LP). assert (Q0 : 0 < INR per) by (apply lt_0_INR; exact PP0). assert (H0 : 0 < INR (c_n_chains c)) by (apply lt_0_INR; exact NC).
  assert (NN : (0 < c_n_chains c * slots)%nat) by nia. assert (P2 : 0 < INR (c_n_chains c * slots) ^ 2) by (apply pow_lt, lt_0_INR; exact NN).
  assert (A : mean_square_error E g (fun k => pool k) mu <= B).
  { unfold mean_square_error. rewrite (ex_ext _ E _ (fun k => / INR (c_n_chains c * slots) ^ 2 * (total (pool k) (fun y => g y - mu)) ^ 2)) by (intros k; apply average_sq; [apply pool_length|exact NN]).
    rewrite ex_scal. apply (Rmult_le_reg_l (INR (c_n_chains c * slots) ^ 2) _ _ P2). rewrite <- Rmult_assoc, Rinv_r, Rmult_1_l by lra.
    eapply Rle_trans; [exact pooled_bound|]. rewrite SI, !mult_INR. apply Req_le. field. lra. }
  split; [exact A|]. intros MO delta Hd. assert (DD : 0 < delta ^ 2) by (apply pow_lt, Hd). unfold error_probability.
  apply Rle_trans with (ex E (fun k => / delta ^ 2 * (average g (pool k) - mu) ^ 2)).
  - apply MO. intros k. now apply cheby.
  - rewrite ex_scal. unfold Rdiv at 1. rewrite Rmult_comm. apply Rmult_le_compat_r; [apply Rlt_le, Rinv_0_lt_compat, DD|exact A].
Qed.
End Final.
