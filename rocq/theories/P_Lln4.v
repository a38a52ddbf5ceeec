(** The law of large numbers for the production record of a bundle. *)
From Coq Require Import Reals Lra Lia Permutation Classical.
From Verif Require Import Prelude Num M_Core M_Kernels M_Strategies M_PT M_Bundle P_Lists P_Buffer
  Spec Spec_Core P_Core Spec_Sampler P_Sampler Spec_Steps P_Steps Spec_Kernels P_Kernels P_StepsK P_Steps2 Spec_Train P_Train P_Train2
  P_Kernels2 Spec_Bundle P_Bundle P_Bundle2 P_Bundle3 P_Bundle4 P_Bundle5 Spec_Prog P_Prog1 P_Prog2 RNum Spec_Real Spec_Inv P_Inv1 P_Inv2 P_Inv3 P_Inv4 P_Inv5 P_Inv6 P_Inv7
  Spec_Erg P_Erg1 P_Erg2 P_Erg3 P_Erg4 Spec_Lln P_Lln1 P_Lln2 P_Lln3.
Open Scope R_scope.

Section Local.
Context {G : @Rng RNum}.
Lemma local_mono (n : nat) (X : list (list R)) (f : @lpdf RNum) (d : @datad RNum) (ss : @stepsize RNum) (m : nat) (E : expect key) :
  normal_shape -> states X n -> X <> [] -> mala_ok_step ss n -> grad_shape f d n ->
  key_chain (step_source X n (fun k x z => mala_run ss k f d x z) (back (fun k x z => mala_run ss k f d x z))) m E ->
  forall x, In x X -> xmono X m (fun F => ex E (fun k => F (visited (serial_scan (mala_kernel ss) f d m k x (lpx f d x))))).
Proof.
  intros NS (ND & LX) NE MO GS KC. pose proof (langevin_consistent n f d NS ss MO GS) as CO.
  refine (serial_mono n X f d (mala_kernel ss) NE LX CO _ _ m E KC).
  intros E' HE. refine (metro_range n X f d (mala_kernel ss) _ _ (l_prop f d ss) (l_rr f d ss) LX _ _ E' HE).
  - intros k k0 x Lx. exact (langevin_KR n f d ss k k0 x Lx).
  - intros k x z Lx Lz. apply (l_facts n f d ss MO GS k x z Lx Lz).
Qed.
End Local.

Section Final.
Context {G : @Rng RNum} {NF : @NFOps RNum G}.
Variables (c : @config RNum G NF) (d : @datad RNum) (good : mdl -> Prop) (xs0 : list (list R)).
Hypothesis OK : run_ok c d xs0 good.
Hypothesis HTl : (0 < c_local_th c)%nat.
Hypothesis HTg : (0 < c_global_th c)%nat.
Hypothesis HO : counts_ok c.
Variables (X Y : list (list R)) (m : mdl) (q : list R -> R) (a W : R) (i : nat).
Notation f := (c_logpdf c).
Hypothesis SX : states X (c_n_dims c).
Hypothesis NE : X <> [].
Hypothesis NY : NoDup Y.
Hypothesis XY : forall x, In x X -> In x Y.
Hypothesis A0 : 0 < a.
Hypothesis HQ : forall y, q y = a * exp (m_logp m y).
Hypothesis CV : covers X (density f d) q W.
Hypothesis S0 : forall j, (j < c_n_dims c)%nat -> step_of (c_step c) j <> 0.
Hypothesis IG : ignores_n_steps f.
Hypothesis GM : good m.
Hypothesis HI : (i < c_n_chains c)%nat.
Variables (k0 k1 : key) (xs1 : list (list R)) (w1 : world).
Hypothesis TR : run_order (base_strategies c 100) (repeat_phase (c_train_loops c) training_phase ++ ["reset_steppers"; "update_state"]%string) k0 xs0 d (w0 c) = (Ok (k1, xs1), w1).
Hypothesis HM : content_of w1 "model" = CPlain (RModel m).
Variable E : expect key.
Hypothesis LS : loops_source (c_n_chains c) i (Pl c d X) (Pg c d X Y m q) (c_prod_loops c) E.
Variables (g : list R -> R) (lo hi : R) (x : list R).
Hypothesis RG : ranges X g lo hi.
Hypothesis Hx : In x X.
Notation run k := (run_order (base_strategies c 100) (repeat_phase (c_prod_loops c) production_phase) k (set_nth i x xs1) d w1).
Notation slots := (phase_slots c (c_prod_loops c)).
Notation rec k := (recorded_rows (snd (run k)) "positions_production" (c_n_dims c) i slots).
Notation mu := (target_mean X (density f d) g).
Hypothesis HS : (0 < slots)%nat.
Lemma rec_rows k : rec k = rows (c_n_chains c) i (sloc c d) (sglo c d m) (pl c) (c_local_th c) (el c) (pg c) (c_global_th c) (eg c) (c_prod_loops c) k x.
Proof.
  unfold recorded_rows, rows. rewrite phase_slots_eq. apply map_ext_in. intros s Hs. apply in_seq in Hs.
  apply (production_rows c d good xs0 OK HTl HTg HO m i HI k0 k1 xs1 w1 TR HM k x (proj2 SX x Hx)). rewrite phase_slots_eq. exact (proj2 Hs).
Qed.
Lemma cover_one : 1 <= W.
Proof.
  assert (LP : (0 < c_prod_loops c)%nat) by (rewrite phase_slots_eq in HS; lia). destruct (c_prod_loops c) as [|n]; [lia|].
  destruct LS as (E0 & E1 & Ec & E00 & E01 & Ed & SP & HC & PP & SP0 & HD & (Ea & Eb & _ & _ & FD) & L).
  apply (covers_one X Y (density f d) q W); auto.
  - intros; apply exp_pos.
  - intros y. rewrite HQ. apply Rmult_lt_0_compat; [exact A0|apply exp_pos].
  - apply SX.
  - pose proof OK as [O1 O2 O3 O4 O5 O6 O7 O7b O8 O9 O10 O11]. exact (source_one m Y q (c_nf_bs c) (c_global c) Eb O3 FD).
Qed.
Lemma lmono : forall E, Pl c d X E -> forall x, In x X -> xmono X (c_local c) (fun F => ex E (fun k => F (visited (sloc c d k x)))).
Proof.
  intros E' HP. pose proof OK as [O1 O2 O3 O4 O5 O6 O7 O7b O8 O9 O10 O11]. pose proof (co_step _ HO) as CS.
  assert (MO : mala_ok_step (c_step c) (c_n_dims c)) by (destruct (c_step c); exact CS).
  exact (local_mono (c_n_dims c) X f d (c_step c) (c_local c) E' O8 SX NE MO O7 HP).
Qed.
Lemma gmono : forall E, Pg c d X Y m q E -> forall x, In x X -> xmono X (c_global c) (fun F => ex E (fun k => F (visited (sglo c d m k x)))).
Proof.
  intros E' (Ea & Ed & SP & CA & FD). pose proof OK as [O1 O2 O3 O4 O5 O6 O7 O7b O8 O9 O10 O11].
  assert (HSh : samples_shape m (c_n_dims c)) by (apply O10; exact GM).
  exact (group_mono (mkNfp m (c_nf_bs c)) X Y f d q a (c_n_dims c) (c_global c) E' Ea Ed HSh O3 IG NE (proj1 SX) NY XY A0 HQ SP CA FD).
Qed.
Notation per := (pl c + pg c)%nat.
Lemma slots_is : slots = (c_prod_loops c * per)%nat. Proof. rewrite phase_slots_eq. reflexivity. Qed.
Lemma wpos' y : In y X -> 0 < density f d y. Proof. intros _. apply exp_pos. Qed.
Lemma T0 : 0 < total X (density f d). Proof. apply total_pos; [exact wpos'|exact NE]. Qed.
Lemma R0 : ranges X (fun y => g y - mu) (lo - mu) (hi - mu). Proof. intros y Hy. pose proof (RG y Hy). lra. Qed.
Lemma Z0 : target_mean X (density f d) (fun y => g y - mu) = 0. Proof. rewrite (mean_shift X (density f d) g mu T0). ring. Qed.
Lemma production_lln :
  Rabs (ex E (fun k => average g (rec k)) - mu) <= W * (hi - lo) / INR (c_prod_loops c) /\
  mean_square_error E g (fun k => rec k) mu <= (2 * W + 1) * (hi - lo) ^ 2 / INR (c_prod_loops c) /\
  forall delta, 0 < delta -> error_probability E g (fun k => rec k) mu delta <= (2 * W + 1) * (hi - lo) ^ 2 / INR (c_prod_loops c) / delta ^ 2.
Proof.
  pose proof cover_one as W1. destruct (counts c HTl HTg HO i HI) as (K1 & K2 & K3 & K4).
  destruct (cblocks c d good xs0 OK HTl HTg HO X Y m q a W i SX NE NY XY A0 HQ CV S0 IG GM HI) as [CC1 CC2].
  destruct (blocks c d good xs0 OK HTl HTg HO X Y m q a i SX NY XY A0 HQ S0 IG GM HI) as [BB1 BB2].
  pose proof slots_is as SI. assert (LP : (0 < c_prod_loops c)%nat /\ (0 < per)%nat) by nia. destruct LP as [LP PP0].
  assert (N0 : 0 < INR (c_prod_loops c)) by (apply lt_0_INR; exact LP). assert (Q0 : 0 < INR per) by (apply lt_0_INR; exact PP0).
  assert (MO : xmono X slots (fun F => ex E (fun k => F (rec k)))).
  { refine (eq_ind_r (fun t => xmono X t (fun F => ex E (fun k => F (rec k)))) _ SI). refine (xmono_ext X _ _ _ _ (rows_mono X (c_n_chains c) i (sloc c d) (sglo c d m) (c_local c) (pl c) (c_local_th c) (el c) (c_global c) (pg c) (c_global_th c) (eg c) (Pl c d X) (Pg c d X Y m q)
      lmono gmono K1 K3 K2 K4 (c_prod_loops c) E LS x Hx)).
    intros F. apply ex_ext. intros k. exact (f_equal F (eq_sym (rec_rows k))). }
  pose proof (rows_sum X (density f d) (c_n_chains c) i (sloc c d) (sglo c d m) (c_local c) (pl c) (c_local_th c) (el c) (c_global c) (pg c) (c_global_th c) (eg c) (Pl c d X) (Pg c d X Y m q) W
    W1 NE wpos' CC1 CC2 BB1 BB2 K2 K4 (fun y => g y - mu) (lo - mu) (hi - mu) R0 Z0 (c_prod_loops c) E x LS Hx) as SM.
  pose proof (rows_square X (density f d) (c_n_chains c) i (sloc c d) (sglo c d m) (c_local c) (pl c) (c_local_th c) (el c) (c_global c) (pg c) (c_global_th c) (eg c) (Pl c d X) (Pg c d X Y m q) W
    W1 NE wpos' CC1 CC2 BB1 BB2 lmono gmono K1 K3 K2 K4 (fun y => g y - mu) (lo - mu) (hi - mu) R0 Z0 (c_prod_loops c) E x LS Hx) as SQ.
  replace (hi - mu - (lo - mu)) with (hi - lo) in SM, SQ by ring.
  assert (LEN : forall k, length (rec k) = slots) by (intros k; unfold recorded_rows; now rewrite map_length, seq_length).
  split.
  - assert (EA : ex E (fun k => average g (rec k)) - mu = / INR slots * ex E (fun k => total (rec k) (fun y => g y - mu))).
    { rewrite <- ex_scal. rewrite <- (ex_const _ E mu) at 1. rewrite <- ex_minus. apply ex_ext. intros k. unfold average. rewrite LEN.
      rewrite (total_ext (rec k) (fun y => g y - mu) (fun y => 1 * g y + (-1) * mu)) by (intros; ring). rewrite (total_lin (rec k) 1 g (-1) (fun _ => mu)), total_cst, LEN.
      assert (0 < INR slots) by (apply lt_0_INR; exact HS). field. lra. }
    rewrite EA, (ex_ext _ E _ (fun k => total (rows (c_n_chains c) i (sloc c d) (sglo c d m) (pl c) (c_local_th c) (el c) (pg c) (c_global_th c) (eg c) (c_prod_loops c) k x) (fun y => g y - mu))) by (intros k; exact (f_equal (fun l => total l (fun y => g y - mu)) (rec_rows k))).
    rewrite Rabs_mult, SI, mult_INR. assert (IP : 0 < / (INR (c_prod_loops c) * INR per)) by (apply Rinv_0_lt_compat, Rmult_lt_0_compat; lra).
    rewrite (Rabs_right (/ _)) by lra. apply Rle_trans with (/ (INR (c_prod_loops c) * INR per) * (INR per * W * (hi - lo))); [apply Rmult_le_compat_l; [lra|exact SM]|]. apply Req_le. field. lra.
  - apply (from_sum E X slots (fun k => rec k) g mu _ HS LEN MO).
    rewrite (ex_ext _ E _ (fun k => total (rows (c_n_chains c) i (sloc c d) (sglo c d m) (pl c) (c_local_th c) (el c) (pg c) (c_global_th c) (eg c) (c_prod_loops c) k x) (fun y => g y - mu) ^ 2)) by (intros k; exact (f_equal (fun l => total l (fun y => g y - mu) ^ 2) (rec_rows k))).
    eapply Rle_trans; [exact SQ|]. rewrite SI, mult_INR. apply Req_le. field. lra.
Qed.
End Final.
