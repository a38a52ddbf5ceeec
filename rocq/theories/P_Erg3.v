(** The production phase contracts towards the target's mean. *)
From Coq Require Import Reals Lra Lia Permutation Classical.
From Verif Require Import Prelude Num M_Core M_Kernels M_Strategies M_PT M_Bundle P_Lists P_Buffer
  Spec Spec_Core P_Core Spec_Sampler P_Sampler Spec_Steps P_Steps Spec_Kernels P_Kernels P_StepsK P_Steps2 Spec_Train P_Train P_Train2
  P_Kernels2 Spec_Bundle P_Bundle P_Bundle2 P_Bundle3 P_Bundle4 P_Bundle5 Spec_Prog P_Prog1 P_Prog2 RNum Spec_Real Spec_Inv P_Inv1 P_Inv2 P_Inv3 P_Inv4 P_Inv5 P_Inv6 P_Inv7
  Spec_Erg P_Erg1 P_Erg2.
Open Scope R_scope.

Lemma globals_div p1 p2 t2 e2 n : forall s, (0 < p1 + p2)%nat -> (s < n * (p1 + p2))%nat ->
  globals p1 p2 t2 e2 n s = (s / (p1 + p2) * (e2 + 1) + (if s mod (p1 + p2) <? p1 then 0 else (s mod (p1 + p2) - p1) * t2 + 1))%nat.
Proof.
  induction n as [|n IH]; intros s H Hs; [lia|]. cbn [globals].
  destruct (Nat.ltb_spec s p1) as [H1|H1]; [|destruct (Nat.ltb_spec s (p1 + p2)) as [H2|H2]].
  - rewrite Nat.div_small, Nat.mod_small by lia. destruct (Nat.ltb_spec s p1); lia.
  - rewrite Nat.div_small, Nat.mod_small by lia. destruct (Nat.ltb_spec s p1); lia.
  - cbn [Nat.mul] in Hs. rewrite IH by lia. set (b := (p1 + p2)%nat) in * . set (t := (s - b)%nat). replace s with (t + 1 * b)%nat by (unfold t; lia).
    rewrite Nat.div_add, Nat.mod_add by lia. lia.
Qed.

Section Local.
Context {G : @Rng RNum}.
Lemma local_contracts (n : nat) (X : list (list R)) (f : @lpdf RNum) (d : @datad RNum) (ss : @stepsize RNum) (m j : nat) (E : expect key) :
  normal_shape -> states X n -> mala_ok_step ss n -> grad_shape f d n ->
  key_chain (step_source X n (fun k x z => mala_run ss k f d x z) (back (fun k x z => mala_run ss k f d x z))) m E -> (j < m)%nat ->
  contracts X 1 (fun g x => ex E (fun k => at_step j g (serial_scan (mala_kernel ss) f d m k x (lpx f d x)))).
Proof.
  intros NS (ND & LX) MO GS KC Hj. pose proof (langevin_consistent n f d NS ss MO GS) as CO.
  rewrite <- (pow1 (j + 1)). refine (chain_contracts n X f d (mala_kernel ss) LX CO _ 1 _ m j E Hj KC).
  intros E' HE. apply contracts_range.
  refine (metro_range n X f d (mala_kernel ss) _ _ (l_prop f d ss) (l_rr f d ss) LX _ _ E' HE).
  - intros k k0 x Lx. exact (langevin_KR n f d ss k k0 x Lx).
  - intros k x z Lx Lz. apply (l_facts n f d ss MO GS k x z Lx Lz).
Qed.
End Local.

Section Final.
Context {G : @Rng RNum} {NF : @NFOps RNum G}.
Variables (c : @config RNum G NF) (d : @datad RNum) (good : mdl -> Prop) (xs0 : list (list R)).
Hypothesis OK : run_ok c d xs0 good.
Hypothesis HTl : (0 < c_local_th c)%nat.
Hypothesis HTg : (0 < c_global_th c)%nat.
Hypothesis HO : counts_ok c.
Variables (X Y : list (list R)) (m : mdl) (q : list R -> R) (a W : R) (i : nat).
Notation f := (c_logpdf c).
Hypothesis SX : states X (c_n_dims c).
Hypothesis NE : X <> [].
Hypothesis NY : NoDup Y.
Hypothesis XY : forall x, In x X -> In x Y.
Hypothesis A0 : 0 < a.
Hypothesis HQ : forall y, q y = a * exp (m_logp m y).
Hypothesis CV : covers X (density f d) q W.
Hypothesis S0 : forall j, (j < c_n_dims c)%nat -> step_of (c_step c) j <> 0.
Hypothesis IG : ignores_n_steps f.
Hypothesis GM : good m.
Notation rho := (1 - 1 / W).
Lemma local_bcon j E : (j < c_local c)%nat -> Pl c d X E -> bcon X 1 (sloc c d) j E.
Proof.
  intros Hj HP. pose proof OK as [O1 O2 O3 O4 O5 O6 O7 O7b O8 O9 O10 O11]. pose proof (co_step _ HO) as CS. destruct SX as [ND LX].
  assert (MO : mala_ok_step (c_step c) (c_n_dims c)) by (destruct (c_step c); exact CS).
  pose proof (langevin_consistent (c_n_dims c) f d O8 (c_step c) MO O7) as CO.
  refine (contracts_ext X _ _ _ _ (local_contracts (c_n_dims c) X f d (c_step c) (c_local c) j E O8 SX MO O7 HP Hj)).
  intros g x Hx. apply ex_ext. intros k.
  destruct (scan_ok (c_n_dims c) f d (mala_kernel (c_step c)) CO (c_local c) k x (LX x Hx)) as (l & El & Ll).
  apply (P_Inv7.at_pos c HTl HTg j g _ l); [exact El|exact (eq_ind_r (fun t => (j < t)%nat) Hj Ll)].
Qed.
Lemma global_bcon j E : (j < c_global c)%nat -> Pg c d X Y m q E -> bcon X (rho ^ (j + 1)) (sglo c d m) j E.
Proof.
  intros Hj (Ea & Ed & SP & CA & FD). pose proof OK as [O1 O2 O3 O4 O5 O6 O7 O7b O8 O9 O10 O11]. destruct SX as [ND LX].
  assert (HS : samples_shape m (c_n_dims c)) by (apply O10; exact GM).
  refine (contracts_ext X _ _ _ _ (group_contracts (mkNfp m (c_nf_bs c)) X Y f d q a W (c_n_dims c) (c_global c) j E Ea Ed HS O3 IG NE ND NY XY A0 HQ CV SP CA FD Hj)).
  intros g x Hx. apply ex_ext. intros k. unfold sglo.
  destruct (group_is (mkNfp m (c_nf_bs c)) f d (c_n_dims c) HS O3 IG (c_global c) k x) as (props & _ & Lp & E1).
  apply (at_pos c HTl HTg j g _ _ E1). rewrite scan_length, Lp. exact Hj.
Qed.
Hypothesis HI : (i < c_n_chains c)%nat.
Variables (k0 k1 : key) (xs1 : list (list R)) (w1 : world).
Hypothesis TR : run_order (base_strategies c 100) (repeat_phase (c_train_loops c) training_phase ++ ["reset_steppers"; "update_state"]%string) k0 xs0 d (w0 c) = (Ok (k1, xs1), w1).
Hypothesis HM : content_of w1 "model" = CPlain (RModel m).
Variable E : expect key.
Hypothesis LS : loops_source (c_n_chains c) i (Pl c d X) (Pg c d X Y m q) (c_prod_loops c) E.
Lemma cblocks : (forall E, Pl c d X E -> (forall j, (j < pl c)%nat -> bcon X 1 (sloc c d) (j * c_local_th c) E) /\ bcon X 1 (sloc c d) (el c) E) /\
  (forall E, Pg c d X Y m q E -> (forall j, (j < pg c)%nat -> bcon X (rho ^ (j * c_global_th c + 1)) (sglo c d m) (j * c_global_th c) E) /\ bcon X (rho ^ (eg c + 1)) (sglo c d m) (eg c) E).
Proof.
  destruct (counts c HTl HTg HO i HI) as (C1 & C2 & C3 & C4). split; intros E' H; (split; [intros j Hj|]).
  - apply local_bcon; auto.
  - apply local_bcon; auto.
  - apply global_bcon; auto.
  - apply global_bcon; auto.
Qed.
Variables (g : list R -> R) (lo hi : R).
Hypothesis RG : ranges X g lo hi.
Notation run k x := (run_order (base_strategies c 100) (repeat_phase (c_prod_loops c) production_phase) k (set_nth i x xs1) d w1).
Lemma wpos x : In x X -> 0 < density f d x. Proof. intros _. apply exp_pos. Qed.
Lemma production_con s x : (s < phase_slots c (c_prod_loops c))%nat -> In x X ->
  Rabs (ex E (fun k => g (recorded_row (snd (run k x)) "positions_production" (c_n_dims c) i s)) - target_mean X (density f d) g) <= rho ^ slot_globals c s * (hi - lo).
Proof.
  intros Hs Hx. destruct cblocks as [B1 B2].
  pose proof (production_inv c d good xs0 OK HTl HTg HO X Y m q a i SX NY XY A0 HQ S0 IG GM HI k0 k1 xs1 w1 TR HM E LS s g Hs) as I.
  refine (converge X (density f d) NE wpos _ (fun g x => ex E (fun k => g (recorded_row (snd (run k x)) "positions_production" (c_n_dims c) i s))) g lo hi _ I RG x Hx).
  pose proof Hs as Hs'. rewrite phase_slots_eq in Hs'.
  assert (EG : slot_globals c s = globals (pl c) (pg c) (c_global_th c) (eg c) (c_prod_loops c) s).
  { rewrite globals_div; [reflexivity| |exact Hs']. unfold per_loop in Hs'. unfold pl, pg. destruct (c_local c / c_local_th c + c_global c / c_global_th c)%nat; lia. }
  rewrite EG.
  refine (contracts_ext X _ _ _ _ (crow_contracts X (c_n_chains c) i (sloc c d) (sglo c d m) (pl c) (c_local_th c) (el c) (pg c) (c_global_th c) (eg c) (Pl c d X) (Pg c d X Y m q) rho B1 B2 (c_prod_loops c) E s LS Hs')).
  intros g' y Hy. apply ex_ext. intros k. f_equal. symmetry. 
  apply (production_rows c d good xs0 OK HTl HTg HO m i HI k0 k1 xs1 w1 TR HM k y); [apply (proj2 SX), Hy|exact Hs].
Qed.
Lemma production_end_con x : In x X ->
  Rabs (ex E (fun k => g (returned_row (run k x) i)) - target_mean X (density f d) g) <= rho ^ (c_prod_loops c * loop_globals c) * (hi - lo).
Proof.
  intros Hx. destruct cblocks as [B1 B2].
  pose proof (production_end_inv c d good xs0 OK HTl HTg HO X Y m q a i SX NY XY A0 HQ S0 IG GM HI k0 k1 xs1 w1 TR HM E LS g) as I.
  refine (converge X (density f d) NE wpos _ (fun g x => ex E (fun k => g (returned_row (run k x) i))) g lo hi _ I RG x Hx).
  refine (contracts_ext X _ _ _ _ (cend_contracts X (c_n_chains c) i (sloc c d) (sglo c d m) (pl c) (c_local_th c) (el c) (pg c) (c_global_th c) (eg c) (Pl c d X) (Pg c d X Y m q) rho B1 B2 (c_prod_loops c) E LS)).
  intros g' y Hy. apply ex_ext. intros k. f_equal. symmetry.
  apply (production_rows c d good xs0 OK HTl HTg HO m i HI k0 k1 xs1 w1 TR HM k y); apply (proj2 SX), Hy.
Qed.
End Final.
