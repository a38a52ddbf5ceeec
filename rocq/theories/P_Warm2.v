(** Distance to the target through the production phase. *)
From Coq Require Import Reals Lra Lia.
From Verif Require Import Prelude Num M_Core M_Kernels M_Strategies M_PT M_Bundle P_Lists P_Buffer
  Spec Spec_Core P_Core Spec_Sampler P_Sampler Spec_Steps P_Steps Spec_Kernels P_Kernels P_StepsK P_Steps2 Spec_Train P_Train P_Train2
  P_Kernels2 Spec_Bundle P_Bundle P_Bundle2 P_Bundle3 P_Bundle4 P_Bundle5 Spec_Prog P_Prog1 P_Prog2 RNum Spec_Real Spec_Inv P_Inv1 P_Inv2 P_Inv3 P_Inv4 P_Inv5 P_Inv6 P_Inv7
  Spec_Erg P_Erg1 P_Erg2 P_Real1 P_Real2 P_Erg3 P_Erg4 Spec_Warm P_Warm.
Open Scope R_scope.

Section Final.
Context {G : @Rng RNum} {NF : @NFOps RNum G}.
Variables (c : @config RNum G NF) (d : @datad RNum) (good : mdl -> Prop) (xs0 : list (list R)).
Hypothesis OK : run_ok c d xs0 good.
Hypothesis HTl : (0 < c_local_th c)%nat.
Hypothesis HTg : (0 < c_global_th c)%nat.
Hypothesis HO : counts_ok c.
Variables (X Y : list (list R)) (m : mdl) (q : list R -> R) (a W : R) (i : nat).
Notation f := (c_logpdf c).
Hypothesis SX : states X (c_n_dims c).
Hypothesis NE : X <> [].
Hypothesis NY : NoDup Y.
Hypothesis XY : forall x, In x X -> In x Y.
Hypothesis A0 : 0 < a.
Hypothesis HQ : forall y, q y = a * exp (m_logp m y).
Hypothesis CV : covers X (density f d) q W.
Hypothesis W1 : 1 <= W.
Hypothesis S0 : forall j, (j < c_n_dims c)%nat -> step_of (c_step c) j <> 0.
Hypothesis IG : ignores_n_steps f.
Hypothesis GM : good m.
Notation rho := (1 - 1 / W).
Hypothesis HI : (i < c_n_chains c)%nat.
Variables (k0 k1 : key) (xs1 : list (list R)) (w1 : world).
Hypothesis TR : run_order (base_strategies c 100) (repeat_phase (c_train_loops c) training_phase ++ ["reset_steppers"; "update_state"]%string) k0 xs0 d (w0 c) = (Ok (k1, xs1), w1).
Hypothesis HM : content_of w1 "model" = CPlain (RModel m).
Variable E : expect key.
Hypothesis LS : loops_source (c_n_chains c) i (Pl c d X) (Pg c d X Y m q) (c_prod_loops c) E.
Variables (nu : list R -> R) (delta : R).
Hypothesis N1 : total X nu = 1.
Hypothesis O : off_by X (density f d) delta (expected_under X nu).
Notation run k x := (run_order (base_strategies c 100) (repeat_phase (c_prod_loops c) production_phase) k (set_nth i x xs1) d w1).
Notation cb := (cblocks c d good xs0 OK HTl HTg HO X Y m q a W i SX NE NY XY A0 HQ CV S0 IG GM HI).
Lemma rho_pow e : 0 <= rho ^ e.
Proof. apply pow_le. assert (1 / W <= 1); [|lra]. apply (Rmult_le_reg_r W); [lra|]. replace (1 / W * W) with 1 by (field; lra). lra. Qed.
Lemma production_warm s : (s < phase_slots c (c_prod_loops c))%nat ->
  off_by X (density f d) (rho ^ slot_globals c s * delta) (fun g => expected_under X nu (fun x => ex E (fun k => g (recorded_row (snd (run k x)) "positions_production" (c_n_dims c) i s)))).
Proof.
  intros Hs. destruct cb as [B1 B2].
  refine (off_start X (density f d) NE (fun x _ => exp_pos _) _ (fun g x => ex E (fun k => g (recorded_row (snd (run k x)) "positions_production" (c_n_dims c) i s))) nu delta (rho_pow _) N1 _
    (fun g => production_inv c d good xs0 OK HTl HTg HO X Y m q a i SX NY XY A0 HQ S0 IG GM HI k0 k1 xs1 w1 TR HM E LS s g Hs) O).
  pose proof Hs as Hs'. rewrite phase_slots_eq in Hs'.
  assert (EG : slot_globals c s = globals (pl c) (pg c) (c_global_th c) (eg c) (c_prod_loops c) s).
  { rewrite globals_div; [reflexivity| |exact Hs']. unfold per_loop in Hs'. unfold pl, pg. destruct (c_local c / c_local_th c + c_global c / c_global_th c)%nat; lia. }
  rewrite EG.
  refine (contracts_ext X _ _ _ _ (crow_contracts X (c_n_chains c) i (sloc c d) (sglo c d m) (pl c) (c_local_th c) (el c) (pg c) (c_global_th c) (eg c) (Pl c d X) (Pg c d X Y m q) rho B1 B2 (c_prod_loops c) E s LS Hs')).
  intros g' y Hy. apply ex_ext. intros k. f_equal. symmetry. 
  apply (production_rows c d good xs0 OK HTl HTg HO m i HI k0 k1 xs1 w1 TR HM k y); [apply (proj2 SX), Hy|exact Hs].
Qed.
Lemma production_end_warm :
  off_by X (density f d) (rho ^ (c_prod_loops c * loop_globals c) * delta) (fun g => expected_under X nu (fun x => ex E (fun k => g (returned_row (run k x) i)))).
Proof.
  destruct cb as [B1 B2].
  refine (off_start X (density f d) NE (fun x _ => exp_pos _) _ (fun g x => ex E (fun k => g (returned_row (run k x) i))) nu delta (rho_pow _) N1 _
    (fun g => production_end_inv c d good xs0 OK HTl HTg HO X Y m q a i SX NY XY A0 HQ S0 IG GM HI k0 k1 xs1 w1 TR HM E LS g) O).
  refine (contracts_ext X _ _ _ _ (cend_contracts X (c_n_chains c) i (sloc c d) (sglo c d m) (pl c) (c_local_th c) (el c) (pg c) (c_global_th c) (eg c) (Pl c d X) (Pg c d X Y m q) rho B1 B2 (c_prod_loops c) E LS)).
  intros g' y Hy. apply ex_ext. intros k. f_equal. symmetry.
  apply (production_rows c d good xs0 OK HTl HTg HO m i HI k0 k1 xs1 w1 TR HM k y); apply (proj2 SX), Hy.
Qed.
End Final.
