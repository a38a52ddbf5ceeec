(** A bundle run in other units: the two bundles. *)
From Coq Require Import Reals Psatz Permutation.
From Verif Require Import Prelude Num M_Core M_Kernels M_Strategies M_PT M_Bundle P_Lists RNum Spec Spec_Core Spec_Steps Spec_Kernels Spec_Train Spec_PT Spec_Bundle
  P_Bundle P_Bundle2 P_Bundle3 P_Bundle4 P_Bundle5 P_Bundle6 Spec_Prog Spec_Real Spec_HMC P_Real1 Spec_Units P_Units1 P_Units2 Spec_URun P_Ext P_URun1 P_URun2.
From Verif Require P_PT5 P_PT3.
Open Scope nat_scope.

Section URun3.
Context {G : @Rng RNum} {NF : @NFOps RNum G}.
Variables (n : nat) (a b : nat -> R).
Notation iu := (in_units n a b).
Notation siu := (step_in_units n a b).

Lemma slots_eq c loops (ls : list loop) : length ls = loops -> length (chain_history c ls 0) = phase_slots c loops.
Proof. intros <-. rewrite history_length. unfold Spec_Ext.slots, phase_slots. ring. Qed.

Lemma units_of c c' d okst pre conv (E : Type) (same : E -> E -> Prop) (bef bef' : bool -> E -> key -> pos_t -> E -> key -> pos_t -> Prop) win k xs xs' (good good' : mdl -> Prop) m m' o e e'
  ls ls' lp lp' t t' u u' w w' :
  @permutation_law RNum G -> (forall i, i < n -> a i <> 0%R) -> config_in_units n a b c c' -> flows_convert n a b (c_tx c) (c_max c) okst pre conv -> 0 < c_n_chains c ->
  run_ok c d xs good -> Forall2 iu xs xs' -> same e e' ->
  (forall ph e e' k xs xs' e1 e1' k1 k1' x1 x1', length xs = c_n_chains c -> Forall2 iu xs xs' -> same e e' -> bef ph e k xs e1 k1 x1 -> bef' ph e' k xs' e1' k1' x1' ->
     k1' = k1 /\ Forall2 iu x1 x1' /\ same e1 e1' /\ length x1 = c_n_chains c) ->
  training_run (bef true) c win d (mkR k xs m o e) ls t -> production_run (bef false) c d t lp u ->
  training_run (bef' true) c' win d (mkR k xs' m' o e') ls' t' -> production_run (bef' false) c' d t' lp' u' ->
  length ls = c_train_loops c -> length lp = c_prod_loops c -> length ls' = c_train_loops c' -> length lp' = c_prod_loops c' ->
  (forall l, In l ls -> length (lo_losses l) = c_epochs c) ->
  phase_recorded c w "training" ls -> phase_recorded c w "production" lp -> losses_recorded c w ls ->
  phase_recorded c' w' "training" ls' -> phase_recorded c' w' "production" lp' -> losses_recorded c' w' ls' ->
  content_of w "model" = CPlain (RModel (r_model u)) -> content_of w' "model" = CPlain (RModel (r_model u')) ->
  content_of w "optimizer" = CObject (Some (OOpt (mkOptimizer (c_tx c) (r_opt u)))) -> content_of w' "optimizer" = CObject (Some (OOpt (mkOptimizer (c_tx c') (r_opt u')))) ->
  okst o -> pre m m' -> (conv m m' \/ first_training_kept c w) -> same_range n (c_n_chains c) w w' ->
  runs_in_units n a b c conv (r_key u) (r_pos u) w (r_key u') (r_pos u') w' /\ same (r_ext u) (r_ext u').
Proof.
  intros PL A0 CU FC C0 OK X SE BD R1 Q1 R2 Q2 N1 M1 N2 M2 E1 P1 P2 P3 P4 P5 P6 W1 W2 W3 W4 OO PM CM SR.
  pose proof (ok_chains _ _ _ _ OK) as LX. pose proof (ok_bs _ _ _ _ OK) as B0.
  assert (U0 : urel n a b okst E same (c_n_chains c) (mkR k xs m o e) (mkR k xs' m' o e')) by (repeat split; auto).
  pose proof (samefin_of n a b c c' CU (c_n_chains c) _ _ _ _ eq_refl SR P1 P4) as SF.
  assert (KF : conv m m' \/ kept_first ls) by (destruct CM as [K|K]; [auto|right; exact (kept_of c B0 w ls P3 N1 E1 K)]).
  assert (L1 : length ls = length ls') by (rewrite N1, N2, (cu_train _ _ _ _ _ CU); reflexivity).
  assert (L2 : length lp = length lp') by (rewrite M1, M2, (cu_prod _ _ _ _ _ CU); reflexivity).
  destruct (training_units n a b (ok_normal _ _ _ _ OK) PL (ok_choice _ _ _ _ OK) A0 c c' d CU B0 okst pre conv FC E same (c_n_chains c) bef bef' BD win _ _ _ _ _ _ U0 PM KF L1 SF R1 R2) as (F1 & U1 & C1).
  destruct (production_units n a b (ok_normal _ _ _ _ OK) A0 c c' d CU B0 okst pre conv FC E same (c_n_chains c) bef bef' BD _ _ _ _ _ _ U1 C1 L2 Q1 Q2) as (F2 & U2 & C2).
  destruct U2 as (V1 & V2 & V3 & V4 & _). split; [|exact V4].
  split; [exact V1|]. split; [exact V2|]. split; [|split; [|split; [|split]]].
  - rewrite <- (slots_eq c _ ls N1). exact (records_of n a b c c' CU B0 _ _ _ _ _ _ eq_refl C0 F1 P1 P4).
  - rewrite <- (slots_eq c _ lp M1). exact (records_of n a b c c' CU B0 _ _ _ _ _ _ eq_refl C0 F2 P2 P5).
  - exact (losses_units n a b c c' B0 (c_n_chains c) _ _ _ _ F1 P3 P6).
  - rewrite W3, W4, V3, (cu_tx _ _ _ _ _ CU). reflexivity.
  - exists (r_model u), (r_model u'). auto.
Qed.

Lemma base_units c c' h h' bd bd' n1 n2 nc1 nc2 k o1 o2 kw1 kw2 s s' d xs xs' good good' okst pre conv k1 x1 w1 k1' x1' w1' :
  @permutation_law RNum G -> (forall i, i < n -> a i <> 0%R) -> config_in_units n a b c c' -> flows_convert n a b (c_tx c) (c_max c) okst pre conv -> 0 < c_n_chains c ->
  rqspline_mala_bundle c = Ok (h, bd) -> rqspline_mala_bundle c' = Ok (h', bd') ->
  sampler_init n1 nc1 k None None o1 (Some bd) kw1 = Ok s -> sampler_init n2 nc2 k None None o2 (Some bd') kw2 = Ok s' ->
  run_ok c d xs good -> run_ok c' d xs' good' -> Forall2 iu xs xs' ->
  sampler_sample s (P2 xs) d h = (Ok (k1, x1), w1) -> sampler_sample s' (P2 xs') d h' = (Ok (k1', x1'), w1') ->
  let m := c_model c (split (c_key c) 2 1) in let m' := c_model c' (split (c_key c) 2 1) in
  okst (c_opt c m) -> pre m m' -> (conv m m' \/ first_training_kept c w1) -> same_range n (c_n_chains c) w1 w1' ->
  runs_in_units n a b c conv k1 x1 w1 k1' x1' w1'.
Proof.
  intros PL A0 CU FC C0 Hb Hb' Hs Hs' OK OK' X H H' m m' OO PM CM SR.
  destruct (base_run _ _ _ _ _ _ _ _ _ _ _ _ _ _ _ Hb Hs OK H) as (ls & lp & ka & ya & ma & ta & tr & pr & lo & lc & gc & R1 & Q1 & N1 & M1 & E1 & W1 & _ & _ & _ & _ & P1 & P2 & P3).
  destruct (base_run _ _ _ _ _ _ _ _ _ _ _ _ _ _ _ Hb' Hs' OK' H') as (ls' & lp' & kb & yb & mb & tb & tr' & pr' & lo' & lc' & gc' & R2 & Q2 & N2 & M2 & E2 & W2 & _ & _ & _ & _ & P4 & P5 & P6).
  rewrite (cu_key _ _ _ _ _ CU) in R2. fold m in R1. fold m' in R2. pose proof (cu_opt _ _ _ _ _ CU) as CO. fold m m' in CO. rewrite CO in R2.
  assert (BD : forall (ph : bool) e e' q us us' e1 e1' q1 q1' v v', length us = c_n_chains c -> Forall2 iu us us' -> e = e' -> nothing_before e q us e1 q1 v -> nothing_before e' q us' e1' q1' v' ->
    q1' = q1 /\ Forall2 iu v v' /\ e1 = e1' /\ length v = c_n_chains c).
  { intros ph e e' q us us' [] [] q1 q1' v v' L U _ [-> ->] [-> ->]. auto. }
  refine (proj1 (units_of c c' d okst pre conv unit eq (fun _ => nothing_before) (fun _ => nothing_before) 100 k xs xs' good good' m m' (c_opt c m) tt tt ls ls' lp lp' _ _ (mkR k1 x1 ma ta tt) (mkR k1' x1' mb tb tt) w1 w1' PL A0 CU FC C0 OK X eq_refl BD R1 Q1 R2 Q2 N1 M1 N2 M2 E1 P1 P2 P3 P4 P5 P6 _ _ _ _ OO PM CM SR)); rewrite ?W1, ?W2; reflexivity.
Qed.

(* ------------------------------------------------------------------ tempering *)
Section PT.
Hypothesis NS : @normal_shape RNum G.
Hypothesis A0 : forall i, i < n -> a i <> 0%R.
Lemma last_f2 (l l' : list (list R)) x x' : iu x x' -> Forall2 iu l l' -> iu (last l x) (last l' x').
Proof. intros H F. revert x x' H. induction F as [|u v l l' U F IH]; intros x x' H; [exact H|]. cbn [last]. destruct F; [exact U|]. apply IH. exact H. Qed.
Lemma moved_units N kern kern' t t' d T k x x' y y' : kernel_in_units n a kern kern' -> tempered_in_units n a b t t' -> iu x x' ->
  moved N kern t d T k x y -> moved N kern' t' d T k x' y' -> iu y y'.
Proof.
  intros K H X (tr & E & ->) (tr' & E' & ->). pose proof (tempered_units n a b t t' T H) as TT. destruct (TT x x' d X) as [V _]. cbn [tempered_lpdf lp_val] in V.
  rnorm. rewrite V in E'. destruct (scan_units NS n a b A0 kern kern' _ _ d N K TT k x x' (tempered_log_pdf t T x d) X) as (w & w' & D & D' & W).
  rnorm. rewrite D in E. rewrite D' in E'. injection E as <-. injection E' as <-. apply last_f2; [exact X|]. eapply f2_map; [|exact W]. intros u v U. apply U.
Qed.
Lemma sweep_units temps (f g : list R -> R) k xs xs' ys ys' accs accs' ens ens' : (forall x x', iu x x' -> g x' = f x) -> Forall2 iu xs xs' -> 
  sweep_of temps f k xs ys accs ens -> sweep_of temps g k xs' ys' accs' ens' -> Forall2 iu ys ys' /\ accs' = accs.
Proof.
  intros FG X (A1 & A2 & A3 & A4 & A5) (B1 & B2 & B3 & B4 & B5). pose proof (f2_len _ _ _ X) as LX. rnorm.
  assert (LA : length accs' = length accs) by (rewrite A1, B1, LX; reflexivity).
  assert (D : forall i (e e' : list (list R)), length e = length xs -> i < length accs -> Forall2 iu e e' -> swap_log_ratio temps g e' i = swap_log_ratio temps f e i).
  { intros i e e' Le Hi Q. unfold swap_log_ratio. pose proof (FG _ _ (f2_nth _ _ _ [] [] Q i ltac:(lia))) as G1. pose proof (FG _ _ (f2_nth _ _ _ [] [] Q (i + 1) ltac:(lia))) as G2. rnorm. rewrite G1, G2. reflexivity. }
  assert (Q : forall i, i <= length accs -> Forall2 iu (nth i ens []) (nth i ens' []) /\ length (nth i ens []) = length xs).
  { induction i as [|i IH]; intros Hi; [rewrite A3, B3; auto|]. destruct (IH ltac:(lia)) as [I1 I2]. destruct (A5 i ltac:(lia)) as [P1 P2], (B5 i ltac:(lia)) as [Q1 Q2].
    replace (S i) with (i + 1) by lia. pose proof (D i _ _ I2 ltac:(lia) I1) as DD. rnorm. rewrite DD, <- P1 in Q1. rewrite Q1 in Q2. destruct (nth i accs false).
    - pose proof P2 as (LE & _). apply P_PT5.exchanged_swap in P2, Q2. rewrite P2, Q2. split; [now apply f2_swap|]. rewrite <- P2. rnorm. congruence.
    - rewrite P2, Q2. auto. }
  split.
  - rewrite <- A4, <- B4, LA. apply Q. lia.
  - apply (list_eq_nth false); [exact LA|]. intros i Hi. rewrite LA in Hi. destruct (A5 i Hi) as [P1 _], (B5 i ltac:(lia)) as [Q1 _]. destruct (Q i ltac:(lia)) as [I1 I2].
    pose proof (D i _ _ I2 ltac:(lia) I1) as DD. rnorm. rewrite P1, Q1, DD. reflexivity.
Qed.
Lemma update_units pt kern kern' t t' d pb pb' tb tb' k xs xs' i af af' ac ac' x x' : kernel_in_units n a kern kern' -> tempered_in_units n a b t t' ->
  Forall2 iu xs xs' -> Forall2 iu (ensemble_before pb xs i) (ensemble_before pb' xs' i) -> temps_of tb' = temps_of tb ->
  chain_update pt kern t d pb tb k xs i af ac x -> chain_update pt kern' t' d pb' tb' k xs' i af' ac' x' -> Forall2 iu af af' /\ ac' = ac /\ iu x x'.
Proof.
  intros K H X EB ET (A1 & A2 & st & ens & A3 & A4 & A5 & A6) (B1 & B2 & st' & ens' & B3 & B4 & B5 & B6).
  pose proof (f2_len _ _ _ X) as LX. rnorm. rewrite ET, <- LX in * .
  assert (S0 : Forall2 iu st st').
  { apply (f2_of_nth _ [] []); [congruence|]. intros j Hj. rewrite A3 in Hj. refine (moved_units _ _ _ _ _ _ _ _ _ _ _ _ K H _ (A4 j Hj) (B4 j Hj)). apply (f2_nth _ _ _ _ _ EB). rlia. }
  assert (FG : forall u u', iu u u' -> lp_val (l_pdf (t_base t')) u' d = lp_val (l_pdf (t_base t)) u d) by (intros u u' U; apply (proj1 H u u' d U)).
  destruct (sweep_units _ _ _ _ _ _ _ _ _ _ _ _ FG S0 A5 B5) as [F1 ->]. split; [exact F1|]. split; [reflexivity|]. rewrite A6, B6.
  apply (f2_nth _ _ _ _ _ F1). unfold ensemble_before in A1. cbn [length] in A1. rlia.
Qed.

Definition uens (chains m : nat) (e e' : buffer * buffer) : Prop :=
  temps_of (snd e') = temps_of (snd e) /\ ashape (b_data (fst e)) = [chains; m; n] /\ ashape (b_data (fst e')) = [chains; m; n] /\
  S m = length (temps_of (snd e)) /\
  forall i j, i < chains -> j < m -> iu (brow (fst e) n i j) (brow (fst e') n i j).
Lemma uens_before chains m e e' xs xs' i : uens chains m e e' -> i < chains -> length xs = chains -> Forall2 iu xs xs' -> Forall2 iu (ensemble_before (fst e) xs i) (ensemble_before (fst e') xs' i).
Proof.
  intros (_ & S1 & S2 & _ & H) Hi L X. unfold ensemble_before. rewrite S1, S2. cbn [nth]. constructor; [apply (f2_nth _ _ _ _ _ X); rlia|].
  apply f2_mapseq. intros j Hj. apply in_seq in Hj. apply H; lia.
Qed.
Lemma tempering_units p p' d ph e e' k xs xs' e1 e1' k1 k1' x1 x1' chains m : pt_config_in_units n a b p p' -> 0 < chains -> length xs = chains -> Forall2 iu xs xs' ->
  uens chains m e e' -> tempering p d ph e k xs e1 k1 x1 -> tempering p' d ph e' k xs' e1' k1' x1' ->
  k1' = k1 /\ Forall2 iu x1 x1' /\ uens chains m e1 e1' /\ length x1 = chains.
Proof.
  intros PU C0 LX X UE (af & ac & A1 & A2 & A3 & A4 & A5 & A6) (af' & ac' & B1 & B2 & B3 & B4 & B5 & B6). pose proof (pu_base _ _ _ _ _ PU) as CU.
  assert (Hst : pt_strat p' = pt_strat p) by (unfold pt_strat; rewrite (pu_steps _ _ _ _ _ PU), (cu_local _ _ _ _ _ CU); reflexivity).
  assert (Htm : tempered_in_units n a b (pt_tempered p) (pt_tempered p')) by (split; [exact (cu_target _ _ _ _ _ CU)|exact (pu_prior _ _ _ _ _ PU)]).
  assert (KU : kernel_in_units n a (mala_kernel (c_step (p_base p))) (mala_kernel (c_step (p_base p')))) by (destruct (cu_step _ _ _ _ _ CU) as (P1 & P2 & P3 & P4); now apply ku_langevin).
  pose proof (f2_len _ _ _ X) as LXX. rnorm.
  assert (U : forall i, i < chains -> Forall2 iu (nth i af []) (nth i af' []) /\ nth i ac' [] = nth i ac [] /\ iu (nth i x1 []) (nth i x1' [])).
  { intros i Hi. pose proof (A5 i ltac:(lia)) as P. pose proof (B5 i ltac:(lia)) as Q. rewrite Hst in Q.
    exact (update_units _ _ _ _ _ _ _ _ _ _ _ _ _ _ _ _ _ _ _ _ KU Htm X (uens_before _ _ _ _ _ _ _ UE Hi LX X) (proj1 UE) P Q). }
  assert (X1 : Forall2 iu x1 x1') by (apply (f2_of_nth _ [] []); [rlia|]; intros i Hi; apply U; rlia).
  assert (QQ : ac' = ac) by (apply (list_eq_nth []); [congruence|]; intros i Hi; apply U; lia).
  split; [congruence|]. split; [exact X1|]. split; [|rlia].
  destruct ph; [|subst e1 e1'; exact UE].
  destruct A6 as ((S1 & _) & (S1' & _) & R1 & V1), B6 as ((S2 & _) & (S2' & _) & R2 & V2). destruct UE as (T0 & E1 & E2 & Lm & _).
  split; [rewrite V1, V2, T0, QQ; reflexivity|]. split; [congruence|]. split; [congruence|]. split.
  - rewrite Lm. unfold temps_of. rewrite !map_length, !seq_length, S1'. reflexivity.
  - intros i j Hi Hj.
    rewrite (cu_dims _ _ _ _ _ CU) in R1. rewrite (cu_dims' _ _ _ _ _ CU) in R2.
    assert (Z1 : brow (fst e1) n i j = nth (j + 1) (nth i af []) []) by (apply R1; rlia).
    assert (Z2 : brow (fst e1') n i j = nth (j + 1) (nth i af' []) []) by (apply R2; [rlia|rewrite T0; rlia]).
    rewrite Z1, Z2. destruct (U i Hi) as (UA & _). apply (f2_nth _ _ _ _ _ UA). destruct (A5 i ltac:(lia)) as (_ & P & _). rlia.
Qed.
Lemma initial_units p p' xs xs' e e' chains : pt_config_in_units n a b p p' -> c_n_chains (p_base p) = chains -> length xs = chains -> 0 < p_n_temps p -> Forall2 iu xs xs' ->
  initial_ensemble p xs e -> initial_ensemble p' xs' e' -> uens chains (p_n_temps p - 1) e e'.
Proof.
  intros PU CC LX T1 X (A1 & A2 & A3) (B1 & B2 & B3). pose proof (pu_base _ _ _ _ _ PU) as CU. pose proof (f2_len _ _ _ X) as LXX. rnorm.
  rewrite (pu_temps _ _ _ _ _ PU), (cu_dims' _ _ _ _ _ CU) in B1, B2. rewrite (cu_chains _ _ _ _ _ CU) in B1. rewrite (cu_dims _ _ _ _ _ CU) in A1, A2. rewrite (pu_temps _ _ _ _ _ PU), (pu_max _ _ _ _ _ PU) in B3.
  split; [congruence|]. split; [congruence|]. split; [congruence|]. split.
  - rewrite A3. rewrite P_PT3.linspace_length. lia.
  - intros i j Hi Hj. rewrite A2, B2 by lia. apply (f2_nth _ _ _ _ _ X). lia.
Qed.
End PT.

Lemma pt_units p p' h h' bd bd' n1 n2 nc1 nc2 k o1 o2 kw1 kw2 s s' d xs xs' good good' okst pre conv k1 x1 w1 k1' x1' w1' :
  let c := p_base p in let c' := p_base p' in
  @permutation_law RNum G -> (forall i, i < n -> a i <> 0%R) -> pt_config_in_units n a b p p' -> flows_convert n a b (c_tx c) (c_max c) okst pre conv -> 0 < c_n_chains c ->
  rqspline_mala_pt_bundle p = Ok (h, bd) -> rqspline_mala_pt_bundle p' = Ok (h', bd') ->
  sampler_init n1 nc1 k None None o1 (Some bd) kw1 = Ok s -> sampler_init n2 nc2 k None None o2 (Some bd') kw2 = Ok s' ->
  run_ok c d xs good -> run_ok c' d xs' good' -> grad_shape (p_prior p) d n -> grad_shape (p_prior p') d n -> Forall2 iu xs xs' ->
  sampler_sample s (P2 xs) d h = (Ok (k1, x1), w1) -> sampler_sample s' (P2 xs') d h' = (Ok (k1', x1'), w1') ->
  let m := c_model c (split (c_key c) 2 1) in let m' := c_model c' (split (c_key c) 2 1) in
  okst (c_opt c m) -> pre m m' -> (conv m m' \/ first_training_kept c w1) -> same_range n (c_n_chains c) w1 w1' ->
  runs_in_units n a b c conv k1 x1 w1 k1' x1' w1' /\ ensembles_in_units n a b (c_n_chains c) (p_n_temps p - 1) w1 w1'.
Proof.
  intros c c' PL A0 PU FC C0 Hb Hb' Hs Hs' OK OK' GP GP' X H H' m m' OO PM CM SR. pose proof (pu_base _ _ _ _ _ PU) as CU. fold c c' in CU.
  assert (T1 : 0 < p_n_temps p).
  { unfold rqspline_mala_pt_bundle in Hb. destruct (_ || _); [discriminate|]. destruct (p_n_temps p =? 0) eqn:Z0; [discriminate|]. apply Nat.eqb_neq in Z0. lia. }
  assert (C0' : 0 < c_n_chains c') by (rewrite (cu_chains _ _ _ _ _ CU); exact C0).
  rewrite <- (cu_dims _ _ _ _ _ CU) in GP. rewrite <- (cu_dims' _ _ _ _ _ CU) in GP'.
  destruct (pt_run _ _ _ _ _ _ _ _ _ _ _ _ _ _ _ Hb Hs OK GP C0 H) as (e & ls & lp & ka & ya & ma & ta & f1 & g1 & tr & pr & lo & lc & gc & I1 & R1 & Q1 & N1 & M1 & E1 & W1 & _ & _ & _ & _ & P1 & P2 & P3).
  destruct (pt_run _ _ _ _ _ _ _ _ _ _ _ _ _ _ _ Hb' Hs' OK' GP' C0' H') as (e' & ls' & lp' & kb & yb & mb & tb & f2 & g2 & tr' & pr' & lo' & lc' & gc' & I2 & R2 & Q2 & N2 & M2 & E2 & W2 & _ & _ & _ & _ & P4 & P5 & P6).
  fold c in R1, Q1, N1, M1, E1, W1, P1, P2, P3. fold c' in R2, Q2, N2, M2, E2, W2, P4, P5, P6.
  rewrite (cu_key _ _ _ _ _ CU) in R2. fold m in R1. fold m' in R2. pose proof (cu_opt _ _ _ _ _ CU) as CO. fold m m' in CO. rewrite CO, (cu_window _ _ _ _ _ CU) in R2.
  pose proof (ok_chains _ _ _ _ OK) as LX.
  assert (BD : forall ph e e' q us us' e1 e1' q1 q1' v v', length us = c_n_chains c -> Forall2 iu us us' -> uens (c_n_chains c) (p_n_temps p - 1) e e' -> tempering p d ph e q us e1 q1 v -> tempering p' d ph e' q us' e1' q1' v' ->
    q1' = q1 /\ Forall2 iu v v' /\ uens (c_n_chains c) (p_n_temps p - 1) e1 e1' /\ length v = c_n_chains c).
  { intros. eapply tempering_units; eauto. apply (ok_normal _ _ _ _ OK). }
  assert (S0 : uens (c_n_chains c) (p_n_temps p - 1) e e') by (eapply initial_units; eauto).
  destruct (units_of c c' d okst pre conv (buffer * buffer) (uens (c_n_chains c) (p_n_temps p - 1)) (tempering p d) (tempering p' d) (c_window c) k xs xs' good good' m m' (c_opt c m) e e' ls ls' lp lp' _ _ (mkR k1 x1 ma ta g1) (mkR k1' x1' mb tb g2) w1 w1' PL A0 CU FC C0 OK X S0 BD R1 Q1 R2 Q2 N1 M1 N2 M2 E1 P1 P2 P3 P4 P5 P6
    ltac:(rewrite W1; reflexivity) ltac:(rewrite W2; reflexivity) ltac:(rewrite W1; reflexivity) ltac:(rewrite W2; reflexivity) OO PM CM SR) as [RU UE].
  split; [exact RU|]. cbn [r_ext] in UE. destruct UE as (T0 & S1 & S2 & _ & UE).
  exists L_tpos, (fst g1), L_temp, (snd g1), L_tpos, (fst g2), L_temp, (snd g2). rewrite W1, W2.
  do 4 (split; [split; reflexivity|]). auto.
Qed.
End URun3.
