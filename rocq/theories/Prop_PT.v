(** Properties C38-C43: parallel tempering and box-constrained Adam optimisation. *)
From Coq Require Import Reals Permutation Psatz.
From Coquelicot Require Import Coquelicot.
From Verif Require Import Prelude Num P_Core M_Core M_Kernels M_Strategies M_PT M_Bundle P_Lists Spec Spec_Core Spec_Steps
  Spec_Kernels Spec_Train RNum Spec_Real Spec_PT P_Real3 P_PT P_PT2 P_PT3 P_PT4 P_PT5 P_Adam Float32 Toy.
Close Scope R_scope.

Section Gen.
Context {N : Num} {G : Rng} {NF : NFOps}.

(* ==================================================================================== *)
(** C38.  An exchange sweep permutes the walkers of its chain and keeps each (untempered)
    log-density attached to its position; it consists of one Metropolis decision per adjacent pair,
    in order, each taken with its own key. *)
Theorem C38_exchange_permutes :
  forall t d temps k xs ys lps accs,
  exchange t d temps k xs = (ys, lps, accs) ->
  Permutation xs ys /\ lps = map (fun x => lp_val (l_pdf (t_base t)) x d) ys /\
  exists ens, sweep_of temps (fun x => lp_val (l_pdf (t_base t)) x d) k xs ys accs ens.
Proof. exact C38_proof. Qed.

(* ==================================================================================== *)
(** C40.  Any number of adaptations keeps the number of temperatures and both end temperatures, in
    any arithmetic. *)
Theorem C40_ends_fixed :
  forall hist temps,
  length (adaptations temps hist) = length temps /\
  nth 0 (adaptations temps hist) f0 = nth 0 temps f0 /\
  nth (length temps - 1) (adaptations temps hist) f0 = nth (length temps - 1) temps f0.
Proof. exact C40_ends_proof. Qed.

(* ==================================================================================== *)
(** C41.  A successful call moves every walker at its own temperature, exchanges inside each chain
    and returns the cold walkers; when training, exactly the two buffers change: they then hold the
    remaining walkers and the adapted temperatures; otherwise nothing changes. *)
Theorem C41_call :
  forall pt k xs d w kern t pl pb tl tb training k' xs' w',
  pt_setup w pt kern t pl pb tl tb training -> keeps_dim kern t d (length (nth 0 xs [])) ->
  (forall x, In x xs -> length x = length (nth 0 xs [])) ->
  parallel_tempering pt k xs d w = (Ok (k', xs'), w') ->
  exists after accs, length after = length xs /\ length accs = length xs /\ length xs' = length xs /\
    k' = split (split (split k 2 0) 2 0) 2 0 /\
    (forall c, c < length xs ->
       chain_update pt kern t d pb tb k xs c (nth c after []) (nth c accs []) (nth c xs' [])) /\
    if training then
      exists pb' tb', hget pl w' = Some (OBuf pb') /\ hget tl w' = Some (OBuf tb') /\
        same_header pb pb' /\ same_header tb tb' /\ rdict w' = rdict w /\
        (forall l, l <> pl -> l <> tl -> hget l w' = hget l w) /\
        (forall c j, c < length xs -> j < nth 1 (ashape (b_data pb)) 0 ->
           brow pb' (nth 2 (ashape (b_data pb)) 0) c j = nth (j + 1) (nth c after []) []) /\
        temps_of tb' = adapt_temperature (temps_of tb) accs
    else w' = w.
Proof. exact C41_proof. Qed.

(** The kernels of the library keep the dimension. *)
Theorem C41_kernels_keep_dim :
  forall (t : tempered) d dim, normal_shape -> grad_shape (l_pdf (t_base t)) d dim -> grad_shape (t_prior t) d dim ->
  (forall ss, keeps_dim (grw_kernel ss) t d dim) /\ (forall ss, keeps_dim (mala_kernel ss) t d dim) /\
  (forall h, length (h_chol h) = dim -> keeps_dim (hmc_kernel h) t d dim).
Proof. exact C41_kernels_proof. Qed.

(** Production: no sequence of calls, successful or not, changes any resource: temperatures and
    stored walkers stay frozen, every call restarts from the same stored walkers. *)
Theorem C41_production_frozen :
  forall pt d w sl st v, dget (rdict w) (pt_state pt) = Some (RObj sl) ->
  hget sl w = Some (OState st) -> dget (s_data st) "training" = Some v -> truthy v = false ->
  forall calls : list (key * pos_t),
  fold_left (fun w1 kx => snd (parallel_tempering pt (fst kx) (snd kx) d w1)) calls w = w.
Proof. exact C41_frozen_proof. Qed.

(** Which entries "training" count as true: every integer but 0, True, every string but the empty one. *)
Theorem C41_truth : forall v,
  (truthy v = false <-> v = SInt 0 \/ v = SBool false \/ v = SStr EmptyString) /\
  (truthy v = true <-> ~ (v = SInt 0 \/ v = SBool false \/ v = SStr EmptyString)).
Proof. exact C41_truth_proof. Qed.

(* ==================================================================================== *)
(** C43.  After at least one step every coordinate is inside its bounds or NaN, and the reported
    values are the log-density at the returned points. *)
Theorem C43_inside_box :
  forall a obj k xs d k' ys lps n, NumLaws -> ordered_bounds (ad_bounds a) n ->
  (forall x, In x xs -> length x = n) -> 1 <= ad_n_steps a ->
  adam_optimize a obj k xs d = Ok (k', ys, lps) ->
  length ys = length xs /\ (forall y, In y ys -> in_box (ad_bounds a) y) /\
  lps = map (fun y => lp_val (ad_logpdf a) y d) ys.
Proof. exact C43_box_proof. Qed.

(** If the solver never turns a NaN-free point into NaN, nothing is NaN: all coordinates are inside. *)
Theorem C43_no_nan :
  forall a obj k xs d k' ys lps n, NumLaws -> ordered_bounds (ad_bounds a) n ->
  (forall x, In x xs -> length x = n /\ forall j, fnan (nth j x f0) = false) -> 1 <= ad_n_steps a ->
  fnan f0 = false ->
  (forall g st p, (forall j, fnan (nth j p f0) = false) -> forall j, fnan (nth j (vadd p (fst (ad_update a g st p))) f0) = false) ->
  adam_optimize a obj k xs d = Ok (k', ys, lps) ->
  forall y j v, In y ys -> nth_error y j = Some v ->
    (bound (ad_bounds a) j 0 <=.? v) = true /\ (v <=.? bound (ad_bounds a) j 1) = true.
Proof. exact C43_nan_proof. Qed.

(** Gradients are only evaluated at the start points and inside the box: an objective with the same
    gradients there gives the same result, whatever it does elsewhere. *)
Theorem C43_gradients_inside :
  forall a obj obj' k xs d n, NumLaws -> ordered_bounds (ad_bounds a) n ->
  (forall x, In x xs -> length x = n) ->
  (forall v, In v xs \/ in_box (ad_bounds a) v -> lp_grad obj v d = lp_grad obj' v d) ->
  adam_optimize a obj k xs d = adam_optimize a obj' k xs d.
Proof. exact C43_gradients_proof. Qed.

(** Without steps the positions come back unchanged (inside or outside the box). *)
Theorem C43_no_steps :
  forall a obj k xs d k' ys lps, ad_n_steps a = 0 ->
  adam_optimize a obj k xs d = Ok (k', ys, lps) -> ys = xs.
Proof. exact C43_zero_proof. Qed.

(** Resources are never touched. *)
Theorem C43_resources_unchanged : forall a k xs d w, snd (adam_strategy a k xs d w) = w.
Proof. exact C43_world_proof. Qed.

(** The strategy: each chain follows its own path of updates computed from minus the gradient of the
    log-density, its final point is returned in the chain's place. *)
Theorem C43_ascends :
  forall a k xs d w k' ys w', adam_strategy a k xs d w = (Ok (k', ys), w') ->
  w' = w /\ k' = split k 2 0 /\ length ys = length xs /\
  forall c, c < length xs -> exists path, ascent_path a d (split (split k 2 1) (length xs) c) (nth c xs []) path /\
    nth c ys [] = nth (ad_n_steps a) path [].
Proof. exact C43_run_proof. Qed.

(** The constructor accepts exactly (n, 2) bounds; the call accepts exactly one row, or one row per
    dimension; otherwise ValueError. *)
Theorem C43_bounds_validated :
  forall a obj k xs d,
  ((exists n, ashape (ad_bounds a) = [n; 2]) <-> adam_new a = Ok a) /\
  ((forall n, ashape (ad_bounds a) <> [n; 2]) <-> adam_new a = Raise ValueError) /\
  (nth 0 (ashape (ad_bounds a)) 0 <> 1 -> nth 0 (ashape (ad_bounds a)) 0 <> length (nth 0 xs []) ->
   adam_optimize a obj k xs d = Raise ValueError) /\
  (nth 0 (ashape (ad_bounds a)) 0 = 1 \/ nth 0 (ashape (ad_bounds a)) 0 = length (nth 0 xs []) ->
   exists r, adam_optimize a obj k xs d = Ok r).
Proof. exact C43_bounds_proof. Qed.
End Gen.

(* ==================================================================================== *)
(** Exact real arithmetic. *)
Section Real.
Local Open Scope R_scope.

(** C39.  Detailed balance of every adjacent exchange for the product of the tempered densities
    exp(logpdf(x_j)/T_j + logprior(x_j)), any temperatures: ensembles [xs] and [ys] that differ by
    the exchange of walkers i and i+1. *)
Theorem C39_exchange_balance :
  forall (t : @tempered RNum) d temps (xs ys : list (list R)) i, exchanged i xs ys ->
  exists a b, swap_prob temps t d xs i a /\ swap_prob temps t d ys i b /\ 0 < a /\ 0 < b /\
    ensemble_density t d temps xs * a = ensemble_density t d temps ys * b.
Proof. exact C39_pair_proof. Qed.

(** Whole sweeps leave that product invariant: over any finite set S of ensembles of m walkers closed
    under exchanges, the weighted mean of E[h(after)] is that of h(before), for every h; E is the
    expectation over the m-1 uniform draws of the sweep. *)
Theorem C39_sweep_invariant :
  forall (t : @tempered RNum) d temps m (S : list (list (list R))) (h : list (list R) -> R), (0 < m)%nat ->
  NoDup S -> (forall xs, In xs S -> length xs = m) ->
  (forall xs ys i, In xs S -> exchanged i xs ys -> In ys S) ->
  exists E : list (list R) -> R,
    (forall xs, In xs S -> is_expect (m - 1) (fun us => h (fst (fst (@exchange RNum tape t d temps us xs)))) (E xs)) /\
    Rsum_list (fun xs => ensemble_density t d temps xs * E xs) S =
    Rsum_list (fun xs => ensemble_density t d temps xs * h xs) S.
Proof. exact C39_stationary_proof. Qed.

(** C40.  An adaptation multiplies each interior gap by exp(100/n_chains * (rate below - rate above)). *)
Theorem C40_gap_law :
  forall (temps : list R) accs i, (1 <= i)%nat -> (i + 1 < length temps)%nat ->
  let temps' : list R := @adapt_temperature RNum temps accs in
  nth i temps' 0 - nth (i - 1) temps' 0 =
  (nth i temps 0 - nth (i - 1) temps 0) *
    exp (100 / INR (length accs) * (accept_fraction accs (i - 1) - accept_fraction accs i)).
Proof. exact C40_gap_proof. Qed.

(** Any history of adaptations keeps all temperatures positive and all but the last increasing ... *)
Theorem C40_interior_order :
  forall hist (temps : list R), interior_ladder temps -> interior_ladder (@adaptations RNum temps hist).
Proof. exact C40_order_proof. Qed.
(** ... but not the whole ladder: the second-to-last may pass the last. *)
Theorem C40_sorted_refuted :
  exists (temps : list R) hist,
  strictly_sorted temps /\ interior_ladder temps /\ ~ strictly_sorted (@adaptations RNum temps hist).
Proof. exact C40_sorted_refuted_proof. Qed.

(** C41.  In production the joint ensemble is not preserved: even without moves, a call can replace
    the cold walker by a copy of a frozen one. *)
Theorem C41_ensemble_preserved_refuted :
  forall (G : @Rng RNum) (NF : @NFOps RNum G), uniform_law G -> forall (k : key) d,
  exists (w : world) pt kern t pl pb tl tb xs k' xs',
    pt_setup w pt kern t pl pb tl tb false /\ pt_n_steps pt = 0%nat /\
    parallel_tempering pt k xs d w = (Ok (k', xs'), w) /\
    ~ Permutation (ensemble_before pb xs 0) (ensemble_before pb xs' 0).
Proof. exact @C41_preserved_refuted_proof. Qed.

(** C42.  At temperature 1 the tempered density is logpdf + logprior; called directly it is logpdf. *)
Theorem C42_unit_temperature :
  forall (t : @tempered RNum) x d,
  tempered_log_pdf t 1 x d = lp_val (l_pdf (t_base t)) x d + lp_val (t_prior t) x d /\
  tempered_call t x d = lp_val (l_pdf (t_base t)) x d.
Proof. exact C42_unit_proof. Qed.

(** In the parallel-tempering bundle the steppers use logpdf while the cold walker uses
    logpdf + logprior, with the same local kernel. *)
Theorem C42_bundle_targets :
  forall (G : @Rng RNum) (NF : @NFOps RNum G) (pc : @pt_config RNum G NF) heap b,
  rqspline_mala_pt_bundle pc = Ok (heap, b) ->
  exists l t ts tg pt tb,
    dget (bd_resources b) "logpdf" = Some (RLog l) /\ dget (bd_resources b) "tempered_logpdf" = Some (RTemp t) /\
    dget (bd_strategies b) "local_stepper" = Some (take_serial_steps ts) /\ ts_logpdf ts = "logpdf"%string /\
    dget (bd_strategies b) "global_stepper" = Some (take_group_steps tg) /\ ts_logpdf tg = "logpdf"%string /\
    dget (bd_strategies b) "parallel_tempering" = Some (parallel_tempering pt) /\
    pt_logpdf pt = "tempered_logpdf"%string /\ pt_kernel pt = ts_kernel ts /\
    buffer_named (mkWorld heap (bd_resources b)) (pt_temp_buf pt) L_temp tb /\
    aget (b_data tb) [0%nat] = 1 /\
    forall x d, logpdf_call l x d = lp_val (c_logpdf (p_base pc)) x d /\
      tempered_log_pdf t 1 x d = lp_val (c_logpdf (p_base pc)) x d + lp_val (p_prior pc) x d.
Proof. exact @C42_bundle_proof. Qed.

(** The two targets give the same acceptance probabilities for all states and moves exactly when the
    prior is constant (random-walk kernel). *)
Theorem C42_same_acceptance_iff_flat_prior :
  forall (G : @Rng RNum) ss k (t : @tempered RNum) d n,
  ok_grw ss n -> (forall i, (i < n)%nat -> step_of ss i <> 0) ->
  (forall (x z : list R) a b, length x = n -> length z = n ->
     accept_prob (@grw_run G ss k (l_pdf (t_base t)) d x z) a ->
     accept_prob (@grw_run G ss k (tempered_lpdf t 1) d x z) b -> a = b) <->
  (exists c, forall x : list R, length x = n -> lp_val (t_prior t) x d = c).
Proof. exact @C42_acceptance_proof. Qed.
End Real.

(* ==================================================================================== *)
(** Concrete cases. *)

(** An executable ensemble: the sweep accepts the second exchange and refuses the first. *)
Definition zt : @tempered ZNum := mkTempered (mkLogPDF zlp [mkVar "x" true]) zlp.
Example C38_run :
  @exchange ZNum ZRng zt [] [1; 1; 2]%Z [] [[0]; [9]; [1]]%Z = ([[0]; [1]; [9]]%Z, [0; -1; -81]%Z, [false; true]).
Proof. vm_compute. reflexivity. Qed.

(** Detailed balance: an ensemble and its exchange; and the closed set of both orders. *)
Example C39_instance : exchanged 0 [[1]; [2]]%R [[2]; [1]]%R.
Proof. split; auto. split; [cbn; lia|]. split; auto. split; auto. intros [|[|j]]; cbn; auto; lia. Qed.

(** Ladders that satisfy the hypotheses of C40. *)
Example C40_instance : interior_ladder [1; 2; 3; 10]%R.
Proof.
  split; [intros [|[|i]] Hi; cbn in Hi |- *; try lra; lia|].
  intros [|[|[|[|i]]]] Hi; cbn in Hi |- *; try lra; lia.
Qed.

(** A training call on the executable instance: 1 chain, 2 temperatures. *)
Definition zpb : @buffer ZNum := @mkBuffer ZNum "tp" (@mkArr ZNum [1;1;1] (fun _ => 4%Z)) 0 2.
Definition ztb : @buffer ZNum := @mkBuffer ZNum "tm" (@mkArr ZNum [2] (fun ix => match ix with [0] => 1%Z | _ => 2%Z end)) 0 0.
Definition zpt (n : nat) : ptemp := mkPtemp n "t" "k" "tp" "tm" "st".
Definition zptworld (training : bool) : @world ZNum ZRng ZNF := @mkWorld ZNum ZRng ZNF
  [OBuf zpb; OBuf ztb; OState (mkState "st" [("training"%string, SBool training)])]
  [("tp", RObj 0); ("tm", RObj 1); ("st", RObj 2);
   ("k", RSer (@grw_kernel ZNum ZRng (@SScalar ZNum 1%Z))); ("t", RTemp zt)]%string.
Example C41_setup : forall training n,
  pt_setup (zptworld training) (zpt n) (@grw_kernel ZNum ZRng (@SScalar ZNum 1%Z)) zt 0 zpb 1 ztb training.
Proof.
  intros. split; try reflexivity; try (split; reflexivity).
  exists 2, (mkState "st" [("training"%string, SBool training)]), (SBool training). repeat split.
Qed.
Example C41_run :
  let r := @parallel_tempering ZNum ZRng ZNF (zpt 2) [] [[9]]%Z [] (zptworld true) in
  let r' := @parallel_tempering ZNum ZRng ZNF (zpt 2) [] [[9]]%Z [] (zptworld false) in
  match fst r with Ok (_, x) => x | _ => [] end = [[2]]%Z /\ zdata (snd r) 0 [0; 0; 0] = 7%Z /\
  match fst r' with Ok (_, x) => x | _ => [] end = [[2]]%Z /\ zdata (snd r') 0 [0; 0; 0] = 4%Z.
Proof. vm_compute. repeat split; reflexivity. Qed.
(** Random sources with draws in (0,1) exist. *)
Example C41_uniform : uniform_law RRng.
Proof. intros k. cbn. lra. Qed.

(** Adam on the executable instance: gradient steps of size 3 from (7, -9) in the box [-2, 5]. *)
Definition zbox : @arr ZNum := @mkArr ZNum [1; 2] (fun ix => match ix with [0; 0] => (-2)%Z | _ => 5%Z end).
Definition zadam (n : nat) : @adam ZNum := @mkAdam ZNum zlp n 0%Z zbox unit (fun _ => tt)
  (fun g _ _ => (map (fun x => if (0 <? x)%Z then (-3)%Z else 3%Z) g, tt)).
Example C43_run :
  rmap (fun o => snd (fst o)) (@adam_optimize ZNum ZRng (zadam 1) (neg_lpdf zlp) [] [[7; -9]]%Z []) = Ok [[4; -2]]%Z /\
  rmap (fun o => snd (fst o)) (@adam_optimize ZNum ZRng (zadam 0) (neg_lpdf zlp) [] [[7; -9]]%Z []) = Ok [[7; -9]]%Z.
Proof. vm_compute. split; reflexivity. Qed.
Example C43_ordered : ordered_bounds zbox 2.
Proof. intros [|[|j]] H; [reflexivity|reflexivity|lia]. Qed.

Print Assumptions C38_exchange_permutes.
Print Assumptions C39_exchange_balance.
Print Assumptions C39_sweep_invariant.
Print Assumptions C40_ends_fixed.
Print Assumptions C40_gap_law.
Print Assumptions C40_interior_order.
Print Assumptions C40_sorted_refuted.
Print Assumptions C41_call.
Print Assumptions C41_kernels_keep_dim.
Print Assumptions C41_production_frozen.
Print Assumptions C41_truth.
Print Assumptions C41_ensemble_preserved_refuted.
Print Assumptions C42_unit_temperature.
Print Assumptions C42_bundle_targets.
Print Assumptions C42_same_acceptance_iff_flat_prior.
Print Assumptions C43_inside_box.
Print Assumptions C43_no_nan.
Print Assumptions C43_gradients_inside.
Print Assumptions C43_no_steps.
Print Assumptions C43_ascends.
Print Assumptions C43_resources_unchanged.
Print Assumptions C43_bounds_validated.
