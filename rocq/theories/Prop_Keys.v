(** Property C49: random streams.  Keys are paths of split indices below the user's key, random
    numbers are read from an arbitrary tape (Spec_Keys). *)
From Verif Require Import Prelude Num M_Core M_Kernels M_Strategies M_PT M_Bundle
  Spec_Sampler Spec_Steps Spec_Train Spec_PT Spec_Bundle Spec_Keys P_Keys P_Keys2 Toy.

Section Props.
Context {N : Num}.
Local Notation tape := Spec_Keys.tape.

(** One kernel call draws from the two halves of its key only; the proposal is decided by the first
    half alone (so the acceptance draw has its own key): two accepting calls with the same first
    half move to the same point. *)
Theorem C49_kernel_draws :
  forall (kf : kernel_family) k x lp f d, in_repo kf ->
  reads (fun p => p = 0 :: k \/ p = 1 :: k) (fun t => kf t k x lp f d) /\
  forall t t' y l y' l', same_draws (eq (0 :: k)) t t' ->
    kf t k x lp f d = Ok (y, l, true) -> kf t' k x lp f d = Ok (y', l', true) -> y' = y /\ l' = l.
Proof. exact C49_kernel_proof. Qed.

(** A chain of n steps of such a kernel draws from n keys that are apart from each other; state j
    depends on the keys of steps 0, ..., j only. *)
Theorem C49_serial_chain :
  forall (kf : kernel_family) f d n k x, in_repo kf ->
  reads (fun p => exists i, i < n /\ below (step_key k i) p) (fun t => @serial_sample N (tape_rng t) (kf t) f d n k x) /\
  (forall j t t' out out', same_draws (fun p => exists i, i <= j /\ below (step_key k i) p) t t' ->
     @serial_sample N (tape_rng t) (kf t) f d n k x = Ok out -> @serial_sample N (tape_rng t') (kf t') f d n k x = Ok out' ->
     nth_error out j = nth_error out' j) /\
  (forall i j, i <> j -> apart (step_key k i) (step_key k j)).
Proof. exact C49_serial_proof. Qed.

(** Global steps of one chain: the flow's proposals are drawn below one half of the key, the
    acceptance of step i at its own key below the other half; accepted states are the proposals. *)
Theorem C49_flow_chain :
  forall (M O T : Type) logp samp step stats,
  (forall m k n, reads (below k) (fun t => samp t m k n)) ->
  forall (m : M) bs f d n k x,
  let chain t := @group_sample N (tape_rng t) (@tape_nf N M O T logp samp step stats t)
                   (@mkNfp N (tape_rng t) (@tape_nf N M O T logp samp step stats t) m bs) f d n k x in
  reads (fun p => below (1 :: k) p \/ exists i, p = step_key (0 :: k) i) chain /\
  (forall j t t' out out' y l y' l', same_draws (below (1 :: k)) t t' -> chain t = Ok out -> chain t' = Ok out' ->
     nth_error out j = Some (y, l, true) -> nth_error out' j = Some (y', l', true) -> y' = y /\ l' = l) /\
  (forall i j, apart (1 :: k) (step_key (0 :: k) i) /\ (i <> j -> apart (step_key (0 :: k) i) (step_key (0 :: k) j))).
Proof. intros. now apply (C49_flow_proof logp samp step stats). Qed.

(** Walker j of a tempered ensemble draws below its own key only, and depends on no other walker;
    exchange decision i has its own key. *)
Theorem C49_tempered_chain :
  forall (kf : kernel_family) tp d n temps k, in_repo kf ->
  (forall t t' xs xs' ys ys' j, length xs = length xs' -> same_draws (below (j :: k)) t t' -> nth_error xs j = nth_error xs' j ->
     @ensemble_step N (tape_rng t) n (kf t) tp d temps k xs = Ok ys ->
     @ensemble_step N (tape_rng t') n (kf t') tp d temps k xs' = Ok ys' -> nth_error ys j = nth_error ys' j) /\
  (forall xs, reads (fun p => exists i, i + 1 < length xs /\ p = step_key k i) (fun t => @exchange N (tape_rng t) tp d temps k xs)).
Proof. exact C49_tempered_proof. Qed.

(** Calls of the strategies: where chain i ends depends on the draws at the streams of chain i and on
    where chain i starts, not on the other chains' positions or draws (nor on anything else that
    may differ between the two worlds). *)
Theorem C49_local_call :
  forall (kf : kernel_family) f (t t' : tape) (NF : @NFOps N (tape_rng t)) (NF' : @NFOps N (tape_rng t'))
    ts (k : path) xs xs' d (w : @world N (tape_rng t) NF) (w' : @world N (tape_rng t') NF') k1 k1' ys ys' w1 w1' i,
  in_repo kf ->
  dget (rdict w) (ts_kernel ts) = Some (@RSer N (tape_rng t) NF (kf t)) -> dget (rdict w) (ts_logpdf ts) = Some (RLog f) ->
  dget (rdict w') (ts_kernel ts) = Some (@RSer N (tape_rng t') NF' (kf t')) -> dget (rdict w') (ts_logpdf ts) = Some (RLog f) ->
  @take_serial_steps N (tape_rng t) NF ts k xs d w = (Ok (k1, ys), w1) ->
  @take_serial_steps N (tape_rng t') NF' ts k xs' d w' = (Ok (k1', ys'), w1') ->
  i < length xs -> i < length xs' -> nth i xs [] = nth i xs' [] -> same_draws (below (i :: 1 :: k)) t t' ->
  nth i ys [] = nth i ys' [].
Proof. exact C49_serial_call_proof. Qed.

Theorem C49_global_call :
  forall (M O T : Type) logp samp step stats,
  (forall m k n, reads (below k) (fun t => samp t m k n)) ->
  forall (m : M) bs f (t t' : tape) ts (k : path) xs xs' d
  (w : @world N (tape_rng t) (@tape_nf N M O T logp samp step stats t)) (w' : @world N (tape_rng t') (@tape_nf N M O T logp samp step stats t'))
  k1 k1' ys ys' w1 w1' i,
  dget (rdict w) (ts_kernel ts) = Some (RNFP (@mkNfp N (tape_rng t) (@tape_nf N M O T logp samp step stats t) m bs)) -> dget (rdict w) (ts_logpdf ts) = Some (RLog f) ->
  dget (rdict w') (ts_kernel ts) = Some (RNFP (@mkNfp N (tape_rng t') (@tape_nf N M O T logp samp step stats t') m bs)) -> dget (rdict w') (ts_logpdf ts) = Some (RLog f) ->
  @take_group_steps N (tape_rng t) (@tape_nf N M O T logp samp step stats t) ts k xs d w = (Ok (k1, ys), w1) ->
  @take_group_steps N (tape_rng t') (@tape_nf N M O T logp samp step stats t') ts k xs' d w' = (Ok (k1', ys'), w1') ->
  i < length xs -> i < length xs' -> nth i xs [] = nth i xs' [] -> same_draws (below (i :: 1 :: k)) t t' ->
  nth i ys [] = nth i ys' [].
Proof. exact (@C49_flow_call_proof N). Qed.

(** For tempering, with the same temperatures and the same stored walkers of chain i. *)
Theorem C49_tempering_call :
  forall (kf : kernel_family) tp (t t' : tape) (NF : @NFOps N (tape_rng t)) (NF' : @NFOps N (tape_rng t'))
    pt (k : path) xs xs' d (w : @world N (tape_rng t) NF) (w' : @world N (tape_rng t') NF') k1 k1' ys ys' w1 w1'
    pl tl pb tb tr pl' tl' pb' tr' i,
  in_repo kf ->
  @pt_setup N (tape_rng t) NF w pt (kf t) tp pl pb tl tb tr -> @pt_setup N (tape_rng t') NF' w' pt (kf t') tp pl' pb' tl' tb tr' ->
  @parallel_tempering N (tape_rng t) NF pt k xs d w = (Ok (k1, ys), w1) ->
  @parallel_tempering N (tape_rng t') NF' pt k xs' d w' = (Ok (k1', ys'), w1') ->
  i < length xs -> i < length xs' -> ensemble_before pb xs i = ensemble_before pb' xs' i ->
  ashape (b_data pb) = ashape (b_data pb') ->
  same_draws (fun p => below (i :: 1 :: 0 :: k) p \/ below (i :: 1 :: 0 :: 0 :: k) p) t t' ->
  nth i ys [] = nth i ys' [].
Proof. exact (@C49_tempering_call_proof N). Qed.

(** Training: the trained model depends only on the draws at the key of the examples and at one key
    per epoch. *)
Theorem C49_training_call :
  forall (M O T : Type) logp samp step stats (t t' : tape) tm (k : path) xs xs' d
  (w : @world N (tape_rng t) (@tape_nf N M O T logp samp step stats t)) (w' : @world N (tape_rng t') (@tape_nf N M O T logp samp step stats t'))
  k1 k1' ys ys' w1 w1' (m : M) dl dl' db ol ol' (tx : T) (st : O),
  dget (rdict w) (tm_model tm) = Some (@RModel N (tape_rng t) (@tape_nf N M O T logp samp step stats t) m) ->
  dget (rdict w') (tm_model tm) = Some (@RModel N (tape_rng t') (@tape_nf N M O T logp samp step stats t') m) ->
  buffer_named w (tm_data tm) dl db -> buffer_named w' (tm_data tm) dl' db ->
  optimizer_named w (tm_opt tm) ol (@mkOptimizer N (tape_rng t) (@tape_nf N M O T logp samp step stats t) tx st) ->
  optimizer_named w' (tm_opt tm) ol' (@mkOptimizer N (tape_rng t') (@tape_nf N M O T logp samp step stats t') tx st) ->
  tm_model tm <> tm_opt tm ->
  @train_model N (tape_rng t) (@tape_nf N M O T logp samp step stats t) tm k xs d w = (Ok (k1, ys), w1) ->
  @train_model N (tape_rng t') (@tape_nf N M O T logp samp step stats t') tm k xs' d w' = (Ok (k1', ys'), w1') ->
  same_draws (fun p => In p (training_roots (tm_epochs tm) k)) t t' ->
  exists m2 : M, dget (rdict w1) (tm_model tm) = Some (@RModel N (tape_rng t) (@tape_nf N M O T logp samp step stats t) m2) /\
    dget (rdict w1') (tm_model tm) = Some (@RModel N (tape_rng t') (@tape_nf N M O T logp samp step stats t') m2).
Proof. exact (@C49_training_call_proof N). Qed.

(** The streams of one call are apart from each other, descend from the key the call gets, and are
    apart from the key it passes on. *)
Theorem C49_call_streams :
  forall (t : tape) (NF : @NFOps N (tape_rng t)),
  (forall samp ts, fresh_streams (@take_steps N (tape_rng t) NF samp ts) chain_roots) /\
  (forall pt, fresh_streams (@parallel_tempering N (tape_rng t) NF pt) tempering_roots) /\
  (forall tm, fresh_streams (@train_model N (tape_rng t) NF tm) (fun k _ => training_roots (tm_epochs tm) k)) /\
  (forall a, fresh_streams (@adam_strategy N (tape_rng t) NF a) chain_roots) /\
  (forall f, fresh_streams (@lambda N (tape_rng t) NF f) (fun _ _ => [])) /\
  (forall nm ks vs, fresh_streams (@update_state N (tape_rng t) NF nm ks vs) (fun _ _ => [])).
Proof.
  intros t NF. exact (conj take_steps_fresh (conj tempering_fresh (conj training_fresh (conj adam_fresh (conj lambda_fresh update_state_fresh))))).
Qed.

(** A whole run, for every order of strategies with such streams: all streams of all calls are
    apart from each other and descend from the key of the run. *)
Theorem C49_run_streams :
  forall (t : tape) (NF : @NFOps N (tape_rng t)) (S : dict (@strategy N (tape_rng t) NF)) d (roots : string -> path -> nat -> list path) order,
  (forall n st, In n order -> dget S n = Some st -> fresh_streams st (roots n)) ->
  forall (k : path) xs w tr r w', @runs N (tape_rng t) NF S d order k xs w tr r w' ->
  all_apart (run_streams roots tr) /\ forall p, In p (run_streams roots tr) -> below k p.
Proof. exact (@C49_run_proof N). Qed.

(** In particular the runs of both bundles, in every order (hence with every number of loops). *)
Theorem C49_bundle_streams :
  forall (t : tape) (NF : @NFOps N (tape_rng t)),
  (forall c window order d (k : path) xs w tr r w',
     @runs N (tape_rng t) NF (base_strategies c window) d order k xs w tr r w' ->
     all_apart (run_streams (bundle_roots (c_epochs c)) tr) /\
     forall p, In p (run_streams (bundle_roots (c_epochs c)) tr) -> below k p) /\
  (forall pc order d (k : path) xs w tr r w',
     @runs N (tape_rng t) NF (pt_strategies pc) d order k xs w tr r w' ->
     all_apart (run_streams (bundle_roots (c_epochs (p_base pc))) tr) /\
     forall p, In p (run_streams (bundle_roots (c_epochs (p_base pc))) tr) -> below k p).
Proof. intros t NF. exact (conj C49_base_bundle_proof C49_pt_bundle_proof). Qed.
End Props.

(* ------------------------------------------------------------------ concrete cases *)
(** Two tapes: the second has other draws for chain 1 of the call with the root key. *)
Definition in_chain (i : nat) (p : path) : bool :=
  match rev p with 1 :: j :: _ => j =? i | _ => false end.
Definition ztape (shift : Z) : @Spec_Keys.tape ZNum := @mkTape ZNum
  (fun k n => map (fun i => ((hash (i :: k) + if in_chain 1 k then shift else 0) mod 5 - 2)%Z) (seq 0 n))
  (fun k => (hash k mod 3 - 1)%Z)
  (fun k => ((hash k + if in_chain 1 k then shift else 0) mod 21 - 10)%Z)
  (fun k n => map (fun i => (i + 1) mod n) (seq 0 n))
  (fun k n m => map (fun i => Z.to_nat (hash (i :: k)) mod n) (seq 0 m)).
Definition ztnf (t : @Spec_Keys.tape ZNum) := @tape_nf ZNum Z Z Z
  (fun m x => (- (hd 0 x - m) * (hd 0 x - m))%Z)
  (fun t m k n => map (fun i => [m + hd 0 (t_normal t (i :: k) 1); hd 0 (t_normal t (i :: i :: k) 1)]%Z) (seq 0 n))
  (fun m b tx st => ((m * m - Z.of_nat (length b))%Z, (m + tx)%Z, (st + 1)%Z))
  (fun m data => (m + Z.of_nat (length data))%Z) t.
Definition ztworld (t : @Spec_Keys.tape ZNum) : @world ZNum (tape_rng t) (ztnf t) := @mkWorld ZNum (tape_rng t) (ztnf t)
  [OBuf (zbuf [2; 10; 2]); OBuf (zbuf [2; 10]); OBuf (zbuf [2; 10]); OState zstate;
   OCursor 3; OOpt (@mkOptimizer ZNum (tape_rng t) (ztnf t) 1%Z 0%Z)]
  [("P", RObj 0); ("L", RObj 1); ("A", RObj 2); ("st", RObj 3);
   ("rw", RSer (@grw_kernel ZNum (tape_rng t) (@SScalar ZNum 1%Z)));
   ("nf", RNFP (@mkNfp ZNum (tape_rng t) (ztnf t) 1%Z 2));
   ("lp", RLog (mkLogPDF zlp [mkVar "x" true; mkVar "y" true]))]%string.
Definition zlocal (shift : Z) := fst (@take_serial_steps ZNum (tape_rng (ztape shift)) (ztnf (ztape shift)) (zts "rw" 8 1 0) [] zstart [] (ztworld (ztape shift))).
Definition zglobal (shift : Z) := fst (@take_group_steps ZNum (tape_rng (ztape shift)) (ztnf (ztape shift)) (zts "nf" 4 1 0) [] zstart [] (ztworld (ztape shift))).
(** Both calls succeed on both tapes; chain 0 ends at the same point, chain 1 elsewhere. *)
Example C49_local_run :
  zlocal 0 = Ok ([0], [[2; -1]; [0; 0]]%Z) /\ zlocal 1 = Ok ([0], [[2; -1]; [1; 3]]%Z).
Proof. vm_compute. split; reflexivity. Qed.
Example C49_global_run :
  zglobal 0 = Ok ([0], [[-1; -1]; [0; 2]]%Z) /\ zglobal 1 = Ok ([0], [[-1; -1]; [1; -2]]%Z).
Proof. vm_compute. split; reflexivity. Qed.
Example C49_tapes_agree_on_chain_0 : same_draws (below [0; 1]) (ztape 0) (ztape 1).
Proof.
  intros p [s ->]. cbn [t_normal t_normal0 t_uniform t_perm t_choice ztape].
  assert (E : in_chain 1 (s ++ [0; 1]) = false) by (unfold in_chain; rewrite rev_app_distr; reflexivity).
  rewrite E. repeat split; reflexivity.
Qed.
Example C49_flow_samples_law : forall m k n, reads (below k) (fun t => @m_sample ZNum (tape_rng t) (ztnf t) m k n : list (list Z)).
Proof.
  intros m k n t t' S. apply map_ext_in. intros i _. unfold ztnf, tape_nf.
  destruct (S (i :: k)) as (E & _); [exists [i]; reflexivity|]. destruct (S (i :: i :: k)) as (E' & _); [exists [i; i]; reflexivity|].
  now rewrite E, E'.
Qed.
(** A run of two calls and all its streams. *)
Example C49_streams_of_a_run : forall t : @Spec_Keys.tape ZNum,
  run_streams (bundle_roots 2) [("parallel_tempering", [], [[]; []]); ("model_trainer", [0; 0; 0], [[]; []])]%string
  = [[0; 1; 0]; [1; 1; 0]; [0; 1; 0; 0]; [1; 1; 0; 0];
     [1; 0; 0; 0]; [1; 1; 0; 0; 0; 0]; [1; 0; 1; 0; 0; 0; 0]].
Proof. reflexivity. Qed.

Print Assumptions C49_kernel_draws.
Print Assumptions C49_serial_chain.
Print Assumptions C49_flow_chain.
Print Assumptions C49_tempered_chain.
Print Assumptions C49_local_call.
Print Assumptions C49_global_call.
Print Assumptions C49_tempering_call.
Print Assumptions C49_training_call.
Print Assumptions C49_call_streams.
Print Assumptions C49_run_streams.
Print Assumptions C49_bundle_streams.
