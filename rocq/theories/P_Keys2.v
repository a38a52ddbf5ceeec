(** Proofs about random streams of whole calls. *)
From Verif Require Import Prelude Num M_Core M_Kernels M_Strategies M_PT M_Bundle P_Lists Spec_Sampler P_Sampler
  P_Steps P_Train P_PT4 Spec_Train Spec_PT Spec_Steps Spec_Bundle Spec_Keys P_Keys.

Section Keys2.
Context {N : Num}.
Local Notation tape := Spec_Keys.tape.

Lemma split_combine_nth (t0 : tape) {A} (k : path) (zs : list A) (da : A) i : i < length zs ->
  nth i (combine (@split_keys N (tape_rng t0) k (length zs)) zs) ((@nil nat : path), da) = (i :: k, nth i zs da).
Proof.
  intros H. pose proof (@split_keys_length N (tape_rng t0) k (length zs)) as Q.
  rewrite combine_nth by exact Q. f_equal. exact (@nth_split_keys N (tape_rng t0) k (length zs) i [] H).
Qed.
Lemma split_combine_length (t0 : tape) {A} (k : path) (zs : list A) n : n = length zs ->
  length (combine (@split_keys N (tape_rng t0) k n) zs) = length zs.
Proof.
  intros ->. pose proof (@split_keys_length N (tape_rng t0) k (length zs)) as Q.
  etransitivity; [apply combine_length|]. etransitivity; [|apply Nat.min_id]. f_equal. exact Q.
Qed.

(** Outcome of one chain in a stepping call. *)
Lemma stepping_chain (t : tape) {NF : @NFOps N (tape_rng t)} samp ts (k : path) xs d w k1 ys w1 :
  @take_steps N (tape_rng t) NF samp ts k xs d w = (Ok (k1, ys), w1) ->
  exists kern lp out, dget (rdict w) (ts_kernel ts) = Some kern /\ dget (rdict w) (ts_logpdf ts) = Some lp /\
    forall i, i < length xs ->
      samp kern lp d (ts_n_steps ts) (i :: 1 :: k) (nth i xs []) = Ok (nth i out []) /\
      last_opt (map s_pos (stride (ts_thinning ts) (nth i out []))) = Some (nth i ys []).
Proof.
  intros H. apply take_steps_success in H as (pl & ll & al & kern & lp & out & cur & w2 & w3 & w4 & HL & HV & _ & _ & _ & _ & _ & _ & HY & _).
  destruct HL as (_ & _ & _ & HK & HP). exists kern, lp, out. split; [exact HK|]. split; [exact HP|].
  pose proof (@split_keys_length N (tape_rng t) (1 :: k) (length xs)) as Q.
  pose proof (@vmap_chains_nth N (tape_rng t) _ _ _ _ ([] : path) 0 Q HV) as [Lo _].
  intros i Hi. split.
  - destruct (@vmap_chains_nth N (tape_rng t) _ _ _ _ ([] : path) i Q HV) as [_ H]. specialize (H Hi).
    rewrite (@nth_split_keys N (tape_rng t) (1 :: k) (length xs) i [] Hi) in H. exact H.
  - apply rmapM_Ok in HY. eapply (Forall2_nth' _ _ _ [] [] i) in HY.
    2: { unfold ts_positions. rewrite !map_length. exact (eq_ind_r (lt i) Hi Lo). }
    unfold ts_positions in HY. rewrite map_map in HY. rewrite (nth_map' _ out i [] []) in HY by (exact (eq_ind_r (lt i) Hi Lo)).
    destruct (last_opt _); [congruence|discriminate].
Qed.

Lemma C49_stepping_proof (S : tape -> nat -> path -> vec -> res (list (vec * F * bool)))
  (t t' : tape) {NF : @NFOps N (tape_rng t)} {NF' : @NFOps N (tape_rng t')} samp samp' ts (k : path) xs xs' d w w' k1 k1' ys ys' w1 w1' i :
  (forall k x, reads (below k) (fun t => S t (ts_n_steps ts) k x)) ->
  (forall kern lp, dget (rdict w) (ts_kernel ts) = Some kern -> dget (rdict w) (ts_logpdf ts) = Some lp ->
     forall k x, samp kern lp d (ts_n_steps ts) k x = S t (ts_n_steps ts) k x) ->
  (forall kern lp, dget (rdict w') (ts_kernel ts) = Some kern -> dget (rdict w') (ts_logpdf ts) = Some lp ->
     forall k x, samp' kern lp d (ts_n_steps ts) k x = S t' (ts_n_steps ts) k x) ->
  @take_steps N (tape_rng t) NF samp ts k xs d w = (Ok (k1, ys), w1) ->
  @take_steps N (tape_rng t') NF' samp' ts k xs' d w' = (Ok (k1', ys'), w1') ->
  i < length xs -> i < length xs' -> nth i xs [] = nth i xs' [] -> same_draws (below (i :: 1 :: k)) t t' ->
  nth i ys [] = nth i ys' [].
Proof.
  intros HS Hs Hs' H H' Hi Hi' Hx SD.
  destruct (stepping_chain _ _ _ _ _ _ _ _ _ _ H) as (kern & lp & out & HK & HP & HC).
  destruct (stepping_chain _ _ _ _ _ _ _ _ _ _ H') as (kern' & lp' & out' & HK' & HP' & HC').
  destruct (HC i Hi) as [A B]. destruct (HC' i Hi') as [A' B'].
  rewrite (Hs _ _ HK HP) in A. rewrite (Hs' _ _ HK' HP') in A'. rewrite <- Hx in A'.
  rewrite (HS _ _ t t' SD) in A. rewrite A in A'. injection A' as E. rewrite <- E in B'. rewrite B in B'. congruence.
Qed.

Lemma serial_below (kf : kernel_family) f d n k x : in_repo kf ->
  reads (below k) (fun t => @serial_sample N (tape_rng t) (kf t) f d n k x).
Proof.
  intros H. eapply reads_weaken; [apply C49_serial_proof; exact H|]. intros p (i & _ & Hp).
  eapply below_trans; [apply step_key_below|exact Hp].
Qed.
Lemma C49_serial_call_proof (kf : kernel_family) f
  (t t' : tape) {NF : @NFOps N (tape_rng t)} {NF' : @NFOps N (tape_rng t')} ts (k : path) xs xs' d (w : @world N (tape_rng t) NF) (w' : @world N (tape_rng t') NF') k1 k1' ys ys' w1 w1' i :
  in_repo kf ->
  dget (rdict w) (ts_kernel ts) = Some (@RSer N (tape_rng t) NF (kf t)) -> dget (rdict w) (ts_logpdf ts) = Some (RLog f) ->
  dget (rdict w') (ts_kernel ts) = Some (@RSer N (tape_rng t') NF' (kf t')) -> dget (rdict w') (ts_logpdf ts) = Some (RLog f) ->
  @take_serial_steps N (tape_rng t) NF ts k xs d w = (Ok (k1, ys), w1) ->
  @take_serial_steps N (tape_rng t') NF' ts k xs' d w' = (Ok (k1', ys'), w1') ->
  i < length xs -> i < length xs' -> nth i xs [] = nth i xs' [] -> same_draws (below (i :: 1 :: k)) t t' ->
  nth i ys [] = nth i ys' [].
Proof.
  intros Hr HK HL HK' HL' H H'.
  eapply (C49_stepping_proof (fun t n k x => @serial_sample N (tape_rng t) (kf t) (l_pdf f) d n k x) t t'); [| | |exact H|exact H'].
  - intros. now apply serial_below.
  - intros kern lp E1 E2 k0 x0. rewrite HK in E1. rewrite HL in E2. injection E1 as <-. injection E2 as <-. reflexivity.
  - intros kern lp E1 E2 k0 x0. rewrite HK' in E1. rewrite HL' in E2. injection E1 as <-. injection E2 as <-. reflexivity.
Qed.

(** Tempering. *)
Lemma ensemble_reads (kf : kernel_family) tp d n temps k xs : in_repo kf ->
  reads (below k) (fun t => @ensemble_step N (tape_rng t) n (kf t) tp d temps k xs).
Proof.
  intros Hr t t' S. unfold ensemble_step. destruct (_ =? _); [|reflexivity].
  assert (A : forall l : list (path * vec * F), (forall kxt, In kxt l -> below k (fst (fst kxt))) ->
    rmapM (fun kxt => rmap (fun o : vec * F * list bool => fst (fst o)) (@individual_step N (tape_rng t) n (kf t) tp d (fst (fst kxt)) (snd (fst kxt)) (snd kxt))) l =
    rmapM (fun kxt => rmap (fun o : vec * F * list bool => fst (fst o)) (@individual_step N (tape_rng t') n (kf t') tp d (fst (fst kxt)) (snd (fst kxt)) (snd kxt))) l).
  { induction l as [|kxt l IH]; intros B; [reflexivity|]. cbn [rmapM].
    assert (E : @individual_step N (tape_rng t) n (kf t) tp d (fst (fst kxt)) (snd (fst kxt)) (snd kxt) = @individual_step N (tape_rng t') n (kf t') tp d (fst (fst kxt)) (snd (fst kxt)) (snd kxt)).
    { apply (individual_reads kf tp d n (fst (fst kxt)) (snd (fst kxt)) (snd kxt) Hr t t').
      eapply same_weaken; [exact S|]. intros p Hp. eapply below_trans; [apply B; cbn; auto|exact Hp]. }
    specialize (IH (fun x Hx => B x (or_intror Hx))). apply (f_equal2 (fun a b => let* y := a in let* ys := b in Ok (y :: ys)) (f_equal (rmap (fun o : vec * F * list bool => fst (fst o))) E) IH). }
  apply (A (combine (combine (@split_keys N (tape_rng t) k (length xs)) xs) temps)).
  intros [[k0 x0] z0] Hin. apply in_combine_l in Hin. apply in_combine_l in Hin. cbn [fst].
  unfold split_keys in Hin. apply in_map_iff in Hin as (i & <- & _). apply below_cons.
Qed.

Lemma exchange_below tp d temps k xs : reads (below k) (fun t => @exchange N (tape_rng t) tp d temps k xs).
Proof.
  eapply reads_weaken.
  - apply (C49_tempered_proof (fun t => @grw_kernel N (tape_rng t) (SScalar f0)) tp d 0 temps k). left. eauto.
  - cbn. intros p (i & _ & ->). apply step_key_below.
Qed.

Lemma pt_chain (t : tape) {NF : @NFOps N (tape_rng t)} pt (k : path) xs d w kern tp pl pb tl tb tr k1 ys w1 :
  pt_setup w pt kern tp pl pb tl tb tr ->
  @parallel_tempering N (tape_rng t) NF pt k xs d w = (Ok (k1, ys), w1) ->
  forall i, i < length xs ->
    exists s, ensemble_step (pt_n_steps pt) kern tp d (temps_of tb) (i :: 1 :: 0 :: k) (nth i xs [] :: nth i (unstack3 (b_data pb)) []) = Ok s /\
      nth i ys [] = hd [] (fst (fst (@exchange N (tape_rng t) tp d (temps_of tb) (i :: 1 :: 0 :: 0 :: k) s))).
Proof.
  intros HS H i Hi. pose proof (pt_inv _ _ _ _ _ _ _ _ _ _ _ _ _ _ _ HS H) as (K & D & stepped & ex & Hsh & HD & Hk' & Hst & Hex & Hxs' & _).
  set (init := map2 cons xs (unstack3 (b_data pb))) in * .
  assert (Li : length init = length xs).
  { unfold init, unstack3. rewrite map2_length, map_length, seq_length, Hsh. cbn. lia. }
  pose proof (split_combine_length t (1 :: 0 :: k) init (length xs) (eq_sym Li)) as LC.
  pose proof (rmapM_length _ _ _ Hst) as Ls.
  assert (Ls' : length stepped = length xs) by (etransitivity; [exact Ls|]; etransitivity; [exact LC|exact Li]). clear Ls.
  exists (nth i stepped []). split.
  - apply rmapM_Ok in Hst.
    eapply (Forall2_nth' _ _ _ ((@nil nat : path), @nil (list F)) [] i) in Hst; [|refine (eq_ind_r (lt i) _ LC); lia].
    rewrite <- Li in Hst. pose proof (split_combine_nth t (1 :: 0 :: k) init [] i ltac:(lia)) as E.
    match type of Hst with ensemble_step _ _ _ _ _ (fst ?a) (snd ?b) = _ => replace a with (i :: 1 :: 0 :: k, nth i init []) in Hst by (symmetry; exact E) end.
    cbn [fst snd] in Hst. unfold init in Hst. rewrite (nth_map2 cons _ _ i [] [] []) in Hst; [exact Hst| |].
    + exact Hi.
    + unfold unstack3. rewrite map_length, seq_length, Hsh. exact Hi.
  - rewrite Hxs', Hex. rewrite !map_map.
    pose proof (split_combine_length t (1 :: 0 :: 0 :: k) stepped (length xs) (eq_sym Ls')) as LD.
    pose proof (split_combine_nth t (1 :: 0 :: 0 :: k) stepped [] i ltac:(lia)) as E.
    rewrite Ls' in E.
    etransitivity; [apply (nth_map' _ _ i ((@nil nat : path), @nil (list F)) [])|].
    + refine (eq_ind_r (lt i) _ LD). lia.
    + match goal with |- hd _ (fst (fst (exchange _ _ _ (fst ?a) _))) = _ => replace a with (i :: 1 :: 0 :: 0 :: k, nth i stepped []) by (symmetry; exact E) end.
      reflexivity.
Qed.

Lemma C49_tempering_call_proof (kf : kernel_family) tp
  (t t' : tape) {NF : @NFOps N (tape_rng t)} {NF' : @NFOps N (tape_rng t')} pt (k : path) xs xs' d (w : @world N (tape_rng t) NF) (w' : @world N (tape_rng t') NF') k1 k1' ys ys' w1 w1'
  pl tl pb tb tr pl' tl' pb' tr' i :
  in_repo kf ->
  @pt_setup N (tape_rng t) NF w pt (kf t) tp pl pb tl tb tr -> @pt_setup N (tape_rng t') NF' w' pt (kf t') tp pl' pb' tl' tb tr' ->
  @parallel_tempering N (tape_rng t) NF pt k xs d w = (Ok (k1, ys), w1) ->
  @parallel_tempering N (tape_rng t') NF' pt k xs' d w' = (Ok (k1', ys'), w1') ->
  i < length xs -> i < length xs' -> ensemble_before pb xs i = ensemble_before pb' xs' i ->
  ashape (b_data pb) = ashape (b_data pb') ->
  same_draws (fun p => below (i :: 1 :: 0 :: k) p \/ below (i :: 1 :: 0 :: 0 :: k) p) t t' ->
  nth i ys [] = nth i ys' [].
Proof.
  intros Hr HS HS' H H' Hi Hi' He Hsh SD.
  pose proof (pt_inv _ _ _ _ _ _ _ _ _ _ _ _ _ _ _ HS H) as (K & D & _ & _ & Sh & _).
  pose proof (pt_inv _ _ _ _ _ _ _ _ _ _ _ _ _ _ _ HS' H') as (K' & D' & _ & _ & Sh' & _).
  destruct (pt_chain t _ _ _ _ _ _ _ _ _ _ _ _ _ _ _ HS H i Hi) as (s & A & B).
  destruct (pt_chain t' _ _ _ _ _ _ _ _ _ _ _ _ _ _ _ HS' H' i Hi') as (s' & A' & B').
  unfold ensemble_before in He. injection He as Hx He.
  assert (Hu : forall b (zs : pos_t), ashape (b_data b) = [length zs; nth 1 (ashape (b_data b)) 0; nth 2 (ashape (b_data b)) 0] -> i < length zs ->
     nth i (unstack3 (b_data b)) [] = map (brow b (nth 2 (ashape (b_data b)) 0) i) (seq 0 (nth 1 (ashape (b_data b)) 0))).
  { intros b zs E Hz. unfold unstack3. rewrite E at 1. cbn [nth].
    rewrite (nth_map_seq (fun c => map (fun s => map (fun i0 => aget (b_data b) [c; s; i0]) (seq 0 (nth 2 (ashape (b_data b)) 0))) (seq 0 (nth 1 (ashape (b_data b)) 0)))) by exact Hz.
    reflexivity. }
  rewrite (Hu pb xs) in A; [|rewrite Sh; reflexivity|exact Hi]. rewrite (Hu pb' xs') in A'; [|rewrite Sh'; reflexivity|exact Hi'].
  rewrite Hx, He in A.
  rewrite (ensemble_reads kf tp d (pt_n_steps pt) (temps_of tb) (i :: 1 :: 0 :: k) _ Hr t t') in A.
  2: { eapply same_weaken; [exact SD|]. intros p Hp. left. exact Hp. }
  rewrite A in A'. injection A' as ->. rewrite B, B'.
  rewrite (exchange_below tp d (temps_of tb) (i :: 1 :: 0 :: 0 :: k) s' t t'); [reflexivity|].
  eapply same_weaken; [exact SD|]. intros p Hp. right. exact Hp.
Qed.

(** Flow steps and training. *)
Section Flow.
Context {M O T : Type} (logp : M -> vec -> F) (samp : tape -> M -> path -> nat -> list vec)
  (step : M -> list vec -> T -> O -> F * M * O) (stats : M -> list vec -> M).
Hypothesis Hsamp : forall m k n, reads (below k) (fun t => samp t m k n).
Notation nf := (tape_nf logp samp step stats).

Lemma C49_flow_call_proof m bs f (t t' : tape) ts (k : path) xs xs' d
  (w : @world N (tape_rng t) (nf t)) (w' : @world N (tape_rng t') (nf t')) k1 k1' ys ys' w1 w1' i :
  dget (rdict w) (ts_kernel ts) = Some (RNFP (@mkNfp N (tape_rng t) (nf t) m bs)) -> dget (rdict w) (ts_logpdf ts) = Some (RLog f) ->
  dget (rdict w') (ts_kernel ts) = Some (RNFP (@mkNfp N (tape_rng t') (nf t') m bs)) -> dget (rdict w') (ts_logpdf ts) = Some (RLog f) ->
  @take_group_steps N (tape_rng t) (nf t) ts k xs d w = (Ok (k1, ys), w1) ->
  @take_group_steps N (tape_rng t') (nf t') ts k xs' d w' = (Ok (k1', ys'), w1') ->
  i < length xs -> i < length xs' -> nth i xs [] = nth i xs' [] -> same_draws (below (i :: 1 :: k)) t t' ->
  nth i ys [] = nth i ys' [].
Proof.
  intros HK HL HK' HL' H H'.
  eapply (C49_stepping_proof (fun t n k x => @group_sample N (tape_rng t) (nf t) (@mkNfp N (tape_rng t) (nf t) m bs) (l_pdf f) d n k x) t t'); [| | |exact H|exact H'].
  - intros k0 x. eapply reads_weaken; [apply (C49_flow_proof logp samp step stats Hsamp)|].
    intros p [Hp|(j & ->)]; [now apply below_cons' in Hp|]. eapply below_trans; [|apply step_key_below]. apply below_cons.
  - intros kern lp E1 E2 k0 x0. rewrite HK in E1. rewrite HL in E2. injection E1 as <-. injection E2 as <-. reflexivity.
  - intros kern lp E1 E2 k0 x0. rewrite HK' in E1. rewrite HL' in E2. injection E1 as <-. injection E2 as <-. reflexivity.
Qed.

Lemma C49_training_call_proof (t t' : tape) tm (k : path) xs xs' d
  (w : @world N (tape_rng t) (nf t)) (w' : @world N (tape_rng t') (nf t')) k1 k1' ys ys' w1 w1' (m : M) dl dl' db ol ol' (tx : T) (st : O) :
  dget (rdict w) (tm_model tm) = Some (RModel (m : @mdl N (tape_rng t) (nf t))) ->
  dget (rdict w') (tm_model tm) = Some (RModel (m : @mdl N (tape_rng t') (nf t'))) ->
  buffer_named w (tm_data tm) dl db -> buffer_named w' (tm_data tm) dl' db ->
  optimizer_named w (tm_opt tm) ol (@mkOptimizer N (tape_rng t) (nf t) tx st) ->
  optimizer_named w' (tm_opt tm) ol' (@mkOptimizer N (tape_rng t') (nf t') tx st) ->
  tm_model tm <> tm_opt tm ->
  @train_model N (tape_rng t) (nf t) tm k xs d w = (Ok (k1, ys), w1) ->
  @train_model N (tape_rng t') (nf t') tm k xs' d w' = (Ok (k1', ys'), w1') ->
  same_draws (fun p => In p (training_roots (tm_epochs tm) k)) t t' ->
  exists m2 : M, dget (rdict w1) (tm_model tm) = Some (RModel (m2 : @mdl N (tape_rng t) (nf t))) /\
    dget (rdict w1') (tm_model tm) = Some (RModel (m2 : @mdl N (tape_rng t') (nf t'))).
Proof.
  intros Hm Hm' Hd Hd' Ho Ho' Hne H H' SD.
  apply train_model_inv in H as (m0 & dl0 & db0 & ol0 & opt0 & pool & ex & m2 & st2 & ls & A1 & A2 & A3 & A4 & A5 & A6 & _ & v & dv & -> & _).
  apply train_model_inv in H' as (m0' & dl0' & db0' & ol0' & opt0' & pool' & ex' & m2' & st2' & ls' & B1 & B2 & B3 & B4 & B5 & B6 & _ & v' & dv' & -> & _).
  rewrite Hm in A1. injection A1 as <-. rewrite Hm' in B1. injection B1 as <-.
  destruct Hd as [D1 D2], Hd' as [D1' D2'], A2 as [A2 A2'], B2 as [B2 B2'].
  rewrite D1 in A2. injection A2 as <-. rewrite D2 in A2'. injection A2' as <-.
  rewrite D1' in B2. injection B2 as <-. rewrite D2' in B2'. injection B2' as <-.
  destruct Ho as [O1 O2], Ho' as [O1' O2'], A3 as [A3 A3'], B3 as [B3 B3'].
  rewrite O1 in A3. injection A3 as <-. rewrite O2 in A3'. injection A3' as <-.
  rewrite O1' in B3. injection B3 as <-. rewrite O2' in B3'. injection B3' as <-.
  rewrite A4 in B4. injection B4 as <-.
  assert (Eex : ex = ex').
  { unfold draw_examples in A5, B5. destruct (_ && _); [discriminate|]. injection A5 as <-. injection B5 as <-.
    f_equal. change (t_choice t (1 :: k) (length pool) (tm_max tm) = t_choice t' (1 :: k) (length pool) (tm_max tm)).
    destruct (SD (1 :: k) (or_introl eq_refl)) as (_ & _ & _ & _ & ->). reflexivity. }
  subst ex'.
  destruct (C49_train_proof logp samp step stats m (1 :: 0 :: k) ex tx st (tm_epochs tm) (tm_bs tm)) as [R _].
  specialize (R t t'). cbn beta in R.
  assert (SD2 : same_draws (fun p => exists e, e < tm_epochs tm /\ p = step_key (1 :: 0 :: k) e) t t').
  { eapply same_weaken; [exact SD|]. intros p (e & He & ->). right. apply in_map_iff. exists e. split; [reflexivity|]. apply in_seq. lia. }
  specialize (R SD2).
  assert (EE : Ok (k1, (m2, st2), ls) = Ok (k1', (m2', st2'), ls') :> res (path * (M * O) * list F)).
  { etransitivity; [symmetry; exact A6|]. etransitivity; [exact R|exact B6]. }
  injection EE as _ Em _ _. exists m2. cbn [rdict]. split.
  - rewrite dget_dset_neq by auto. apply dget_dset_eq.
  - rewrite dget_dset_neq by auto. rewrite dget_dset_eq. f_equal. f_equal. symmetry. exact Em.
Qed.
End Flow.
End Keys2.
