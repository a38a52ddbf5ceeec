From Coq Require Import Permutation.
From Verif Require Import Prelude Num M_Core M_Kernels M_Strategies M_PT P_Lists Spec Spec_Core P_Buffer P_Core Spec_Steps P_Steps
  Spec_Kernels P_Kernels P_Sampler Spec_Train P_Train P_Train2 Spec_PT P_PT P_PT2 P_PT3.

Section PTcall.
Context {N : Num} {G : Rng} {NF : NFOps}.

Lemma last_opt_last {A} (l : list (vec * F * A)) x lp :
  fst (match last_opt l with Some (x', lp', _) => (x', lp') | None => (x, lp) end) = last (map (fun o => fst (fst o)) l) x.
Proof.
  destruct l as [|o l]; [reflexivity|]. cbn [last_opt].
  assert (A0 : last (map (fun o => fst (fst o)) (o :: l)) x = fst (fst (last l o))).
  { cbn [map]. rewrite last_cons_default. revert o. induction l as [|o' l IH]; intros o; [reflexivity|].
    cbn [map]. rewrite !last_cons_default. apply IH. }
  rewrite A0. destruct (last l o) as [[? ?] ?]. reflexivity.
Qed.

Lemma individual_moved n kern t d k x temp o :
  individual_step n kern t d k x temp = Ok o -> moved n kern t d temp k x (fst (fst o)).
Proof.
  unfold individual_step, moved. destruct (serial_scan _ _ _ _ _ _ _) as [tr|] eqn:E; [|discriminate]. cbn [rbind].
  intros H. exists tr. split; auto. rewrite <- (last_opt_last tr x (tempered_log_pdf t temp x d)).
  destruct (match last_opt tr with Some _ => _ | None => _ end) as [xf lpf]. injection H as <-. reflexivity.
Qed.

Lemma nth_combine3 (ks : list key) (xs : list vec) (ts : list F) j dk : length ks = length xs -> length xs = length ts ->
  nth j (combine (combine ks xs) ts) (dk, [], f0) = (nth j ks dk, nth j xs [], nth j ts f0).
Proof.
  intros H1 H2. rewrite combine_nth. - rewrite combine_nth by auto. reflexivity. - rewrite combine_length. lia.
Qed.

Lemma ensemble_step_moved n kern t d temps k xs ys : ensemble_step n kern t d temps k xs = Ok ys ->
  length xs = length temps /\ length ys = length temps /\
  forall j, j < length temps -> moved n kern t d (nth j temps f0) (split k (length temps) j) (nth j xs []) (nth j ys []).
Proof.
  unfold ensemble_step. destruct (Nat.eqb_spec (length xs) (length temps)) as [El|]; [|discriminate].
  intros H. pose proof (rmapM_length _ _ _ H) as Hl. rewrite !combine_length, split_keys_length, El, !Nat.min_id in Hl.
  split; auto. split; auto. intros j Hj. apply rmapM_Ok in H.
  apply (Forall2_nth' _ _ _ (k, [], f0) [] j) in H.
  2:{ rewrite !combine_length, split_keys_length, El. lia. }
  rewrite nth_combine3 in H by (rewrite ?split_keys_length; lia). cbn [fst snd] in H.
  rewrite nth_split_keys in H by lia. rewrite El in H.
  destruct (individual_step _ _ _ _ _ _ _) as [o|] eqn:E; [|discriminate]. cbn in H. injection H as <-.
  apply individual_moved in E. exact E.
Qed.

Lemma serial_scan_dim kern t d temp dim : keeps_dim kern t d dim -> forall n k x lp tr, length x = dim ->
  serial_scan kern (tempered_lpdf t temp) d n k x lp = Ok tr ->
  length (last (map (fun o => fst (fst o)) tr) x) = dim.
Proof.
  intros Hk. induction n as [|n IH]; intros k x lp tr Hx H; cbn in H; [injection H as <-; auto|].
  destruct (kern _ x lp _ d) as [[[x1 lp1] a1]|] eqn:E1; [|discriminate]. cbn in H.
  destruct (serial_scan kern _ d n _ x1 lp1) as [rest|] eqn:E2; [|discriminate]. cbn in H. injection H as <-.
  pose proof (Hk _ _ _ _ _ Hx E1) as Hl. cbn in Hl. specialize (IH _ _ _ _ Hl E2).
  cbn [map fst]. rewrite last_cons_default. congruence.
Qed.
Lemma moved_dim kern t d temp k x y n dim : keeps_dim kern t d dim -> length x = dim -> moved n kern t d temp k x y -> length y = dim.
Proof. intros Hk Hx (tr & H & ->). eapply serial_scan_dim; eauto. Qed.

Lemma ensemble_before_spec pb xs c C K D : ashape (b_data pb) = [C; K; D] -> C = length xs -> c < length xs ->
  nth c (map2 cons xs (unstack3 (b_data pb))) [] = ensemble_before pb xs c.
Proof.
  intros Hs HC Hc. unfold ensemble_before, unstack3. rewrite Hs. cbn [nth].
  rewrite (nth_map2 cons _ _ _ [] []) by (rewrite ?map_length, ?seq_length; lia).
  rewrite nth_map_seq by lia. reflexivity.
Qed.

(** Everything a successful call does, in model terms. *)
Lemma pt_inv pt k xs d w kern t pl pb tl tb training k' xs' w' :
  pt_setup w pt kern t pl pb tl tb training ->
  parallel_tempering pt k xs d w = (Ok (k', xs'), w') ->
  exists K D stepped ex,
    ashape (b_data pb) = [length xs; K; D] /\ D = length (nth 0 xs []) /\
    k' = split (split (split k 2 0) 2 0) 2 0 /\
    rmapM (fun kx => ensemble_step (pt_n_steps pt) kern t d (temps_of tb) (fst kx) (snd kx))
      (combine (split_keys (split (split k 2 0) 2 1) (length xs)) (map2 cons xs (unstack3 (b_data pb)))) = Ok stepped /\
    ex = map (fun kx => exchange t d (temps_of tb) (fst kx) (snd kx))
           (combine (split_keys (split (split (split k 2 0) 2 0) 2 1) (length xs)) stepped) /\
    xs' = map (fun ws => hd [] ws) (map (fun o => fst (fst o)) ex) /\
    (if training then exists pb' w1, update_buffer pb (stack3 (map (@List.tl vec) (map (fun o => fst (fst o)) ex))) 0 = Ok pb' /\
        w1 = hset pl (OBuf pb') w /\
        buf_update tl (stack1 (adapt_temperature (temps_of tb) (map snd ex))) 0 w1 = (Ok tt, w')
     else w' = w).
Proof.
  intros [HK HL HP HT (sl & st & v & Hs1 & Hs2 & Hs3 & Hs4)] H. unfold parallel_tempering in H.
  apply mbind_Ok in H as (kr & w1 & H1 & H). apply res_get_inv in H1 as [-> H1]. rewrite HK in H1. injection H1 as <-.
  apply mbind_Ok in H as (u & w1 & H1 & H). cbn in H1. injection H1 as _ <-.
  apply mbind_Ok in H as (tr & w1 & H1 & H). apply res_get_inv in H1 as [-> H1]. rewrite HL in H1. injection H1 as <-.
  apply mbind_Ok in H as (t0 & w1 & H1 & H). cbn in H1. injection H1 as <- <-.
  apply mbind_Ok in H as ([tpl tpb] & w1 & H1 & H). apply get_buffer_inv in H1 as (-> & Hp1 & Hp2).
  destruct HP as [HP1 HP2]. rewrite HP1 in Hp1. injection Hp1 as <-. rewrite HP2 in Hp2. injection Hp2 as <-.
  apply mbind_Ok in H as ([tml tmb] & w1 & H1 & H). apply get_buffer_inv in H1 as (-> & Ht1 & Ht2).
  destruct HT as [HT1 HT2]. rewrite HT1 in Ht1. injection Ht1 as <-. rewrite HT2 in Ht2. injection Ht2 as <-.
  apply mbind_Ok in H as ([sl' st'] & w1 & H1 & H). apply get_state_inv in H1 as (-> & Hst1 & Hst2).
  rewrite Hs1 in Hst1. injection Hst1 as <-. rewrite Hs2 in Hst2. injection Hst2 as <-.
  apply mbind_Ok in H as (kern0 & w1 & H1 & H). cbn in H1. injection H1 as <- <-.
  apply mbind_Ok in H as (u0 & w1 & H1 & H).
  assert (Hsh : w1 = w /\ exists K D, ashape (b_data pb) = [length xs; K; D] /\ D = length (nth 0 xs [])).
  { destruct (ashape (b_data pb)) as [|C [|K [|D [|? ?]]]]; try discriminate H1.
    destruct (Nat.eqb_spec C (length xs)) as [->|]; [|discriminate]. cbn [andb] in H1.
    destruct (Nat.eqb_spec D (length (nth 0 xs []))) as [ED|]; [|discriminate]. injection H1 as _ <-. split; auto. exists K, D. auto. }
  destruct Hsh as (-> & K & D & Hsh & HD). clear H1.
  apply mbind_Ok in H as (stepped & w1 & H1 & H). apply mlift_inv in H1 as [-> H1].
  change (unstack1 (b_data tb)) with (temps_of tb) in * .
  apply mbind_Ok in H as (tr & w1 & H2 & H). rewrite Hs3 in H2. unfold mret in H2. injection H2 as <- <-. rewrite Hs4 in H.
  set (ex := map (fun kx => exchange t d (temps_of tb) (fst kx) (snd kx)) (combine (split_keys (split (split (split k 2 0) 2 0) 2 1) (length xs)) stepped)) in * .
  apply mbind_Ok in H as (u1 & w1 & H2 & H). unfold mret in H. injection H as <- <- <-.
  exists K, D, stepped, ex. repeat split; auto.
  destruct training.
  - apply mbind_Ok in H2 as (u2 & w2 & H3 & H4).
    apply buf_update_inv in H3 as (b0 & b1 & Hb0 & Hb1 & ->). rewrite HP2 in Hb0. injection Hb0 as <-.
    exists b1, (hset pl (OBuf b1) w). destruct u1. auto.
  - unfold mret in H2. injection H2 as _ <-. reflexivity.
Qed.

Lemma C41_proof pt k xs d w kern t pl pb tl tb training k' xs' w' :
  pt_setup w pt kern t pl pb tl tb training -> keeps_dim kern t d (length (nth 0 xs [])) ->
  (forall x, In x xs -> length x = length (nth 0 xs [])) ->
  parallel_tempering pt k xs d w = (Ok (k', xs'), w') ->
  exists after accs, length after = length xs /\ length accs = length xs /\ length xs' = length xs /\
    k' = split (split (split k 2 0) 2 0) 2 0 /\
    (forall c, c < length xs ->
       chain_update pt kern t d pb tb k xs c (nth c after []) (nth c accs []) (nth c xs' [])) /\
    if training then
      exists pb' tb', hget pl w' = Some (OBuf pb') /\ hget tl w' = Some (OBuf tb') /\
        same_header pb pb' /\ same_header tb tb' /\ rdict w' = rdict w /\
        (forall l, l <> pl -> l <> tl -> hget l w' = hget l w) /\
        (forall c j, c < length xs -> j < nth 1 (ashape (b_data pb)) 0 ->
           brow pb' (nth 2 (ashape (b_data pb)) 0) c j = nth (j + 1) (nth c after []) []) /\
        temps_of tb' = adapt_temperature (temps_of tb) accs
    else w' = w.
Proof.
  intros HS Hkd Hrect H. pose proof (pt_inv _ _ _ _ _ _ _ _ _ _ _ _ _ _ _ HS H) as (K & D & stepped & ex & Hsh & HD & Hk' & Hst & Hex & Hxs' & Htr).
  set (after := map (fun o => fst (fst o)) ex) in * . set (accs := map snd ex) in * .
  set (init := map2 cons xs (unstack3 (b_data pb))) in * .
  assert (Li : length init = length xs).
  { unfold init, unstack3. rewrite map2_length, map_length, seq_length, Hsh. cbn. lia. }
  pose proof (rmapM_length _ _ _ Hst) as Ls. rewrite combine_length, split_keys_length, Li, Nat.min_id in Ls.
  assert (Lx : length ex = length xs).
  { rewrite Hex, map_length, combine_length, split_keys_length. lia. }
  assert (La : length after = length xs) by (unfold after; rewrite map_length; auto).
  assert (Lc : length accs = length xs) by (unfold accs; rewrite map_length; auto).
  exists after, accs. split; auto. split; auto.
  assert (Lxs' : length xs' = length xs) by (rewrite Hxs', map_length; auto).
  split; auto. split; auto.
  (* per chain *)
  assert (HC : forall c, c < length xs ->
     exists sc kc, nth c stepped [] = sc /\ nth c ex ([], [], []) = exchange t d (temps_of tb) kc sc /\
       kc = split (split (split (split k 2 0) 2 0) 2 1) (length xs) c /\
       ensemble_step (pt_n_steps pt) kern t d (temps_of tb) (split (split (split k 2 0) 2 1) (length xs) c) (ensemble_before pb xs c) = Ok sc).
  { intros c Hc. exists (nth c stepped []), (split (split (split (split k 2 0) 2 0) 2 1) (length xs) c).
    split; auto. split; [|split; auto].
    - rewrite Hex. rewrite (nth_map' _ _ c (k, []) ([], [], [])) by (rewrite combine_length, split_keys_length; lia).
      rewrite combine_nth by (rewrite split_keys_length; lia). rewrite nth_split_keys by auto. reflexivity.
    - apply rmapM_Ok in Hst. apply (Forall2_nth' _ _ _ (k, []) [] c) in Hst; [|rewrite combine_length, split_keys_length; lia].
      rewrite combine_nth in Hst by (rewrite split_keys_length; lia). cbn [fst snd] in Hst.
      rewrite nth_split_keys in Hst by auto. unfold init in Hst. rewrite (ensemble_before_spec pb xs c _ _ _ Hsh eq_refl Hc) in Hst. exact Hst. }
  assert (HU : forall c, c < length xs ->
     chain_update pt kern t d pb tb k xs c (nth c after []) (nth c accs []) (nth c xs' []) /\
     Forall (fun v => length v = D) (nth c after [])).
  { intros c Hc. destruct (HC c Hc) as (sc & kc & E1 & E2 & E3 & E4).
    apply ensemble_step_moved in E4 as (L1 & L2 & Hmv).
    destruct (exchange t d (temps_of tb) kc sc) as [[ys lps] ac] eqn:Eex.
    pose proof Eex as Eex'. apply C38_proof in Eex' as (Hperm & _ & ens & Hsw).
    assert (Ea : nth c after [] = ys).
    { unfold after. rewrite (nth_map' _ _ c ([], [], []) []) by lia. rewrite E2. reflexivity. }
    assert (Ec : nth c accs [] = ac).
    { unfold accs. rewrite (nth_map' _ _ c ([], [], []) []) by lia. rewrite E2. reflexivity. }
    assert (Ex : nth c xs' [] = nth 0 ys []).
    { rewrite Hxs'. rewrite (nth_map' _ _ c [] []) by lia. rewrite Ea. destruct ys; reflexivity. }
    rewrite Ea, Ec, Ex. split.
    - split; auto. split. { rewrite <- (Permutation_length Hperm). auto. }
      exists sc, ens. split; auto. split; [exact Hmv|]. split; [|auto]. rewrite <- E3. exact Hsw.
    - eapply Permutation_Forall; [exact Hperm|]. apply Forall_forall. intros v Hv.
      apply (In_nth _ _ []) in Hv as (j & Hj & <-). rewrite L2 in Hj.
      rewrite <- HD in Hkd. apply (moved_dim _ _ _ _ _ _ _ _ _ Hkd) with (2 := Hmv j Hj).
      unfold ensemble_before. rewrite Hsh. cbn [nth]. destruct j as [|j].
      + rewrite HD. apply Hrect. apply nth_In; auto.
      + unfold ensemble_before in L1. rewrite Hsh in L1. cbn [nth length] in L1. rewrite map_length, seq_length in L1.
        rewrite nth_map_seq by lia. unfold brow. rewrite map_length, seq_length. auto. }
  split; [intros c Hc; apply HU; auto|].
  destruct training; [|exact Htr].
  destruct Htr as (pb' & w1 & Hu1 & Hw1 & Hu2).
  apply buf_update_inv in Hu2 as (b0 & tb' & Hb0 & Hu2 & Hw').
  destruct HS as [_ _ [HP1 HP2] [HT1 HT2] _].
  pose proof (update_buffer_fits _ _ _ _ Hu1) as F1. pose proof (update_buffer_fits _ _ _ _ Hu2) as F2.
  assert (Hne : pl <> tl).
  { intros <-. rewrite Hw1, (hget_hset_eq _ _ _ _ HP2) in Hb0. injection Hb0 as <-.
    destruct F2 as (_ & F2 & _). cbn in F2. pose proof (C02_shape_proof _ _ _ _ Hu1) as (Eh & _).
    rewrite Eh, Hsh in F2. discriminate. }
  rewrite Hw1, hget_hset_neq, HT2 in Hb0 by auto. injection Hb0 as <-.
  exists pb', tb'.
  split. { rewrite Hw', hget_hset_neq by auto. rewrite Hw1. eapply hget_hset_eq; eauto. }
  split. { rewrite Hw'. apply (hget_hset_eq _ _ (OBuf tb)). rewrite Hw1, hget_hset_neq by auto. auto. }
  pose proof (C02_shape_proof _ _ _ _ Hu1) as H1. pose proof (C02_shape_proof _ _ _ _ Hu2) as H2.
  split; auto. split; auto.
  split. { rewrite Hw', Hw1, !rdict_hset. auto. }
  split. { intros l Hl1 Hl2. rewrite Hw', hget_hset_neq, Hw1, hget_hset_neq by auto. auto. }
  assert (NS : forall a b, norm_start 0 a b = 0) by (intros; unfold norm_start; cbn; lia).
  split.
  - intros c j Hc Hj. rewrite Hsh in Hj |- * . cbn [nth] in Hj |- * .
    destruct (HU c Hc) as [(Q1 & Q2 & _) HF].
    assert (Lb : length (nth c after []) = S K).
    { rewrite Q2, <- Q1. unfold ensemble_before. rewrite Hsh. cbn [nth length]. rewrite map_length, seq_length. auto. }
    assert (LD : length (nth (j + 1) (nth c after []) []) = D).
    { rewrite Forall_forall in HF. apply HF, nth_In. lia. }
    destruct (update_written pb _ 0 F1) as (b'' & E & _ & W1 & _). rewrite E in Hu1. injection Hu1 as ->.
    rewrite NS in W1.
    assert (Esh : ashape (stack3 (map (@List.tl vec) after)) = [length xs; K; D]).
    { assert (H0 : 0 < length xs) by lia. destruct (HU 0 H0) as [(Q01 & Q02 & _) HF0].
      assert (L0 : length (nth 0 after []) = S K).
      { rewrite Q02, <- Q01. unfold ensemble_before. rewrite Hsh. cbn [nth length]. rewrite map_length, seq_length. auto. }
      unfold stack3. cbn [ashape]. rewrite map_length, La.
      rewrite (nth_map' _ _ 0 [] []) by lia. destruct (nth 0 after []) as [|v vs] eqn:E0; [discriminate|]. cbn [List.tl].
      cbn [length] in L0. injection L0 as L0. rewrite L0. f_equal. f_equal. f_equal.
      destruct vs as [|v2 vs]; [cbn in L0; lia|]. cbn [nth].
      inversion HF0 as [|? ? _ HF1]. inversion HF1; auto. }
    unfold brow. apply (list_eq_nth f0); [rewrite map_length, seq_length; auto|].
    rewrite map_length, seq_length. intros i Hi. rewrite nth_map_seq by auto.
    rewrite (W1 [c; j; i] [c; j; i]); [| rewrite Esh; apply valid_index3; auto | apply shifted_0].
    cbn [aget stack3]. rewrite (nth_map' _ _ c [] []) by lia.
    destruct (nth c after []) as [|v vs]; [cbn in Lb; lia|]. cbn [List.tl]. rewrite Nat.add_1_r. reflexivity.
  - destruct (update_written tb _ 0 F2) as (b'' & E & _ & W1 & _). rewrite E in Hu2. injection Hu2 as ->.
    rewrite NS in W1. destruct H2 as (H2 & _).
    destruct (adapt_ends (temps_of tb) accs) as (Ll & _ & _).
    assert (Lt : length (temps_of tb) = nth 0 (ashape (b_data tb)) 0) by (unfold temps_of; rewrite map_length, seq_length; auto).
    apply (list_eq_nth f0).
    { unfold temps_of at 1. rewrite map_length, seq_length, H2, Ll, Lt. auto. }
    unfold temps_of at 1 2. rewrite map_length, seq_length, H2. intros i Hi. rewrite nth_map_seq by auto.
    rewrite (W1 [i] [i]); [reflexivity| |apply shifted_0]. cbn [ashape stack1]. apply valid_index1.
    fold accs. rewrite Ll, Lt. auto.
Qed.
End PTcall.
