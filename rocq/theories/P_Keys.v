(** Proofs about random streams. *)
From Verif Require Import Prelude Num M_Core M_Kernels M_Strategies M_PT M_Bundle P_Lists Spec_Sampler P_Sampler
  P_Steps P_Train P_PT5 Spec_Steps Spec_Bundle M_Mala Spec_Keys.

Section Keys.
Context {N : Num}.

(* ------------------------------------------------------------------ paths *)
Lemma below_refl k : below k k. Proof. exists []. reflexivity. Qed.
Lemma below_cons k i : below k (i :: k). Proof. exists [i]. reflexivity. Qed.
Lemma below_trans a b c : below a b -> below b c -> below a c.
Proof. intros [s ->] [s' ->]. exists (s' ++ s). apply app_assoc. Qed.
Lemma below_cons' k p i : below (i :: k) p -> below k p.
Proof. apply below_trans, below_cons. Qed.
Lemma below_cons_r k p i : below k p -> below k (i :: p).
Proof. intros H. eapply below_trans; [exact H|apply below_cons]. Qed.
Lemma apart_sym a b : apart a b -> apart b a. Proof. intros H p [A B]. apply (H p); auto. Qed.
Lemma apart_below a b a' b' : apart a b -> below a a' -> below b b' -> apart a' b'.
Proof. intros H Ha Hb p [A B]. apply (H p). split; eapply below_trans; eauto. Qed.
Lemma apart_siblings k i j : i <> j -> apart (i :: k) (j :: k).
Proof.
  intros H p [[s A] [s' B]]. rewrite B in A. clear B.
  assert (L : length s' = length s). { apply (f_equal (@length _)) in A. rewrite !app_length in A. cbn in A. lia. }
  change (i :: k) with ([i] ++ k) in A. change (j :: k) with ([j] ++ k) in A. rewrite !app_assoc in A.
  apply app_inv_tail in A. apply app_inj_tail in A as [_ A]. auto.
Qed.
(** Same index first, then different subtrees. *)
Lemma below_apart a b i j : forall s s', i <> j -> a = s ++ i :: b -> forall c, c = s' ++ j :: b -> apart a c.
Proof.
  intros s s' Hij -> c ->. eapply apart_below; [apply (apart_siblings b i j Hij)| |]; eexists; reflexivity.
Qed.

Lemma repeat0_below n k : below k (repeat 0 n ++ k). Proof. eexists; reflexivity. Qed.
Lemma step_key_below k i : below k (step_key k i). Proof. exists (1 :: repeat 0 i). reflexivity. Qed.
Lemma repeat_snoc n (k : path) : repeat 0 (S n) ++ k = repeat 0 n ++ 0 :: k.
Proof. induction n as [|n IH]; [reflexivity|]. change (0 :: repeat 0 (S n) ++ k = 0 :: repeat 0 n ++ 0 :: k). f_equal. exact IH. Qed.
Lemma step_key_S k i : step_key k (S i) = step_key (0 :: k) i.
Proof. unfold step_key. now rewrite repeat_snoc. Qed.
Lemma step_key_apart_carry k i j : i < j -> apart (step_key k i) (repeat 0 j ++ k).
Proof.
  intros H. apply (below_apart _ (repeat 0 i ++ k) 1 0 [] (repeat 0 (j - i - 1))); [discriminate|reflexivity|].
  replace j with ((j - i - 1) + S i) at 1 by lia. rewrite repeat_app, <- app_assoc. reflexivity.
Qed.
Lemma step_keys_apart k i j : i <> j -> apart (step_key k i) (step_key k j).
Proof.
  assert (A : forall i j, i < j -> apart (step_key k i) (step_key k j)).
  { intros i0 j0 H. eapply apart_below; [apply (step_key_apart_carry k i0 j0 H)|apply below_refl|]. apply below_cons. }
  intros H. destruct (Nat.lt_ge_cases i j); [auto|]. apply apart_sym, A. lia.
Qed.

Lemma all_apart_app l1 l2 : all_apart l1 -> all_apart l2 -> (forall a b, In a l1 -> In b l2 -> apart a b) -> all_apart (l1 ++ l2).
Proof.
  induction 1 as [|k l H1 H2 IH]; intros A B; [exact A|]. cbn. constructor.
  - intros k' Hk. apply in_app_iff in Hk as [Hk|Hk]; [auto|]. apply B; cbn; auto.
  - apply IH; auto. intros; apply B; cbn; auto.
Qed.
Lemma all_apart_map (f : nat -> path) n : (forall i j, i <> j -> apart (f i) (f j)) -> forall a, all_apart (map f (seq a n)).
Proof.
  intros H. induction n as [|n IH]; intros a; cbn; constructor; auto.
  intros k' Hk. apply in_map_iff in Hk as (j & <- & Hj). apply in_seq in Hj. apply H. lia.
Qed.

(* ------------------------------------------------------------------ draws *)
Lemma same_weaken (P Q : path -> Prop) t t' : same_draws P t t' -> (forall p, Q p -> P p) -> same_draws Q t t'.
Proof. intros H HQ p Hp. auto. Qed.
Lemma reads_weaken {A} (P Q : path -> Prop) (f : tape -> A) : reads P f -> (forall p, P p -> Q p) -> reads Q f.
Proof. intros H HQ t t' S. apply H. eapply same_weaken; eauto. Qed.
Lemma same_sym P (t t' : tape) : same_draws P t t' -> same_draws P t' t.
Proof. intros H p Hp. destruct (H p Hp) as (?&?&?&?&?). auto. Qed.

Lemma C49_kernel_proof (kf : kernel_family) k x lp f d : in_repo kf ->
  reads (fun p => p = 0 :: k \/ p = 1 :: k) (fun t => kf t k x lp f d) /\
  forall t t' y l y' l', same_draws (eq (0 :: k)) t t' ->
    kf t k x lp f d = Ok (y, l, true) -> kf t' k x lp f d = Ok (y', l', true) -> y' = y /\ l' = l.
Proof.
  intros [[ss ->]|[[ss ->]|[(chol & dt & ->)|[h ->]]]].
  - split.
    + intros t t' S. unfold grw_kernel, mh_accept. cbn [split tape_rng normal uniform].
      destruct (S (0 :: k) (or_introl eq_refl)) as (-> & _). destruct (S (1 :: k) (or_intror eq_refl)) as (_ & _ & -> & _). reflexivity.
    + intros t t' y l y' l' S. unfold grw_kernel, mh_accept. cbn [split tape_rng normal uniform].
      destruct (S (0 :: k) eq_refl) as (-> & _).
      destruct (grw_move _ _) as [mv|]; cbn [rbind]; [|discriminate]. intros A B. injection A as A1 A2 A3. injection B as B1 B2 B3.
      rewrite A3 in A1, A2. rewrite B3 in B1, B2. split; congruence.
  - split.
    + intros t t' S. unfold mala_kernel, mh_accept. cbn [split tape_rng normal uniform].
      destruct (S (0 :: k) (or_introl eq_refl)) as (-> & _). destruct (S (1 :: k) (or_intror eq_refl)) as (_ & _ & -> & _). reflexivity.
    + intros t t' y l y' l' S. unfold mala_kernel, mh_accept. cbn [split tape_rng normal uniform].
      destruct (S (0 :: k) eq_refl) as (-> & _).
      destruct ss; [|discriminate|]; cbn [negb].
      * destruct (mala_ratio _ _ _ _ _) as [r|]; cbn [rbind]; [|discriminate]. intros A B.
        injection A as A1 A2 A3. injection B as B1 B2 B3. rewrite A3 in A1, A2. rewrite B3 in B1, B2. split; congruence.
      * destruct (negb _); [discriminate|].
        destruct (mala_ratio _ _ _ _ _) as [r|]; cbn [rbind]; [|discriminate]. intros A B.
        injection A as A1 A2 A3. injection B as B1 B2 B3. rewrite A3 in A1, A2. rewrite B3 in B1, B2. split; congruence.
  - split.
    + intros t t' S. unfold mat_mala_kernel, mh_accept. cbn [split tape_rng normal uniform].
      destruct (S (0 :: k) (or_introl eq_refl)) as (-> & _). destruct (S (1 :: k) (or_intror eq_refl)) as (_ & _ & -> & _). reflexivity.
    + intros t t' y l y' l' S. unfold mat_mala_kernel, mh_accept. cbn [split tape_rng normal uniform].
      destruct (S (0 :: k) eq_refl) as (-> & _).
      destruct (square dt (length x)); [|discriminate]. intros A B.
      injection A as A1 A2 A3. injection B as B1 B2 B3. rewrite A3 in A1, A2. rewrite B3 in B1, B2. split; congruence.
  - split.
    + intros t t' S. unfold hmc_kernel, mh_accept. cbn [split tape_rng normal uniform].
      destruct (S (0 :: k) (or_introl eq_refl)) as (-> & _). destruct (S (1 :: k) (or_intror eq_refl)) as (_ & _ & -> & _). reflexivity.
    + intros t t' y l y' l' S. unfold hmc_kernel, mh_accept. cbn [split tape_rng normal uniform].
      destruct (S (0 :: k) eq_refl) as (-> & _).
      destruct (h_cond h) as [|m]; [discriminate|]. destruct (square m (length x)); [|discriminate]. intros A B.
      injection A as A1 A2 A3. injection B as B1 B2 B3. rewrite A3 in A1, A2. rewrite B3 in B1, B2. split; congruence.
Qed.
Lemma kernel_below (kf : kernel_family) : in_repo kf -> forall k x lp f d, reads (below k) (fun t => kf t k x lp f d).
Proof.
  intros H k x lp f d. eapply reads_weaken; [apply C49_kernel_proof; auto|]. intros p [->| ->]; apply below_cons.
Qed.

(* ------------------------------------------------------------------ chains of one-step kernels *)
Lemma scan_reads (kf : kernel_family) f d : (forall k x lp, reads (below k) (fun t => kf t k x lp f d)) ->
  forall n k x lp, reads (fun p => exists i, i < n /\ below (step_key k i) p)
    (fun t => @serial_scan N (tape_rng t) (kf t) f d n k x lp).
Proof.
  intros Hk. induction n as [|n IH]; intros k x lp t t' S; [reflexivity|]. cbn [serial_scan].
  change (@split N (tape_rng t) k 2 1) with (1 :: k). change (@split N (tape_rng t') k 2 1) with (1 :: k).
  change (@split N (tape_rng t) k 2 0) with (0 :: k). change (@split N (tape_rng t') k 2 0) with (0 :: k).
  rewrite (Hk (1 :: k) x lp t t').
  2: { eapply same_weaken; [exact S|]. intros p Hp. exists 0. split; [lia|exact Hp]. }
  destruct (kf t' (1 :: k) x lp f d) as [[[x' lp'] acc]|e]; cbn [rbind]; [|reflexivity].
  rewrite (IH (0 :: k) x' lp' t t'); [reflexivity|].
  eapply same_weaken; [exact S|]. intros p (i & Hi & Hp). exists (Datatypes.S i). split; [lia|]. rewrite step_key_S. exact Hp.
Qed.
Lemma scan_prefix (kf : kernel_family) f d : (forall k x lp, reads (below k) (fun t => kf t k x lp f d)) ->
  forall j n k x lp t t' out out', same_draws (fun p => exists i, i <= j /\ below (step_key k i) p) t t' ->
    @serial_scan N (tape_rng t) (kf t) f d n k x lp = Ok out -> @serial_scan N (tape_rng t') (kf t') f d n k x lp = Ok out' ->
    nth_error out j = nth_error out' j.
Proof.
  intros Hk. induction j as [|j IH]; intros n k x lp t t' out out' S H H'; (destruct n as [|n]; cbn [serial_scan] in H, H';
    [injection H as <-; injection H' as <-; reflexivity|]);
  change (@split N (tape_rng t) k 2 1) with (1 :: k) in H; change (@split N (tape_rng t') k 2 1) with (1 :: k) in H';
  change (@split N (tape_rng t) k 2 0) with (0 :: k) in H; change (@split N (tape_rng t') k 2 0) with (0 :: k) in H';
  (rewrite (Hk (1 :: k) x lp t t') in H by (eapply same_weaken; [exact S|]; intros p Hp; exists 0; split; [lia|exact Hp]));
  (destruct (kf t' (1 :: k) x lp f d) as [[[x' lp'] acc]|e]; cbn [rbind] in H, H'; [|discriminate]);
  (destruct (@serial_scan N (tape_rng t) (kf t) f d n (0 :: k) x' lp') as [r|e] eqn:E; cbn [rbind] in H; [|discriminate]);
  (destruct (@serial_scan N (tape_rng t') (kf t') f d n (0 :: k) x' lp') as [r'|e] eqn:E'; cbn [rbind] in H'; [|discriminate]);
  injection H as <-; injection H' as <-; [reflexivity|]. cbn [nth_error].
  apply (IH n (0 :: k) x' lp' t t'); auto. eapply same_weaken; [exact S|]. intros p (i & Hi & Hp). exists (Datatypes.S i). split; [lia|].
  rewrite step_key_S. exact Hp.
Qed.

Lemma C49_serial_proof (kf : kernel_family) f d n k x : in_repo kf ->
  reads (fun p => exists i, i < n /\ below (step_key k i) p) (fun t => @serial_sample N (tape_rng t) (kf t) f d n k x) /\
  (forall j t t' out out', same_draws (fun p => exists i, i <= j /\ below (step_key k i) p) t t' ->
     @serial_sample N (tape_rng t) (kf t) f d n k x = Ok out -> @serial_sample N (tape_rng t') (kf t') f d n k x = Ok out' ->
     nth_error out j = nth_error out' j) /\
  (forall i j, i <> j -> apart (step_key k i) (step_key k j)).
Proof.
  intros Hr. assert (Hk : forall k x lp, reads (below k) (fun t => kf t k x lp f d)) by (intros; apply kernel_below; auto).
  split; [|split].
  - intros t t' S. unfold serial_sample. apply (scan_reads kf f d Hk n k x (lp_val f x d) t t' S).
  - intros j t t' out out' S. apply (scan_prefix kf f d Hk). exact S.
  - intros. now apply step_keys_apart.
Qed.

(* ------------------------------------------------------------------ chains of the flow kernel *)
Section Flow.
Context {M O T : Type} (logp : M -> vec -> F) (samp : tape -> M -> path -> nat -> list vec)
  (step : M -> list vec -> T -> O -> F * M * O) (stats : M -> list vec -> M).
Hypothesis Hsamp : forall m k n, reads (below k) (fun t => samp t m k n).
Notation nf := (tape_nf logp samp step stats).

Lemma flow_batches_reads m ns : forall nb k, reads (below k) (fun t => @flow_batches N (tape_rng t) (nf t) m k nb ns).
Proof.
  induction nb as [|nb IH]; intros k t t' S; [reflexivity|]. cbn [flow_batches].
  change (samp t m (1 :: k) ns :: @flow_batches N (tape_rng t) (nf t) m (0 :: k) nb ns =
          samp t' m (1 :: k) ns :: @flow_batches N (tape_rng t') (nf t') m (0 :: k) nb ns).
  rewrite (Hsamp m (1 :: k) ns t t'), (IH (0 :: k) t t'); auto; eapply same_weaken; eauto; intros p; apply below_cons'.
Qed.
Lemma sample_flow_reads m bs k n :
  reads (below k) (fun t => @sample_flow N (tape_rng t) (nf t) (@mkNfp N (tape_rng t) (nf t) m bs) k n).
Proof.
  intros t t' S. unfold sample_flow. cbn [nfp_bs nfp_model].
  destruct (bs <? n).
  - destruct (bs =? 0); [reflexivity|]. rewrite (flow_batches_reads m (cdiv n (cdiv n bs)) (cdiv n bs) k t t' S). reflexivity.
  - change (@m_sample N (tape_rng t) (nf t) m k n) with (samp t m k n). change (@m_sample N (tape_rng t') (nf t') m k n) with (samp t' m k n).
    rewrite (Hsamp m k n t t' S). reflexivity.
Qed.
Lemma nfp_scan_reads : forall props k pos lp lpnf,
  reads (fun p => exists i, i < length props /\ p = step_key k i) (fun t => @nfp_scan N (tape_rng t) k pos lp lpnf props).
Proof.
  induction props as [|[[y ly] nfy] props IH]; intros k pos lp lpnf t t' S; [reflexivity|]. cbn [nfp_scan].
  unfold mh_accept. cbn [split tape_rng uniform].
  destruct (S (1 :: k)) as (_ & _ & -> & _). { exists 0. split; [cbn; lia|reflexivity]. }
  f_equal. apply (IH (0 :: k) _ _ _ t t'). eapply same_weaken; [exact S|]. intros p (i & Hi & ->). exists (Datatypes.S i).
  split; [cbn; lia|]. symmetry. apply step_key_S.
Qed.
Lemma nfp_scan_accepted t : forall props k pos lp lpnf j y l,
  nth_error (@nfp_scan N (tape_rng t) k pos lp lpnf props) j = Some (y, l, true) ->
  exists q, nth_error props j = Some (y, l, q).
Proof.
  induction props as [|[[y0 ly] nfy] props IH]; intros k pos lp lpnf j y l H; [destruct j; discriminate|].
  cbn [nfp_scan] in H. destruct j as [|j]; cbn [nth_error] in H.
  - injection H as H1 H2 H3. exists nfy. rewrite H3 in H1, H2. cbn. now rewrite H1, H2.
  - apply IH in H. exact H.
Qed.
Lemma nfp_scan_length t : forall props k pos lp lpnf, length (@nfp_scan N (tape_rng t) k pos lp lpnf props) = length props.
Proof. induction props as [|[[y0 ly] nfy] props IH]; intros; cbn; auto. Qed.

Lemma C49_flow_proof m bs f d n k x :
  let chain t := @group_sample N (tape_rng t) (nf t) (@mkNfp N (tape_rng t) (nf t) m bs) f d n k x in
  reads (fun p => below (1 :: k) p \/ exists i, p = step_key (0 :: k) i) chain /\
  (forall j t t' out out' y l y' l', same_draws (below (1 :: k)) t t' -> chain t = Ok out -> chain t' = Ok out' ->
     nth_error out j = Some (y, l, true) -> nth_error out' j = Some (y', l', true) -> y' = y /\ l' = l) /\
  (forall i j, apart (1 :: k) (step_key (0 :: k) i) /\ (i <> j -> apart (step_key (0 :: k) i) (step_key (0 :: k) j))).
Proof.
  intros chain.
  assert (E : forall t, chain t =
    let* (props, nfs) := @sample_flow N (tape_rng t) (nf t) (@mkNfp N (tape_rng t) (nf t) m bs) (1 :: k) (Z.to_nat (Z.of_nat n)) in
    Ok (@nfp_scan N (tape_rng t) (0 :: k) x (lp_val f x d) (logp m x)
         (combine (combine props (batched_logpdf bs (Z.to_nat (Z.of_nat n)) (fun y => lp_val f y (with_n_steps d n)) props)) nfs))).
  { intros t. unfold chain, group_sample, nfp_kernel. unfold with_n_steps at 1. rewrite dget_dset_eq. reflexivity. }
  split; [|split].
  - intros t t' S. rewrite !E.
    rewrite (sample_flow_reads m bs (1 :: k) (Z.to_nat (Z.of_nat n)) t t') by (eapply same_weaken; [exact S|]; intros p Hp; left; exact Hp).
    destruct (@sample_flow N (tape_rng t') (nf t') _ (1 :: k) (Z.to_nat (Z.of_nat n))) as [[props nfs]|e]; cbn [rbind]; [|reflexivity].
    f_equal. apply (nfp_scan_reads _ (0 :: k) _ _ _ t t'). eapply same_weaken; [exact S|]. intros p (i & _ & Hp). right. eauto.
  - intros j t t' out out' y l y' l' S H H' A A'. rewrite E in H, H'.
    rewrite (sample_flow_reads m bs (1 :: k) (Z.to_nat (Z.of_nat n)) t t' S) in H.
    destruct (@sample_flow N (tape_rng t') (nf t') _ (1 :: k) (Z.to_nat (Z.of_nat n))) as [[props nfs]|e]; cbn [rbind] in H, H'; [|discriminate].
    injection H as <-. injection H' as <-. apply nfp_scan_accepted in A as [q Eq], A' as [q' Eq']. rewrite Eq in Eq'. injection Eq' as -> -> _. auto.
  - intros i j. split.
    + eapply apart_below; [apply (apart_siblings k 1 0); discriminate|apply below_refl|apply step_key_below].
    + intros H. now apply step_keys_apart.
Qed.

(* ------------------------------------------------------------------ training *)
Lemma epoch_reads m k tx st data bs :
  reads (A := res (F * M * O)) (eq k) (fun t => @train_epoch N (tape_rng t) (nf t) m k tx st data bs).
Proof.
  intros t t' S. unfold train_epoch, epoch_batches. destruct (bs =? 0); [reflexivity|]. destruct (0 <? _); [|reflexivity].
  change (@permutation N (tape_rng t) k) with (t_perm t k). change (@permutation N (tape_rng t') k) with (t_perm t' k).
  destruct (S k eq_refl) as (_ & _ & _ & -> & _).
  assert (E : forall bt v m0 st0, @epoch_loop N (tape_rng t) (nf t) m0 tx st0 v bt = @epoch_loop N (tape_rng t') (nf t') m0 tx st0 v bt).
  { induction bt as [|b bt IH]; intros v m0 st0; [reflexivity|]. cbn [epoch_loop].
    change (@m_step N (tape_rng t) (nf t) m0 b tx st0) with (step m0 b tx st0).
    change (@m_step N (tape_rng t') (nf t') m0 b tx st0) with (step m0 b tx st0).
    destruct (step m0 b tx st0) as [[v' m'] st']. apply IH. }
  now rewrite E.
Qed.
Lemma loop_reads {S : Type} (ep : tape -> path -> S -> res (F * S)) :
  (forall k c, reads (eq k) (fun t => ep t k c)) ->
  forall n k cur best bl, reads (fun p => exists e, e < n /\ p = step_key k e)
    (fun t => @best_epoch_loop N (tape_rng t) S (ep t) n k cur best bl : res (path * S * list F)).
Proof.
  intros He. induction n as [|n IH]; intros k cur best bl t t' Sm; [reflexivity|]. cbn [best_epoch_loop].
  change (@split N (tape_rng t) k 2 1) with (1 :: k). change (@split N (tape_rng t') k 2 1) with (1 :: k).
  change (@split N (tape_rng t) k 2 0) with (0 :: k). change (@split N (tape_rng t') k 2 0) with (0 :: k).
  rewrite (He (1 :: k) cur t t') by (eapply same_weaken; [exact Sm|]; intros p <-; exists 0; split; [lia|reflexivity]).
  destruct (ep t' (1 :: k) cur) as [[v cur']|e]; cbn [rbind]; [|reflexivity].
  rewrite (IH (0 :: k) cur' (if v <.? bl then cur' else best) (if v <.? bl then v else bl) t t'); [reflexivity|].
  eapply same_weaken; [exact Sm|]. intros p (e & Hlt & ->). exists (Datatypes.S e). split; [lia|]. symmetry. apply step_key_S.
Qed.
Lemma C49_train_proof m k data tx st n bs :
  reads (A := res (path * (M * O) * list F)) (fun p => exists e, e < n /\ p = step_key k e) (fun t => @train N (tape_rng t) (nf t) m k data tx st n bs) /\
  (forall t k' ms ls, @train N (tape_rng t) (nf t) m k data tx st n bs = Ok (k', ms, ls) ->
     k' = repeat 0 n ++ k /\ forall e, e < n -> apart (step_key k e) k').
Proof.
  split.
  - refine (loop_reads (fun t k' ms => rmap (fun o => (fst (fst o), (snd (fst o), snd o)))
                       (@train_epoch N (tape_rng t) (nf t) (fst ms) k' tx (snd ms) data bs : res (F * M * O))) _ n k (stats m data, st) (m, st) (big_loss (N:=N))).
    intros k0 [m0 s0] t t' S. exact (f_equal (rmap (fun o : F * M * O => (fst (fst o), (snd (fst o), snd o)))) (epoch_reads m0 k0 tx s0 data bs t t' S)).
  - intros t k' ms ls H. unfold train in H. destruct ms as [m' st']. apply best_epoch_loop_key in H.
    assert (E : forall n (k : path), iter n (fun q => @split N (tape_rng t) q 2 0) k = repeat 0 n ++ k).
    { clear. induction n as [|n IH]; intros k; [reflexivity|]. cbn [iter]. rewrite IH. change (repeat 0 n ++ 0 :: k = repeat 0 (S n) ++ k). now rewrite repeat_snoc. }
    rewrite E in H. subst k'. split; [reflexivity|]. intros e He. now apply step_key_apart_carry.
Qed.
End Flow.

(* ------------------------------------------------------------------ tempering *)
Lemma individual_reads (kf : kernel_family) tp d n k x temp : in_repo kf ->
  reads (below k) (fun t => @individual_step N (tape_rng t) n (kf t) tp d k x temp).
Proof.
  intros Hr t t' S. unfold individual_step.
  rewrite (scan_reads kf (tempered_lpdf tp temp) d) with (t' := t'); [reflexivity|intros; apply kernel_below; auto|].
  eapply same_weaken; [exact S|]. intros p (i & _ & Hp). eapply below_trans; [apply step_key_below|exact Hp].
Qed.
Lemma C49_tempered_proof (kf : kernel_family) tp d n temps k : in_repo kf ->
  (forall t t' xs xs' ys ys' j, length xs = length xs' -> same_draws (below (j :: k)) t t' -> nth_error xs j = nth_error xs' j ->
     @ensemble_step N (tape_rng t) n (kf t) tp d temps k xs = Ok ys ->
     @ensemble_step N (tape_rng t') n (kf t') tp d temps k xs' = Ok ys' -> nth_error ys j = nth_error ys' j) /\
  (forall xs, reads (fun p => exists i, i + 1 < length xs /\ p = step_key k i) (fun t => @exchange N (tape_rng t) tp d temps k xs)).
Proof.
  intros Hr. split.
  - intros t t' xs xs' ys ys' j Hl S Hj H H'. unfold ensemble_step in H, H'.
    destruct (Nat.eqb_spec (length xs) (length temps)) as [E|]; [|discriminate]. destruct (Nat.eqb_spec (length xs') (length temps)) as [E'|]; [|discriminate].
    pose proof (rmapM_length _ _ _ H) as L. pose proof (rmapM_length _ _ _ H') as L'.
    apply rmapM_Ok in H. apply rmapM_Ok in H'.
    assert (Ls : forall (t0 : tape) (zs : list vec), length zs = length temps ->
      length (combine (combine (@split_keys N (tape_rng t0) k (length zs)) zs) temps) = length temps).
    { intros t0 zs Hz. pose proof (@split_keys_length N (tape_rng t0) k (length zs)) as Q.
      etransitivity; [apply combine_length|]. etransitivity; [|apply Nat.min_id]. f_equal.
      etransitivity; [apply combine_length|]. etransitivity; [|apply Nat.min_id]. f_equal; [exact (eq_trans Q Hz)|exact Hz]. }
    pose proof (eq_trans L (Ls t xs E)) as L1. pose proof (eq_trans L' (Ls t' xs' E')) as L1'.
    destruct (Nat.lt_ge_cases j (length ys)) as [Hlt|Hge].
    2: { transitivity (@None (list F)); [|symmetry]; apply nth_error_None; lia. }
    assert (Lx : forall (t0 : tape) (zs : list vec), length zs = length temps -> j < length zs ->
       nth j (combine (combine (@split_keys N (tape_rng t0) k (length zs)) zs) temps) (((@nil nat : path), (@nil F)), f0) = ((j :: k, nth j zs []), nth j temps f0)).
    { intros t0 zs Lz Hz. pose proof (@split_keys_length N (tape_rng t0) k (length zs)) as Q.
      assert (Q2 : length (combine (@split_keys N (tape_rng t0) k (length zs)) zs) = length temps).
      { etransitivity; [apply combine_length|]. etransitivity; [|apply Nat.min_id]. f_equal; [exact (eq_trans Q Lz)|exact Lz]. }
      rewrite combine_nth by exact Q2. rewrite combine_nth by exact Q.
      f_equal. f_equal. exact (@nth_split_keys N (tape_rng t0) k (length zs) j [] Hz). }
    assert (Hj1 : j < length xs) by lia. assert (Hj2 : j < length xs') by lia.
    eapply (Forall2_nth' _ _ _ (((@nil nat : path), (@nil F)), f0) [] j) in H; [|refine (eq_ind_r (lt j) _ (Ls t xs E)); lia].
    eapply (Forall2_nth' _ _ _ (((@nil nat : path), (@nil F)), f0) [] j) in H'; [|refine (eq_ind_r (lt j) _ (Ls t' xs' E')); lia].
    rewrite (Lx t) in H by auto. rewrite (Lx t') in H' by auto. cbn [fst snd] in H, H'.
    assert (Ex : nth j xs [] = nth j xs' []).
    { erewrite !(nth_error_nth' _ []) in Hj by auto. congruence. }
    rewrite (individual_reads kf tp d n (j :: k) (nth j xs []) (nth j temps f0) Hr t t' S), Ex in H.
    rewrite !(nth_error_nth' _ []) by lia. congruence.
  - intros xs t t' S. unfold exchange.
    assert (A : forall m i k xs lps, same_draws (fun p => exists i, i < m /\ p = step_key k i) t t' ->
       @exchange_scan N (tape_rng t) temps m i k xs lps = @exchange_scan N (tape_rng t') temps m i k xs lps).
    { clear. induction m as [|m IH]; intros i k xs lps S; [reflexivity|]. cbn [exchange_scan]. unfold mh_accept. cbn [split tape_rng uniform].
      destruct (S (1 :: k)) as (_ & _ & -> & _). { exists 0. split; [lia|reflexivity]. }
      rewrite (IH (i + 1) (0 :: k)); [reflexivity|]. eapply same_weaken; [exact S|]. intros p (i0 & Hi & ->). exists (Datatypes.S i0). split; [lia|].
      symmetry. apply step_key_S. }
    apply A. eapply same_weaken; [exact S|]. intros p (i & Hi & ->). exists i. split; [lia|reflexivity].
Qed.

(* ------------------------------------------------------------------ chains of a stepping call *)
Lemma C49_chains_proof (samp : tape -> nat -> path -> vec -> res (list (vec * F * bool))) n th (k : path) i
  (t t' : tape) (xs xs' : list vec) out out' ys ys' :
  (forall k x, reads (below k) (fun t => samp t n k x)) ->
  same_draws (below (i :: 1 :: k)) t t' -> length xs = length xs' -> i < length xs -> nth i xs [] = nth i xs' [] ->
  @chains_run N (tape_rng t) (samp t) n th k xs out ys -> @chains_run N (tape_rng t') (samp t') n th k xs' out' ys' ->
  nth i out [] = nth i out' [] /\ nth i ys [] = nth i ys' [].
Proof.
  intros Hs S L Hi Hx (L1 & L2 & H) (L1' & L2' & H'). destruct (H i Hi) as (A & B & C). destruct (H' i ltac:(lia)) as (A' & B' & C').
  rewrite <- Hx in A'.
  change (samp t n (i :: 1 :: k) (nth i xs []) = Ok (nth i out [])) in A.
  change (samp t' n (i :: 1 :: k) (nth i xs []) = Ok (nth i out' [])) in A'.
  rewrite (Hs _ _ t t' S) in A. rewrite A in A'. injection A' as E. split; [exact E|]. rewrite <- E in C'.
  destruct C as (o & Ho & ->), C' as (o' & Ho' & ->). congruence.
Qed.

(* ------------------------------------------------------------------ calls *)
Lemma chain_roots_ok k n : all_apart (chain_roots k n) /\ (forall p, In p (chain_roots k n) -> below (1 :: k) p).
Proof.
  split.
  - apply all_apart_map. intros i j H. now apply apart_siblings.
  - intros p Hp. apply in_map_iff in Hp as (i & <- & _). apply below_cons.
Qed.
Section Calls.
Context {t : tape} {NF : @NFOps N (tape_rng t)}.
Let ZZ := tape_rng t.
Existing Instance ZZ.

Lemma chain_fresh (st : @strategy N (tape_rng t) NF) :
  (forall k xs d w k' xs' w', st k xs d w = (Ok (k', xs'), w') -> k' = 0 :: k) -> fresh_streams st chain_roots.
Proof.
  intros H k xs. destruct (chain_roots_ok k (length xs)) as [A B]. split; [exact A|]. split.
  - intros p Hp. apply below_trans with (1 :: k); [apply below_cons|auto].
  - intros d w k' xs' w' Hc. apply H in Hc. subst k'. split; [apply below_cons|]. intros p Hp.
    eapply apart_below; [apply (apart_siblings k 1 0); discriminate|auto|apply below_refl].
Qed.
Lemma take_steps_fresh samp ts : fresh_streams (@take_steps N (tape_rng t) NF samp ts) chain_roots.
Proof. apply chain_fresh. intros k xs d w k' xs' w' H. apply take_steps_success in H as (?&?&?&?&?&?&?&?&?&?&_&_&_&_&_&_&_&_&_& ->). reflexivity. Qed.
Lemma adam_fresh a : fresh_streams (@adam_strategy N (tape_rng t) NF a) chain_roots.
Proof.
  apply chain_fresh. intros k xs d w k' xs' w' H. unfold adam_strategy in H. apply mbind_Ok in H as ([[k1 ys] ls] & w1 & H1 & H).
  unfold mret in H. injection H as <- <- <-. apply mlift_inv in H1 as [_ H1]. unfold adam_optimize in H1.
  destruct (_ || _); [|discriminate]. injection H1 as <- _ _. reflexivity.
Qed.
Lemma quiet_fresh (st : @strategy N (tape_rng t) NF) :
  (forall k xs d w k' xs' w', st k xs d w = (Ok (k', xs'), w') -> k' = k) -> fresh_streams st (fun _ _ => []).
Proof.
  intros H k xs. split; [constructor|]. split; [intros p []|]. intros d w k' xs' w' Hc. apply H in Hc. subst.
  split; [apply below_refl|intros p []].
Qed.
Lemma lambda_fresh f : fresh_streams (@lambda N (tape_rng t) NF f) (fun _ _ => []).
Proof.
  apply quiet_fresh. intros k xs d w k' xs' w' H. unfold lambda in H. apply mbind_Ok in H as (u & w1 & _ & H). unfold mret in H. congruence.
Qed.
Lemma update_state_fresh nm ks vs : fresh_streams (@update_state N (tape_rng t) NF nm ks vs) (fun _ _ => []).
Proof.
  apply quiet_fresh. intros k xs d w k' xs' w' H. unfold update_state in H. apply mbind_Ok in H as ([l s] & w1 & _ & H).
  apply mbind_Ok in H as (u & w2 & _ & H). unfold mret in H. congruence.
Qed.
Lemma training_fresh tm : fresh_streams (@train_model N (tape_rng t) NF tm) (fun k _ => training_roots (tm_epochs tm) k).
Proof.
  intros k xs. split; [|split].
  - constructor.
    + intros k' Hk. apply in_map_iff in Hk as (e & <- & _).
      eapply apart_below; [apply (apart_siblings k 1 0); discriminate|apply below_refl|].
      eapply below_trans; [|apply step_key_below]. apply below_cons.
    + apply all_apart_map. intros i j H. now apply step_keys_apart.
  - intros p [<-|Hp]; [apply below_cons|]. apply in_map_iff in Hp as (e & <- & _).
    eapply below_trans; [|apply step_key_below]. eapply below_trans; apply below_cons.
  - intros d w k' xs' w' H. destruct (@train_model_inv N (tape_rng t) NF tm k xs d w k' xs' w' H) as (m0 & dl & db & ol & opt & pool & ex & m' & st' & losses & _ & _ & _ & _ & _ & Ht & _).
    unfold train in Ht. apply best_epoch_loop_key in Ht.
    assert (E : forall n (k : path), iter n (fun q => @split N (tape_rng t) q 2 0) k = repeat 0 n ++ k).
    { clear. induction n as [|n IH]; intros k; [reflexivity|]. cbn [iter]. rewrite IH. change (repeat 0 n ++ 0 :: k = repeat 0 (S n) ++ k). now rewrite repeat_snoc. }
    rewrite E in Ht. change (k' = repeat 0 (tm_epochs tm) ++ 1 :: 0 :: k) in Ht. subst k'.
    assert (B : below (0 :: k) (repeat 0 (tm_epochs tm) ++ 1 :: 0 :: k)).
    { eapply below_trans; [apply below_cons|apply repeat0_below]. }
    split; [eapply below_trans; [apply below_cons|exact B]|].
    intros p [<-|Hp].
    + eapply apart_below; [apply (apart_siblings k 1 0); discriminate|apply below_refl|exact B].
    + apply in_map_iff in Hp as (e & <- & He). apply in_seq in He. apply step_key_apart_carry. lia.
Qed.
Lemma tempering_fresh pt : fresh_streams (@parallel_tempering N (tape_rng t) NF pt) tempering_roots.
Proof.
  intros k xs. destruct (chain_roots_ok (0 :: k) (length xs)) as [A1 B1]. destruct (chain_roots_ok (0 :: 0 :: k) (length xs)) as [A2 B2].
  split; [|split].
  - apply all_apart_app; auto. intros a b Ha Hb. eapply apart_below; [apply (apart_siblings (0 :: k) 1 0); discriminate|auto|].
    eapply below_trans; [apply below_cons|eauto].
  - intros p Hp. apply in_app_iff in Hp as [Hp|Hp]; [apply B1 in Hp|apply B2 in Hp]; destruct Hp as [s ->].
    + exists (s ++ [1; 0]). now rewrite <- app_assoc.
    + exists (s ++ [1; 0; 0]). now rewrite <- app_assoc.
  - intros d w k' xs' w' H. assert (k' = 0 :: 0 :: 0 :: k) as ->.
    { unfold parallel_tempering in H.
      repeat (match type of H with mbind _ _ _ = _ => apply mbind_Ok in H as (? & ? & _ & H) | (let (_, _) := ?x in _) _ = _ => destruct x end).
      unfold mret in H. injection H as <- _ _. reflexivity. }
    split; [exists [0; 0; 0]; reflexivity|]. intros p Hp. apply in_app_iff in Hp as [Hp|Hp]; [apply B1 in Hp|apply B2 in Hp].
    + eapply apart_below; [apply (apart_siblings (0 :: k) 1 0); discriminate|exact Hp|]. apply below_cons.
    + eapply apart_below; [apply (apart_siblings (0 :: 0 :: k) 1 0); discriminate|exact Hp|]. apply below_refl.
Qed.

(** Runs. *)
Lemma C49_run_proof (S : dict (@strategy N (tape_rng t) NF)) d (roots : string -> path -> nat -> list path) order :
  (forall n st, In n order -> dget S n = Some st -> fresh_streams st (roots n)) ->
  forall k xs w tr r w', @runs N (tape_rng t) NF S d order k xs w tr r w' ->
  all_apart (run_streams roots tr) /\ forall p, In p (run_streams roots tr) -> below k p.
Proof.
  unfold run_streams.
  intros HS k xs w tr r w' H. induction H as [k xs w|n rest k xs w Hn|n rest st k xs w e w' Hn H|n rest st k xs w k1 xs1 w1 tr r w' Hn H Hr IH].
  - cbn. split; [constructor|intros p []].
  - cbn. split; [constructor|intros p []].
  - cbn. rewrite app_nil_r. destruct (HS n st (or_introl eq_refl) Hn k xs) as (A & B & _). auto.
  - cbn [map concat fst snd].
    destruct (HS n st (or_introl eq_refl) Hn k xs) as (A & B & C). destruct (C d w k1 xs1 w1 H) as [D E].
    destruct IH as [F1 F2]; [intros; apply HS; cbn; auto|].
    split.
    + apply all_apart_app; auto. intros a b Ha Hb. eapply apart_below; [apply (E a Ha)|apply below_refl|]. apply F2. exact Hb.
    + intros p Hp. apply in_app_iff in Hp as [Hp|Hp]; [auto|]. eapply below_trans; [exact D|apply F2; exact Hp].
Qed.

Lemma C49_base_bundle_proof c window order d k xs w tr r w' :
  @runs N (tape_rng t) NF (base_strategies c window) d order k xs w tr r w' ->
  all_apart (run_streams (bundle_roots (c_epochs c)) tr) /\
  forall p, In p (run_streams (bundle_roots (c_epochs c)) tr) -> below k p.
Proof.
  apply C49_run_proof. intros n st _ H. unfold base_strategies in H. cbn [dget] in H.
  repeat match type of H with (if (?a =? ?b)%string then _ else _) = _ =>
    destruct (String.eqb_spec a b); [subst; injection H as <-|] end; try discriminate.
  - apply take_steps_fresh.
  - apply take_steps_fresh.
  - apply training_fresh.
  - apply update_state_fresh.
  - apply lambda_fresh.
  - apply lambda_fresh.
  - apply lambda_fresh.
  - apply lambda_fresh.
Qed.
Lemma C49_pt_bundle_proof pc order d k xs w tr r w' :
  @runs N (tape_rng t) NF (pt_strategies pc) d order k xs w tr r w' ->
  all_apart (run_streams (bundle_roots (c_epochs (p_base pc))) tr) /\
  forall p, In p (run_streams (bundle_roots (c_epochs (p_base pc))) tr) -> below k p.
Proof.
  apply C49_run_proof. intros n st _ H. unfold pt_strategies, base_strategies in H. cbn [dget app] in H.
  repeat match type of H with (if (?a =? ?b)%string then _ else _) = _ =>
    destruct (String.eqb_spec a b); [subst; injection H as <-|] end; try discriminate.
  - apply take_steps_fresh.
  - apply take_steps_fresh.
  - apply training_fresh.
  - apply update_state_fresh.
  - apply lambda_fresh.
  - apply lambda_fresh.
  - apply lambda_fresh.
  - apply lambda_fresh.
  - apply tempering_fresh.
  - apply lambda_fresh.
Qed.
End Calls.
End Keys.
