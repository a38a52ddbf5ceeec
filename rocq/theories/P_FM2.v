(** Proofs of C56 and C57: training of the flow-matching model and the data statistics. *)
From Coq Require Import Reals Psatz Permutation.
From Verif Require Import Prelude Num M_Core M_Kernels M_Strategies M_Flow M_Net M_FM P_Lists Spec_Kernels Spec_Train P_Train Spec_FM.

Lemma scan_key_same {N : Num} {G : Rng} k i : Spec_Kernels.scan_key k i = scan_key k i. Proof. reflexivity. Qed.
Section FMTrain.
Context {N : Num} {G : Rng} {gtx optst : Type}.
Variable upd : fmodel -> list (vec * F * vec) -> gtx -> optst -> fmodel * optst.
Lemma fm_loop_updates (tx : gtx) : forall batches m (st : optst) v0 v s',
  fm_epoch_loop upd m tx st v0 batches = (v, s') ->
  exists vs, fm_updates upd tx (m, st) batches vs s' /\ v = last vs v0.
Proof.
  induction batches as [|b bs IH]; intros m st v0 v s' H; cbn in H.
  - injection H as <- <-. exists []. split; [constructor|reflexivity].
  - destruct (upd m b tx st) as [m1 st1] eqn:E. apply IH in H as (vs & Hu & ->).
    exists (fm_loss m b :: vs). split; [|symmetry; apply last_cons_default].
    apply (fmu_cons upd tx (m, st)). cbn [fst snd]. rewrite E. exact Hu.
Qed.
Lemma fm_updates_length (tx : gtx) s bs vs s' : fm_updates upd tx s bs vs s' -> length vs = length bs.
Proof. induction 1; cbn; auto. Qed.
Lemma fm_batches_proof m k (tx : gtx) (st : optst) x0s x1s ts bs : permutation_law -> 0 < bs <= length x0s ->
  exists batches ix vs s',
    fm_train_epoch upd m k tx st x0s x1s ts bs = Ok (last vs f0, s') /\
    fm_updates upd tx (m, st) batches vs s' /\
    length batches = length x0s / bs /\ (forall b, In b batches -> length b = bs) /\
    concat batches = map (fm_example m x0s x1s ts) ix /\ NoDup ix /\
    (forall i, In i ix -> i < length x0s) /\ length ix = length x0s - length x0s mod bs.
Proof.
  intros HP [Hb Hle]. unfold fm_train_epoch. destruct (bs =? 0) eqn:E0; [apply Nat.eqb_eq in E0; lia|].
  set (n := length x0s). set (steps := n / bs).
  assert (Hst : 0 < steps). { apply Nat.div_str_pos. lia. }
  replace (0 <? steps) with true by (symmetry; apply Nat.ltb_lt; auto).
  destruct (fm_epoch_loop upd m tx st big_loss (fm_batches m k x0s x1s ts bs)) as [v s'] eqn:E.
  apply fm_loop_updates in E as (vs & Hu & Hv).
  pose proof (Nat.div_mod n bs ltac:(lia)) as Hdm.
  assert (Hpl : length (permutation k n) = n). { rewrite (Permutation_length (HP k n)). apply seq_length. }
  assert (Hfl : length (firstn (steps * bs) (permutation k n)) = steps * bs).
  { rewrite firstn_length, Hpl. fold steps in Hdm. nia. }
  exists (fm_batches m k x0s x1s ts bs), (firstn (steps * bs) (permutation k n)), vs, s'.
  repeat split; auto.
  - subst v. apply fm_updates_length in Hu.
    assert (length (fm_batches m k x0s x1s ts bs) = steps).
    { unfold fm_batches. rewrite map_length, reshape_rows_length. reflexivity. }
    destruct vs; [cbn in Hu; lia|]. rewrite !last_cons_default. reflexivity.
  - unfold fm_batches. rewrite map_length, reshape_rows_length. reflexivity.
  - intros b Hin. unfold fm_batches in Hin. apply in_map_iff in Hin as (r & <- & Hr).
    rewrite map_length. fold n steps in Hr.
    pose proof (Forall_reshape_rows steps bs _ Hfl) as HF.
    rewrite Forall_forall in HF. auto.
  - unfold fm_batches. fold n steps. rewrite <- (concat_reshape_rows steps bs _ Hfl) at 2.
    rewrite concat_map. reflexivity.
  - assert (HN : NoDup (permutation k n)). { eapply Permutation_NoDup; [symmetry; apply HP|apply seq_NoDup]. }
    rewrite <- (firstn_skipn (steps * bs) (permutation k n)) in HN. apply NoDup_app_l in HN. exact HN.
  - intros i Hi. assert (In i (permutation k n)). { rewrite <- (firstn_skipn (steps * bs)). apply in_or_app; auto. }
    apply (Permutation_in i (HP k n)) in H. apply in_seq in H. lia.
  - rewrite Hfl. fold n. fold steps in Hdm. nia.
Qed.
Lemma fm_small_proof m k (tx : gtx) (st : optst) x0s x1s ts bs : length x0s < bs ->
  fm_train_epoch upd m k tx st x0s x1s ts bs =
  let b := map (fm_example m x0s x1s ts) (seq 0 (length x0s)) in Ok (fm_loss m b, upd m b tx st).
Proof.
  intros H. unfold fm_train_epoch. destruct (bs =? 0) eqn:E0; [apply Nat.eqb_eq in E0; lia|].
  rewrite Nat.div_small by auto. reflexivity.
Qed.
Lemma fm_best_proof m k x0s x1s ts (tx : gtx) (st : optst) n bs kf s' losses : NumLaws ->
  fm_train upd m k x0s x1s ts tx st n bs = Ok (kf, s', losses) ->
  exists hist, length hist = n /\ fm_epochs upd tx x0s x1s ts bs k (fm_set_stats m x1s, st) hist /\
    losses = map fst hist /\ kf = iter n (fun q => split q 2 0) k /\
    ((exists i v, first_best (fofZ 1000000000) losses i /\ nth_error hist i = Some (v, s') /\ fnan v = false) \/
     ((forall u, In u losses -> (u <.? fofZ 1000000000) = false) /\ s' = (m, st))).
Proof.
  intros NL H. unfold fm_train in H. apply best_loop_hist in H as (hist & Hl & Hep & -> & -> & Hb).
  exists hist. repeat split; auto.
  destruct (Hb NL) as [(i & v & s & Hi & -> & Hf)|[Hno Heq]]; [left|right; auto].
  exists i, v. split; auto. split; auto. destruct Hf as (v' & Hv & Hlt & _).
  rewrite nth_error_map, Hi in Hv. injection Hv as <-. apply (nl_lt_nan NL _ _ Hlt).
Qed.
Lemma fm_total_proof m k x0s x1s ts (tx : gtx) (st : optst) n bs :
  (exists o, fm_train upd m k x0s x1s ts tx st n bs = Ok o) <-> (bs <> 0 \/ n = 0).
Proof.
  split.
  - intros [o H]. destruct bs; [|lia]. destruct n; [lia|]. discriminate.
  - intros [H| ->]; [|cbn; eauto]. unfold fm_train. apply best_loop_ok. intros k0 s.
    unfold fm_train_epoch. destruct (bs =? 0) eqn:E0; [apply Nat.eqb_eq in E0; lia|].
    destruct (0 <? length x0s / bs); eexists; reflexivity.
Qed.
End FMTrain.
