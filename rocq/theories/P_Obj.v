(** Proofs of C61: what the recorded losses of a training run are. *)
From Coq Require Import Permutation.
From Verif Require Import Prelude Num M_Core M_Kernels M_Strategies M_Flow M_Net M_Model P_Lists Spec Spec_Core Spec_Steps Spec_Kernels Spec_Train P_Train.

Section Obj.
Context {N : Num} {G : Rng}.
Lemma updates_last {NF : NFOps} tx s bs vs s' : updates tx s bs vs s' -> bs <> [] ->
  exists front b vs1 v s1, bs = front ++ [b] /\ vs = vs1 ++ [v] /\ updates tx s front vs1 s1 /\
    m_step (fst s1) b tx (snd s1) = (v, fst s', snd s').
Proof.
  induction 1 as [s|s b bs v s1 vs s2 E Hu IH]; intros Hne; [congruence|]. destruct bs as [|b2 bs].
  - inversion Hu; subst. exists [], b, [], v, s. repeat split; auto. constructor.
  - destruct IH as (front & b' & vs1 & v' & s1' & E1 & E2 & E3 & E4); [discriminate|].
    exists (b :: front), b', (v :: vs1), v', s1'. rewrite E1, E2. repeat split; auto. econstructor; eauto.
Qed.
Variables (decode : vec -> flow) (put : vec -> vec -> list vec -> vec) (logp : flow -> vec -> F) (grad : vec -> list vec -> vec).
Let NF := model_ops decode put logp grad.
Lemma step_parts p b tx st v p' st' : nf_train_step decode logp grad p b tx st = (v, p', st') ->
  v = fneg (fmean (map (logp (decode p)) b)) /\ adamw_step tx (grad p b) p st = (p', st').
Proof. unfold nf_train_step. destruct (adamw_step tx (grad p b) p st) as [q s]. intros E. injection E as <- <- <-. auto. Qed.
Lemma C61_epoch_proof p k tx st data bs v p' st' : permutation_law -> 0 < bs <= length data ->
  @train_epoch N G NF p k tx st data bs = Ok (v, p', st') ->
  exists front batch vs p1 st1,
    @updates N G NF tx (p, st) front vs (p1, st1) /\ S (length front) = length data / bs /\
    length batch = bs /\ incl batch data /\
    v = fneg (fmean (map (logp (decode p1)) batch)) /\ adamw_step tx (grad p1 batch) p1 st1 = (p', st').
Proof.
  intros HP Hb E. destruct (@C35_proof N G NF p k tx st data bs HP Hb) as (batches & ix & vs & v0 & m0 & s0 & E0 & Hu & Hv & Hl & Hbl & Hc & _ & Hix & _).
  rewrite E in E0. injection E0 as <- <- <-.
  assert (Hne : batches <> []). { intros ->. cbn in Hl. assert (0 < length data / bs) by (apply Nat.div_str_pos; lia). lia. }
  destruct (updates_last _ _ _ _ _ Hu Hne) as (front & b & vs1 & v1 & [p1 st1] & E1 & E2 & E3 & E4). cbn [fst snd] in E4.
  change (nf_train_step decode logp grad p1 b tx st1 = (v1, p', st')) in E4. apply step_parts in E4 as [Q1 Q2].
  exists front, b, vs1, p1, st1. split; [exact E3|]. split; [rewrite <- Hl, E1, app_length; cbn; lia|].
  split; [apply Hbl; rewrite E1; apply in_or_app; right; now left|]. split.
  - intros r Hr. assert (Hin : In r (concat batches)). { rewrite E1, concat_app. apply in_or_app. right. cbn. now rewrite app_nil_r. }
    rewrite Hc in Hin. apply in_map_iff in Hin as (i & <- & Hi). apply nth_In. now apply Hix.
  - split; [|exact Q2]. rewrite <- Q1, Hv, E2. apply last_last.
Qed.
Lemma C61_small_proof p k tx st data bs v p' st' : length data < bs -> 
  @train_epoch N G NF p k tx st data bs = Ok (v, p', st') ->
  v = fneg (fmean (map (logp (decode p)) data)) /\ adamw_step tx (grad p data) p st = (p', st').
Proof.
  intros Hb E. rewrite (@C35_small_proof N G NF p k tx st data bs Hb) in E.
  assert (E' : nf_train_step decode logp grad p data tx st = (v, p', st')) by (injection E; intros; subst; auto). exact (step_parts _ _ _ _ _ _ _ E').
Qed.
Lemma C61_train_proof p k data tx st n bs kf p' st' losses : NumLaws -> permutation_law -> 0 < bs ->
  @train N G NF p k data tx st n bs = Ok (kf, (p', st'), losses) ->
  (exists i v batch p1 st1, first_best (fofZ 1000000000) losses i /\ nth_error losses i = Some v /\
     length batch = Nat.min bs (length data) /\ incl batch data /\
     v = fneg (fmean (map (logp (decode p1)) batch)) /\ adamw_step tx (grad p1 batch) p1 st1 = (p', st')) \/
  ((forall u, In u losses -> (u <.? fofZ 1000000000) = false) /\ (p', st') = (p, st)).
Proof.
  intros L HP Hb E. destruct (@C34_proof N G NF p k data tx st n bs kf p' st' losses L E) as (hist & _ & He & Hl & _ & [(i & v & Hf & Hi & _)|H]); [left|right; exact H].
  pose proof (He i v (p', st') Hi) as Ee. cbv zeta in Ee. cbn [fst snd] in Ee. 
  set (s := match i with 0 => _ | S j => _ end) in Ee. clearbody s.
  assert (Hnv : nth_error losses i = Some v) by (rewrite Hl; erewrite map_nth_error by exact Hi; reflexivity).
  destruct (Nat.le_gt_cases bs (length data)) as [Hle|Hgt].
  - destruct (C61_epoch_proof _ _ _ _ _ _ _ _ _ HP (conj Hb Hle) Ee) as (front & batch & vs & p1 & st1 & _ & _ & B1 & B2 & B3 & B4).
    exists i, v, batch, p1, st1. rewrite Nat.min_l by lia. auto 10.
  - destruct (C61_small_proof _ _ _ _ _ _ _ _ _ Hgt Ee) as [B1 B2]. exists i, v, data, (fst s), (snd s). rewrite Nat.min_r by lia.
    repeat split; auto. apply incl_refl.
Qed.
End Obj.
