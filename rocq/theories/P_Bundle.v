(** Worlds of a bundle run, and what each strategy does to them. *)
From Verif Require Import Prelude Num M_Core M_Kernels M_Strategies M_PT M_Bundle P_Lists P_Buffer
  Spec Spec_Core P_Core Spec_Sampler P_Sampler Spec_Steps P_Steps Spec_Kernels P_Kernels P_StepsK P_Steps2 Spec_Train P_Train P_Train2
  Spec_PT P_PT P_PT3 P_PT4 P_PT5 Spec_Bundle.

Section Runs.
Context {N : Num} {G : Rng} {NF : NFOps}.

Lemma run_order_app S a : forall b k xs d w k' xs' w',
  run_order S (a ++ b) k xs d w = (Ok (k', xs'), w') ->
  exists k1 xs1 w1, run_order S a k xs d w = (Ok (k1, xs1), w1) /\ run_order S b k1 xs1 d w1 = (Ok (k', xs'), w').
Proof.
  induction a as [|n a IH]; intros b k xs d w k' xs' w' H; cbn [app run_order] in * .
  - exists k, xs, w. split; auto.
  - destruct (dget S n) as [st|] eqn:E; [|unfold mraise in H; discriminate].
    apply mbind_Ok in H as ([k1 xs1] & w1 & H1 & H). apply IH in H as (k2 & xs2 & w2 & H2 & H3).
    exists k2, xs2, w2. split; auto. unfold mbind. rewrite H1. auto.
Qed.
Lemma run_order_cons S n st rest k xs d w k' xs' w' : dget S n = Some st ->
  run_order S (n :: rest) k xs d w = (Ok (k', xs'), w') ->
  exists k1 xs1 w1, st k xs d w = (Ok (k1, xs1), w1) /\ run_order S rest k1 xs1 d w1 = (Ok (k', xs'), w').
Proof.
  intros E H. cbn [run_order] in H. rewrite E in H. apply mbind_Ok in H as ([k1 xs1] & w1 & H1 & H). eauto 6.
Qed.
Lemma repeat_phase_snoc n p : repeat_phase (S n) p = repeat_phase n p ++ p.
Proof.
  induction n as [|n IH]; [cbn; now rewrite app_nil_r|].
  transitivity (p ++ (repeat_phase n p ++ p)); [now rewrite <- IH|cbn; apply app_assoc].
Qed.

(* ------------------------------------------------------------------ stepping, with the resulting world *)
Lemma take_steps_world samp ts k xs d w k' xs' w' pl pb ll lb al ab kern lp cur dim good :
  setup w ts pl pb ll lb al ab kern lp cur ->
  sampler_shape (samp kern lp d) (ts_n_steps ts) dim good -> (forall x, In x xs -> good x) ->
  let n := ts_n_steps ts in let th := ts_thinning ts in let kept := cdiv n th in
  room pb cur kept -> room lb cur kept -> room ab cur kept ->
  take_steps samp ts k xs d w = (Ok (k', xs'), w') ->
  exists out pb' lb' ab',
    length out = length xs /\
    (forall c, c < length xs ->
       samp kern lp d n (split (split k 2 1) (length xs) c) (nth c xs []) = Ok (nth c out [])) /\
    rectangular n dim out /\
    same_header pb pb' /\ same_header lb lb' /\ same_header ab ab' /\
    holds_samples pb' lb' ab' cur n th dim out /\
    (forall c s i, s < cur \/ cur + kept <= s ->
       aget (b_data pb') [c; s; i] = aget (b_data pb) [c; s; i] /\
       aget (b_data lb') [c; s] = aget (b_data lb) [c; s] /\
       aget (b_data ab') [c; s] = aget (b_data ab) [c; s]) /\
    length xs' = length xs /\
    (forall c, c < length xs -> 0 < n /\ last_kept n th (nth c out []) (nth c xs' [])) /\
    (forall x, In x xs' -> good x) /\ 0 < th /\
    k' = split k 2 0 /\
    w' = hset (ts_cur ts) (OCursor (Z.of_nat cur + Z.of_nat (n / th)))
           (hset al (OBuf ab') (hset ll (OBuf lb') (hset pl (OBuf pb') w))).
Proof.
  intros Hsu HS Hg n th kept R1 R2 R3 H.
  destruct (C08_setup_proof samp ts k xs d w k' xs' w' pl pb ll lb al ab kern lp cur dim good Hsu HS Hg R1 R2 R3 H) as
    (out & pb' & lb' & ab' & A1 & A2 & A3 & A4 & S1 & S2 & S3 & A5 & A6 & A7 & A8 & A9 & A10 & A11).
  exists out, pb', lb', ab'. do 13 (split; [solve [assumption | apply A2 | apply A8]|]).
  destruct (take_steps_success _ _ _ _ _ _ _ _ _ H) as (pl0 & ll0 & al0 & kern0 & lp0 & out0 & cur0 & w1 & w2 & w3 &
    HL & _ & _ & Hc0 & U1 & U2 & U3 & Hw & _).
  destruct Hsu as [T1 T2 T3 (N1 & N2 & N3) _ _ _ HC]. destruct A4 as [T1' T2' T3' _ _ _ _ _].
  rewrite HC in Hc0. injection Hc0 as <-.
  destruct HL as ((b1 & L1) & (b2 & L2) & (b3 & L3) & _).
  destruct (target_fun _ _ _ _ _ _ _ T1 L1) as [<- <-]. destruct (target_fun _ _ _ _ _ _ _ T2 L2) as [<- <-].
  destruct (target_fun _ _ _ _ _ _ _ T3 L3) as [<- <-]. clear L1 L2 L3.
  apply buf_update_inv in U1 as (c0 & c1 & _ & _ & E1). apply buf_update_inv in U2 as (c2 & c3 & _ & _ & E2).
  apply buf_update_inv in U3 as (c4 & c5 & _ & _ & E3). fold n th in Hw.
  assert (K1 : ts_cur ts <> pl) by (intros E; apply target_buf in T1; congruence).
  assert (K2 : ts_cur ts <> ll) by (intros E; apply target_buf in T2; congruence).
  assert (K3 : ts_cur ts <> al) by (intros E; apply target_buf in T3; congruence).
  apply target_buf in T1', T2', T3', T1, T2, T3.
  rewrite Hw, E3, E2, E1 in T1', T2', T3'.
  rewrite hget_hset_neq in T1' by auto. rewrite hget_hset_neq in T1' by auto. rewrite hget_hset_neq in T1' by auto.
  erewrite hget_hset_eq in T1' by eauto. injection T1' as ->.
  rewrite hget_hset_neq in T2' by auto. rewrite hget_hset_neq in T2' by auto.
  erewrite hget_hset_eq in T2' by (rewrite hget_hset_neq; eauto). injection T2' as ->.
  rewrite hget_hset_neq in T3' by auto. erewrite hget_hset_eq in T3' by (rewrite !hget_hset_neq; eauto). injection T3' as ->.
  rewrite Hw, E3, E2, E1. reflexivity.
Qed.
End Runs.
