(** C66: what a stepping call that raises leaves behind. *)
From Verif Require Import Prelude Num M_Core M_Kernels M_Strategies Spec Spec_Core Spec_Steps P_Lists P_Core P_Steps.

Section Fail.
Context {N : Num} {G : Rng} {NF : NFOps}.
Lemma last_all (l : list (list vec)) e : (forall r, In r l -> r <> []) ->
  rmapM (fun ps => match last_opt ps with Some p => Ok p | None => Raise IndexError end) l <> Raise e.
Proof.
  revert e. induction l as [|r l IH]; intros e H; [discriminate|]. cbn [rmapM].
  assert (Hr : r <> []) by (apply H; now left). rewrite (last_opt_nth (A:=vec) _ []) by auto. cbn [rbind].
  destruct (rmapM _ l) as [o|e'] eqn:E; [discriminate|]. exfalso. exact (IH e' (fun r' Hr' => H r' (or_intror Hr')) eq_refl).
Qed.
Lemma steps_failed samp ts k xs d w e w' pl pb ll lb al ab kern lp cur dim (good : vec -> Prop) :
  setup w ts pl pb ll lb al ab kern lp cur ->
  sampler_shape (samp kern lp d) (ts_n_steps ts) dim good -> (forall x, In x xs -> good x) -> 0 < ts_n_steps ts ->
  let kept := cdiv (ts_n_steps ts) (ts_thinning ts) in
  room pb cur kept -> room lb cur kept ->
  take_steps samp ts k xs d w = (Raise e, w') ->
  w' = w \/
  (rdict w' = rdict w /\ (forall l, l <> pl -> l <> ll -> hget l w' = hget l w) /\
   exists out pb' lb', length out = length xs /\
     (forall c, c < length xs -> samp kern lp d (ts_n_steps ts) (split (split k 2 1) (length xs) c) (nth c xs []) = Ok (nth c out [])) /\
     hget pl w' = Some (OBuf pb') /\ hget ll w' = Some (OBuf lb') /\ same_header pb pb' /\ same_header lb lb' /\
     (forall c j o i, c < length out -> i < dim -> nth_error (nth c out []) (j * ts_thinning ts) = Some o ->
        aget (b_data pb') [c; cur + j; i] = nth i (s_pos o) f0) /\
     (lb' = lb \/ forall c j o, c < length out -> nth_error (nth c out []) (j * ts_thinning ts) = Some o -> aget (b_data lb') [c; cur + j] = s_lp o) /\
     (forall c s i, s < cur \/ cur + kept <= s -> aget (b_data pb') [c; s; i] = aget (b_data pb) [c; s; i] /\ aget (b_data lb') [c; s] = aget (b_data lb) [c; s])).
Proof.
  intros [T1 T2 T3 (N1 & N2 & N3) (D1 & D2 & D3) HK HLp HC] Hsh Hg Hn kept R1 R2 H.
  destruct (take_steps_split samp ts k xs d w) as [(e' & H1 & _)|(pl' & ll' & al' & kern' & lp' & (L1 & L2 & L3 & L4 & L5) & H1)].
  { left. rewrite H in H1. now injection H1 as _ ->. }
  destruct L1 as [pb0 L1], L2 as [lb0 L2], L3 as [ab0 L3].
  destruct (target_fun _ _ _ _ _ _ _ T1 L1) as [<- <-].
  destruct (target_fun _ _ _ _ _ _ _ T2 L2) as [<- <-].
  destruct (target_fun _ _ _ _ _ _ _ T3 L3) as [<- <-].
  assert (kern' = kern) by congruence. assert (lp' = lp) by congruence. subst kern' lp'.
  pose proof (target_buf _ _ _ _ _ T1) as P1. pose proof (target_buf _ _ _ _ _ T2) as P2. pose proof (target_buf _ _ _ _ _ T3) as P3.
  rewrite H in H1. symmetry in H1. apply mbind_cases in H1 as [(e1 & H1 & _)|(out & w1 & H1 & H2)].
  { left. unfold mlift in H1. now injection H1 as _ ->. }
  apply mlift_inv in H1 as [-> HV]. rewrite run_chains_batch in HV by apply split_keys_length.
  unfold ts_finish in H2. apply mbind_cases in H2 as [(e1 & H0 & _)|(x0 & w0 & H0 & H2)].
  { left. destruct (ts_thinning ts =? 0); unfold mraise, mret in H0; now inversion H0. }
  assert (0 < ts_thinning ts /\ w0 = w) as [Hth ->].
  { destruct (Nat.eqb_spec (ts_thinning ts) 0) as [E0|E0]; unfold mret, mraise in H0; [discriminate|]. injection H0 as _ ->. split; [lia|reflexivity]. }
  apply mbind_cases in H2 as [(e1 & H1 & _)|(cz & w0 & Hc & H2)].
  { left. pose proof (get_cursor_snd (ts_cur ts) w) as Q. rewrite H1 in Q. exact Q. }
  apply get_cursor_inv in Hc as [-> Hc]. assert (cz = Z.of_nat cur) by congruence. subst cz.
  apply mbind_cases in H2 as [(e1 & H1 & _)|([] & w1 & U1 & H2)].
  { left. exact (buf_update_raise _ _ _ _ _ _ H1). }
  right. apply buf_update_inv in U1 as (b1 & pb' & Q1 & E1 & ->). assert (b1 = pb) by congruence. subst b1.
  pose proof (split_keys_length (split k 2 1) (length xs)) as HSK.
  assert (Hout : length out = length xs) by (eapply (vmap_chains_nth _ _ _ _ k 0); eauto).
  assert (Hchain : forall c, c < length xs -> samp kern lp d (ts_n_steps ts) (split (split k 2 1) (length xs) c) (nth c xs []) = Ok (nth c out [])).
  { intros c Hc'. destruct (vmap_chains_nth _ _ _ _ k c HSK HV) as [_ HH]. rewrite <- (nth_split_keys _ _ c k) by auto. auto. }
  assert (Hrect : rectangular (ts_n_steps ts) dim out).
  { intros co Hco. destruct (In_nth _ _ [] Hco) as (c & Hc' & <-). rewrite Hout in Hc'.
    destruct (Hsh _ (nth c xs []) _ (Hg _ (nth_In _ _ Hc')) (Hchain c Hc')) as [A B]. split; [exact A|]. intros o Ho. apply B, Ho. }
  assert (C1 : ts_cur ts <> pl) by congruence. assert (C2 : ts_cur ts <> ll) by congruence. assert (C3 : ts_cur ts <> al) by congruence.
  assert (Kp : forall c j o, c < length out -> nth_error (nth c out []) (j * ts_thinning ts) = Some o -> j * ts_thinning ts < ts_n_steps ts /\ j < kept /\ nth (j * ts_thinning ts) (nth c out []) odef = o).
  { intros c j o Hc' Ho. assert (j * ts_thinning ts < ts_n_steps ts).
    { destruct (Hrect (nth c out [])) as [A _]; [now apply nth_In|]. rewrite <- A. apply nth_error_Some. congruence. }
    split; [auto|]. split; [now apply cdiv_lt|]. now apply nth_error_nth. }
  assert (WP : (forall c j o i, c < length out -> i < dim -> nth_error (nth c out []) (j * ts_thinning ts) = Some o -> aget (b_data pb') [c; cur + j; i] = nth i (s_pos o) f0) /\
               (forall c s i, s < cur \/ cur + kept <= s -> aget (b_data pb') [c; s; i] = aget (b_data pb) [c; s; i])).
  { destruct out as [|o0 out0] eqn:Eout.
    - destruct (write_axis1_3 _ _ _ _ 0 0 0 E1 D1 eq_refl) as [_ X1]; [unfold room in R1; lia|]. split; [cbn; lia|]. intros c s i _. apply X1. lia.
    - rewrite <- Eout in * . assert (Hne : out <> []) by (rewrite Eout; discriminate).
      destruct (write_axis1_3 _ _ _ _ (length out) kept dim E1 D1) as [W1 X1]; [apply ts_positions_shape; auto|exact R1|].
      split; [|exact X1]. intros c j o i Hc' Hi Ho. destruct (Kp c j o Hc' Ho) as (K1 & K2 & K3).
      rewrite W1 by auto. rewrite (ts_positions_get (ts_n_steps ts) dim) by auto. exact (f_equal (fun z => nth i (s_pos z) f0) K3). }
  destruct WP as [WP XP]. pose proof (C02_shape_proof _ _ _ _ E1) as SP.
  apply mbind_cases in H2 as [(e1 & U2 & _)|([] & w2 & U2 & H2)].
  { apply buf_update_raise in U2. subst w'. split; [reflexivity|]. split; [intros l Hl _; apply hget_hset_neq; auto|].
    exists out, pb', lb. split; [exact Hout|]. split; [exact Hchain|]. split; [eapply hget_hset_eq; eauto|].
    split; [rewrite hget_hset_neq by auto; exact P2|]. split; [exact SP|]. split; [repeat split; auto|]. split; [exact WP|]. split; [left; reflexivity|].
    intros c s i Hs. split; [apply XP, Hs|reflexivity]. }
  apply buf_update_inv in U2 as (b2 & lb' & Q2 & E2 & ->). rewrite hget_hset_neq in Q2 by auto. assert (b2 = lb) by congruence. subst b2.
  apply mbind_cases in H2 as [(e1 & U3 & _)|([] & w3 & U3 & H2)].
  2: { exfalso. apply mbind_cases in H2 as [(e1 & U4 & _)|([] & w4 & U4 & H2)]; [discriminate|].
       apply mbind_cases in H2 as [(e1 & U5 & _)|(lasts & w5 & U5 & H2)]; [|discriminate].
       unfold mlift in U5. injection U5 as U5 _. revert U5. apply last_all. intros r Hr. unfold ts_positions in Hr. rewrite map_map in Hr.
       apply in_map_iff in Hr as (co & <- & Hco). destruct (In_nth _ _ [] Hco) as (c & Hc' & <-). intros E.
       apply (f_equal (@length _)) in E. rewrite map_length, (rect_kept (ts_n_steps ts) dim) in E by auto.
       pose proof (cdiv_pos (ts_n_steps ts) (ts_thinning ts) Hth Hn). cbn in E. lia. }
  apply buf_update_raise in U3. subst w'. split; [reflexivity|]. split; [intros l Hl1 Hl2; rewrite !hget_hset_neq by auto; reflexivity|].
  assert (WL : (forall c j o, c < length out -> nth_error (nth c out []) (j * ts_thinning ts) = Some o -> aget (b_data lb') [c; cur + j] = s_lp o) /\
               (forall c s, s < cur \/ cur + kept <= s -> aget (b_data lb') [c; s] = aget (b_data lb) [c; s])).
  { destruct out as [|o0 out0] eqn:Eout.
    - destruct (write_axis1_2 _ _ _ _ 0 0 E2 D2 eq_refl) as [_ X1]; [unfold room in R2; lia|]. split; [cbn; lia|]. intros c s _. apply X1. lia.
    - rewrite <- Eout in * . assert (Hne : out <> []) by (rewrite Eout; discriminate).
      destruct (write_axis1_2 _ _ _ _ (length out) kept E2 D2) as [W1 X1]; [eapply ts_2d_shape; eauto|exact R2|].
      split; [|exact X1]. intros c j o Hc' Ho. destruct (Kp c j o Hc' Ho) as (K1 & K2 & K3).
      rewrite W1 by auto. unfold ts_logprobs. rewrite (ts_2d_get (ts_n_steps ts) dim) by auto. exact (f_equal s_lp K3). }
  destruct WL as [WL XL]. exists out, pb', lb'. split; [exact Hout|]. split; [exact Hchain|].
  split; [rewrite hget_hset_neq by auto; eapply hget_hset_eq; eauto|]. split; [eapply hget_hset_eq; rewrite hget_hset_neq by auto; eauto|].
  split; [exact SP|]. split; [exact (C02_shape_proof _ _ _ _ E2)|]. split; [exact WP|]. split; [right; exact WL|].
  intros c s i Hs. split; [apply XP, Hs|apply XL, Hs].
Qed.
End Fail.
