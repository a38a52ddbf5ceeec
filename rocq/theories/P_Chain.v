(** Chains meet only through the flow. *)
From Verif Require Import Prelude Num M_Core M_Kernels M_Strategies M_PT M_Bundle P_Lists P_Buffer
  Spec Spec_Core P_Core Spec_Steps Spec_Kernels P_Kernels Spec_Train P_Train Spec_PT P_PT P_PT2 P_PT3 P_PT4 Spec_Bundle P_Bundle P_Bundle2 P_Bundle3 P_Bundle4 P_Bundle5 P_Bundle6 Spec_Ext P_Ext Spec_Chain.
Open Scope nat_scope.

Section Chain.
Context {N : Num} {G : Rng} {NF : NFOps}.

Lemma chain_det s n th k xs ys o1 o2 y1 y2 i : chains_run s n th k xs o1 y1 -> chains_run s n th k ys o2 y2 ->
  length xs = length ys -> i < length xs -> nth i xs [] = nth i ys [] -> nth i o1 [] = nth i o2 [] /\ nth i y1 [] = nth i y2 [].
Proof.
  intros (A1 & A2 & A3) (B1 & B2 & B3) L Hi E. destruct (A3 i Hi) as (P & _ & o & P1 & P2), (B3 i ltac:(lia)) as (Q & _ & o' & Q1 & Q2).
  rewrite E, L, Q in P. injection P as P. rewrite P in * . split; [auto|]. rewrite Q1 in P1. congruence.
Qed.
Lemma best_key {S} (ep : key -> S -> res (F * S)) n : forall k c b l kf b' ls, best_epoch_loop ep n k c b l = Ok (kf, b', ls) -> kf = iter n (fun k => split k 2 0) k.
Proof.
  induction n as [|n IH]; intros k c b l kf b' ls H; cbn in H.
  - injection H as <- _ _. reflexivity.
  - destruct (ep _ c) as [[v c']|]; [|discriminate]. cbn in H. destruct (best_epoch_loop _ _ _ _ _ _) as [[[kf' b''] ls']|] eqn:E; [|discriminate]. cbn in H. injection H as <- _ _.
    apply IH in E. exact E.
Qed.

Section One.
Variables (c : config) (d : datad) (E : Type) (same : E -> E -> Prop) (i : nat).
Variable bef : bool -> E -> key -> pos_t -> E -> key -> pos_t -> Prop.
Definition chained (s1 s2 : rstate E) : Prop :=
  r_key s1 = r_key s2 /\ length (r_pos s1) = length (r_pos s2) /\ i < length (r_pos s1) /\ nth i (r_pos s1) [] = nth i (r_pos s2) [] /\ same (r_ext s1) (r_ext s2).
(** What happens before the local steps treats the chains separately. *)
Definition separate (ph : bool) : Prop := forall e1 e2 k xs ys e1' e2' k1 k2 x1 y1, same e1 e2 -> length xs = length ys -> i < length xs -> nth i xs [] = nth i ys [] ->
  bef ph e1 k xs e1' k1 x1 -> bef ph e2 k ys e2' k2 y1 -> k1 = k2 /\ length x1 = length xs /\ length y1 = length ys /\ nth i x1 [] = nth i y1 [] /\ (ph = false -> same e1' e2').

Definition same_part (l1 l2 : loop) : Prop := nth i (lo_local l1) [] = nth i (lo_local l2) [] /\ nth i (lo_global l1) [] = nth i (lo_global l2) [].

Lemma prod_loop_chain s1 s2 l1 l2 s1' s2' : separate false -> chained s1 s2 -> r_model s1 = r_model s2 ->
  production_loop (bef false) c d s1 l1 s1' -> production_loop (bef false) c d s2 l2 s2' -> same_part l1 l2 /\ chained s1' s2' /\ r_model s1' = r_model s2'.
Proof.
  intros SP (R1 & R2 & R3 & R4 & R5) RM (k0 & x0 & x1 & A1 & A2 & A3 & A4 & A5 & A6 & A7) (k0' & x0' & x1' & D1 & D2 & D3 & D4 & D5 & D6 & D7).
  rewrite <- R1 in D1. destruct (SP _ _ _ _ _ _ _ _ _ _ _ R5 R2 R3 R4 A1 D1) as (<- & L1 & L2 & N0 & R5').
  destruct (chain_det _ _ _ _ _ _ _ _ _ _ i A2 D2) as [O1 N1]; [lia|lia|exact N0|]. pose proof A2 as (_ & LA & _). pose proof D2 as (_ & LD & _).
  rewrite <- RM in D3. destruct (chain_det _ _ _ _ _ _ _ _ _ _ i A3 D3) as [O2 N2]; [lia|lia|exact N1|]. pose proof A3 as (_ & LA3 & _). pose proof D3 as (_ & LD3 & _).
  split; [split; assumption|]. split; [|congruence]. unfold chained. rewrite A7, D7. repeat split; auto; lia.
Qed.
Lemma prod_chain s1 s2 ls1 s1' : separate false -> chained s1 s2 -> r_model s1 = r_model s2 -> production_run (bef false) c d s1 ls1 s1' ->
  forall ls2 s2', length ls1 = length ls2 -> production_run (bef false) c d s2 ls2 s2' -> Forall2 same_part ls1 ls2 /\ chained s1' s2' /\ r_model s1' = r_model s2'.
Proof.
  intros SP C0 RM H1. induction H1 as [s|s past t1 l t2 H1 IH H2]; intros ls2 s2' L H; destruct H as [s'|s' past' t1' l' t2' H3 H4]; try (rewrite ?app_length in L; cbn in L; lia).
  - split; [constructor|auto].
  - rewrite !app_length in L. cbn in L. destruct (IH C0 RM past' t1' ltac:(lia) H3) as (F & C1 & M1). destruct (prod_loop_chain _ _ _ _ _ _ SP C1 M1 H2 H4) as (P & C2 & M2).
    split; [apply Forall2_app; auto|auto].
Qed.
Lemma train_loop_first win past past' s1 s2 l1 l2 s1' s2' : separate true -> chained s1 s2 ->
  training_loop (bef true) c win d past s1 l1 s1' -> training_loop (bef true) c win d past' s2 l2 s2' ->
  nth i (lo_local l1) [] = nth i (lo_local l2) [] /\ r_key s1' = r_key s2' /\ length (r_pos s1') = length (r_pos s1) /\ length (r_pos s2') = length (r_pos s2).
Proof.
  intros SP (R1 & R2 & R3 & R4 & R5) (k0 & x0 & x1 & ex & k3 & A1 & A2 & A3 & A4 & A5 & A6) (k0' & x0' & x1' & ex' & k3' & D1 & D2 & D3 & D4 & D5 & D6).
  rewrite <- R1 in D1. destruct (SP _ _ _ _ _ _ _ _ _ _ _ R5 R2 R3 R4 A1 D1) as (<- & L1 & L2 & N0 & R5').
  destruct (chain_det _ _ _ _ _ _ _ _ _ _ i A2 D2) as [O1 N1]; [lia|lia|exact N0|]. pose proof A2 as (_ & LA & _). pose proof D2 as (_ & LD & _).
  pose proof A5 as (_ & LA3 & _). pose proof D5 as (_ & LD3 & _). apply best_key in A4. apply best_key in D4.
  split; [exact O1|]. split; [congruence|]. split; lia.
Qed.
(** The key and the number of chains after training do not depend on the positions. *)
Hypothesis keyed : forall ph e k xs e' k' xs', bef ph e k xs e' k' xs' -> length xs' = length xs.
Hypothesis keyed2 : forall ph e1 e2 k xs ys e1' e2' k1 k2 x1 y1, bef ph e1 k xs e1' k1 x1 -> bef ph e2 k ys e2' k2 y1 -> k1 = k2.
Lemma train_key win s1 s2 ls1 s1' : r_key s1 = r_key s2 -> training_run (bef true) c win d s1 ls1 s1' -> forall ls2 s2', length ls1 = length ls2 -> training_run (bef true) c win d s2 ls2 s2' ->
  r_key s1' = r_key s2' /\ length (r_pos s1') = length (r_pos s1) /\ length (r_pos s2') = length (r_pos s2).
Proof.
  intros K H1. induction H1 as [s|s past t1 l t2 H1 IH H2]; intros ls2 s2' L H; destruct H as [s'|s' past' t1' l' t2' H3 H4]; try (rewrite ?app_length in L; cbn in L; lia); auto.
  rewrite !app_length in L. cbn in L. destruct (IH K past' t1' ltac:(lia) H3) as (K1 & L1 & L2).
  destruct H2 as (k0 & x0 & x1 & ex & k3 & A1 & A2 & A3 & A4 & A5 & A6), H4 as (k0' & x0' & x1' & ex' & k3' & D1 & D2 & D3 & D4 & D5 & D6).
  rewrite <- K1 in D1. pose proof (keyed2 _ _ _ _ _ _ _ _ _ _ _ _ A1 D1) as <-. apply keyed in A1. apply keyed in D1.
  pose proof A2 as (_ & LA & _). pose proof D2 as (_ & LD & _). pose proof A5 as (_ & LA3 & _). pose proof D5 as (_ & LD3 & _). apply best_key in A4. apply best_key in D4.
  split; [congruence|]. split; lia.
Qed.
End One.

Lemma history_part c i ls1 ls2 : Forall2 (same_part i) ls1 ls2 -> chain_history c ls1 i = chain_history c ls2 i.
Proof. induction 1 as [|l1 l2 ls1 ls2 [A B] _ IH]; [reflexivity|]. unfold chain_history in * . cbn [map concat]. now rewrite A, B, IH. Qed.

Lemma agrees_of c w1 w2 phase ls1 ls2 i n : i < c_n_chains c -> n <= slots c (length ls1) -> n <= slots c (length ls2) ->
  (forall s, s < n -> nth_error (chain_history c ls1 i) s = nth_error (chain_history c ls2 i) s) ->
  phase_recorded c w1 phase ls1 -> phase_recorded c w2 phase ls2 -> chain_agrees (c_n_dims c) n w1 w2 phase i.
Proof.
  intros Hi N1 N2 Q (s1 & pl1 & pb1 & ll1 & lb1 & al1 & ab1 & gl1 & gb1 & A1 & A2 & A3 & A4 & A5 & _ & _ & _ & A6) (s2 & pl2 & pb2 & ll2 & lb2 & al2 & ab2 & gl2 & gb2 & D1 & D2 & D3 & D4 & D5 & _ & _ & _ & D6).
  exists pl1, pb1, ll1, lb1, al1, ab1, gl1, gb1, pl2, pb2, ll2, lb2, al2, ab2, gl2, gb2. do 8 (split; [assumption|]). intros s Hs.
  destruct (A6 i Hi) as [L1 Q1], (D6 i Hi) as [L2 Q2].
  destruct (nth_error (chain_history c ls1 i) s) as [[loc o]|] eqn:Eq; [|apply nth_error_None in Eq; rewrite history_length in Eq; lia].
  destruct (Q1 s loc o Eq) as (X1 & X2 & X3 & X4). rewrite (Q s Hs) in Eq. destruct (Q2 s loc o Eq) as (Y1 & Y2 & Y3 & Y4). repeat split; congruence.
Qed.
(** The last recorded training position is where production starts. *)
Lemma last_position (E : Type) c d (bef : E -> key -> pos_t -> E -> key -> pos_t -> Prop) win (s : rstate E) past l s1 i : training_loop bef c win d past s l s1 -> i < length (r_pos s1) ->
  c_global c mod c_global_th c = 0 -> 0 < c_global c -> forall ls, ls = past ++ [l] ->
  exists loc o, nth_error (chain_history c ls i) (slots c (length ls) - 1) = Some (loc, o) /\ nth i (r_pos s1) [] = s_pos o.
Proof.
  intros (k0 & x0 & x1 & ex & k3 & A1 & A2 & A3 & A4 & A5 & A6) Hi MG G0 ls ->. destruct A5 as (B1 & B2 & B3).
  destruct (B3 i ltac:(lia)) as (_ & Lo & o & P1 & P2). exists false, o. split; [|exact P2].
  destruct (Nat.eq_dec (c_global_th c) 0) as [Z|Z]; [rewrite Z in MG; cbn in MG; lia|].
  assert (Hq : 0 < c_global c / c_global_th c) by (apply Nat.div_str_pos; split; [lia|]; apply Nat.div_exact in MG; [|exact Z]; destruct (c_global c / c_global_th c); nia).
  unfold chain_history. rewrite map_app, concat_app. cbn [map concat]. rewrite app_nil_r, !app_assoc.
  assert (Hsl : forall a, a = slots c (length past) + c_local c / c_local_th c -> slots c (length (past ++ [l])) - 1 = a + (c_global c / c_global_th c - 1)) by (intros a ->; unfold slots; rewrite app_length; cbn; lia).
  rewrite (Hsl _ eq_refl). rewrite nth_error_app2; rewrite app_length, map_length, kept_steps_length; fold (chain_history c past i); rewrite history_length; [|lia].
  replace (slots c (length past) + c_local c / c_local_th c + (c_global c / c_global_th c - 1) - (slots c (length past) + c_local c / c_local_th c)) with (c_global c / c_global_th c - 1) by lia.
  unfold kept_steps. rewrite !map_map. rewrite nth_error_map. rewrite (nth_error_nth' _ 0) by (rewrite seq_length; lia). rewrite seq_nth by lia. cbn [option_map]. do 2 f_equal.
  assert (Ix : (c_global c - 1) / c_global_th c = c_global c / c_global_th c - 1).
  { apply Nat.div_exact in MG; [|exact Z]. set (q := c_global c / c_global_th c) in * . symmetry. apply (Nat.div_unique _ _ _ (c_global_th c - 1)); [lia|]. rewrite MG. nia. }
  rewrite Ix in P1. cbn. apply nth_error_nth with (d := ([], f0, false)) in P1. exact P1.
Qed.

Lemma nothing_separate i ph : separate unit eq i (fun _ => nothing_before) ph.
Proof. intros [] [] k xs ys [] [] k1 k2 x1 y1 _ L Hi E [-> ->] [-> ->]. repeat split; auto. Qed.

Lemma first_local c ls l rest i s : ls = l :: rest -> s < c_local c / c_local_th c ->
  nth_error (chain_history c ls i) s = nth_error (map (pair true) (kept_steps (c_local c) (c_local_th c) (nth i (lo_local l) []))) s.
Proof. intros -> H. unfold chain_history. cbn [map concat]. rewrite <- app_assoc, nth_error_app1; [reflexivity|]. rewrite map_length, kept_steps_length. exact H. Qed.
Lemma training_nil {E} (bef : E -> key -> pos_t -> E -> key -> pos_t -> Prop) c win d s ls s' : training_run bef c win d s ls s' -> ls = [] -> s' = s.
Proof. intros H. destruct H as [|s past s1 l s2 H1 H2]; [auto|]. intros Z. destruct past; discriminate Z. Qed.
Lemma training_one {E} (bef : E -> key -> pos_t -> E -> key -> pos_t -> Prop) c win d s ls s' l : training_run bef c win d s ls s' -> ls = [l] -> training_loop bef c win d [] s l s'.
Proof.
  intros H. destruct H as [|s past s1 l' s2 H1 H2]; [discriminate|]. intros Z. destruct past as [|a past]; [|destruct past; discriminate Z]. injection Z as ->.
  rewrite (training_nil _ _ _ _ _ _ _ H1 eq_refl) in H2. exact H2.
Qed.
Lemma training_head {E} (bef : E -> key -> pos_t -> E -> key -> pos_t -> Prop) c win d s ls s' : training_run bef c win d s ls s' -> 0 < length ls ->
  exists l rest s2, ls = l :: rest /\ training_loop bef c win d [] s l s2.
Proof.
  intros H L. destruct (training_firstn _ _ _ _ _ _ _ H 1 ltac:(lia)) as (s2 & H1). destruct ls as [|l rest]; [cbn in L; lia|]. cbn [firstn] in H1. exists l, rest, s2. split; [reflexivity|].
  exact (training_one _ _ _ _ _ _ _ _ H1 eq_refl).
Qed.
Lemma training_tail {E} (bef : E -> key -> pos_t -> E -> key -> pos_t -> Prop) c win d s ls s' : training_run bef c win d s ls s' -> 0 < length ls ->
  exists past l s1, ls = past ++ [l] /\ training_loop bef c win d past s1 l s'.
Proof. intros H L. destruct H as [|s past s1 l s2 H1 H2]; [cbn in L; lia|]. exists past, l, s1. auto. Qed.
Lemma recorded_last c w phase ls i s loc o : phase_recorded c w phase ls -> i < c_n_chains c -> nth_error (chain_history c ls i) s = Some (loc, o) ->
  forall x, recorded_at (c_n_dims c) w phase i s x -> x = s_pos o.
Proof.
  intros (s1 & pl1 & pb1 & ll1 & lb1 & al1 & ab1 & gl1 & gb1 & A1 & _ & _ & _ & _ & _ & _ & _ & A6) Hi H x (pl & pb & (P1 & P2) & P3).
  destruct A1 as (Q1 & Q2). assert (pl = pl1) by congruence. subst pl. assert (pb = pb1) by congruence. subst pb. destruct (A6 i Hi) as [_ Q]. destruct (Q _ _ _ H) as (X & _). congruence.
Qed.

Section Runs.
Variables (c : config) (d : datad) (E : Type) (same : E -> E -> Prop) (i : nat).
Variable bef : bool -> E -> key -> pos_t -> E -> key -> pos_t -> Prop.
Variables (win : nat) (k : key) (xs ys : pos_t) (m : mdl) (o : optst) (e1 e2 : E).
Variables (ls1 ls2 lp1 lp2 : list loop) (t1 t2 u1 u2 : rstate E) (w1 w2 : world).
Hypothesis Hi : i < c_n_chains c.
Hypothesis Lx : length xs = c_n_chains c.
Hypothesis Ly : length ys = c_n_chains c.
Hypothesis SX : nth i xs [] = nth i ys [].
Hypothesis SE : same e1 e2.
Hypothesis T1 : training_run (bef true) c win d (mkR k xs m o e1) ls1 t1.
Hypothesis T2 : training_run (bef true) c win d (mkR k ys m o e2) ls2 t2.
Hypothesis Q1 : production_run (bef false) c d t1 lp1 u1.
Hypothesis Q2 : production_run (bef false) c d t2 lp2 u2.
Hypothesis L1 : length ls1 = c_train_loops c.
Hypothesis L2 : length ls2 = c_train_loops c.
Hypothesis L3 : length lp1 = c_prod_loops c.
Hypothesis L4 : length lp2 = c_prod_loops c.
Hypothesis P1 : phase_recorded c w1 "training" ls1.
Hypothesis P2 : phase_recorded c w2 "training" ls2.
Hypothesis P3 : phase_recorded c w1 "production" lp1.
Hypothesis P4 : phase_recorded c w2 "production" lp2.
Lemma c0 : chained E same i (mkR k xs m o e1) (mkR k ys m o e2).
Proof. clear - Hi Lx Ly SX SE. repeat split; cbn; auto; lia. Qed.
Lemma first_steps : separate E same i bef true -> 0 < c_train_loops c -> chain_agrees (c_n_dims c) (c_local c / c_local_th c) w1 w2 "training" i.
Proof. clear - Hi Lx Ly SX SE T1 T2 L1 L2 P1 P2.
  intros SP TL. destruct (training_head _ _ _ _ _ _ _ T1) as (l1 & r1 & v1 & E1 & H1); [lia|]. destruct (training_head _ _ _ _ _ _ _ T2) as (l2 & r2 & v2 & E2 & H2); [lia|].
  destruct (train_loop_first c d E same i bef win [] [] _ _ _ _ _ _ SP c0 H1 H2) as (Q & _).
  assert (SL : c_local c / c_local_th c <= slots c (c_train_loops c)) by (unfold slots; destruct (c_train_loops c); [lia|]; cbn [Nat.mul]; lia).
  apply (agrees_of c w1 w2 "training" ls1 ls2 i); auto; [now rewrite L1|now rewrite L2|].
  intros s Hs. rewrite (first_local _ _ _ _ _ _ E1 Hs), (first_local _ _ _ _ _ _ E2 Hs), Q. reflexivity.
Qed.
Lemma production_alike : separate E same i bef false -> chained E same i t1 t2 -> r_model t1 = r_model t2 ->
  chain_agrees (c_n_dims c) (slots c (c_prod_loops c)) w1 w2 "production" i /\ r_key u1 = r_key u2 /\ nth i (r_pos u1) [] = nth i (r_pos u2) [].
Proof. clear - Hi Q1 Q2 L3 L4 P3 P4.
  intros SP C1 M. destruct (prod_chain c d E same i bef _ _ _ _ SP C1 M Q1 lp2 u2 ltac:(congruence) Q2) as (F & (K & _ & _ & X & _) & _).
  split; [|auto]. apply (agrees_of c w1 w2 "production" lp1 lp2 i); auto; [now rewrite L3|now rewrite L4|]. intros s Hs. now rewrite (history_part _ _ _ _ F).
Qed.
Lemma no_training : separate E same i bef false -> c_train_loops c = 0 ->
  chain_agrees (c_n_dims c) (slots c (c_prod_loops c)) w1 w2 "production" i /\ r_key u1 = r_key u2 /\ nth i (r_pos u1) [] = nth i (r_pos u2) [].
Proof. clear - Hi Lx Ly SX SE T1 T2 L1 L2 Q1 Q2 L3 L4 P3 P4.
  intros SP T0. rewrite T0 in L1, L2. destruct ls1; [|discriminate]. destruct ls2; [|discriminate].
  pose proof (training_nil _ _ _ _ _ _ _ T1 eq_refl) as A2. pose proof (training_nil _ _ _ _ _ _ _ T2 eq_refl) as B2.
  apply production_alike; auto; rewrite A2, B2; [apply c0|reflexivity].
Qed.
Hypothesis keyed : forall ph e k xs e' k' xs', bef ph e k xs e' k' xs' -> length xs' = length xs.
Hypothesis keyed2 : forall ph e1 e2 k xs ys e1' e2' k1 k2 x1 y1, bef ph e1 k xs e1' k1 x1 -> bef ph e2 k ys e2' k2 y1 -> k1 = k2.
Lemma after_training : separate E same i bef false -> 0 < c_train_loops c -> c_global c mod c_global_th c = 0 -> 0 < c_global c -> same (r_ext t1) (r_ext t2) -> r_model t1 = r_model t2 ->
  (forall x y, recorded_at (c_n_dims c) w1 "training" i (slots c (c_train_loops c) - 1) x -> recorded_at (c_n_dims c) w2 "training" i (slots c (c_train_loops c) - 1) y -> x = y) ->
  chain_agrees (c_n_dims c) (slots c (c_prod_loops c)) w1 w2 "production" i /\ r_key u1 = r_key u2 /\ nth i (r_pos u1) [] = nth i (r_pos u2) [].
Proof. clear - Hi Lx Ly T1 T2 Q1 Q2 L1 L2 L3 L4 P1 P2 P3 P4 keyed keyed2.
  intros SP TL MG G0 SX2 M Last. destruct (train_key c d E bef keyed keyed2 win _ _ _ _ (eq_refl : r_key (mkR k xs m o e1) = r_key (mkR k ys m o e2)) T1 ls2 t2 ltac:(congruence) T2) as (K & LA & LB). cbn [r_pos] in LA, LB.
  apply production_alike; auto. split; [exact K|]. split; [lia|]. split; [lia|]. split; [|exact SX2].
  destruct (training_tail _ _ _ _ _ _ _ T1) as (p1 & l1 & v1 & E1 & H1); [lia|]. destruct (training_tail _ _ _ _ _ _ _ T2) as (p2 & l2 & v2 & E2 & H2); [lia|].
  destruct (last_position _ _ _ _ _ _ _ _ _ i H1 ltac:(lia) MG G0 ls1 E1) as (b1 & o1 & X1 & Y1). destruct (last_position _ _ _ _ _ _ _ _ _ i H2 ltac:(lia) MG G0 ls2 E2) as (b2 & o2 & X2 & Y2).
  rewrite L1 in X1. rewrite L2 in X2. rewrite Y1, Y2. pose proof P1 as (s1 & pl1 & pb1 & _ & _ & _ & _ & _ & _ & A1 & _). pose proof P2 as (s2 & pl2 & pb2 & _ & _ & _ & _ & _ & _ & A2 & _).
  assert (R1 : recorded_at (c_n_dims c) w1 "training" i (slots c (c_train_loops c) - 1) (brow pb1 (c_n_dims c) i (slots c (c_train_loops c) - 1))) by (exists pl1, pb1; auto).
  assert (R2 : recorded_at (c_n_dims c) w2 "training" i (slots c (c_train_loops c) - 1) (brow pb2 (c_n_dims c) i (slots c (c_train_loops c) - 1))) by (exists pl2, pb2; auto).
  rewrite <- (recorded_last _ _ _ _ _ _ _ _ P1 Hi X1 _ R1), <- (recorded_last _ _ _ _ _ _ _ _ P2 Hi X2 _ R2). apply Last; assumption.
Qed.
End Runs.

Lemma base_chains c h b n1 n2 nc1 nc2 k o1 o2 kw1 kw2 s1 s2 d xs ys good1 good2 k1 x1 w1 k2 x2 w2 i :
  rqspline_mala_bundle c = Ok (h, b) -> sampler_init n1 nc1 k None None o1 (Some b) kw1 = Ok s1 -> sampler_init n2 nc2 k None None o2 (Some b) kw2 = Ok s2 ->
  run_ok c d xs good1 -> run_ok c d ys good2 -> i < c_n_chains c -> nth i xs [] = nth i ys [] ->
  sampler_sample s1 (P2 xs) d h = (Ok (k1, x1), w1) -> sampler_sample s2 (P2 ys) d h = (Ok (k2, x2), w2) ->
  (0 < c_train_loops c -> chain_agrees (c_n_dims c) (c_local c / c_local_th c) w1 w2 "training" i) /\
  (c_train_loops c = 0 \/
   (0 < c_global c /\ content_of w1 "model" = content_of w2 "model" /\
    (forall x y, recorded_at (c_n_dims c) w1 "training" i (slots c (c_train_loops c) - 1) x -> recorded_at (c_n_dims c) w2 "training" i (slots c (c_train_loops c) - 1) y -> x = y)) ->
   chain_agrees (c_n_dims c) (slots c (c_prod_loops c)) w1 w2 "production" i /\ k1 = k2 /\ nth i x1 [] = nth i x2 []).
Proof.
  intros Hb Hs1 Hs2 OK1 OK2 Hi SX H1 H2.
  destruct (base_run _ _ _ _ _ _ _ _ _ _ _ _ _ _ _ Hb Hs1 OK1 H1) as (ls1 & lp1 & a1 & y1 & m1 & t1 & tr1 & pr1 & lo1 & lc1 & gc1 & R1 & Q1 & N1 & M1 & E1 & W1 & _ & _ & _ & _ & P1 & P2 & P3).
  destruct (base_run _ _ _ _ _ _ _ _ _ _ _ _ _ _ _ Hb Hs2 OK2 H2) as (ls2 & lp2 & a2 & y2 & m2 & t2 & tr2 & pr2 & lo2 & lc2 & gc2 & R2 & Q2 & N2 & M2 & E2 & W2 & _ & _ & _ & _ & P4 & P5 & P6).
  pose proof (ok_chains _ _ _ _ OK1) as Lx. pose proof (ok_chains _ _ _ _ OK2) as Ly. split.
  - intros TL. exact (first_steps c d unit eq i (fun _ => nothing_before) 100 k xs ys _ _ tt tt ls1 ls2 _ _ w1 w2 Hi Lx Ly SX eq_refl R1 R2 N1 N2 P1 P4 (nothing_separate i true) TL).
  - intros [T0|(G0 & MM & Last)].
    + exact (no_training c d unit eq i (fun _ => nothing_before) 100 k xs ys _ _ tt tt ls1 ls2 lp1 lp2 _ _ _ _ w1 w2 Hi Lx Ly SX eq_refl R1 R2 Q1 Q2 N1 N2 M1 M2 P2 P5 (nothing_separate i false) T0).
    + destruct (Nat.eq_dec (c_train_loops c) 0) as [T0|T0].
      * exact (no_training c d unit eq i (fun _ => nothing_before) 100 k xs ys _ _ tt tt ls1 ls2 lp1 lp2 _ _ _ _ w1 w2 Hi Lx Ly SX eq_refl R1 R2 Q1 Q2 N1 N2 M1 M2 P2 P5 (nothing_separate i false) T0).
      * assert (MM2 : CPlain (RModel m1) = CPlain (RModel m2)) by (rewrite W1, W2 in MM; exact MM). assert (ME : m1 = m2) by (injection MM2 as X; exact X).
        refine (after_training c d unit eq i (fun _ => nothing_before) 100 k xs ys _ _ tt tt ls1 ls2 lp1 lp2 _ _ _ _ w1 w2 Hi Lx Ly R1 R2 Q1 Q2 N1 N2 M1 M2 P1 P4 P2 P5 _ _ (nothing_separate i false) _ (ok_global _ _ _ _ OK1) G0 eq_refl ME Last).
        -- intros _ e k' zs e' k'' zs' [-> ->]. reflexivity.
        -- intros _ e e' k' zs zs' f f' k3 k4 z1 z2 [-> _] [-> _]. reflexivity.
        -- lia.
Qed.

(** Tempering treats the chains separately, except for the adaptation of the temperatures. *)
Definition same_ens1 (i dims : nat) (e1 e2 : buffer * buffer) : Prop :=
  temps_of (snd e1) = temps_of (snd e2) /\ forall xs ys, nth i xs [] = nth i ys [] -> ensemble_before (fst e1) xs i = ensemble_before (fst e2) ys i.
Lemma update_det1 pt kern t d pb1 pb2 tb1 tb2 k xs ys i a1 a2 c1 c2 x1 x2 : ensemble_before pb1 xs i = ensemble_before pb2 ys i -> temps_of tb1 = temps_of tb2 -> length xs = length ys ->
  chain_update pt kern t d pb1 tb1 k xs i a1 c1 x1 -> chain_update pt kern t d pb2 tb2 k ys i a2 c2 x2 -> a1 = a2 /\ c1 = c2 /\ x1 = x2.
Proof.
  intros E1 E2 L (A1 & A2 & st & ens & A3 & A4 & A5 & A6) (B1 & B2 & st' & ens' & B3 & B4 & B5 & B6). rewrite <- E2, <- L in * . rewrite <- E1 in * .
  assert (st = st').
  { apply (list_eq_nth []); [congruence|]. intros j Hj. rewrite A3 in Hj. exact (moved_det _ _ _ _ _ _ _ _ _ (A4 j Hj) (B4 j Hj)). }
  subst st'. destruct (sweep_det_gen _ _ _ _ _ _ _ _ _ _ A5 B5) as [<- <-]. repeat split; congruence.
Qed.
Lemma tempering_separate pc d i ph : separate (buffer * buffer) (same_ens1 i (c_n_dims (p_base pc))) i (tempering pc d) ph.
Proof.
  intros e1 e2 k xs ys e1' e2' k1 k2 x1 y1 (T0 & EB) L Hi E (a1 & q1 & A1 & A2 & A3 & A4 & A5 & A6) (a2 & q2 & B1 & B2 & B3 & B4 & B5 & B6).
  destruct (update_det1 _ _ _ _ _ _ _ _ _ _ _ _ _ _ _ _ _ _ (EB xs ys E) T0 L (A5 i Hi) (B5 i ltac:(lia))) as (_ & _ & X).
  split; [congruence|]. split; [exact A3|]. split; [exact B3|]. split; [exact X|]. intros ->. subst e1' e2'. split; assumption.
Qed.
Lemma pt_chains pc h b n1 n2 nc1 nc2 k o1 o2 kw1 kw2 s1 s2 d xs ys good1 good2 k1 x1 w1 k2 x2 w2 i : let c := p_base pc in
  rqspline_mala_pt_bundle pc = Ok (h, b) -> sampler_init n1 nc1 k None None o1 (Some b) kw1 = Ok s1 -> sampler_init n2 nc2 k None None o2 (Some b) kw2 = Ok s2 ->
  run_ok c d xs good1 -> run_ok c d ys good2 -> grad_shape (p_prior pc) d (c_n_dims c) -> i < c_n_chains c -> nth i xs [] = nth i ys [] ->
  sampler_sample s1 (P2 xs) d h = (Ok (k1, x1), w1) -> sampler_sample s2 (P2 ys) d h = (Ok (k2, x2), w2) ->
  (0 < c_train_loops c -> chain_agrees (c_n_dims c) (c_local c / c_local_th c) w1 w2 "training" i) /\
  (c_train_loops c = 0 \/
   (0 < c_global c /\ content_of w1 "model" = content_of w2 "model" /\
    (forall x y, recorded_at (c_n_dims c) w1 "training" i (slots c (c_train_loops c) - 1) x -> recorded_at (c_n_dims c) w2 "training" i (slots c (c_train_loops c) - 1) y -> x = y) /\
    (forall l1 tb1 l2 tb2, buffer_named w1 "temperatures" l1 tb1 -> buffer_named w2 "temperatures" l2 tb2 -> temps_of tb1 = temps_of tb2) /\
    (forall l1 pb1 l2 pb2 j, buffer_named w1 "tempered_positions" l1 pb1 -> buffer_named w2 "tempered_positions" l2 pb2 -> j + 1 < p_n_temps pc -> brow pb1 (c_n_dims c) i j = brow pb2 (c_n_dims c) i j)) ->
   chain_agrees (c_n_dims c) (slots c (c_prod_loops c)) w1 w2 "production" i /\ k1 = k2 /\ nth i x1 [] = nth i x2 []).
Proof.
  intros c Hb Hs1 Hs2 OK1 OK2 GP Hi SX H1 H2. assert (C0 : 0 < c_n_chains (p_base pc)) by (fold c; lia).
  destruct (pt_run _ _ _ _ _ _ _ _ _ _ _ _ _ _ _ Hb Hs1 OK1 GP C0 H1) as (e1 & ls1 & lp1 & a1 & y1 & m1 & t1 & f1 & g1 & tr1 & pr1 & lo1 & lc1 & gc1 & I1 & R1 & Q1 & N1 & M1 & E1 & W1 & _ & _ & _ & _ & P1 & P2 & P3).
  destruct (pt_run _ _ _ _ _ _ _ _ _ _ _ _ _ _ _ Hb Hs2 OK2 GP C0 H2) as (e2 & ls2 & lp2 & a2 & y2 & m2 & t2 & f2 & g2 & tr2 & pr2 & lo2 & lc2 & gc2 & I2 & R2 & Q2 & N2 & M2 & E2 & W2 & _ & _ & _ & _ & P4 & P5 & P6).
  fold c in R1, R2, Q1, Q2, N1, N2, M1, M2, P1, P2, P4, P5.
  pose proof (ok_chains _ _ _ _ OK1) as Lx. pose proof (ok_chains _ _ _ _ OK2) as Ly.
  assert (S0 : same_ens1 i (c_n_dims c) e1 e2).
  { destruct I1 as (A1 & A2 & A3), I2 as (B1 & B2 & B3). split; [congruence|]. intros zs vs Q. unfold ensemble_before. rewrite A1, B1. cbn [nth]. rewrite Q. f_equal. apply map_ext_in. intros j Hj. apply in_seq in Hj.
    fold c in A2, B2 |- * . rewrite A2, B2 by lia. exact SX. }
  assert (NT : c_train_loops c = 0 -> chain_agrees (c_n_dims c) (slots c (c_prod_loops c)) w1 w2 "production" i /\ k1 = k2 /\ nth i x1 [] = nth i x2 []).
  { intros T0. exact (no_training c d _ (same_ens1 i (c_n_dims c)) i (tempering pc d) _ k xs ys _ _ e1 e2 ls1 ls2 lp1 lp2 _ _ _ _ w1 w2 Hi Lx Ly SX S0 R1 R2 Q1 Q2 N1 N2 M1 M2 P2 P5 (tempering_separate pc d i false) T0). }
  split.
  - intros TL. exact (first_steps c d _ (same_ens1 i (c_n_dims c)) i (tempering pc d) _ k xs ys _ _ e1 e2 ls1 ls2 _ _ w1 w2 Hi Lx Ly SX S0 R1 R2 N1 N2 P1 P4 (tempering_separate pc d i true) TL).
  - intros [T0|(G0 & MM & Last & TT & PP)]; [exact (NT T0)|]. destruct (Nat.eq_dec (c_train_loops c) 0) as [T0|T0]; [exact (NT T0)|].
    assert (MM2 : CPlain (RModel m1) = CPlain (RModel m2)) by (rewrite W1, W2 in MM; exact MM). assert (ME : m1 = m2) by (injection MM2 as X; exact X).
    assert (K : forall s ls s', production_run (tempering pc d false) c d s ls s' -> r_ext s' = r_ext s).
    { intros s ls s' H. induction H as [|s past u1 l u2 _ IH L]; [reflexivity|]. destruct L as (k0 & z0 & z1 & (after & accs & _ & _ & _ & _ & _ & TE) & _). cbn in TE. congruence. }
    pose proof (K _ _ _ Q1) as K1. pose proof (K _ _ _ Q2) as K2. cbn [r_ext] in K1, K2. subst g1 g2.
    assert (TE : temps_of (snd f1) = temps_of (snd f2)).
    { apply (TT L_temp (snd f1) L_temp (snd f2)); rewrite ?W1, ?W2; split; reflexivity. }
    refine (after_training c d _ (same_ens1 i (c_n_dims c)) i (tempering pc d) _ k xs ys _ _ e1 e2 ls1 ls2 lp1 lp2 _ _ _ _ w1 w2 Hi Lx Ly R1 R2 Q1 Q2 N1 N2 M1 M2 P1 P4 P2 P5 _ _ (tempering_separate pc d i false) _ (ok_global _ _ _ _ OK1) G0 _ ME Last).
    + intros ph e k' zs e' k'' zs' (? & ? & _ & _ & X & _). exact X.
    + intros ph e e' k' zs zs' u u' k3 k4 z1 z2 (? & ? & _ & _ & _ & X & _) (? & ? & _ & _ & _ & Y & _). congruence.
    + lia.
    + cbn [r_ext]. split; [exact TE|].
      assert (SH : forall s ls s', training_run (tempering pc d true) c (c_window c) d s ls s' -> ashape (b_data (fst (r_ext s'))) = ashape (b_data (fst (r_ext s)))).
      { intros s ls s' H. induction H as [|s past u1 l u2 _ IH L]; [reflexivity|]. destruct L as (k0 & z0 & z1 & ex & k3 & (after & accs & _ & _ & _ & _ & _ & ((Z & _) & _)) & _). congruence. }
      pose proof (SH _ _ _ R1) as Z1. pose proof (SH _ _ _ R2) as Z2. cbn [r_ext] in Z1, Z2. destruct I1 as (A1 & _), I2 as (B1 & _). rewrite A1 in Z1. rewrite B1 in Z2.
      intros zs vs Q. unfold ensemble_before. rewrite Z1, Z2. cbn [nth]. rewrite Q. f_equal. apply map_ext_in. intros j Hj. apply in_seq in Hj.
      apply (PP L_tpos (fst f1) L_tpos (fst f2) j); [| |lia]; rewrite ?W1, ?W2; split; reflexivity.
Qed.
End Chain.
