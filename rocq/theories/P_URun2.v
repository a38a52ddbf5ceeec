(** A bundle run in other units: whole runs. *)
From Coq Require Import Reals Psatz Permutation.
From Verif Require Import Prelude Num M_Core M_Kernels M_Strategies M_PT M_Bundle P_Lists RNum Spec Spec_Core Spec_Steps Spec_Kernels Spec_Train Spec_PT Spec_Bundle
  Spec_Prog Spec_Real Spec_HMC P_Real1 Spec_Units P_Units1 P_Units2 Spec_URun P_Ext P_URun1.
Open Scope nat_scope.

Section URun2.
Context {G : @Rng RNum} {NF : @NFOps RNum G}.
Variables (n : nat) (a b : nat -> R).
Notation iu := (in_units n a b).
Notation siu := (step_in_units n a b).
Hypothesis NS : @normal_shape RNum G.
Hypothesis PL : @permutation_law RNum G.
Hypothesis CL : @choice_law RNum G.
Hypothesis A0 : forall i, i < n -> a i <> 0%R.
Variables (c c' : config) (d : datad).
Hypothesis CU : config_in_units n a b c c'.
Hypothesis B0 : 0 < c_nf_bs c.
Variables (okst : optst -> Prop) (pre conv : mdl -> mdl -> Prop).
Hypothesis FC : flows_convert n a b (c_tx c) (c_max c) okst pre conv.
Variables (E : Type) (same : E -> E -> Prop) (chains : nat).
Variables bef bef' : bool -> E -> key -> pos_t -> E -> key -> pos_t -> Prop.
Hypothesis BD : forall ph e e' k xs xs' e1 e1' k1 k1' x1 x1', length xs = chains -> Forall2 iu xs xs' -> same e e' -> bef ph e k xs e1 k1 x1 -> bef' ph e' k xs' e1' k1' x1' ->
  k1' = k1 /\ Forall2 iu x1 x1' /\ same e1 e1' /\ length x1 = chains.

Lemma local_units k xs xs' o o' y y' : Forall2 iu xs xs' -> local_run c d k xs o y -> local_run c' d k xs' o' y' ->
  Forall2 (Forall2 siu) o o' /\ Forall2 iu y y' /\ length o = length xs /\ Forall (fun u => length u = c_local c) o.
Proof.
  intros X H H'. unfold local_run in H, H'. rewrite (cu_local _ _ _ _ _ CU), (cu_local_th _ _ _ _ _ CU) in H'.
  refine (chains_run_units n a b _ _ _ _ _ _ _ _ _ _ _ _ X H H'). intros q x x' HX. apply (serial_units NS n a b A0); [|apply (cu_target _ _ _ _ _ CU)|exact HX].
  destruct (cu_step _ _ _ _ _ CU) as (P1 & P2 & P3 & P4). now apply ku_langevin.
Qed.
Lemma global_units m m' k xs xs' o o' y y' : conv m m' -> Forall2 iu xs xs' -> global_run c d m k xs o y -> global_run c' d m' k xs' o' y' ->
  Forall2 (Forall2 siu) o o' /\ Forall2 iu y y' /\ length o = length xs /\ Forall (fun u => length u = c_global c) o.
Proof.
  intros M X H H'. unfold global_run in H, H'. rewrite (cu_global _ _ _ _ _ CU), (cu_global_th _ _ _ _ _ CU), (cu_bs _ _ _ _ _ CU) in H'.
  refine (chains_run_units n a b _ _ _ _ _ _ _ _ _ _ _ _ X H H'). intros q x x' HX.
  apply group_units; [exact (fc_flow _ _ _ _ _ _ _ _ FC _ _ M)|apply (cu_target _ _ _ _ _ CU)|exact B0|exact HX].
Qed.
Lemma hist_units ls ls' i : Forall2 (lrel n a b c chains) ls ls' -> i < chains -> Forall2 (hsiu n a b) (chain_history c ls i) (chain_history c' ls' i).
Proof. intros H Hi. apply (history_units n a b c c' chains); auto; apply CU. Qed.

Definition urel (s s' : rstate E) : Prop :=
  r_key s' = r_key s /\ Forall2 iu (r_pos s) (r_pos s') /\ r_opt s' = r_opt s /\ same (r_ext s) (r_ext s') /\ length (r_pos s) = chains /\ okst (r_opt s).
(** The recorded positions are finite in both units or in neither. *)
Definition samefin (ls ls' : list loop) : Prop := forall i s o o', i < chains -> nth_error (chain_history c ls i) s = Some o -> nth_error (chain_history c' ls' i) s = Some o' ->
  finite_row (s_pos (snd o)) = finite_row (s_pos (snd o')).
Lemma history_app cc (ls1 ls2 : list loop) i : chain_history cc (ls1 ++ ls2) i = chain_history cc ls1 i ++ chain_history cc ls2 i.
Proof. unfold chain_history. now rewrite map_app, concat_app. Qed.
Lemma nth_error_prefix {A} (l t : list A) s x : nth_error l s = Some x -> nth_error (l ++ t) s = Some x.
Proof. intros H. rewrite nth_error_app1; [exact H|]. apply nth_error_Some. congruence. Qed.
Lemma samefin_app ls ls' t t' : samefin (ls ++ t) (ls' ++ t') -> samefin ls ls'.
Proof. intros H i s o o' Hi E1 E2. apply (H i s); auto; rewrite history_app; now apply nth_error_prefix. Qed.

Lemma training_loop_units win past past' s s' l l' s1 s1' : urel s s' -> Forall2 (lrel n a b c chains) past past' ->
  pre (r_model s) (r_model s') -> (conv (r_model s) (r_model s') \/ exists v, In v (lo_losses l) /\ (v < 1000000000)%R) ->
  samefin (past ++ [l]) (past' ++ [l']) ->
  training_loop (bef true) c win d past s l s1 -> training_loop (bef' true) c' win d past' s' l' s1' ->
  lrel n a b c chains l l' /\ urel s1 s1' /\ conv (r_model s1) (r_model s1').
Proof.
  intros (R1 & R2 & R4 & R5 & R6 & R7) PP PM CM SF (k0 & x0 & x1 & ex & k3 & A1 & A2 & A3 & A4 & A5 & A6) (k0' & x0' & x1' & ex' & k3' & D1 & D2 & D3 & D4 & D5 & D6).
  rewrite R1 in D1. destruct (BD _ _ _ _ _ _ _ _ _ _ _ _ R6 R2 R5 A1 D1) as (-> & X0 & R5' & L0).
  destruct (local_units _ _ _ _ _ _ _ X0 A2 D2) as (O1 & X1 & LO & FO).
  pose proof (f2_len _ _ _ X0) as LX0. rnorm.
  assert (HK : forall i, i < chains -> Forall2 siu (kept_steps (c_local c) (c_local_th c) (nth i (lo_local l) [])) (kept_steps (c_local c) (c_local_th c) (nth i (lo_local l') []))).
  { intros i Hi. assert (Hi2 : i < length (lo_local l)) by (rnorm; rewrite LO; congruence). apply kept_units; [apply (f2_nth _ _ _ _ _ O1); exact Hi2|]. rewrite Forall_forall in FO. apply FO, nth_In. exact Hi2. }
  rewrite (cu_max _ _ _ _ _ CU), (cu_local _ _ _ _ _ CU), (cu_local_th _ _ _ _ _ CU), <- LX0 in D3.
  assert (HH : Forall2 (Forall2 (fun x y => iu x y /\ @finite_row RNum x = @finite_row RNum y))
    (map (fun i => map (fun o => s_pos (snd o)) (chain_history c past i) ++ map s_pos (kept_steps (c_local c) (c_local_th c) (nth i (lo_local l) []))) (seq 0 (length x0)))
    (map (fun i => map (fun o => s_pos (snd o)) (chain_history c' past' i) ++ map s_pos (kept_steps (c_local c) (c_local_th c) (nth i (lo_local l') []))) (seq 0 (length x0)))).
  { apply f2_mapseq. intros i Hi. apply in_seq in Hi. assert (Hi' : i < chains) by lia.
    assert (Q : forall (u u' t t' : list (bool * (list R * R * bool))), Forall2 (hsiu n a b) u u' -> (forall s o o', nth_error (u ++ t) s = Some o -> nth_error (u' ++ t') s = Some o' -> @finite_row RNum (s_pos (snd o)) = @finite_row RNum (s_pos (snd o'))) ->
       Forall2 (fun x y => iu x y /\ @finite_row RNum x = @finite_row RNum y) (map (fun o => s_pos (snd o)) u) (map (fun o => s_pos (snd o)) u')).
    { intros u u' t t' U. induction U as [|o o' u u' [_ W] _ IH]; intros QF; cbn [map]; constructor.
      - split; [apply W|]. exact (QF 0 o o' eq_refl eq_refl).
      - apply IH. intros s2 o2 o2' E2 E2'. exact (QF (S s2) o2 o2' E2 E2'). }
    assert (MM : forall q, map s_pos q = map (fun o => s_pos (snd o)) (map (pair true) q)) by (intros q; rewrite map_map; reflexivity).
    rnorm. rewrite !MM, <- !map_app.
    apply (Q _ _ (map (pair false) (kept_steps (c_global c) (c_global_th c) (nth i (lo_global l) []))) (map (pair false) (kept_steps (c_global c) (c_global_th c) (nth i (lo_global l') [])))).
    - apply Forall2_app; [now apply hist_units|]. eapply f2_map; [|apply HK; exact Hi']. intros u v W. split; [reflexivity|exact W].
    - intros s2 o o' E1 E2. apply (SF i s2 o o' Hi'); rewrite history_app; unfold chain_history at 2; cbn [map concat]; rewrite app_nil_r.
      + rewrite <- app_assoc in E1. exact E1.
      + rewrite (cu_local _ _ _ _ _ CU), (cu_local_th _ _ _ _ _ CU), (cu_global _ _ _ _ _ CU), (cu_global_th _ _ _ _ _ CU). rewrite <- app_assoc in E2. exact E2. }
  destruct (training_set_units n a b _ _ _ _ _ _ _ CL HH A3 D3) as [XE LE].
  rewrite R4, (cu_tx _ _ _ _ _ CU), (cu_epochs _ _ _ _ _ CU), (cu_batch _ _ _ _ _ CU) in D4.
  destruct (train_units n a b _ _ _ _ _ FC PL _ _ _ _ _ _ _ _ _ _ _ _ _ _ PM R7 LE XE A4 D4) as (-> & SO & LS & OS & CV). cbn [fst snd] in SO, CV, OS. specialize (CV CM).
  destruct (global_units _ _ _ _ _ _ _ _ _ CV X1 A5 D5) as (O2 & X2 & LG & FG).
  destruct A2 as (_ & Ly & _). destruct A5 as (_ & Ly2 & _). rnorm.
  split; [|split; [|exact CV]].
  - unfold lrel. repeat split; auto; rlia.
  - unfold urel. rewrite A6, D6. repeat split; auto; rlia.
Qed.
Lemma production_loop_units s s' l l' s1 s1' : urel s s' -> conv (r_model s) (r_model s') ->
  production_loop (bef false) c d s l s1 -> production_loop (bef' false) c' d s' l' s1' ->
  lrel n a b c chains l l' /\ urel s1 s1' /\ conv (r_model s1) (r_model s1').
Proof.
  intros (R1 & R2 & R4 & R5 & R6 & R7) CM (k0 & x0 & x1 & A1 & A2 & A3 & A4 & A5 & A6 & A7) (k0' & x0' & x1' & D1 & D2 & D3 & D4 & D5 & D6 & D7).
  rewrite R1 in D1. destruct (BD _ _ _ _ _ _ _ _ _ _ _ _ R6 R2 R5 A1 D1) as (-> & X0 & R5' & L0).
  destruct (local_units _ _ _ _ _ _ _ X0 A2 D2) as (O1 & X1 & LO & FO).
  destruct (global_units _ _ _ _ _ _ _ _ _ CM X1 A3 D3) as (O2 & X2 & LG & FG).
  destruct A2 as (_ & Ly & _). destruct A3 as (_ & Ly2 & _). rnorm.
  split; [|split].
  - unfold lrel. repeat split; auto; try rlia; congruence.
  - unfold urel. rewrite A7, D7. repeat split; auto; try rlia; congruence.
  - rewrite A5, D5. exact CM.
Qed.
Definition kept_first (ls : list loop) : Prop := exists l rest v, ls = l :: rest /\ In v (lo_losses l) /\ (v < 1000000000)%R.
Lemma training_units win s s' ls ls' t t' : urel s s' -> pre (r_model s) (r_model s') -> (conv (r_model s) (r_model s') \/ kept_first ls) ->
  length ls = length ls' -> samefin ls ls' -> training_run (bef true) c win d s ls t -> training_run (bef' true) c' win d s' ls' t' ->
  Forall2 (lrel n a b c chains) ls ls' /\ urel t t' /\ conv (r_model t) (r_model t').
Proof.
  intros R0 P0 C0 L SF H1 H2.
  assert (Q : Forall2 (lrel n a b c chains) ls ls' /\ urel t t' /\ pre (r_model t) (r_model t') /\ (conv (r_model s) (r_model s') \/ ls <> [] -> conv (r_model t) (r_model t'))).
  { revert ls' t' L H2 C0 SF. induction H1 as [s|s past t1 l t2 H1 IH H2]; intros ls' t' L H C0 SF; destruct H as [s'|s' past' t1' l' t2' H3 H4]; try (rewrite ?app_length in L; cbn in L; lia).
    - split; [constructor|]. split; [exact R0|]. split; [exact P0|]. intros [K|K]; [exact K|congruence].
    - rewrite !app_length in L. cbn in L.
      assert (CC : conv (r_model s) (r_model s') \/ kept_first past \/ past = []).
      { destruct C0 as [K|(l0 & rest & v & K1 & K2 & K3)]; [auto|]. destruct past as [|l1 past]; [auto|]. right. left. cbn in K1. injection K1 as -> K1. exists l0, past, v. auto. }
      assert (C1 : conv (r_model s) (r_model s') \/ kept_first past \/ past = []) by exact CC.
      destruct past as [|l1 past].
      + destruct past' as [|l2 past']; [|cbn in L; lia]. assert (t1 = s) by (inversion H1; [reflexivity|destruct past; discriminate]). assert (t1' = s') by (inversion H3; [reflexivity|destruct past; discriminate]). subst t1 t1'.
        assert (C2 : conv (r_model s) (r_model s') \/ exists v, In v (lo_losses l) /\ (v < 1000000000)%R).
        { destruct C0 as [K|(l0 & rest & v & K1 & K2 & K3)]; [auto|]. cbn in K1. injection K1 as -> _. eauto. }
        destruct (training_loop_units win [] [] _ _ _ _ _ _ R0 (Forall2_nil _) P0 C2 SF H2 H4) as (LR & UR & CV).
        split; [repeat constructor; apply LR|]. split; [exact UR|]. split; [exact (fc_pre _ _ _ _ _ _ _ _ FC _ _ CV)|auto].
      + assert (C2 : conv (r_model s) (r_model s') \/ kept_first (l1 :: past)) by (destruct CC as [K|[K|K]]; [auto|auto|discriminate]).
        destruct (IH R0 P0 past' t1' ltac:(cbn in *; lia) H3 C2 (samefin_app _ _ _ _ SF)) as (FP & U1 & P1 & CV1).
        assert (CV : conv (r_model t1) (r_model t1')) by (apply CV1; right; discriminate).
        destruct (training_loop_units win _ _ _ _ _ _ _ _ U1 FP P1 (or_introl CV) SF H2 H4) as (LR & UR & CV2).
        split; [apply Forall2_app; [exact FP|repeat constructor; apply LR]|]. split; [exact UR|]. split; [exact (fc_pre _ _ _ _ _ _ _ _ FC _ _ CV2)|auto]. }
  destruct Q as (Q1 & Q2 & _ & Q3). repeat split; try apply Q2; auto. apply Q3. destruct C0 as [K|(l0 & rest & v & -> & _)]; [auto|right; discriminate].
Qed.
Lemma production_units s s' ls ls' t t' : urel s s' -> conv (r_model s) (r_model s') -> length ls = length ls' ->
  production_run (bef false) c d s ls t -> production_run (bef' false) c' d s' ls' t' ->
  Forall2 (lrel n a b c chains) ls ls' /\ urel t t' /\ conv (r_model t) (r_model t').
Proof.
  intros R0 C0 L H1. revert ls' t' L. induction H1 as [s|s past t1 l t2 H1 IH H2]; intros ls' t' L H; destruct H as [s'|s' past' t1' l' t2' H3 H4]; try (rewrite ?app_length in L; cbn in L; lia).
  - split; [constructor|]. auto.
  - rewrite !app_length in L. cbn in L. destruct (IH R0 C0 past' t1' ltac:(lia) H3) as (FP & U1 & C1). destruct (production_loop_units _ _ _ _ _ _ U1 C1 H2 H4) as (LR & U2 & C2).
    split; [apply Forall2_app; [exact FP|repeat constructor; apply LR]|]. auto.
Qed.

(* ------------------------------------------------------------------ the buffers *)
Lemma records_of w w' phase ls ls' : chains = c_n_chains c -> 0 < chains -> Forall2 (lrel n a b c chains) ls ls' ->
  phase_recorded c w phase ls -> phase_recorded c' w' phase ls' -> records_in_units n a b chains (length (chain_history c ls 0)) w w' phase.
Proof.
  intros CC C0 H (s1 & pl & pb & ll & lb & al & ab & gl & gb & P1 & P2 & P3 & P4 & P5 & _ & _ & _ & P6) (s2 & pl' & pb' & ll' & lb' & al' & ab' & gl' & gb' & Q1 & Q2 & Q3 & Q4 & Q5 & _ & _ & _ & Q6).
  rewrite (cu_chains _ _ _ _ _ CU), <- CC in Q5, Q6. rewrite <- CC in P5, P6. rewrite (cu_dims _ _ _ _ _ CU) in P5, P6. rewrite (cu_dims' _ _ _ _ _ CU) in Q5, Q6.
  destruct (P6 0 C0) as [L1 _]. destruct (Q6 0 C0) as [L2 _]. pose proof (f2_len _ _ _ (hist_units _ _ 0 H C0)) as L3. rnorm.
  exists pl, pb, ll, lb, al, ab, gl, gb, pl', pb', ll', lb', al', ab', gl', gb'. do 8 (split; [assumption|]).
  split; [congruence|]. split; [congruence|]. intros i s Hi Hs.
  destruct (P6 i Hi) as [Li P7]. destruct (Q6 i Hi) as [Li' Q7]. rnorm.
  destruct (nth_error (chain_history c ls i) s) as [[il o]|] eqn:E1; [|apply nth_error_None in E1; exfalso; rlia].
  destruct (f2_nth_error _ _ _ (hist_units _ _ i H Hi) _ _ E1) as ([il' o'] & E2 & (F1 & F2 & F3 & F4)). cbn [fst snd] in F1, F2, F3, F4. subst il'.
  destruct (P7 s il o E1) as (K1 & K2 & K3 & K4). destruct (Q7 s il o' E2) as (J1 & J2 & J3 & J4). unfold s_pos, s_lp, s_acc in * . rnorm.
  rewrite K1, K2, K3, K4, J1, J2, J3, J4, F3, F4. auto.
Qed.
Lemma losses_units w w' ls ls' : Forall2 (lrel n a b c chains) ls ls' -> losses_recorded c w ls -> losses_recorded c' w' ls' -> same_losses w w'.
Proof.
  intros H (l & lb & P1 & P2 & P3 & P4) (l' & lb' & Q1 & Q2 & Q3 & Q4).
  assert (E0 : concat (map lo_losses ls') = concat (map lo_losses ls)).
  { f_equal. clear - H. induction H as [|l l' ls ls' (_ & _ & X & _) _ IH]; cbn [map]; [reflexivity|]. f_equal; [exact X|exact IH]. }
  rewrite E0 in * . exists l, lb, l', lb'. repeat split; try apply P1; try apply Q1; try congruence.
  intros j Hj. rewrite P2 in Hj. cbn in Hj. destruct (nth_error (concat (map lo_losses ls)) j) as [v|] eqn:EE; [|apply nth_error_None in EE; exfalso; rlia].
  now rewrite (P4 j v EE), (Q4 j v EE).
Qed.
Lemma samefin_of w w' ls ls' : chains = c_n_chains c -> same_range n chains w w' -> phase_recorded c w "training" ls -> phase_recorded c' w' "training" ls' -> samefin ls ls'.
Proof.
  intros CC SR (s1 & pl & pb & ll & lb & al & ab & gl & gb & P1 & P2 & P3 & P4 & P5 & _ & _ & _ & P6) (s2 & pl' & pb' & ll' & lb' & al' & ab' & gl' & gb' & Q1 & Q2 & Q3 & Q4 & Q5 & _ & _ & _ & Q6) i s [il o] [il' o'] Hi E1 E2.
  rewrite (cu_chains _ _ _ _ _ CU), <- CC in Q6. rewrite <- CC in P6. rewrite (cu_dims _ _ _ _ _ CU) in P5, P6. rewrite (cu_dims' _ _ _ _ _ CU) in Q6.
  destruct (P6 i Hi) as [Li P7]. destruct (Q6 i Hi) as [Li' Q7]. destruct (P7 s il o E1) as (K1 & _). destruct (Q7 s il' o' E2) as (J1 & _). cbn [snd].
  rewrite <- K1, <- J1. apply (SR pl pb pl' pb' P1 Q1 i s Hi). rewrite P5. cbn [nth]. rewrite <- Li. apply nth_error_Some. congruence.
Qed.
Lemma kept_of w ls : losses_recorded c w ls -> length ls = c_train_loops c -> (forall l, In l ls -> length (lo_losses l) = c_epochs c) -> first_training_kept c w -> kept_first ls.
Proof.
  intros (l & lb & (P1 & P1') & P2 & P3 & P4) LL EE (l2 & lb2 & j & (Q1 & Q1') & Hj & HT & V). assert (lb2 = lb) as -> by congruence.
  destruct ls as [|l0 rest]; [cbn in LL; lia|]. pose proof (EE l0 (or_introl eq_refl)) as L0. exists l0, rest.
  destruct (nth_error (lo_losses l0) j) as [v|] eqn:E0; [|apply nth_error_None in E0; lia].
  exists v. split; [reflexivity|]. split; [exact (nth_error_In _ _ E0)|].
  rewrite (P4 j v) in V; [exact V|]. cbn [map concat]. now apply nth_error_prefix.
Qed.
End URun2.
