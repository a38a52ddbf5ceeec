(** Save/load after training; masks after to_precision. *)
From Coq Require Import Reals Psatz.
From Coquelicot Require Import Coquelicot.
From Verif Require Import Prelude Num M_Core M_Kernels M_Strategies M_Flow M_Net M_Model M_Tree P_Lists RNum Spec_Kernels Spec_Train Spec_FM P_Real1 P_FM3 P_Decay Spec_Net Spec_Tree P_Tree1 P_Tree2 P_Tree3 P_Tree4 P_Tree5 P_Tree7 P_Tree8 P_Tree9 P_Tree11.
Open Scope nat_scope.

Section Gen.
Context {N : Num} {G : Rng}.
Variable li : nat -> nat -> key -> bool -> linear.
Variables (logp : list leaf -> vec -> F) (sample : list leaf -> key -> nat -> list vec) (grad : list leaf -> list vec -> vec).
Lemma run_skel n tx lv0 s0 ds lv s : stats_header n lv0 -> @training_run N G (tree_ops logp sample grad) tx lv0 s0 ds lv s -> map skeleton lv = map skeleton lv0.
Proof. intros Hh H. symmetry. exact (ofd_skel _ _ (run_ofd logp sample grad n _ _ _ _ _ _ Hh H)). Qed.
Lemma nvp_run_load n L h k k' lv0 like tx s0 ds lv s fs path (later : list (string * list leaf)) :
  nvp_tree li n L h k = Ok lv0 -> nvp_tree li n L h k' = Ok like -> @training_run N G (tree_ops logp sample grad) tx lv0 s0 ds lv s ->
  (forall q m, In (q, m) later -> q <> path) ->
  load_model (fold_left (fun f qm => save_model f (fst qm) (snd qm)) later (save_model fs path lv)) path like = Ok lv.
Proof.
  intros H0 H1 Hr Hl. apply roundtrip_proof; auto. unfold same_structure. rewrite (run_skel n _ _ _ _ _ _ (nvp_stats li n L h k lv0 H0) Hr).
  rewrite (nvp_tree_skel li _ _ _ _ _ H0), (nvp_tree_skel li _ _ _ _ _ H1). reflexivity.
Qed.
Lemma rqs_run_load n L bins hidden lo hi lo' hi' k k' lv0 like tx s0 ds lv s fs path (later : list (string * list leaf)) :
  rqs_tree li n L bins hidden lo hi k = Ok lv0 -> rqs_tree li n L bins hidden lo' hi' k' = Ok like -> @training_run N G (tree_ops logp sample grad) tx lv0 s0 ds lv s ->
  (forall q m, In (q, m) later -> q <> path) ->
  load_model (fold_left (fun f qm => save_model f (fst qm) (snd qm)) later (save_model fs path lv)) path like = Ok lv.
Proof.
  intros H0 H1 Hr Hl. apply roundtrip_proof; auto. unfold same_structure. rewrite (run_skel n _ _ _ _ _ _ (rqs_stats li n L bins hidden lo hi k lv0 H0) Hr).
  rewrite (rqs_tree_skel li _ _ _ _ _ _ _ _ H0), (rqs_tree_skel li _ _ _ _ _ _ _ _ H1). reflexivity.
Qed.
Lemma nvp_run_fit n L h k lv0 n' L' h' k' like tx s0 ds lv s fs path :
  nvp_tree li n' L' h' k' = Ok like -> nvp_tree li n L h k = Ok lv0 -> @training_run N G (tree_ops logp sample grad) tx lv0 s0 ds lv s ->
  ((exists r, load_model (save_model fs path lv) path like = Ok r) <-> n' = n /\ L' = L /\ h' = h).
Proof.
  intros H1 H0 Hr. apply nvp_fit; [exact (nvp_tree_skel li _ _ _ _ _ H1)|]. rewrite (run_skel n _ _ _ _ _ _ (nvp_stats li n L h k lv0 H0) Hr). exact (nvp_tree_skel li _ _ _ _ _ H0).
Qed.
Lemma rqs_run_fit n L bins hidden lo hi k lv0 n' L' bins' hidden' lo' hi' k' like tx s0 ds lv s fs path :
  rqs_tree li n' L' bins' hidden' lo' hi' k' = Ok like -> rqs_tree li n L bins hidden lo hi k = Ok lv0 -> @training_run N G (tree_ops logp sample grad) tx lv0 s0 ds lv s ->
  ((exists r, load_model (save_model fs path lv) path like = Ok r) <->
   n' = n /\ L' = L /\ exists rest, hidden ++ [n * (bins * 3 + 1)] = hidden' ++ [n' * (bins' * 3 + 1)] ++ rest).
Proof.
  intros H1 H0 Hr. apply rqs_fit_gen; [exact (rqs_tree_skel li _ _ _ _ _ _ _ _ H1)|]. rewrite (run_skel n _ _ _ _ _ _ (rqs_stats li n L bins hidden lo hi k lv0 H0) Hr). exact (rqs_tree_skel li _ _ _ _ _ _ _ _ H0).
Qed.
(** The models of the other class never fit. *)
Lemma nvp_rqs_fit n L h n' L' bins hidden like lv fs path : map skeleton like = nvp_skel n L h -> map skeleton lv = rqs_skel n' L' bins hidden ->
  ~ exists r, load_model (save_model fs path lv) path like = Ok r.
Proof.
  intros H1 H2 [r Hr]. rewrite (load_save0 fs path lv like) in Hr. apply deser_inv in Hr as [SS (rest & E)]; [|apply ser_nofun].
  assert (E' : map skeleton (serialise lv) = map skeleton (serialise r ++ rest)) by now rewrite E.
  rewrite map_app, (ser_skel _ _ H2), (ser_skel r (nvp_skel n L h)) in E' by (rewrite <- H1; exact SS). cbn in E'. discriminate.
Qed.
Lemma rqs_nvp_fit n L h n' L' bins hidden like lv fs path : map skeleton lv = nvp_skel n L h -> map skeleton like = rqs_skel n' L' bins hidden ->
  ~ exists r, load_model (save_model fs path lv) path like = Ok r.
Proof.
  intros H2 H1 [r Hr]. rewrite (load_save0 fs path lv like) in Hr. apply deser_inv in Hr as [SS (rest & E)]; [|apply ser_nofun].
  assert (E' : map skeleton (serialise lv) = map skeleton (serialise r ++ rest)) by now rewrite E.
  rewrite map_app, (ser_skel _ _ H2), (ser_skel r (rqs_skel n' L' bins hidden)) in E' by (rewrite <- H1; exact SS). cbn in E'. discriminate.
Qed.
End Gen.

Section Prec.
Open Scope R_scope.
Context {G : @Rng RNum}.
Variable li : nat -> nat -> key -> bool -> @linear RNum.
Variables (logp : list (@leaf RNum) -> list R -> R) (sample : list (@leaf RNum) -> key -> nat -> list (list R)) (grad : list (@leaf RNum) -> list (list R) -> list R).
Lemma float32_masks (round : dtype -> R -> R) n L bins hidden (lo hi : R) k name lv0 lv1 lr momentum ds lv s :
  rqs_tree li n L bins hidden lo hi k = Ok lv0 -> lower name = "float32"%string -> @to_precision RNum round lv0 name = Ok lv1 -> (forall x, round DFloat32 x = x) ->
  0 < lr < 10000 -> @stopped RNum lv1 grad 9 ->
  @training_run RNum G (tree_ops logp sample grad) (@optimizer_new RNum lr momentum) lv1 (tree_optimizer_init lv1) ds lv s ->
  exists T, (lv = lv1 \/ (1 <= T)%nat) /\
  forall i j, (i < L)%nat -> (j < n)%nat -> @nth R j (row_at n (lv_at lv 9) i) 0 = @nth R j (@rqs_mask RNum n i) 0 * (1 - lr * (1 / 10000)) ^ T.
Proof.
  intros H0 Hn Hp Hr Hlr H9 Hrun.
  rewrite (precision_ok round lv0 name DFloat32) in Hp by (rewrite Hn; reflexivity). apply ok_inj in Hp. subst lv1.
  assert (E9 : lv_at lv0 9 = LArr DBool [L; n] (concat (map (@rqs_mask RNum n) (seq 0 L)))).
  { revert H0. unfold rqs_tree. destruct (per_layer (fun _ => rqs_network li n bins hidden) L k) as [st|]; [|discriminate]. cbn [rbind]. intros H. apply ok_inj in H. subst lv0. reflexivity. }
  assert (Hh : @stats_header RNum n (map (@conv RNum round DFloat32) lv0)).
  { destruct (rqs_stats li n L bins hidden lo hi k lv0 H0) as (Tn & v1 & v2 & E1 & L1 & E2 & L2). split.
    - rewrite <- Tn. unfold tree_n, lv_at. rewrite conv_nth. destruct (nth 0 lv0 LFun); reflexivity.
    - unfold lv_at in * . rewrite !conv_nth, E1, E2. cbn [conv]. do 2 eexists. split; [reflexivity|split; [rewrite map_length; exact L1|split; [reflexivity|rewrite map_length; exact L2]]]. }
  assert (E9' : lv_at (map (@conv RNum round DFloat32) lv0) 9 = LArr DFloat32 [L; n] (concat (map (@rqs_mask RNum n) (seq 0 L)))).
  { unfold lv_at in * . rewrite conv_nth, E9. cbn [conv]. f_equal. etransitivity; [|apply map_id]. apply map_ext. intros x. apply Hr. }
  destruct (run_other logp sample grad _ n lr momentum ds lv s Hh Hrun 9 [L; n] _ H9 ltac:(discriminate) ltac:(discriminate) E9') as (T & F9 & HT).
  exists T. split; [exact HT|]. intros i j Hi Hj. rewrite F9. rewrite concat_map, map_map.
  rewrite (row_mask (fun i => map (fun v => v * (1 - lr * (1 / 10000)) ^ T) (@rqs_mask RNum n i))); auto.
  - apply (nth_map' (fun v => v * (1 - lr * (1 / 10000)) ^ T) (@rqs_mask RNum n i) j 0 0). rewrite rqs_mask_len. exact Hj.
  - intros q. rewrite map_length. apply rqs_mask_len.
Qed.
End Prec.
