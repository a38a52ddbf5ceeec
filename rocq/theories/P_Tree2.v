(** Structure of the constructed models; save and load. *)
From Coq Require Import Ascii.
From Verif Require Import Prelude Num M_Core M_Kernels M_Strategies M_Flow M_Net M_Model M_Tree P_Lists Spec_Kernels Spec_Train Spec_Net Spec_Tree P_Net P_Net4 P_Core P_Tree1.

Section Tree2.
Context {N : Num} {G : Rng}.
Variable li : nat -> nat -> key -> bool -> linear.

Lemma ok_inj {A} (a b : A) : Ok a = Ok b -> a = b.
Proof. congruence. Qed.
Lemma app_inj_len {A} (a b c d : list A) : length a = length b -> a ++ c = b ++ d -> a = b /\ c = d.
Proof.
  revert b. induction a as [|x a IH]; intros [|y b] Hl H; try discriminate; [auto|]. injection Hl as Hl. injection H as -> H.
  destruct (IH b Hl H) as [-> ->]. auto.
Qed.
Definition lin_skel (L a b : nat) : list leaf := [LArr DFloat32 [L; b; a] []; LArr DFloat32 [L; b] []].
Definition mlp_skel (shape : list nat) (L : nat) : list leaf :=
  flat_map (fun j => lin_skel L (nth j shape 0) (nth (S j) shape 0) ++ [LFun]) (seq 0 (length shape - 2)) ++
  lin_skel L (nth (length shape - 2) shape 0) (nth (S (length shape - 2)) shape 0).
Lemma mlp_leaves_skel shape ms : map skeleton (mlp_leaves shape ms) = mlp_skel shape (length ms).
Proof.
  unfold mlp_leaves, mlp_skel. rewrite map_app. f_equal.
  - induction (seq 0 (length shape - 2)) as [|j l IH]; [reflexivity|]. cbn [flat_map]. rewrite !map_app. rewrite IH. cbn. now rewrite map_length.
  - cbn. now rewrite map_length.
Qed.
Definition head_skel (n : nat) : list leaf :=
  [LInt 0; LArr DFloat32 [n] []; LArr DFloat32 [n; n] []; LArr DFloat32 [n] []; LArr DFloat32 [n; n] []; LBool false].
Definition nvp_skel (n L h : nat) : list leaf :=
  head_skel n ++ [LArr DFloat32 [L; n] []] ++ mlp_skel [n; h; n] L ++ mlp_skel [n; h; n] L ++ [LInt 0].
Definition rqs_skel (n L bins : nat) (hidden : list nat) : list leaf :=
  head_skel n ++ [LArr DBool [L; n] []; LArr DFloat32 [L] []; LArr DFloat32 [L] []; LArr DBool [L; n] [];
     LFloat f0; LFloat f0; LInt 0; LFloat f0; LFloat f0] ++ mlp_skel (rqs_net_shape n bins hidden) L.

Lemma per_layer_length {A} (mk : nat -> key -> res A) L k st : per_layer mk L k = Ok st -> length st = L.
Proof. intros H. apply rmapM_length in H. now rewrite seq_length in H. Qed.
Lemma rmapM_total {A B} (f : A -> res B) l : (forall x, In x l -> exists y, f x = Ok y) -> exists ys, rmapM f l = Ok ys.
Proof.
  induction l as [|x l IH]; intros H; [now exists []|]. destruct (H x (or_introl eq_refl)) as [y Ey].
  destruct IH as [ys E]; [intros; apply H; now right|]. exists (y :: ys). cbn. now rewrite Ey, E.
Qed.
Lemma nvp_tree_skel n L h k lv : nvp_tree li n L h k = Ok lv -> map skeleton lv = nvp_skel n L h.
Proof.
  unfold nvp_tree. destruct (per_layer (fun _ => nvp_networks li n h) L k) as [st|] eqn:E; [|discriminate]. cbn [rbind]. intros H. apply ok_inj in H. subst lv.
  apply per_layer_length in E. rewrite !map_app, !mlp_leaves_skel, !map_length, E. reflexivity.
Qed.
Lemma rqs_tree_skel n L bins hidden lo hi k lv : rqs_tree li n L bins hidden lo hi k = Ok lv -> map skeleton lv = rqs_skel n L bins hidden.
Proof.
  unfold rqs_tree. destruct (per_layer (fun _ => rqs_network li n bins hidden) L k) as [st|] eqn:E; [|discriminate]. cbn [rbind]. intros H. apply ok_inj in H. subst lv.
  apply per_layer_length in E. rewrite !map_app, !mlp_leaves_skel, E. reflexivity.
Qed.
Lemma nvp_tree_ok n L h k : exists lv, nvp_tree li n L h k = Ok lv.
Proof.
  unfold nvp_tree, per_layer. destruct (rmapM_total (fun i => nvp_networks li n h (split k L i)) (seq 0 L)) as [st E].
  - intros i _. now eexists.
  - rewrite E. now eexists.
Qed.
Lemma rqs_tree_ok n L bins hidden lo hi k : exists lv, rqs_tree li n L bins hidden lo hi k = Ok lv.
Proof.
  unfold rqs_tree, per_layer. destruct (rmapM_total (fun i => rqs_network li n bins hidden (split k L i)) (seq 0 L)) as [st E].
  - intros i _. apply mlp_new_ok. unfold rqs_net_shape. cbn. rewrite app_length. cbn. lia.
  - rewrite E. now eexists.
Qed.

(** Save and load on the file system. *)
Lemma append_inj_l p q s : append p s = append q s -> p = q.
Proof.
  revert q. induction p as [|c p IH]; intros [|d q] H; cbn in H.
  - reflexivity.
  - exfalso. apply (f_equal String.length) in H. cbn in H. rewrite append_length in H. lia.
  - exfalso. apply (f_equal String.length) in H. cbn in H. rewrite append_length in H. lia.
  - injection H as <- H. f_equal. now apply IH.
Qed.
Lemma load_save fs path lv like (later : list (string * list leaf)) :
  (forall q m, In (q, m) later -> q <> path) ->
  load_model (fold_left (fun f qm => save_model f (fst qm) (snd qm)) later (save_model fs path lv)) path like = deserialise like (serialise lv).
Proof.
  intros H. unfold load_model. 
  assert (E : dget (fold_left (fun f qm => save_model f (fst qm) (snd qm)) later (save_model fs path lv)) (append path ".eqx") = Some (serialise lv)).
  { assert (E0 : dget (save_model fs path lv) (append path ".eqx") = Some (serialise lv)) by apply dget_dset_eq.
    revert E0. generalize (save_model fs path lv). induction later as [|[q m] later IH]; intros f E0; [exact E0|]. cbn.
    apply IH; [intros; eapply H; right; eauto|]. unfold save_model. rewrite dget_dset_neq; auto.
    intros Eq. apply append_inj_l in Eq. apply (H q m); auto. now left. }
  now rewrite E.
Qed.
Lemma load_save0 fs path lv like : load_model (save_model fs path lv) path like = deserialise like (serialise lv).
Proof. unfold load_model, save_model. now rewrite dget_dset_eq. Qed.
Lemma roundtrip_proof fs path lv like (later : list (string * list leaf)) : same_structure like lv ->
  (forall q m, In (q, m) later -> q <> path) ->
  load_model (fold_left (fun f qm => save_model f (fst qm) (snd qm)) later (save_model fs path lv)) path like = Ok lv.
Proof. intros H1 H2. rewrite load_save by auto. rewrite <- (app_nil_r (serialise lv)). now apply deser_ok. Qed.
Lemma load_iff_proof fs path lv like r :
  load_model (save_model fs path lv) path like = Ok r <-> same_structure r like /\ exists rest, serialise lv = serialise r ++ rest.
Proof. rewrite (load_save0 fs path lv like). apply deser_iff. Qed.
Lemma missing_proof path like (saved : list (string * list leaf)) : (forall q m, In (q, m) saved -> q <> path) ->
  exists e, load_model (fold_left (fun f qm => save_model f (fst qm) (snd qm)) saved []) path like = Raise e.
Proof.
  intros H. unfold load_model.
  assert (E : forall f, dget f (append path ".eqx") = None -> dget (fold_left (fun f qm => save_model f (fst qm) (snd qm)) saved f) (append path ".eqx") = None).
  { induction saved as [|[q m] l IH]; intros f E0; [exact E0|]. cbn. apply IH; [intros; eapply H; right; eauto|].
    unfold save_model. rewrite dget_dset_neq; auto. intros Eq. apply append_inj_l in Eq. apply (H q m); auto. now left. }
  rewrite E by reflexivity. now eexists.
Qed.

(** Which sizes fit which. *)
Lemma ser_skel lv s : map skeleton lv = s -> map skeleton (serialise lv) = serialise s.
Proof.
  intros <-. induction lv as [|l lv IH]; [reflexivity|]. destruct (fun_dec l) as [->|Hl]; [exact IH|].
  cbn [map]. rewrite !ser_cons; auto. { cbn. now rewrite IH. } intros H. apply Hl. now apply skel_fun.
Qed.
Lemma nvp_fit n L h n' L' h' like lv fs path :
  map skeleton like = nvp_skel n L h -> map skeleton lv = nvp_skel n' L' h' ->
  ((exists r, load_model (save_model fs path lv) path like = Ok r) <-> n = n' /\ L = L' /\ h = h').
Proof.
  intros H1 H2. split.
  - intros [r Hr]. apply load_iff_proof in Hr as [SS (rest & E)]. 
    assert (E' : map skeleton (serialise lv) = map skeleton (serialise r ++ rest)) by now rewrite E.
    rewrite map_app, (ser_skel _ _ H2), (ser_skel r (nvp_skel n L h)) in E' by (rewrite <- H1; exact SS).
    cbn in E'. injection E' as A1 A2 A3 A4 A5. subst. auto.
  - intros (-> & -> & ->). exists lv. rewrite (load_save0 fs path lv like).
    rewrite <- (app_nil_r (serialise lv)). apply deser_ok. unfold same_structure. congruence.
Qed.
Lemma ser_mlp_skel shape L : serialise (mlp_skel shape L) = flat_map (fun j => lin_skel L (nth j shape 0) (nth (S j) shape 0)) (seq 0 (S (length shape - 2))).
Proof.
  rewrite seq_S, flat_map_app. cbn [flat_map]. rewrite app_nil_r. unfold mlp_skel, serialise. rewrite filter_app. f_equal.
  generalize (seq 0 (length shape - 2)). intros l. induction l as [|j l IH]; [reflexivity|]. cbn [flat_map]. rewrite !filter_app, IH. reflexivity.
Qed.
Lemma ser_app (a b : list leaf) : serialise (a ++ b) = serialise a ++ serialise b.
Proof. apply filter_app. Qed.
Lemma flat_prefix (f g : nat -> list leaf) c : (forall i, length (f i) = c) -> (forall i, length (g i) = c) ->
  forall m a rest, flat_map f (seq a m) = flat_map g (seq a m) ++ rest -> (forall i, a <= i < a + m -> f i = g i) /\ rest = [].
Proof.
  intros Hf Hg. induction m as [|m IH]; intros a rest H.
  - cbn in H. split; [intros; lia|auto].
  - cbn [seq flat_map] in H. rewrite <- app_assoc in H. 
    assert (E : f a = g a /\ flat_map f (seq (S a) m) = flat_map g (seq (S a) m) ++ rest).
    { apply app_inj_len in H; [exact H|]. now rewrite Hf, Hg. }
    destruct E as [E1 E2]. destruct (IH (S a) rest E2) as [H1 H2]. split; auto. intros i Hi. destruct (Nat.eq_dec i a) as [->|]; auto. apply H1. lia.
Qed.
Lemma rqs_fit n L bins hidden n' L' bins' hidden' like lv fs path : 0 < n -> length hidden = length hidden' ->
  map skeleton like = rqs_skel n L bins hidden -> map skeleton lv = rqs_skel n' L' bins' hidden' ->
  ((exists r, load_model (save_model fs path lv) path like = Ok r) <-> n = n' /\ L = L' /\ bins = bins' /\ hidden = hidden').
Proof.
  intros Hn Hl H1 H2. split.
  - intros [r Hr]. apply load_iff_proof in Hr as [SS (rest & E)]. 
    assert (E' : map skeleton (serialise lv) = map skeleton (serialise r ++ rest)) by now rewrite E.
    rewrite map_app, (ser_skel _ _ H2), (ser_skel r (rqs_skel n L bins hidden)) in E' by (rewrite <- H1; exact SS).
    unfold rqs_skel in E'. rewrite !app_assoc in E'. rewrite (ser_app (_ ++ _)), (ser_app (head_skel n ++ _)), !ser_mlp_skel, <- app_assoc in E'.
    apply app_inj_len in E' as [A1 A3]; [|reflexivity]. cbn in A1. injection A1 as A1 A2. subst n' L'.
    assert (Ls : length (rqs_net_shape n bins' hidden') = length (rqs_net_shape n bins hidden)) by (unfold rqs_net_shape; cbn; rewrite !app_length; cbn; lia).
    rewrite Ls in A3. apply (flat_prefix _ _ 2) in A3 as [B _]; [|reflexivity|reflexivity].
    assert (Es : rqs_net_shape n bins' hidden' = rqs_net_shape n bins hidden).
    { apply (list_eq_nth 0); auto. intros [|i] Hi; [reflexivity|].
      assert (Hlen : length (rqs_net_shape n bins hidden) >= 2) by (unfold rqs_net_shape; cbn; rewrite app_length; cbn; lia).
      assert (Hi' : 0 <= i < 0 + S (length (rqs_net_shape n bins hidden) - 2)) by lia.
      specialize (B i Hi'). exact (f_equal (fun l => nth 1 (match nth 1 l LFun with LArr _ sh _ => sh | _ => [] end) 0) B). }
    unfold rqs_net_shape in Es. injection Es as Es. apply app_inj_tail in Es as [-> Es]. 
    repeat split; auto. assert (bins' * 3 + 1 = bins * 3 + 1) by (apply (Nat.mul_cancel_l _ _ n); lia). lia.
  - intros (-> & -> & -> & ->). exists lv. rewrite (load_save0 fs path lv like).
    rewrite <- (app_nil_r (serialise lv)). apply deser_ok. unfold same_structure. congruence.
Qed.
End Tree2.
