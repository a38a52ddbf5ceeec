(** to_precision, and loading a deeper model. *)
From Coq Require Import Ascii.
From Verif Require Import Prelude Num M_Core M_Kernels M_Strategies M_Flow M_Net M_Model M_Tree P_Lists Spec_Kernels Spec_Train Spec_Net Spec_Tree P_Tree1 P_Tree2 P_Tree3 P_Tree4 P_Tree5.
Open Scope nat_scope.

Section Tree11.
Context {N : Num} {G : Rng}.
Variable round : dtype -> F -> F.
Definition conv (d : dtype) (l : leaf) : leaf := match l with LArr _ sh v => LArr d sh (map (round d) v) | _ => l end.
Lemma precision_ok lv name d : dget precisions (lower name) = Some d -> to_precision round lv name = Ok (map (conv d) lv).
Proof. intros E. unfold to_precision. now rewrite E. Qed.
Lemma precision_cases lv name :
  match dget precisions (lower name) with Some d => to_precision round lv name = Ok (map (conv d) lv) | None => to_precision round lv name = Raise ValueError end.
Proof. unfold to_precision. destruct (dget precisions (lower name)); reflexivity. Qed.
Lemma precision_iff lv name : (exists r, to_precision round lv name = Ok r) <-> In (lower name) ["float16"; "bfloat16"; "float32"; "float64"]%string.
Proof.
  unfold to_precision, precisions. cbn [dget].
  destruct (String.eqb_spec (lower name) "float16") as [->|H1]; [split; [now left|eexists; reflexivity]|].
  destruct (String.eqb_spec (lower name) "bfloat16") as [->|H2]; [split; [right; now left|eexists; reflexivity]|].
  destruct (String.eqb_spec (lower name) "float32") as [->|H3]; [split; [right; right; now left|eexists; reflexivity]|].
  destruct (String.eqb_spec (lower name) "float64") as [->|H4]; [split; [right; right; right; now left|eexists; reflexivity]|].
  split; [intros [r E]; discriminate|]. intros [K|[K|[K|[K|[]]]]]; congruence.
Qed.
Lemma conv_nth d lv i : nth i (map (conv d) lv) LFun = conv d (nth i lv LFun).
Proof. change LFun with (conv d LFun) at 1. apply map_nth. Qed.
(** The flow depends on the values only. *)
Definition same_values (a b : list leaf) : Prop :=
  length a = length b /\ forall i, leaf_vals (lv_at b i) = leaf_vals (lv_at a i) /\ leaf_int (lv_at b i) = leaf_int (lv_at a i) /\ leaf_float (lv_at b i) = leaf_float (lv_at a i).
Lemma sv_mlp shape act c a b i : same_values a b -> mlp_at shape act (skipn c b) i = mlp_at shape act (skipn c a) i.
Proof.
  intros [_ H]. unfold mlp_at, linear_at. unfold lv_at in H.
  assert (K : forall j, leaf_vals (nth j (skipn c b) LFun) = leaf_vals (nth j (skipn c a) LFun)) by (intros j; rewrite !nth_skipn; apply H).
  f_equal.
  - apply map_ext. intros j. now rewrite !K.
  - now rewrite !K.
Qed.
Lemma sv_row n a b c i : same_values a b -> row_at n (lv_at b c) i = row_at n (lv_at a c) i.
Proof. intros [_ H]. unfold row_at. now rewrite (proj1 (H c)). Qed.
Lemma sv_n a b : same_values a b -> tree_n b = tree_n a.
Proof. intros [_ H]. unfold tree_n. now rewrite (proj1 (proj2 (H 0))). Qed.
Lemma sv_flow a b ls : same_values a b -> tree_flow b ls = tree_flow a ls.
Proof. intros Hs. pose proof (sv_n _ _ Hs) as E. destruct Hs as [_ H]. unfold tree_flow, matrix_of. now rewrite E, (proj1 (H 1)), (proj1 (H 2)). Qed.
Lemma sv_nvp L h a b : same_values a b -> nvp_flow L h b = nvp_flow L h a.
Proof.
  intros Hs. unfold nvp_flow. rewrite (sv_flow a b) by auto. rewrite (sv_n a b Hs). f_equal. apply map_ext. intros i.
  rewrite !(sv_mlp _ _ _ a b) by auto. rewrite (sv_row _ a b) by auto. now rewrite (proj1 (proj2 (proj2 Hs 17))).
Qed.
Lemma sv_rqs L bins hidden a b : same_values a b -> rqs_flow L bins hidden b = rqs_flow L bins hidden a.
Proof.
  intros Hs. unfold rqs_flow. rewrite (sv_flow a b) by auto. rewrite (sv_n a b Hs). f_equal. apply map_ext. intros i.
  rewrite !(sv_mlp _ _ _ a b) by auto. rewrite !(sv_row _ a b) by auto. destruct Hs as [_ H].
  now rewrite (proj1 (H 7)), (proj1 (H 8)), (proj2 (proj2 (H 10))), (proj2 (proj2 (H 11))), (proj1 (proj2 (H 12))), (proj2 (proj2 (H 13))), (proj2 (proj2 (H 14))).
Qed.
Lemma sv_base chol a b : same_values a b -> tree_base chol b = tree_base chol a.
Proof. intros Hs. unfold tree_base, matrix_of. rewrite (sv_n a b Hs). destruct Hs as [_ H]. now rewrite (proj1 (H 3)), (proj1 (H 4)). Qed.
Lemma conv_same d lv : (forall l x, In l lv -> In x (leaf_vals l) -> round d x = x) -> same_values lv (map (conv d) lv).
Proof.
  intros H. split; [now rewrite map_length|]. intros i. unfold lv_at. rewrite conv_nth.
  destruct (nth_in_or_default i lv LFun) as [Hin|E]; [|rewrite E; auto].
  specialize (H (nth i lv LFun)). destruct (nth i lv LFun) as [dd sh v| | | |]; auto. cbn [conv leaf_vals leaf_int leaf_float]. split; auto.
  etransitivity; [|apply map_id]. apply map_ext_in. intros x Hx. now apply H.
Qed.
Lemma precision_same lv name lv' : to_precision round lv name = Ok lv' -> (forall d l x, In l lv -> In x (leaf_vals l) -> round d x = x) -> same_values lv lv'.
Proof.
  intros E H. unfold to_precision in E. destruct (dget precisions (lower name)) as [d|]; [|discriminate]. apply ok_inj in E. subst lv'. apply (conv_same d). intros; eapply H; eauto.
Qed.

(** A file fits a model when the model's records are a prefix of the file's. *)
Lemma deser_prefix : forall like file rest, map skeleton file = map skeleton (serialise like) ++ rest -> exists r, deserialise like file = Ok r.
Proof.
  induction like as [|l like IH]; intros file rest H; [eexists; reflexivity|]. destruct (fun_dec l) as [->|Hl].
  - destruct (IH file rest H) as [r E]. exists (LFun :: r). cbn. now rewrite E.
  - rewrite ser_cons in H by auto. destruct file as [|x file]; [discriminate|]. cbn [map app] in H. injection H as H1 H2.
    rewrite deser_cons by auto. rewrite (proj2 (same_kind_skel l x Hl) H1). destruct (IH file rest H2) as [r E]. exists (x :: r). now rewrite E.
Qed.
Lemma flat_len (f : nat -> list leaf) c : (forall i, length (f i) = c) -> forall m a, length (flat_map f (seq a m)) = m * c.
Proof. intros H. induction m as [|m IH]; intros a; [reflexivity|]. cbn [seq flat_map]. rewrite app_length, H, IH. lia. Qed.
Lemma flat_prefix2 (f g : nat -> list leaf) c : 0 < c -> (forall i, length (f i) = c) -> (forall i, length (g i) = c) ->
  forall m m' rest, flat_map f (seq 0 m') = flat_map g (seq 0 m) ++ rest -> m <= m' /\ forall i, i < m -> f i = g i.
Proof.
  intros Hc Hf Hg m m' rest H. assert (Hm : m <= m').
  { pose proof (f_equal (@length _) H) as E. rewrite app_length, !(flat_len _ c) in E by auto. nia. }
  split; auto. replace m' with (m + (m' - m)) in H by lia. rewrite seq_app, flat_map_app in H.
  apply app_inj_len in H as [H _]; [|now rewrite !(flat_len _ c) by auto]. rewrite <- (app_nil_r (flat_map g _)) in H.
  destruct (flat_prefix f g c Hf Hg m 0 [] H) as [K _]. intros i Hi. apply K. lia.
Qed.
Lemma prefix_nth (a b : list nat) : length a <= length b -> (forall i, i < length a -> nth i b 0 = nth i a 0) -> exists rest, b = a ++ rest.
Proof.
  intros HL H. exists (skipn (length a) b). rewrite <- (firstn_skipn (length a) b) at 1. f_equal.
  apply (list_eq_nth 0); [rewrite firstn_length; lia|]. intros i Hi. rewrite firstn_length in Hi. rewrite nth_firstn by lia. apply H. lia.
Qed.
Lemma rqs_fit_gen n L bins hidden n' L' bins' hidden' like lv fs path :
  map skeleton like = rqs_skel n L bins hidden -> map skeleton lv = rqs_skel n' L' bins' hidden' ->
  ((exists r, load_model (save_model fs path lv) path like = Ok r) <->
   n = n' /\ L = L' /\ exists rest, hidden' ++ [n' * (bins' * 3 + 1)] = hidden ++ [n * (bins * 3 + 1)] ++ rest).
Proof.
  intros H1 H2. rewrite (load_save0 fs path lv like). split.
  - intros [r Hr]. apply deser_inv in Hr as [SS (rest & E)]; [|apply ser_nofun].
    assert (E' : map skeleton (serialise lv) = map skeleton (serialise r ++ rest)) by now rewrite E.
    rewrite map_app, (ser_skel _ _ H2), (ser_skel r (rqs_skel n L bins hidden)) in E' by (rewrite <- H1; exact SS).
    unfold rqs_skel in E'. rewrite !app_assoc in E'. rewrite (ser_app (_ ++ _)), (ser_app (head_skel n ++ _)), !ser_mlp_skel, <- app_assoc in E'.
    apply app_inj_len in E' as [A1 A3]; [|reflexivity]. cbn in A1. injection A1 as A1 A2. subst n' L'. split; [auto|split; [auto|]].
    apply (flat_prefix2 _ _ 2) in A3 as [Hm B]; [|lia|reflexivity|reflexivity].
    pose proof (rqs_shape_len n bins hidden) as S1. pose proof (rqs_shape_len n bins' hidden') as S2.
    destruct (prefix_nth (rqs_net_shape n bins hidden) (rqs_net_shape n bins' hidden')) as [rest' Er]; [lia| |].
    + intros [|i] Hi; [reflexivity|]. specialize (B i ltac:(lia)). exact (f_equal (fun l => nth 1 (match nth 1 l LFun with LArr _ sh _ => sh | _ => [] end) 0) B).
    + exists rest'. unfold rqs_net_shape in Er. cbn [app] in Er. injection Er as Er. rewrite Er. now rewrite <- app_assoc.
  - intros (-> & -> & rest & E). 
    assert (Sh : rqs_net_shape n' bins' hidden' = rqs_net_shape n' bins hidden ++ rest) by (unfold rqs_net_shape; cbn [app]; f_equal; rewrite E; now rewrite <- app_assoc).
    pose proof (rqs_shape_len n' bins hidden) as S1.
    destruct (deser_prefix like (serialise lv) (flat_map (fun j => lin_skel L' (nth j (rqs_net_shape n' bins' hidden') 0) (nth (S j) (rqs_net_shape n' bins' hidden') 0)) (seq (S (length (rqs_net_shape n' bins hidden) - 2)) (length rest)))) as [r Hr].
    + rewrite (ser_skel _ _ H2), (ser_skel _ _ H1). unfold rqs_skel. rewrite !app_assoc, (ser_app (_ ++ _)), (ser_app (head_skel n' ++ _)), !ser_mlp_skel, <- app_assoc.
      f_equal. replace (S (length (rqs_net_shape n' bins' hidden') - 2)) with (S (length (rqs_net_shape n' bins hidden) - 2) + length rest) by (rewrite Sh, app_length; lia).
      rewrite seq_app, flat_map_app. f_equal. rewrite !flat_map_concat_map. f_equal. apply map_ext_in. intros j Hj. apply in_seq in Hj. rewrite Sh. rewrite !app_nth1 by lia. reflexivity.
    + exists r. exact Hr.
Qed.
End Tree11.
