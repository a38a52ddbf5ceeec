(** Small lemmas and examples for Prop_Tree. *)
From Coq Require Import Reals Psatz Ascii.
From Verif Require Import Prelude Num M_Core M_Kernels M_Strategies M_Flow M_Net M_Model M_Tree P_Lists RNum Spec_Kernels Spec_Train Spec_FM P_Real1 P_Real3 P_FM3 P_Decay Spec_Net Spec_Tree P_Tree1 P_Tree2 P_Tree3 P_Tree4 P_Tree5 P_Tree7 P_Tree8 P_Tree9 P_Tree10 P_Tree11.
Open Scope nat_scope.

Definition small_letters (t : string) : Prop := lower t = t.
Lemma lower_case c d : lower_ascii d = d -> (lower_ascii c = d <-> letter_case c d).
Proof.
  intros Hd. unfold letter_case, lower_ascii in * . cbv zeta in * .
  pose proof (nat_ascii_bounded c) as Bc. pose proof (nat_ascii_bounded d) as Bd.
  destruct ((65 <=? nat_of_ascii c) && (nat_of_ascii c <=? 90)) eqn:E.
  - apply andb_true_iff in E as [E1%Nat.leb_le E2%Nat.leb_le]. split.
    + intros <-. right. split; [lia|]. rewrite nat_ascii_embedding; lia.
    + intros [->|[_ H]].
      * apply Nat.leb_le in E1, E2. rewrite E1, E2 in Hd. exact Hd.
      * rewrite <- (ascii_nat_embedding d). f_equal. lia.
  - split; [now left|]. intros [H|[[H1 H2] _]]; [exact H|]. apply Nat.leb_le in H1, H2. rewrite H1, H2 in E. discriminate.
Qed.
Lemma lower_spelled : forall s t, lower t = t -> (lower s = t <-> spelled s t).
Proof.
  induction s as [|c s IH]; destruct t as [|d t]; cbn; intros Ht; try (split; [discriminate|tauto]); [tauto|].
  injection Ht as H1 H2. rewrite <- (lower_case c d H1), <- (IH t H2). split; [intros E; injection E; auto|intros [-> ->]; reflexivity].
Qed.
Section Gen.
Context {N : Num}.
Lemma precision_raise (round : dtype -> F -> F) lv name : (~ exists r, to_precision round lv name = Ok r) -> to_precision round lv name = Raise ValueError.
Proof. intros H. unfold to_precision in * . destruct (dget precisions (lower name)); [|reflexivity]. exfalso. apply H. eexists. reflexivity. Qed.
Lemma precision_leaves (round : dtype -> F -> F) (lv lv' : list leaf) name : to_precision round lv name = Ok lv' ->
  length lv' = length lv /\ exists t d, In (t, d) [("float16", DFloat16); ("bfloat16", DBFloat16); ("float32", DFloat32); ("float64", DFloat64)]%string /\ spelled name t /\
  forall i, lv_at lv' i = match lv_at lv i with LArr _ sh v => LArr d sh (map (round d) v) | l => l end.
Proof.
  unfold to_precision. destruct (dget precisions (lower name)) as [d|] eqn:E; [|discriminate]. intros H. apply ok_inj in H. subst lv'.
  split; [apply map_length|]. exists (lower name), d. split; [|split].
  - unfold precisions in E. cbn [dget] in E. repeat match type of E with context [String.eqb ?a ?b] => destruct (String.eqb_spec a b) as [EE|_] end; try discriminate; injection E as <-; cbn; rewrite EE; auto 6.
  - assert (HH : In (lower name) ["float16"; "bfloat16"; "float32"; "float64"]%string) by (apply (precision_iff round lv name); eexists; unfold to_precision; rewrite E; reflexivity).
    apply lower_spelled; [|reflexivity]. cbn in HH. destruct HH as [<-|[<-|[<-|[<-|[]]]]]; reflexivity.
  - intros i. unfold lv_at. etransitivity; [exact (conv_nth round d lv i)|]. unfold conv; destruct (nth i lv LFun); reflexivity.
Qed.
End Gen.
Section Gen2.
Context {N : Num}.
Lemma precision_names (round : dtype -> F -> F) lv name :
  (exists r, to_precision round lv name = Ok r) <-> exists t, In t ["float16"; "bfloat16"; "float32"; "float64"]%string /\ spelled name t.
Proof.
  rewrite (precision_iff round lv name). split.
  - intros H. exists (lower name). split; [exact H|]. apply lower_spelled; [|reflexivity]. cbn in H. destruct H as [<-|[<-|[<-|[<-|[]]]]]; reflexivity.
  - intros (t & H & E). apply lower_spelled in E; [rewrite E; exact H|]. cbn in H. destruct H as [<-|[<-|[<-|[<-|[]]]]]; reflexivity.
Qed.
End Gen2.
Section Run.
Context {N : Num} {G : Rng}.
Lemma train_total {NF : NFOps} m k data tx st ne bs : 0 < bs -> exists kf m' st' losses, train m k data tx st ne bs = Ok (kf, (m', st'), losses).
Proof.
  intros Hb. unfold train. generalize (m_stats m data, st) as cur. generalize (m, st) as best. generalize big_loss as bl. revert k.
  induction ne as [|ne IH]; intros k bl best cur; [destruct best as [m' s']; do 4 eexists; reflexivity|].
  cbn [best_epoch_loop].
  assert (K : exists v m1 s1, train_epoch (fst cur) (split k 2 1) tx (snd cur) data bs = Ok (v, m1, s1)).
  { unfold train_epoch. destruct (Nat.eqb_spec bs 0); [lia|]. destruct (0 <? length data / bs).
    - destruct (epoch_loop (fst cur) tx (snd cur) big_loss (epoch_batches (split k 2 1) data bs)) as [[v m1] s1]. eauto.
    - destruct (m_step (fst cur) data tx (snd cur)) as [[v m1] s1]. eauto. }
  destruct K as (v & m1 & s1 & ->). cbn [rmap rbind fst snd].
  match goal with |- context [best_epoch_loop ?f ne ?kk ?c ?b ?l] => destruct (IH kk l b c) as (kf & m' & st' & losses & E); rewrite E end.
  cbn. do 4 eexists. reflexivity.
Qed.
Variable li : nat -> nat -> key -> bool -> linear.
Hypothesis Hli : linear_law li.
Hypothesis Hbl : bias_law li.
Hypothesis Hno : normal_shape.
Lemma masks_kept logp sample grad n L bins hidden lo hi k lv0 tx s0 ds lv s :
  rqs_tree li n L bins hidden lo hi k = Ok lv0 -> @training_run N G (tree_ops logp sample grad) tx lv0 s0 ds lv s ->
  forall i, i < L -> row_at n (lv_at lv 9) i = rqs_mask n i /\ row_at n (lv_at lv 6) i = repeat f0 n.
Proof.
  intros H0 Hr i Hi. pose proof (run_ofd logp sample grad n tx lv0 s0 ds lv s (rqs_stats li n L bins hidden lo hi k lv0 H0) Hr) as Ho.
  destruct (rqs_trained_facts li Hli Hbl Hno _ _ _ _ _ _ _ _ _ H0 Ho) as [_ f2 f3 _ _ _ _ _ _]. rewrite f2, f3. split.
  - apply (row_mask (rqs_mask n)); auto using rqs_mask_len.
  - apply (row_mask (fun _ => repeat f0 n)); auto. intros. apply repeat_length.
Qed.
End Run.
Lemma zeros_nth m j : @nth R j (repeat 0%R m) 0%R = 0%R.
Proof. destruct (nth_in_or_default j (repeat 0%R m) 0%R) as [H|H]; [now apply repeat_spec in H|exact H]. Qed.
Section Case.
Variable li : nat -> nat -> @key RNum RRng -> bool -> @linear RNum.
Variable g : list (@leaf RNum) -> list (list R) -> list R.
Hypothesis Hg : forall lv0 i, @stopped RNum lv0 g i.
Lemma train_one (NF : @NFOps RNum RRng) (m : mdl) (x1 x2 : list R) (tx : gtx) (st : optst) v m' s' :
  m_step (m_stats m [x1; x2]) [x1; x2] tx st = (v, m', s') ->
  @train RNum RRng NF m true [x1; x2] tx st 1 2 = Ok (true, if flt v big_loss then (m', s') else (m, st), [v]).
Proof. intros H. cbn. unfold gather. cbn. rewrite H. cbn. reflexivity. Qed.
Lemma masks_case : exists lv0, nvp_tree li 2 2 1 true = Ok lv0 /\ exists lv s,
  @training_run RNum RRng (tree_ops (fun _ _ => 0%R) (fun _ (_ : @key RNum RRng) _ => []) g) (@optimizer_new RNum (1 / 1000)%R (9 / 10)%R) lv0 (tree_optimizer_init lv0) [([[0; 1]; [2; 5]])%R] lv s /\
  (@nth R 0 (row_at 2 (lv_at lv 6) 0) 0 < 1)%R /\ @nth R 0 (@realnvp_mask RNum 2 0) 0%R = 1%R.
Proof.
  destruct (nvp_tree_ok li 2 2 1 true) as [lv0 E]. exists lv0. split; [exact E|].
  set (ops := tree_ops (fun _ _ => 0%R) (fun _ (_ : @key RNum RRng) _ => []) g).
  set (tx := @optimizer_new RNum (1 / 1000)%R (9 / 10)%R).
  destruct (@m_step RNum RRng ops (@m_stats RNum RRng ops lv0 ([[0; 1]; [2; 5]])%R) ([[0; 1]; [2; 5]])%R tx (tree_optimizer_init lv0)) as [[v m'] s'] eqn:Es.
  pose proof (train_one ops lv0 ([0;1])%R ([2;5])%R tx (tree_optimizer_init lv0) v m' s' Es) as Et.
  change (@tree_train_step RNum (fun _ _ => 0%R) g (@tree_set_stats RNum lv0 ([[0; 1]; [2; 5]])%R) ([[0; 1]; [2; 5]])%R tx (tree_optimizer_init lv0) = (v, m', s')) in Es.
  apply step_parts in Es as (Ev & Em & _).
  assert (Hv : @flt RNum v (@big_loss RNum) = true). { apply flt_R. rewrite Ev. cbn. lra. }
  rewrite Hv in Et.
  exists m', s'. split; [exact (run_more _ _ _ [] _ _ _ _ _ _ _ _ _ _ (run_none _ _ _) Et)|].
  assert (Hm1 : @nth R 0 (@realnvp_mask RNum 2 0) 0%R = 1%R) by (cbn; ring).
  split; [|exact Hm1].
  pose proof (nvp_stats li 2 2 1 true lv0 E) as Hh.
  assert (E6 : lv_at lv0 6 = LArr DFloat32 [2; 2] (concat (map (@realnvp_mask RNum 2) (seq 0 2)))).
  { revert E. unfold nvp_tree. destruct (per_layer (fun _ => nvp_networks li 2 1) 2 true) as [st|]; [|discriminate]. cbn [rbind]. intros H. apply ok_inj in H. subst lv0. reflexivity. }
  assert (E6' : lv_at (@tree_set_stats RNum lv0 ([[0; 1]; [2; 5]])%R) 6 = LArr DFloat32 [2; 2] (decayed (concat (map (@realnvp_mask RNum 2) (seq 0 2))) tx 0)).
  { rewrite stats_other by discriminate. rewrite decayed_0. exact E6. }
  destruct (dec_step1 (G := RRng) (fun _ _ => 0%R) (fun _ _ _ => []) g lv0 6 DFloat32 [2; 2] (concat (map (@realnvp_mask RNum 2) (seq 0 2))) tx ltac:(discriminate) (Hg lv0 6)
    (@tree_set_stats RNum lv0 ([[0; 1]; [2; 5]])%R) (tree_optimizer_init lv0) ([[0; 1]; [2; 5]])%R 0 (stats_ofd 2 _ _ Hh) E6' (init_no_momentum lv0 6)) as [K _].
  rewrite Em, K. cbn. lra.
Qed.
End Case.

Lemma stats_run : forall (G : @Rng RNum) li (logp : list (@leaf RNum) -> list R -> R) (sample : list (@leaf RNum) -> key -> nat -> list (list R)) grad
    lv0 n (lr momentum : R) ds lv s,
  (exists L h k, nvp_tree li n L h k = Ok lv0) \/ (exists L bins hidden (lo hi : R) k, rqs_tree li n L bins hidden lo hi k = Ok lv0) ->
  @training_run RNum G (tree_ops logp sample grad) (@optimizer_new RNum lr momentum) lv0 (tree_optimizer_init lv0) ds lv s ->
  @stopped RNum lv0 grad 1 -> @stopped RNum lv0 grad 2 ->
  (lv = lv0 \/ exists T data, 1 <= T /\ In data ds /\ lv_at lv 1 = LArr DFloat32 [n] (map (fun v => v * (1 - lr * (1 / 10000)) ^ T)%R (@data_mean RNum n data))) /\
  (lv = lv0 \/ exists T data, 1 <= T /\ In data ds /\ lv_at lv 2 = LArr DFloat32 [n; n] (map (fun v => v * (1 - lr * (1 / 10000)) ^ T)%R (concat (@data_cov RNum n data)))).
Proof.
  intros G li logp sample grad lv0 n lr momentum ds lv s Hb Hr H1 H2.
  assert (Hh : @stats_header RNum n lv0).
  { destruct Hb as [(L & h & k & E)|(L & bins & hidden & lo & hi & k & E)]; [exact (nvp_stats li _ _ _ _ _ E)|exact (rqs_stats li _ _ _ _ _ _ _ _ E)]. }
  exact (conj (run_stats1 _ _ _ _ _ _ _ _ _ _ Hh Hr H1) (run_stats2 _ _ _ _ _ _ _ _ _ _ Hh Hr H2)).
Qed.
