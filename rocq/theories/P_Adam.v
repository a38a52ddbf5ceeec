From Verif Require Import Prelude Num M_Core M_Kernels M_Strategies M_PT P_Lists Spec Spec_Steps P_Steps
  Spec_Kernels P_Kernels Spec_Train P_Train Spec_PT.

Section Adam.
Context {N : Num} {G : Rng} {NF : NFOps}.

Lemma iter_succ_r {A} n (f : A -> A) x : iter (S n) f x = f (iter n f x).
Proof. revert x. induction n as [|n IH]; intros x; [reflexivity|]. change (iter (S n) f (f x) = f (iter n f (f x))). apply IH. Qed.

Lemma combine_keys_nth (k : key) (xs : pos_t) c x : nth_error xs c = Some x ->
  nth_error (combine (split_keys k (length xs)) xs) c = Some (split k (length xs) c, x).
Proof.
  intros H. assert (Hc : c < length xs) by (apply nth_error_Some; congruence).
  rewrite (nth_error_nth' _ (k, [])).
  2:{ rewrite combine_length, split_keys_length. lia. }
  rewrite combine_nth by apply split_keys_length. rewrite nth_split_keys by auto.
  rewrite (nth_error_nth _ _ _ H). reflexivity.
Qed.

Lemma fclip_box (L : NumLaws) x lo hi : (lo <=.? hi) = true ->
  (fnan x = true /\ fnan (fclip x lo hi) = true) \/
  (fnan x = false /\ (lo <=.? fclip x lo hi) = true /\ (fclip x lo hi <=.? hi) = true).
Proof.
  intros H. pose proof (nl_le_nan L _ _ H) as [Hlo Hhi]. unfold fclip, fmax, fmin.
  destruct (fnan x) eqn:Ex.
  - left. rewrite Ex. auto.
  - right. rewrite Hlo. split; auto. destruct (x <=.? lo) eqn:E1.
    + rewrite Hlo, Hhi, H. split; auto. apply (nl_le_refl L); auto.
    + rewrite Ex, Hhi. pose proof (nl_le_total L x lo Ex Hlo E1) as E2.
      destruct (x <=.? hi) eqn:E3; [auto|]. split; auto. apply (nl_le_refl L); auto.
Qed.

Lemma project_length b v : length (project b v) = length v.
Proof. unfold project. rewrite map_length, combine_length, seq_length. lia. Qed.
Lemma bnd_bound b j side : bnd b j side = bound b j side.
Proof. unfold bnd, bound. destruct (ashape b) as [|[|[|n]] r]; reflexivity. Qed.
Lemma project_nth b v j x : nth_error (project b v) j = Some x ->
  exists y, nth_error v j = Some y /\ x = fclip y (bound b j 0) (bound b j 1).
Proof.
  intros H. unfold project in H. rewrite nth_error_map in H.
  destruct (nth_error (combine (seq 0 (length v)) v) j) as [[i y]|] eqn:E; [|discriminate].
  assert (Hj : j < length v).
  { assert (j < length (combine (seq 0 (length v)) v)) by (apply nth_error_Some; congruence).
    rewrite combine_length, seq_length in H0. lia. }
  apply nth_error_nth with (d := (0, f0)) in E. rewrite combine_nth in E by apply seq_length.
  rewrite seq_nth in E by auto. injection E as <- <-. cbn in H. injection H as <-.
  exists (nth j v f0). rewrite !bnd_bound. split; auto. apply nth_error_nth'; auto.
Qed.
Lemma project_box (L : NumLaws) b v n : ordered_bounds b n -> length v <= n -> in_box b (project b v).
Proof.
  intros Ho Hv j x Hx. destruct (project_nth _ _ _ _ Hx) as (y & Hy & ->).
  assert (j < length v) by (apply nth_error_Some; congruence).
  destruct (fclip_box L y (bound b j 0) (bound b j 1) (Ho j ltac:(lia))) as [[_ H1]|[_ H1]]; auto.
Qed.
Lemma project_not_nan (L : NumLaws) b v n : ordered_bounds b n -> length v <= n ->
  (forall j, j < length v -> fnan (nth j v f0) = false) ->
  forall j, j < length v -> fnan (nth j (project b v) f0) = false.
Proof.
  intros Ho Hv Hn j Hj.
  assert (E : nth_error (project b v) j = Some (nth j (project b v) f0)) by (apply nth_error_nth'; rewrite project_length; auto).
  destruct (project_nth _ _ _ _ E) as (y & Hy & Ey). rewrite Ey.
  destruct (fclip_box L y (bound b j 0) (bound b j 1) (Ho j ltac:(lia))) as [[H0 _]|[_ [H1 _]]].
  - apply nth_error_nth with (d := f0) in Hy. rewrite <- Hy, Hn in H0 by auto. discriminate.
  - apply (nl_le_nan L) in H1. tauto.
Qed.

Lemma adam_step_params a obj d k p st : exists upd st',
  ad_update a (map (fun x => x *. (f1 +. normal0 (split k 2 1) *. ad_noise a)) (lp_grad obj p d)) st p = (upd, st') /\
  adam_step a obj d (k, p, st) = (split k 2 0, project (ad_bounds a) (vadd p upd), st').
Proof. unfold adam_step. destruct (ad_update _ _ _ _) as [upd st'] eqn:E. exists upd, st'. auto. Qed.

Lemma adam_iter_len a obj d n s : length (snd (fst (iter n (adam_step a obj d) s))) <= length (snd (fst s)).
Proof.
  induction n as [|n IH]; [cbn; auto|]. rewrite iter_succ_r.
  destruct (iter n (adam_step a obj d) s) as [[k p] st]. cbn [fst snd] in IH.
  destruct (adam_step_params a obj d k p st) as (upd & st' & _ & ->). cbn [fst snd].
  rewrite project_length. unfold vadd. rewrite map2_length. lia.
Qed.

Lemma single_box (L : NumLaws) a obj d k x n : ordered_bounds (ad_bounds a) n -> length x <= n ->
  forall m, 1 <= m -> in_box (ad_bounds a) (snd (fst (iter m (adam_step a obj d) (k, x, ad_init a x)))).
Proof.
  intros Ho Hx [|m] Hm; [lia|]. rewrite iter_succ_r.
  pose proof (adam_iter_len a obj d m (k, x, ad_init a x)) as Hl. cbn [fst snd] in Hl.
  destruct (iter m (adam_step a obj d) (k, x, ad_init a x)) as [[k' p] st]. cbn [fst snd] in Hl.
  destruct (adam_step_params a obj d k' p st) as (upd & st' & _ & ->). cbn [fst snd].
  apply project_box with n; auto. unfold vadd. rewrite map2_length. lia.
Qed.

Lemma adam_optimize_inv a obj k xs d k' ys lps : adam_optimize a obj k xs d = Ok (k', ys, lps) ->
  k' = split k 2 0 /\
  ys = map (fun kx => single_optimize a obj d (fst kx) (snd kx)) (combine (split_keys (split k 2 1) (length xs)) xs) /\
  lps = map (fun y => lp_val (ad_logpdf a) y d) ys /\ length ys = length xs.
Proof.
  unfold adam_optimize. destruct (_ || _); [|discriminate]. intros H. injection H as <- <- <-.
  repeat split; auto. rewrite map_length, combine_length, split_keys_length. lia.
Qed.
Lemma adam_optimize_nth a obj k xs d k' ys lps c y : adam_optimize a obj k xs d = Ok (k', ys, lps) ->
  nth_error ys c = Some y -> exists kc x, nth_error xs c = Some x /\ y = single_optimize a obj d kc x.
Proof.
  intros H Hy. destruct (adam_optimize_inv _ _ _ _ _ _ _ _ H) as (_ & -> & _ & Hl).
  assert (Hc : c < length xs) by (rewrite <- Hl; apply nth_error_Some; congruence).
  destruct (nth_error xs c) as [x|] eqn:E; [|apply nth_error_None in E; lia].
  rewrite nth_error_map, (combine_keys_nth _ _ _ _ E) in Hy. cbn in Hy. injection Hy as <-. eauto.
Qed.

Lemma C43_box_proof a obj k xs d k' ys lps n : NumLaws -> ordered_bounds (ad_bounds a) n ->
  (forall x, In x xs -> length x = n) -> 1 <= ad_n_steps a ->
  adam_optimize a obj k xs d = Ok (k', ys, lps) ->
  length ys = length xs /\ (forall y, In y ys -> in_box (ad_bounds a) y) /\
  lps = map (fun y => lp_val (ad_logpdf a) y d) ys.
Proof.
  intros L Ho Hx Hm H. destruct (adam_optimize_inv _ _ _ _ _ _ _ _ H) as (_ & _ & Hl & Hlen).
  split; auto. split; auto. intros y Hy. apply In_nth_error in Hy as [c Hc].
  destruct (adam_optimize_nth _ _ _ _ _ _ _ _ _ _ H Hc) as (kc & x & Hxc & ->).
  apply single_box with n; auto. rewrite (Hx x); auto. eapply nth_error_In; eauto.
Qed.

Lemma C43_nan_proof a obj k xs d k' ys lps n : NumLaws -> ordered_bounds (ad_bounds a) n ->
  (forall x, In x xs -> length x = n /\ forall j, fnan (nth j x f0) = false) -> 1 <= ad_n_steps a ->
  fnan f0 = false ->
  (forall g st p, (forall j, fnan (nth j p f0) = false) -> forall j, fnan (nth j (vadd p (fst (ad_update a g st p))) f0) = false) ->
  adam_optimize a obj k xs d = Ok (k', ys, lps) ->
  forall y j v, In y ys -> nth_error y j = Some v -> (bound (ad_bounds a) j 0 <=.? v) = true /\ (v <=.? bound (ad_bounds a) j 1) = true.
Proof.
  intros L Ho Hx Hm H0 Hu H y j v Hy Hv.
  destruct (C43_box_proof a obj k xs d k' ys lps n L Ho ltac:(intros; apply Hx; auto) Hm H) as (_ & Hb & _).
  destruct (Hb y Hy j v Hv) as [E|E]; auto. exfalso.
  apply In_nth_error in Hy as [c Hc].
  destruct (adam_optimize_nth _ _ _ _ _ _ _ _ _ _ H Hc) as (kc & x & Hxc & ->).
  destruct (Hx x (nth_error_In _ _ Hxc)) as [Lx Nx].
  assert (A : forall m, (forall j, fnan (nth j (snd (fst (iter m (adam_step a obj d) (kc, x, ad_init a x)))) f0) = false)).
  { induction m as [|m IH]; [exact Nx|]. rewrite iter_succ_r.
    pose proof (adam_iter_len a obj d m (kc, x, ad_init a x)) as Hl. cbn [fst snd] in Hl.
    destruct (iter m (adam_step a obj d) (kc, x, ad_init a x)) as [[kk p] st]. cbn [fst snd] in Hl, IH.
    destruct (adam_step_params a obj d kk p st) as (upd & st' & Eu & ->). cbn [fst snd].
    intros i. pose proof (Hu (map (fun x0 => x0 *. (f1 +. normal0 (split kk 2 1) *. ad_noise a)) (lp_grad obj p d)) st p IH) as Hi.
    rewrite Eu in Hi. cbn [fst] in Hi.
    destruct (le_lt_dec (length (vadd p upd)) i) as [Hge|Hlt].
    - rewrite nth_overflow; auto. rewrite project_length; auto.
    - apply project_not_nan with n; auto. unfold vadd. rewrite map2_length. lia. }
  specialize (A (ad_n_steps a) j). unfold single_optimize in Hv.
  rewrite (nth_error_nth _ _ f0 Hv) in A. congruence.
Qed.

Lemma C43_gradients_proof a obj obj' k xs d n : NumLaws -> ordered_bounds (ad_bounds a) n ->
  (forall x, In x xs -> length x = n) ->
  (forall v, In v xs \/ in_box (ad_bounds a) v -> lp_grad obj v d = lp_grad obj' v d) ->
  adam_optimize a obj k xs d = adam_optimize a obj' k xs d.
Proof.
  intros L Ho Hx Hg. unfold adam_optimize. destruct (_ || _); auto.
  assert (E : map (fun kx => single_optimize a obj d (fst kx) (snd kx)) (combine (split_keys (split k 2 1) (length xs)) xs) =
              map (fun kx => single_optimize a obj' d (fst kx) (snd kx)) (combine (split_keys (split k 2 1) (length xs)) xs)).
  { apply map_ext_in. intros [kc x] Hin. cbn [fst snd]. apply in_combine_r in Hin. unfold single_optimize. f_equal. f_equal.
    induction (ad_n_steps a) as [|m IH]; [reflexivity|]. rewrite !iter_succ_r, <- IH.
    assert (Hp : lp_grad obj (snd (fst (iter m (adam_step a obj d) (kc, x, ad_init a x)))) d =
                 lp_grad obj' (snd (fst (iter m (adam_step a obj d) (kc, x, ad_init a x)))) d).
    { apply Hg. destruct m as [|m]; [left; exact Hin|]. right. apply single_box with n; auto; try lia. rewrite (Hx x); auto. }
    destruct (iter m (adam_step a obj d) (kc, x, ad_init a x)) as [[kk p] st]. cbn [fst snd] in Hp.
    unfold adam_step. rewrite Hp. reflexivity. }
  rewrite E. reflexivity.
Qed.

Lemma C43_zero_proof a obj k xs d k' ys lps : ad_n_steps a = 0 ->
  adam_optimize a obj k xs d = Ok (k', ys, lps) -> ys = xs.
Proof.
  intros H0 H. destruct (adam_optimize_inv _ _ _ _ _ _ _ _ H) as (_ & -> & _ & _).
  unfold single_optimize. rewrite H0. cbn [iter fst snd].
  clear. assert (A : forall (ks : list key) (ys : pos_t), length ks = length ys -> map (fun kx : key * vec => snd kx) (combine ks ys) = ys).
  { induction ks as [|q ks IH]; intros [|y ys] Hl; cbn in *; auto; try discriminate. rewrite IH; auto. }
  apply A, split_keys_length.
Qed.
Lemma C43_world_proof a k xs d w : snd (adam_strategy a k xs d w) = w.
Proof. unfold adam_strategy, mlift, mbind. destruct (adam_optimize _ _ _ _ _) as [[[? ?] ?]|]; reflexivity. Qed.
Lemma C43_bounds_proof a obj k xs d :
  ((exists n, ashape (ad_bounds a) = [n; 2]) <-> adam_new a = Ok a) /\
  ((forall n, ashape (ad_bounds a) <> [n; 2]) <-> adam_new a = Raise ValueError) /\
  (nth 0 (ashape (ad_bounds a)) 0 <> 1 -> nth 0 (ashape (ad_bounds a)) 0 <> length (nth 0 xs []) ->
   adam_optimize a obj k xs d = Raise ValueError) /\
  (nth 0 (ashape (ad_bounds a)) 0 = 1 \/ nth 0 (ashape (ad_bounds a)) 0 = length (nth 0 xs []) ->
   exists r, adam_optimize a obj k xs d = Ok r).
Proof.
  split; [|split; [|split]].
  - unfold adam_new. destruct (ashape (ad_bounds a)) as [|n1 [|[|[|[|n2]]] [|n3 r]]]; split; intros H; eauto; try discriminate; destruct H as [n H]; congruence.
  - unfold adam_new. destruct (ashape (ad_bounds a)) as [|n1 [|[|[|[|n2]]] [|n3 r]]]; split; intros H; auto; try discriminate; try (intros n; discriminate). exfalso. eapply H; reflexivity.
  - intros H1 H2. unfold adam_optimize. apply Nat.eqb_neq in H1, H2. rewrite H1, H2. reflexivity.
  - intros H. unfold adam_optimize. destruct ((_ =? 1) || _) eqn:E; [eauto|]. apply orb_false_iff in E as [E1 E2].
    apply Nat.eqb_neq in E1, E2. tauto.
Qed.

Lemma nth_project b v j : j < length v -> nth j (project b v) f0 = fclip (nth j v f0) (bound b j 0) (bound b j 1).
Proof.
  intros H. destruct (nth_error (project b v) j) as [x|] eqn:E.
  - destruct (project_nth _ _ _ _ E) as (y & Hy & ->). rewrite (nth_error_nth _ _ _ E), (nth_error_nth _ _ _ Hy). reflexivity.
  - apply nth_error_None in E. rewrite project_length in E. lia.
Qed.
Lemma adam_iter_key a obj d n k p st : fst (fst (iter n (adam_step a obj d) (k, p, st))) = iter n (fun q => split q 2 0) k.
Proof.
  induction n as [|n IH]; [reflexivity|]. rewrite !iter_succ_r, <- IH.
  destruct (iter n (adam_step a obj d) (k, p, st)) as [[k' p'] st'].
  destruct (adam_step_params a obj d k' p' st') as (upd & st2 & _ & ->). reflexivity.
Qed.
Lemma single_path a d k x : exists path, ascent_path a d k x path /\ single_optimize a (neg_lpdf (ad_logpdf a)) d k x = nth (ad_n_steps a) path [].
Proof.
  set (s := fun i => iter i (adam_step a (neg_lpdf (ad_logpdf a)) d) (k, x, ad_init a x)).
  exists (map (fun i => snd (fst (s i))) (seq 0 (S (ad_n_steps a)))). 
  assert (Nth : forall i, i <= ad_n_steps a -> nth i (map (fun i => snd (fst (s i))) (seq 0 (S (ad_n_steps a)))) [] = snd (fst (s i))).
  { intros i Hi. apply (nth_map_seq (fun i => snd (fst (s i)))). lia. }
  split; [|rewrite Nth by lia; reflexivity].
  split; [rewrite map_length, seq_length; auto|]. split; [rewrite Nth by lia; reflexivity|].
  exists (fun i => snd (s i)). split; [reflexivity|]. intros i Hi. cbv zeta.
  rewrite !Nth by lia. rewrite <- (adam_iter_key a (neg_lpdf (ad_logpdf a)) d i k x (ad_init a x)).
  unfold s. rewrite iter_succ_r. fold (s i). destruct (s i) as [[ki p] st]. cbn [fst snd].
  destruct (adam_step_params a (neg_lpdf (ad_logpdf a)) d ki p st) as (upd & st' & E & ->). cbn [fst snd].
  exists upd. split.
  - rewrite <- E. f_equal. cbn [neg_lpdf lp_grad]. unfold vneg. now rewrite map_map.
  - rewrite project_length. assert (L : length (vadd p upd) = Nat.min (length p) (length upd)) by apply map2_length.
    split; [exact L|]. intros j Hj. rewrite nth_project by lia. f_equal. unfold vadd. apply nth_map2; lia.
Qed.
Lemma C43_run_proof a k xs d w k' ys w' : adam_strategy a k xs d w = (Ok (k', ys), w') ->
  w' = w /\ k' = split k 2 0 /\ length ys = length xs /\
  forall c, c < length xs -> exists path, ascent_path a d (split (split k 2 1) (length xs) c) (nth c xs []) path /\
    nth c ys [] = nth (ad_n_steps a) path [].
Proof.
  unfold adam_strategy, mlift, mbind. destruct (adam_optimize _ _ _ _ _) as [[[k1 ys1] lps]|] eqn:E; [|discriminate].
  unfold mret. intros H. injection H as <- <- <-.
  destruct (adam_optimize_inv _ _ _ _ _ _ _ _ E) as (-> & Hy & _ & Hl). repeat split; auto.
  intros c Hc. destruct (single_path a d (split (split k 2 1) (length xs) c) (nth c xs [])) as (path & H1 & H2).
  exists path. split; auto. rewrite <- H2, Hy.
  assert (Ex : nth_error xs c = Some (nth c xs [])) by (apply nth_error_nth'; auto).
  apply nth_error_nth. rewrite nth_error_map, (combine_keys_nth _ _ _ _ Ex). reflexivity.
Qed.
End Adam.
