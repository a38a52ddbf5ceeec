(** A flow close to the target. *)
From Coq Require Import Reals Psatz.
From Verif Require Import Prelude Num M_Core M_Kernels M_Strategies P_Lists RNum MxR Spec_Kernels Spec_Steps P_Kernels P_Steps Spec_Real P_Hist1 P_Real1 P_Real3 P_Prog1 Spec_Close.
Open Scope R_scope.

Section Close.
Context {G : @Rng RNum} {NF : @NFOps RNum G}.
Variables (p : @nfp RNum G NF) (f : @lpdf RNum) (d : @datad RNum) (dim : nat).
Hypothesis HS : samples_shape (nfp_model p) dim.
Hypothesis HB : (0 < nfp_bs p)%nat.
Hypothesis IG : ignores_n_steps f.
Notation w := (log_weight (nfp_model p) f d).

Lemma group_steps n k (x : list R) co : group_sample p f d n k x = Ok co -> length x = dim ->
  exists props, sample_flow p (split k 2 1) n = Ok (props, map (m_logp (nfp_model p)) props) /\
  length props = n /\ length co = n /\ (forall y, In y props -> length y = dim) /\
  forall i, (i < n)%nat -> let s := before (x, lp_val f x d, false) co i in let y := nth i props [] in
    length (s_pos s) = dim /\ s_lp s = lp_val f (s_pos s) d /\
    nth i co (x, lp_val f x d, false) = if Rltb (ln (step_uniform k i)) (w y - w (s_pos s)) then (y, lp_val f y d, true) else (s_pos s, s_lp s, false).
Proof.
  intros H Hx. unfold group_sample in H.
  destruct (nfp_kernel_spec _ _ _ _ _ _ _ _ _ HS HB (with_n_steps_get d n) H) as (props & ES & L1 & L2 & HD & HO).
  exists props. split; [exact ES|]. split; [exact L1|]. split; [exact L2|]. split; [exact HD|].
  set (s0 := (x, lp_val f x d, false)) in * .
  assert (St : forall i, (i < n)%nat -> length (s_pos (before s0 co i)) = dim /\ s_lp (before s0 co i) = lp_val f (s_pos (before s0 co i)) d ->
    nth i co s0 = if Rltb (ln (step_uniform k i)) (w (nth i props []) - w (s_pos (before s0 co i))) then (nth i props [], lp_val f (nth i props []) d, true)
                 else (s_pos (before s0 co i), s_lp (before s0 co i), false)).
  { intros i Hi [_ Lp]. destruct (HO i Hi) as (A & B & C). change (prev s0 co i) with (before s0 co i) in * .
    unfold with_n_steps in * . rewrite (IG (nth i props []) d) in * .
    assert (E : s_acc (nth i co s0) = Rltb (ln (step_uniform k i)) (w (nth i props []) - w (s_pos (before s0 co i)))).
    { assert (E0 : forall lp : R, lp = lp_val f (s_pos (before s0 co i)) d -> (lp_val f (nth i props []) d - lp) - (m_logp (nfp_model p) (nth i props []) - m_logp (nfp_model p) (s_pos (before s0 co i)))
        = w (nth i props []) - w (s_pos (before s0 co i))).
      { intros lp ->. unfold log_weight. match goal with |- @eq _ ?a ?b => change (@eq R a b) end. ring. }
      exact (eq_trans A (f_equal (Rltb _) (E0 _ Lp))). }
    assert (Al : forall (o : list R * R * bool) (v : bool) (y xp : list R) (ly lp : R), s_acc o = v -> (s_acc o = true -> s_pos o = y /\ s_lp o = ly) -> (s_acc o = false -> s_pos o = xp /\ s_lp o = lp) ->
      o = if v then (y, ly, true) else (xp, lp, false)).
    { intros [[a b] c] v y xp ly lp. unfold s_acc, s_pos, s_lp. cbn [fst snd]. intros <- Q1 Q2. destruct c; [destruct (Q1 eq_refl) as [-> ->]|destruct (Q2 eq_refl) as [-> ->]]; reflexivity. }
    exact (Al _ _ _ _ _ _ E B C). }
  assert (Iv : forall i, (i < n)%nat -> length (s_pos (before s0 co i)) = dim /\ s_lp (before s0 co i) = lp_val f (s_pos (before s0 co i)) d).
  { induction i as [|i IH]; intros Hi; [split; [exact Hx|reflexivity]|].
    assert (Hi' : (i < n)%nat) by lia. specialize (IH Hi'). pose proof (St i Hi' IH) as Q. change (before s0 co (S i)) with (nth i co s0). refine (eq_ind_r (fun o : list R * R * bool => length (s_pos o) = dim /\ s_lp o = lp_val f (s_pos o) d) _ Q). destruct (Rltb _ _); [|exact IH].
    split; [|reflexivity]. apply HD, nth_In. rewrite L1. exact Hi'. }
  intros i Hi. destruct (Iv i Hi) as [I1 I2]. split; [exact I1|]. split; [exact I2|]. apply St; auto.
Qed.

Lemma near_diff c e (x y : list R) : near_target dim (nfp_model p) f d c e -> length x = dim -> length y = dim -> - (2 * e) <= w y - w x.
Proof.
  intros Ne Hx Hy. pose proof (Ne x Hx) as A. pose proof (Ne y Hy) as B.
  revert A B. generalize (w x) (w y). intros a b A B. unfold Rabs in A, B. destruct (Rcase_abs _), (Rcase_abs _); lra.
Qed.
Lemma ln_below u t : 0 < u < exp t -> ln u < t.
Proof. intros [U0 U1]. rewrite <- (ln_exp t). apply ln_increasing; assumption. Qed.

Lemma close_step c e n k (x : list R) co : near_target dim (nfp_model p) f d c e -> group_sample p f d n k x = Ok co -> length x = dim ->
  exists props, sample_flow p (split k 2 1) n = Ok (props, map (m_logp (nfp_model p)) props) /\ length props = n /\ length co = n /\
  forall i, (i < n)%nat -> 0 < step_uniform k i < exp (- (2 * e)) -> nth i co (x, lp_val f x d, false) = (nth i props [], lp_val f (nth i props []) d, true).
Proof.
  intros Ne H Hx. destruct (group_steps n k x co H Hx) as (props & ES & L1 & L2 & HD & HO). exists props. repeat split; auto.
  intros i Hi U. destruct (HO i Hi) as (A & B & C). cbv zeta in C. rewrite C. rewrite Rltb_true; [reflexivity|].
  apply ln_below in U. eapply Rlt_le_trans; [exact U|]. apply (near_diff c e); auto. apply HD, nth_In. rewrite L1. exact Hi.
Qed.

Lemma stuck_steps b n k (x : list R) co : group_sample p f d n k x = Ok co -> length x = dim ->
  (forall props lps, sample_flow p (split k 2 1) n = Ok (props, lps) -> forall y, In y props -> w y <= w x - b) ->
  (forall i, (i < n)%nat -> exp (- b) <= step_uniform k i) -> co = repeat (x, lp_val f x d, false) n.
Proof.
  intros H Hx Hw HU. destruct (group_steps n k x co H Hx) as (props & ES & L1 & L2 & HD & HO).
  assert (Q : forall i, (i < n)%nat -> nth i co (x, lp_val f x d, false) = (x, lp_val f x d, false)).
  { assert (Bf : forall i, (i < n)%nat -> before (x, lp_val f x d, false) co i = (x, lp_val f x d, false) /\ nth i co (x, lp_val f x d, false) = (x, lp_val f x d, false)).
    { assert (St : forall i, (i < n)%nat -> before (x, lp_val f x d, false) co i = (x, lp_val f x d, false) -> nth i co (x, lp_val f x d, false) = (x, lp_val f x d, false)).
      { intros i Hi E. destruct (HO i Hi) as (_ & _ & C). cbv zeta in C. rewrite C, E. unfold s_pos, s_lp. cbn [fst snd]. rewrite Rltb_false; [reflexivity|].
        pose proof (Hw _ _ ES (nth i props []) ltac:(apply nth_In; rewrite L1; exact Hi)) as W. pose proof (HU i Hi) as U.
        assert (ln (step_uniform k i) >= - b). { rewrite <- (ln_exp (- b)). apply Rle_ge. destruct (Req_dec (exp (- b)) (step_uniform k i)) as [->|Hn]; [lra|]. left. apply ln_increasing; [apply exp_pos|]. lra. }
        revert W H0. generalize (w x) (w (nth i props [])) (ln (step_uniform k i)). intros; lra. }
      induction i as [|i IH]; intros Hi; [split; [reflexivity|apply St; auto]|].
      destruct IH as [_ IH]; [lia|]. assert (E : before (x, lp_val f x d, false) co (S i) = (x, lp_val f x d, false)) by exact IH. split; [exact E|]. apply St; auto. }
    intros i Hi. apply (Bf i Hi). }
  apply (list_eq_nth (x, lp_val f x d, false)); [rewrite repeat_length; exact L2|].
  intros i Hi. rewrite nth_repeat. apply Q. rewrite <- L2. exact Hi.
Qed.

(** A flow that is the target. *)
Lemma exact_group c n k (x : list R) : near_target dim (nfp_model p) f d c 0 -> length x = dim -> (forall i, (i < n)%nat -> 0 < step_uniform k i < 1) ->
  exists props, sample_flow p (split k 2 1) n = Ok (props, map (m_logp (nfp_model p)) props) /\ length props = n /\
  group_sample p f d n k x = Ok (map (fun y => (y, lp_val f y d, true)) props).
Proof.
  intros Ne Hx HU. destruct (group_total p f d n k x HB) as [co H].
  destruct (close_step c 0 n k x co Ne H Hx) as (props & ES & L1 & L2 & Q). exists props. split; [exact ES|]. split; [exact L1|]. rewrite H. f_equal.
  apply (list_eq_nth (x, lp_val f x d, false)); [rewrite map_length; exact (eq_trans L2 (eq_sym L1))|]. intros i Hi0. assert (Hi : (i < n)%nat) by (rewrite <- L2; exact Hi0).
  assert (U : 0 < step_uniform k i < exp (- (2 * 0))).
  { replace (- (2 * 0)) with 0 by ring. rewrite exp_0. apply HU. exact Hi. }
  refine (eq_trans (Q i Hi U) _). symmetry. apply (nth_map' (fun y => (y, lp_val f y d, true)) props i []). rewrite L1. exact Hi.
Qed.
Lemma exact_forgets c n k (x x' : list R) : near_target dim (nfp_model p) f d c 0 -> length x = dim -> length x' = dim -> (forall i, (i < n)%nat -> 0 < step_uniform k i < 1) ->
  group_sample p f d n k x = group_sample p f d n k x'.
Proof.
  intros Ne Hx Hx' HU. destruct (exact_group c n k x Ne Hx HU) as (q1 & E1 & _ & ->). destruct (exact_group c n k x' Ne Hx' HU) as (q2 & E2 & _ & ->).
  rewrite E1 in E2. injection E2 as <-. reflexivity.
Qed.
Lemma exact_chains c n cb keys : near_target dim (nfp_model p) f d c 0 -> forall (xs xs' : list (list R)), length xs = length keys -> length xs' = length keys ->
  (forall x, In x xs -> length x = dim) -> (forall x, In x xs' -> length x = dim) -> (forall k i, In k keys -> (i < n)%nat -> 0 < step_uniform k i < 1) ->
  run_chains (group_sample p f d n) cb keys xs = run_chains (group_sample p f d n) cb keys xs'.
Proof.
  intros Ne xs xs' L L' D D' HU. rewrite !run_chains_batch by (symmetry; assumption). unfold vmap_chains.
  revert xs xs' L L' D D'. induction keys as [|k keys IH]; intros [|x xs] [|x' xs'] L L' D D'; try discriminate; [reflexivity|].
  cbn [combine rmapM fst snd]. rewrite (exact_forgets c n k x x' Ne).
  - rewrite (IH (fun k0 i I => HU k0 i (or_intror I)) xs xs'); [reflexivity| | | |].
    + injection L; auto. + injection L'; auto. + intros y I. apply D. right; exact I. + intros y I. apply D'. right; exact I.
  - apply D. left; reflexivity. - apply D'. left; reflexivity. - intros i Hi. apply HU; [left; reflexivity|exact Hi].
Qed.
End Close.

(* ------------------------------------------------------------------ the strategy *)
Section Strat.
Context {G : @Rng RNum} {NF : @NFOps RNum G}.
Variables (p : @nfp RNum G NF) (l : @logpdf_res RNum) (d : @datad RNum) (dim : nat).
Hypothesis HS : samples_shape (nfp_model p) dim.
Hypothesis HB : (0 < nfp_bs p)%nat.
Hypothesis IG : ignores_n_steps (l_pdf l).

Lemma mbind_ext2 {A B} (m : M world A) (g1 g2 : A -> M world B) w0 : (forall a w1, m w0 = (Ok a, w1) -> g1 a w1 = g2 a w1) -> mbind m g1 w0 = mbind m g2 w0.
Proof. intros H. unfold mbind. destruct (m w0) as [[a|e] w1] eqn:E; [apply H; reflexivity|reflexivity]. Qed.

Lemma f_equal_bind {A B} (r r' : res A) (g : A -> M world B) w0 : r = r' -> mbind (mlift r) g w0 = mbind (mlift r') g w0.
Proof. intros ->. reflexivity. Qed.
Lemma exact_strategy c ts k (xs xs' : list (list R)) w0 : near_target dim (nfp_model p) (l_pdf l) d c 0 ->
  dget (rdict w0) (ts_kernel ts) = Some (RNFP p) -> dget (rdict w0) (ts_logpdf ts) = Some (RLog l) ->
  length xs = length xs' -> (forall x, In x xs -> length x = dim) -> (forall x, In x xs' -> length x = dim) ->
  (forall q, 0 < uniform q < 1) -> take_group_steps ts k xs d w0 = take_group_steps ts k xs' d w0.
Proof.
  intros Ne K1 K2 L D D' U. unfold take_group_steps, take_steps.
  match goal with |- context [@Datatypes.length ?T xs'] => assert (L0 : @Datatypes.length T xs' = @Datatypes.length T xs) by exact (eq_sym L) end. rewrite L0.
  apply mbind_ext2. intros [sl st] w1 H1. apply get_state_inv in H1 as (-> & _).
  do 3 (apply mbind_ext2; intros ? w1 H1; apply mlift_inv in H1 as [-> _]).
  do 3 (apply mbind_ext2; intros [? ?] w1 H1; apply get_buffer_inv in H1 as (-> & _)).
  apply mbind_ext2. intros kr w1 H1. apply res_get_inv in H1 as [-> H1]. rewrite K1 in H1. injection H1 as <-.
  apply mbind_ext2. intros lr w1 H1. apply res_get_inv in H1 as [-> H1]. rewrite K2 in H1. injection H1 as <-.
  assert (E : run_chains (samp_group (RNFP p) (RLog l) d (ts_n_steps ts)) (ts_batch ts) (split_keys (split k 2 1) (length xs)) xs =
              run_chains (samp_group (RNFP p) (RLog l) d (ts_n_steps ts)) (ts_batch ts) (split_keys (split k 2 1) (length xs)) xs').
  { apply (exact_chains p (l_pdf l) d dim HS HB IG c (ts_n_steps ts)); auto. - exact (eq_sym (split_keys_length _ _)). - exact (eq_trans (eq_sym L) (eq_sym (split_keys_length _ _))). - intros q i _ _. apply U. }
  apply f_equal_bind; exact E.
Qed.
End Strat.
