(** Parallel tempering leaves the product of the tempered densities invariant: the whole call. *)
From Coq Require Import Reals Lra Lia Permutation Classical.
From Coquelicot Require Import Coquelicot.
From Verif Require Import Prelude Num M_Core M_Kernels M_Strategies M_PT M_Bundle P_Lists Spec Spec_Core P_Buffer P_Core Spec_Steps P_Steps
  Spec_Kernels P_Kernels P_Sampler Spec_Train P_Train P_Train2 Spec_PT P_PT P_PT2 P_PT3 P_PT4 P_PT5 Spec_Bundle Spec_Prog RNum Spec_Real Spec_HMC P_Real1 Spec_Inv P_Inv1 P_Inv2 P_Inv3 Spec_InvPT P_InvPT.
Open Scope R_scope.

Lemma ex_keys_ext {G : @Rng RNum} (Ws : list (expect key)) : forall f1 f2 : list key -> R, (forall ks, f1 ks = f2 ks) -> ex_keys Ws f1 = ex_keys Ws f2.
Proof. induction Ws as [|W Ws IH]; intros f1 f2 Q; cbn [ex_keys]; [apply Q|]. apply ex_ext. intros k. apply IH. intros ks. apply Q. Qed.

Lemma mvs_nth {G : @Rng RNum} t d kern steps k0 : forall (ks : list key) xs ts j, length ks = length ts -> length xs = length ts -> (j < length ts)%nat ->
  nth j (mvs t d kern steps ks xs ts) [] = mv t d kern steps (nth j ts 0) (nth j ks k0) (nth j xs []).
Proof.
  induction ks as [|k ks IH]; intros xs ts j L1 L2 Hj; destruct ts as [|T ts]; try discriminate L1; [cbn in Hj; lia|]. destruct xs as [|x xs]; [discriminate L2|].
  destruct j as [|j]; [reflexivity|]. cbn [nth]. rewrite <- (IH xs ts j); [reflexivity| | |]; cbn in *; lia.
Qed.
Lemma mvs_length {G : @Rng RNum} t d kern steps : forall (ks : list key) xs ts, length ks = length ts -> length xs = length ts -> length (mvs t d kern steps ks xs ts) = length ts.
Proof. intros ks xs ts L1 L2. unfold mvs. rewrite map_length, !combine_length. lia. Qed.
Section Call.
Context {G : @Rng RNum} {NF : @NFOps RNum G}.
Variables (t : @tempered RNum) (d : @datad RNum) (X : list (list R)) (n : nat) (kern : @skernel RNum G) (steps : nat) (temps : list R).
Hypothesis NS : normal_shape.
Hypothesis SX : states X n.
Hypothesis T0 : (0 < length temps)%nat.
Notation m := (length temps).
Variables (C c : nat).

Definition wkeys (k : key) : list key := map (split k m) (seq 0 m).
Definition call_end (k : key) (e : list (list R)) : list (list R) :=
  fst (fst (@exchange RNum G t d temps (split (split (split (split k 2 0) 2 0) 2 1) C c) (mvs t d kern steps (wkeys (split (split (split k 2 0) 2 1) C c)) e temps))).
Lemma call_expect E h e E1 E2 Es Ec Ws Ex Exc : split_has E 2 0 E1 -> splits2 E1 E2 Es -> split_has Es C c Ec -> splits_all Ec Ws ->
  split_has E2 2 1 Ex -> split_has Ex C c Exc -> length Ws = m ->
  ex E (fun k => h (call_end k e)) = ex_keys Ws (fun ks => ex Exc (fun k => h (fst (fst (@exchange RNum G t d temps k (mvs t d kern steps ks e temps)))))).
Proof.
  intros S1 S2 S3 S4 S5 S6 LW. set (H := fun y => ex Exc (fun k => h (fst (fst (@exchange RNum G t d temps k y))))).
  unfold call_end. set (g := fun kx ks => h (fst (fst (@exchange RNum G t d temps kx (mvs t d kern steps ks e temps))))).
  refine (eq_trans (S1 (fun k1 => g (split (split (split k1 2 0) 2 1) C c) (wkeys (split (split k1 2 1) C c)))) _).
  destruct (S2 (fun a b => g (split (split a 2 1) C c) (wkeys (split b C c)))) as [Q1 Q2]. refine (eq_trans Q1 (eq_trans Q2 _)).
  refine (eq_trans (S3 (fun kc => ex E2 (fun a => g (split (split a 2 1) C c) (wkeys kc)))) _).
  unfold wkeys. rewrite <- LW. refine (eq_trans (S4 (fun ks => ex E2 (fun a => g (split (split a 2 1) C c) ks))) _).
  assert (EE : forall ks, ex E2 (fun a => g (split (split a 2 1) C c) ks) = H (mvs t d kern steps ks e temps)).
  { intros ks. refine (eq_trans (S5 (fun b => g (split b C c) ks)) _). exact (S6 (fun b => g b ks)). }
  exact (ex_keys_ext Ws _ _ EE).
Qed.
Lemma call_inv E h : tempering_source C c X n t d kern steps temps E ->
  expected_under (ensembles X m) (ensemble_density t d temps) (fun e => ex E (fun k => h (call_end k e))) =
  expected_under (ensembles X m) (ensemble_density t d temps) h.
Proof.
  intros (E1 & E2 & Es & Ec & Ws & Ex & Exc & S1 & S2 & S3 & S4 & FW & S5 & S6 & KC).
  assert (LW : length Ws = m) by (clear -FW; induction FW; cbn; congruence).
  rewrite <- (exch_inv t d X temps h Exc (proj1 SX) T0 KC).
  set (H := fun y => ex Exc (fun k => h (fst (fst (@exchange RNum G t d temps k y))))).
  transitivity (total (ensembles X m) (fun e => wprod t d temps e * ex_keys Ws (fun ks => H (mvs t d kern steps ks e temps)))).
  - unfold expected_under. apply total_ext. intros e He. rewrite wprod_density by (apply (proj1 (proj1 (ens_in _ _ _) He))). f_equal.
    exact (call_expect E h e E1 E2 Es Ec Ws Ex Exc S1 S2 S3 S4 S5 S6 LW).
  - refine (eq_trans (mvs_inv t d X n kern steps NS SX Ws temps H FW) _). unfold expected_under. apply total_ext. intros e He.
    rewrite wprod_density by (apply (proj1 (proj1 (ens_in _ _ _) He))). reflexivity.
Qed.
End Call.

Section Strat.
Context {G : @Rng RNum} {NF : @NFOps RNum G}.
Lemma sweep_det (temps : list R) (lp : list R -> R) k xs ys accs ens ys' accs' ens' :
  @sweep_of RNum G temps lp k xs ys accs ens -> @sweep_of RNum G temps lp k xs ys' accs' ens' -> ys = ys'.
Proof.
  intros (A1 & A2 & A3 & A4 & A5) (B1 & B2 & B3 & B4 & B5).
  assert (Q : forall i, (i <= length accs)%nat -> nth i ens [] = nth i ens' []).
  { induction i as [|i IH]; intros Hi; [congruence|]. specialize (IH ltac:(lia)). destruct (A5 i ltac:(lia)) as [P1 P2], (B5 i ltac:(lia)) as [Q1 Q2].
    rewrite <- IH in Q1. replace (S i) with (i + 1)%nat by lia. rewrite <- P1 in Q1. rewrite Q1 in Q2. destruct (nth i accs false).
    - apply exchanged_swap in P2, Q2. congruence.
    - congruence. }
  rewrite <- A4, <- B4, Q, B1 by lia. f_equal. congruence.
Qed.
Lemma moved_mv t d kern steps T k x y : @moved RNum G steps kern t d T k x y -> y = mv t d kern steps T k x.
Proof.
  intros (tr & Q & ->). unfold mv, individual_step. rewrite Q. cbn [rbind]. rewrite <- (last_opt_last tr x (tempered_log_pdf t T x d)).
  destruct (match last_opt tr with Some _ => _ | None => _ end). reflexivity.
Qed.
Lemma ideal_keeps X n f t d kern P : normal_shape -> grad_shape (l_pdf (t_base t)) d n -> grad_shape (t_prior t) d n -> @ideal_kernel G X n f d kern P -> keeps_dim kern t d n.
Proof.
  intros NS G1 G2 K. destruct (C41_kernels_proof t d n NS G1 G2) as (A & B & D). destruct K; auto. apply D. match goal with H : square_mat (h_chol h) n |- _ => apply H end.
Qed.

Variables (t : @tempered RNum) (d : @datad RNum) (X : list (list R)) (n : nat) (kern : @skernel RNum G) (temps : list R) (pt : ptemp) (C c : nat).
Hypothesis NS : normal_shape.
Hypothesis SX : states X n.
Hypothesis G1 : grad_shape (l_pdf (t_base t)) d n.
Hypothesis G2 : grad_shape (t_prior t) d n.
Hypothesis T0 : (0 < length temps)%nat.
Hypothesis HC : (c < C)%nat.

Lemma call_after E e k xs w pl pb tl tb training r w' : tempering_source C c X n t d kern (pt_n_steps pt) temps E ->
  pt_setup w pt kern t pl pb tl tb training -> temps_of tb = temps -> length xs = C -> (forall x, In x xs -> length x = n) ->
  ensemble_before pb xs c = e ->
  parallel_tempering pt k xs d w = (Ok r, w') ->
  nth c (snd r) [] = hd [] (call_end t d kern (pt_n_steps pt) temps C c k e) /\
  (training = true -> ensemble_after pl (Ok r, w') c = call_end t d kern (pt_n_steps pt) temps C c k e).
Proof.
  intros HT HS Ht Hl Hr He H. destruct r as [k' xs'].
  assert (KD : keeps_dim kern t d n).
  { destruct HT as (E1 & E2 & Es & Ec & Ws & Ex & Exc & S1 & S2 & S3 & S4 & FW & _). destruct temps as [|T ts]; [cbn in T0; lia|]. inversion FW as [|W ? Ws' ? (P & K & _) _]; subst.
    exact (ideal_keeps X n _ t d kern P NS G1 G2 K). }
  assert (D0 : length (nth 0 xs []) = n) by (apply Hr, nth_In; lia).
  destruct (C41_proof pt k xs d w kern t pl pb tl tb training k' xs' w' HS) as (after & accs & A1 & A2 & A3 & A4 & A5 & A6); auto.
  { rewrite D0. exact KD. } { intros x Hx. rewrite D0. auto. }
  destruct (A5 c ltac:(lia)) as (B1 & B2 & stepped & ens & L1 & Hmv & Hsw & Hc). rewrite Ht in * . rewrite He, Hl in * .
  assert (ES : stepped = mvs t d kern (pt_n_steps pt) (wkeys temps (split (split (split k 2 0) 2 1) C c)) e temps).
  { apply (list_eq_nth ([] : list R)).
    - rewrite mvs_length; [exact L1| |exact B1]. unfold wkeys. rewrite map_length, seq_length. reflexivity.
    - intros j Hj. assert (Hj' : (j < length temps)%nat) by rlia. refine (eq_trans (moved_mv _ _ _ _ _ _ _ _ (Hmv j Hj')) _).
      refine (eq_trans _ (eq_sym (mvs_nth t d kern (pt_n_steps pt) k (wkeys temps (split (split (split k 2 0) 2 1) C c)) e temps j _ _ Hj'))).
      + f_equal. unfold wkeys. rewrite (nth_indep _ k (split (split (split (split k 2 0) 2 1) C c) (length temps) 0)) by (rewrite map_length, seq_length; exact Hj').
        rewrite map_nth, seq_nth by exact Hj'. reflexivity.
      + unfold wkeys. rewrite map_length, seq_length. reflexivity.
      + exact B1. }
  assert (EA : nth c after [] = call_end t d kern (pt_n_steps pt) temps C c k e).
  { unfold call_end. destruct (@exchange RNum G t d temps _ _) as [[ys lps] ac] eqn:EX. cbn [fst].
    destruct (C38_proof _ _ _ _ _ _ _ _ EX) as (_ & _ & ens' & SW). rewrite <- ES in SW. exact (sweep_det _ _ _ _ _ _ _ _ _ _ Hsw SW). }
  split.
  - cbn [snd]. rewrite Hc, EA. destruct (call_end _ _ _ _ _ _ _ _ _); reflexivity.
  - intros ->. destruct A6 as (pb' & tb' & P1 & P2 & SH & _ & _ & _ & ROW & _). unfold ensemble_after. rewrite P1. unfold ensemble_before.
    destruct SH as (SHs & _). rewrite <- EA. rewrite Hc, SHs.
    destruct (pt_inv _ _ _ _ _ _ _ _ _ _ _ _ _ _ _ HS H) as (K & D & _ & _ & Hsh & _). rewrite Hsh in * . cbn [nth] in * .
    assert (LK : S K = length temps).
    { refine (eq_trans _ B1). rewrite <- He. unfold ensemble_before. rewrite Hsh. cbn [nth length]. now rewrite map_length, seq_length. }
    apply (list_eq_nth ([] : list R)).
    + cbn [length]. rewrite map_length, seq_length. rlia.
    + intros [|j] Hj; [reflexivity|]. cbn [length nth] in * . rewrite map_length, seq_length in Hj.
      rewrite (nth_indep _ [] (brow pb' D c 0)) by (rewrite map_length, seq_length; lia). rewrite map_nth, seq_nth by lia. cbn [Nat.add].
      rewrite ROW by lia. now rewrite Nat.add_1_r.
Qed.

Lemma call_joint pl tl w xs E h : tempering_source C c X n t d kern (pt_n_steps pt) temps E ->
  chain_in_state pt kern t d pl tl true temps n C c X w xs ->
  expected_under (ensembles X (length temps)) (ensemble_density t d temps) (fun e => ex E (fun k => h (ensemble_after pl (parallel_tempering pt k (xs e) d (w e)) c))) =
  expected_under (ensembles X (length temps)) (ensemble_density t d temps) h.
Proof.
  intros HT CS. refine (eq_trans _ (call_inv t d X n kern (pt_n_steps pt) temps NS SX T0 C c E h HT)). unfold expected_under. apply total_ext. intros e He. f_equal.
  apply ex_ext. intros k. f_equal. destruct (CS e He) as (A & B & (pb & tb & S1 & S2 & S3) & OK). destruct (OK k) as (r & w' & Q). rewrite Q.
  exact (proj2 (call_after E e k (xs e) (w e) pl pb tl tb true r w' HT S1 S2 A B S3 Q) eq_refl).
Qed.
Lemma call_cold pl tl training w xs E h : tempering_source C c X n t d kern (pt_n_steps pt) temps E ->
  chain_in_state pt kern t d pl tl training temps n C c X w xs ->
  expected_under (ensembles X (length temps)) (ensemble_density t d temps) (fun e => ex E (fun k => h (returned_row (parallel_tempering pt k (xs e) d (w e)) c))) =
  expected_under (ensembles X (length temps)) (ensemble_density t d temps) (fun e => h (hd [] e)).
Proof.
  intros HT CS. refine (eq_trans _ (call_inv t d X n kern (pt_n_steps pt) temps NS SX T0 C c E (fun e => h (hd [] e)) HT)). unfold expected_under. apply total_ext. intros e He. f_equal.
  apply ex_ext. intros k. f_equal. destruct (CS e He) as (A & B & (pb & tb & S1 & S2 & S3) & OK). destruct (OK k) as (r & w' & Q). rewrite Q.
  destruct r as [k' xs']. exact (proj1 (call_after E e k (xs e) (w e) pl pb tl tb training (k', xs') w' HT S1 S2 A B S3 Q)).
Qed.
End Strat.

Lemma total_nonneg {A} (l : list A) h : (forall a, In a l -> 0 <= h a) -> 0 <= total l h.
Proof. induction l as [|a l IH]; intros H; cbn [total fold_right]; [lra|]. fold (total l h). pose proof (H a (or_introl eq_refl)). pose proof (IH (fun b Hb => H b (or_intror Hb))). lra. Qed.
(** The cold marginal of the product. *)
Lemma cold_marginal (t : @tempered RNum) (d : @datad RNum) (X : list (list R)) (T : R) (ts : list R) : X <> [] ->
  exists z, 0 < z /\ forall h,
  expected_under (ensembles X (S (length ts))) (ensemble_density t d (T :: ts)) (fun e => h (hd [] e)) = z * expected_under X (density (tempered_lpdf t T) d) h.
Proof.
  intros HX. exists (total (ensembles X (length ts)) (wprod t d ts)). split.
  - assert (P : forall ts e, 0 < wprod t d ts e).
    { clear. induction ts as [|T' ts' IH]; intros [|x e]; cbn [wprod]; try lra. apply Rmult_lt_0_compat; [apply exp_pos|apply IH]. }
    assert (NE : ensembles X (length ts) <> []).
    { destruct X as [|x X']; [contradiction|]. intros Q. assert (I : In (repeat x (length ts)) (ensembles (x :: X') (length ts))).
      { apply ens_in. split; [apply repeat_length|]. intros y Hy. apply repeat_spec in Hy. subst. now left. } rewrite Q in I. destruct I. }
    destruct (ensembles X (length ts)) as [|e l]; [contradiction|]. cbn [total fold_right]. fold (total l (wprod t d ts)). pose proof (P ts e).
    assert (0 <= total l (wprod t d ts)) by (apply total_nonneg; intros; apply Rlt_le, P). lra.
  - intros h. unfold expected_under. rewrite (total_ext _ _ (fun e => wprod t d (T :: ts) e * h (hd [] e))).
    + rewrite ens_total. rewrite <- total_scal. apply total_ext. intros x _. cbn [wprod hd].
      rewrite (total_ext _ _ (fun l => (density (tempered_lpdf t T) d x * h x) * wprod t d ts l)) by (intros; ring). rewrite total_scal. ring.
    + intros e He. rewrite wprod_density by (apply (proj1 (proj1 (ens_in _ _ _) He))). reflexivity.
Qed.
