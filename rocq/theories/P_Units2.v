(** Change of units: chains, flow proposals, tempering. *)
From Coq Require Import Reals Psatz.
From Coquelicot Require Import Coquelicot.
From Verif Require Import Prelude Num M_Core M_Kernels M_Strategies M_PT P_Lists P_Kernels RNum Spec_Kernels Spec_Prog Spec_Real Spec_HMC
  P_Real1 Spec_Units P_Units1.
Open Scope R_scope.

Section Units2.
Context {G : @Rng RNum} {NF : @NFOps RNum G}.
Hypothesis NS : @normal_shape RNum G.
Variables (n : nat) (a b : nat -> R).
Hypothesis A0 : forall i, (i < n)%nat -> a i <> 0.
Notation iu := (in_units n a b).
Notation siu := (step_in_units n a b).

Lemma both_mapM {A A' B B'} (V : B -> B' -> Prop) (f : A -> res B) (f' : A' -> res B') l l' :
  Forall2 (fun u u' => both V (f u) (f' u')) l l' -> both (Forall2 V) (rmapM f l) (rmapM f' l').
Proof.
  induction 1 as [|u u' l l' (v & v' & E & E' & H) _ IH]; cbn [rmapM]; [do 2 eexists; split; [reflexivity|split; [reflexivity|constructor]]|].
  destruct IH as (w & w' & F1 & F2 & H2). rewrite E, E', F1, F2. cbn [rbind]. do 2 eexists. split; [reflexivity|split; [reflexivity|now constructor]].
Qed.
Lemma both_impl {A B} (V W : A -> B -> Prop) r r' : (forall u v, V u v -> W u v) -> both V r r' -> both W r r'.
Proof. intros H (u & v & E & E' & K). exists u, v. auto. Qed.

Lemma scan_units kern kern' f g d s : kernel_in_units n a kern kern' -> target_in_units n a b f g -> forall k x x' lp, iu x x' ->
  both (Forall2 siu) (serial_scan kern f d s k x lp) (serial_scan kern' g d s k x' lp).
Proof.
  intros K T. induction s as [|s IH]; intros k x x' lp X; cbn [serial_scan].
  - do 2 eexists. split; [reflexivity|split; [reflexivity|constructor]].
  - destruct (kernel_units NS n a b A0 _ _ K (split k 2 1) f g d x x' lp T X) as ([[y l] c] & [[y' l'] c'] & E & E' & Y & H1 & H2).
    cbn [fst snd] in Y, H1, H2. subst l' c'. rnorm. rewrite E, E'. cbn [rbind].
    destruct (IH (split k 2 0) y y' l Y) as (w & w' & F1 & F2 & W). rnorm. rewrite F1, F2. cbn [rbind].
    do 2 eexists. split; [reflexivity|split; [reflexivity|constructor; [split; auto|exact W]]].
Qed.
Lemma serial_units kern kern' f g d s k x x' : kernel_in_units n a kern kern' -> target_in_units n a b f g -> iu x x' ->
  both (Forall2 siu) (serial_sample kern f d s k x) (serial_sample kern' g d s k x').
Proof.
  intros K T X. unfold serial_sample. destruct (T x x' d X) as [V _]. rnorm. rewrite V. now apply scan_units.
Qed.

(* ------------------------------------------------------------------ flow proposals *)
Lemma nfp_scan_units c : forall (props : list (list R * R * R)) (props' : list (list R * R * R)),
  Forall2 (fun p p' => iu (fst (fst p)) (fst (fst p')) /\ snd (fst p') = snd (fst p) /\ snd p' = snd p - c) props props' ->
  forall k x x' (lp nf : R), iu x x' -> Forall2 siu (nfp_scan k x lp nf props) (nfp_scan k x' lp (nf - c) props').
Proof.
  induction 1 as [|[[y l] q] [[y' l'] q'] r r' (E1 & E2 & E3) _ IH]; intros k x x' lp nf X; cbn [nfp_scan]; [constructor|].
  cbn [fst snd] in E1, E2, E3. subst l' q'. assert (Q : @nfp_ratio RNum l lp (q - c) (nf - c) = @nfp_ratio RNum l lp q nf).
  { unfold nfp_ratio. cbn. match goal with |- @eq _ ?u ?v => change (@eq R u v) end. ring. }
  rnorm. rewrite Q. destruct (mh_accept _ _); constructor; try (split; cbn; auto); apply IH; auto.
Qed.
Lemma batches_units m m' : flow_in_units n a b m m' -> forall nb ns k,
  Forall2 (Forall2 iu) (flow_batches m k nb ns) (flow_batches m' k nb ns).
Proof. intros [S _]. induction nb as [|j IH]; intros ns k; cbn [flow_batches]; constructor; [apply S|apply IH]. Qed.
Lemma f2_concat {A B} (V : A -> B -> Prop) l l' : Forall2 (Forall2 V) l l' -> Forall2 V (concat l) (concat l').
Proof. induction 1; cbn; [constructor|now apply Forall2_app]. Qed.
Lemma f2_firstn {A B} (V : A -> B -> Prop) s : forall l l', Forall2 V l l' -> Forall2 V (firstn s l) (firstn s l').
Proof. induction s as [|s IH]; intros l l' H; [constructor|]. destruct H; cbn; constructor; auto. Qed.
Lemma f2_map {A B A' B'} (V : A -> A' -> Prop) (U : B -> B' -> Prop) (f : A -> B) (g : A' -> B') l l' :
  (forall u v, V u v -> U (f u) (g v)) -> Forall2 V l l' -> Forall2 U (map f l) (map g l').
Proof. intros H. induction 1; cbn; constructor; auto. Qed.
Section Const.
Variable c : R.
Lemma flow_units m m' bs k s : flow_in_units n a b m m' -> (forall x y, iu x y -> m_logp m' y = m_logp m x - c) ->
  both (fun o o' => length (fst o) = s /\ Forall2 iu (fst o) (fst o') /\ Forall2 (fun u v => v = u - c) (snd o) (snd o'))
    (sample_flow (mkNfp m bs) k s) (sample_flow (mkNfp m' bs) k s) \/
  (bs = 0 /\ 0 < s)%nat.
Proof.
  intros H HC. unfold sample_flow. cbn [nfp_bs nfp_model].
  assert (LG : forall l l', Forall2 iu l l' -> Forall2 (fun u v : R => v = u - c) (map (m_logp m) l) (map (m_logp m') l')).
  { intros l l' HL. eapply f2_map; [|exact HL]. intros u v U. exact (HC u v U). }
  destruct (bs <? s)%nat eqn:E.
  - apply Nat.ltb_lt in E. destruct (bs =? 0)%nat eqn:E0; [right; apply Nat.eqb_eq in E0; lia|]. apply Nat.eqb_neq in E0. left.
    do 2 eexists. split; [reflexivity|]. split; [reflexivity|]. cbn [fst snd].
    pose proof (batches_units m m' H (cdiv s bs) (cdiv s (cdiv s bs)) k) as BU.
    split; [|split].
    + destruct (flow_plan bs s ltac:(lia)) as [HN HM]. revert HN HM. set (nb := cdiv s bs). set (ns := cdiv s nb). intros HN HM.
      assert (FB : forall nb k, Forall (fun r : list vec => length r = ns) (flow_batches m k nb ns)).
      { induction nb0 as [|j IH]; intros q; cbn [flow_batches]; constructor; auto. apply (proj1 H). }
      rnorm. rewrite firstn_length. rewrite (concat_length_uniform _ ns), flow_batches_length by apply FB. lia.
    + apply f2_firstn, f2_concat, BU.
    + rewrite <- !concat_map. apply f2_firstn. eapply (f2_map iu); [intros u v U; exact (HC u v U)|]. apply f2_concat, BU.
  - left. do 2 eexists. split; [reflexivity|]. split; [reflexivity|]. cbn [fst snd]. split; [apply (proj1 H)|]. split; [apply (proj1 H)|].
    apply LG, (proj1 H).
Qed.
Lemma f2_len {A B} (V : A -> B -> Prop) l l' : Forall2 V l l' -> length l = length l'.
Proof. induction 1; cbn; lia. Qed.
Lemma f2_combine (P P' : list (list R)) (L Q Q' : list R) :
  Forall2 iu P P' -> Forall2 (fun u v => v = u - c) Q Q' ->
  Forall2 (fun p p' : list R * R * R => iu (fst (fst p)) (fst (fst p')) /\ snd (fst p') = snd (fst p) /\ snd p' = snd p - c)
    (combine (combine P L) Q) (combine (combine P' L) Q').
Proof.
  intros H. revert L Q Q'. induction H as [|x x' P P' X _ IH]; intros [|l L] Q Q' HQ; cbn; [constructor|constructor|constructor|].
  destruct HQ; constructor; cbn; auto.
Qed.
End Const.
Lemma group_units m m' bs f g d s k x x' : flow_in_units n a b m m' -> target_in_units n a b f g -> (0 < bs)%nat -> iu x x' ->
  both (Forall2 siu) (group_sample (mkNfp m bs) f d s k x) (group_sample (mkNfp m' bs) g d s k x').
Proof.
  intros H T B X. unfold group_sample, nfp_kernel. assert (E1 : dget (with_n_steps d s) "n_steps" = Some (DInt (Z.of_nat s))) by apply dget_dset_eq. rewrite E1, Nat2Z.id.
  destruct (T x x' d X) as [V _].
  destruct (proj2 H) as [c HC].
  destruct (flow_units c m m' bs (split k 2 1) s H HC) as [([P Q] & [P' Q'] & E & E' & LP & HP & HQ)|[]]; [|lia].
  rewrite E, E'. cbn [rbind fst snd nfp_bs nfp_model] in * . rnorm.
  assert (LP' : length P' = s) by (rewrite <- (f2_len _ _ _ HP); exact LP).
  rewrite !(batched_logpdf_spec bs s) by (auto; lia).
  set (dd := with_n_steps d s).
  assert (EL : map (fun y => lp_val g y dd) P' = map (fun y => lp_val f y dd) P).
  { clear - HP T. induction HP as [|u v l l' U _ IH]; cbn; [reflexivity|]. f_equal; [apply (proj1 (T u v dd U))|exact IH]. }
  rnorm. rewrite EL, V. pose proof (HC x x' X) as E0. rnorm. rewrite E0.
  do 2 eexists. split; [reflexivity|split; [reflexivity|]]. apply (nfp_scan_units c); [|exact X]. apply f2_combine; assumption.
Qed.

(* ------------------------------------------------------------------ all chains *)
Lemma vmap_units (samp samp' : key -> list R -> res (list (list R * R * bool))) :
  (forall k x x', iu x x' -> both (Forall2 siu) (samp k x) (samp' k x')) ->
  forall keys xs xs', Forall2 iu xs xs' -> both (Forall2 (Forall2 siu)) (vmap_chains samp keys xs) (vmap_chains samp' keys xs').
Proof.
  intros S keys xs xs' X. unfold vmap_chains. apply both_mapM. revert keys.
  induction X as [|x x' xs xs' X _ IH]; intros [|k keys]; cbn; constructor; auto.
Qed.
Lemma f2_skipn {A B} (V : A -> B -> Prop) s : forall l l', Forall2 V l l' -> Forall2 V (skipn s l) (skipn s l').
Proof. induction s as [|s IH]; intros l l' H; [exact H|]. destruct H; cbn; [constructor|auto]. Qed.
Lemma chains_units (samp samp' : key -> list R -> res (list (list R * R * bool))) cb :
  (forall k x x', iu x x' -> both (Forall2 siu) (samp k x) (samp' k x')) ->
  forall keys xs xs', Forall2 iu xs xs' -> both (Forall2 (Forall2 siu)) (run_chains samp cb keys xs) (run_chains samp' cb keys xs').
Proof.
  intros S keys xs xs' X. unfold run_chains. rnorm. rewrite <- (f2_len _ _ _ X). destruct (_ && _); [|now apply vmap_units].
  assert (Q : both (Forall2 (Forall2 (Forall2 siu)))
    (rmapM (fun i => vmap_chains samp (slice i (Nat.min (i + cb) (length xs)) keys) (slice i (Nat.min (i + cb) (length xs)) xs)) (range_step (length xs) cb))
    (rmapM (fun i => vmap_chains samp' (slice i (Nat.min (i + cb) (length xs)) keys) (slice i (Nat.min (i + cb) (length xs)) xs')) (range_step (length xs) cb))).
  { apply both_mapM. induction (range_step (length xs) cb) as [|i l IH]; constructor; [|exact IH].
    apply vmap_units; [exact S|]. unfold slice. apply f2_firstn, f2_skipn, X. }
  destruct Q as (u & v & E & E' & H). rnorm. rewrite E, E'. cbn [rmap]. do 2 eexists. split; [reflexivity|split; [reflexivity|]]. now apply f2_concat.
Qed.

(* ------------------------------------------------------------------ tempering *)
Lemma tempered_units t t' T : tempered_in_units n a b t t' -> target_in_units n a b (tempered_lpdf t T) (tempered_lpdf t' T).
Proof.
  intros [H1 H2] x y d X. destruct (H1 x y d X) as (V1 & L1 & L1' & G1). destruct (H2 x y d X) as (V2 & L2 & L2' & G2).
  cbn [tempered_lpdf lp_val lp_grad]. unfold tempered_log_pdf, tempered_grad, logpdf_call. rnorm.
  split; [rewrite V1, V2; reflexivity|]. split; [rlen; rewrite L1, L2; lia|]. split; [rlen; rewrite L1', L2'; lia|].
  intros i Hi. rewrite !vaddR by (rlen; rewrite ?L1, ?L2, ?L1', ?L2'; lia). rewrite !vscaleR by (rewrite ?L1, ?L1'; lia).
  rewrite G1, G2 by auto. cbn. unfold Rdiv. ring.
Qed.
Lemma last_units l l' : Forall2 siu l l' ->
  match last_opt l, last_opt l' with Some o, Some o' => siu o o' | None, None => True | _, _ => False end.
Proof.
  intros H. destruct H as [|o o' l l' Hab H]; [exact I|]. cbn [last_opt]. revert o o' Hab. induction H; intros x0 y0 Hxy; cbn [last]; auto.
  destruct H0; auto.
Qed.
Lemma individual_units kern kern' t t' d s k x x' T : kernel_in_units n a kern kern' -> tempered_in_units n a b t t' -> iu x x' ->
  both (fun o o' => siu (fst o, true) (fst o', true) /\ snd o' = snd o) (individual_step s kern t d k x T) (individual_step s kern' t' d k x' T).
Proof.
  intros K H X. unfold individual_step. pose proof (tempered_units t t' T H) as TT. destruct (TT x x' d X) as [V _]. cbn [tempered_lpdf lp_val] in V.
  rnorm. rewrite V. destruct (scan_units kern kern' _ _ d s K TT k x x' (tempered_log_pdf t T x d) X) as (w & w' & E & E' & W). rnorm. rewrite E, E'. cbn [rbind].
  pose proof (last_units _ _ W) as LU.
  assert (FL : map snd w' = map snd w). { clear - W. induction W as [|o o' l l' (_ & _ & H) _ IH]; cbn; congruence. }
  rnorm. rewrite FL.
  destruct (last_opt w) as [[[y l] f]|], (last_opt w') as [[[y' l'] f']|]; try contradiction.
  - destruct LU as (Y & L & F). cbn [fst snd] in Y, L, F. subst. do 2 eexists. split; [reflexivity|split; [reflexivity|]]. split; [split; auto|]; reflexivity.
  - do 2 eexists. split; [reflexivity|split; [reflexivity|]]. split; [split; auto|]; reflexivity.
Qed.
Lemma ensemble_units kern kern' t t' d s k (temps : list R) xs xs' : kernel_in_units n a kern kern' -> tempered_in_units n a b t t' ->
  Forall2 iu xs xs' -> length xs = length temps ->
  both (Forall2 iu) (ensemble_step s kern t d temps k xs) (ensemble_step s kern' t' d temps k xs').
Proof.
  intros K H X L. unfold ensemble_step. rnorm. rewrite <- (f2_len _ _ _ X), L, Nat.eqb_refl. apply both_mapM.
  generalize (split_keys k (length temps)). intros ks. clear L. revert temps ks.
  induction X as [|x x' xs xs' X _ IH]; intros temps [|q ks]; cbn [combine]; try constructor.
  destruct temps as [|T temps]; cbn [combine]; constructor; [|apply IH]. cbn [fst snd].
  destruct (individual_units kern kern' t t' d s q x x' T K H X) as (o & o' & E & E' & W & _). rnorm. rewrite E, E'. cbn [rmap].
  do 2 eexists. split; [reflexivity|split; [reflexivity|]]. apply W.
Qed.
Lemma f2_swap {A B} (V : A -> B -> Prop) l l' : Forall2 V l l' -> forall i, Forall2 V (swap_at i l) (swap_at i l').
Proof.
  induction 1 as [|u v l l' H HL IH]; intros [|i]; cbn; try constructor; auto.
  destruct HL; repeat constructor; auto.
Qed.
Lemma unlet {A B C} (e : A * B * list C) c0 : (let '(u, v, w) := e in (u, v, c0 :: w)) = (fst (fst e), snd (fst e), c0 :: snd e).
Proof. destruct e as [[u v] w]. reflexivity. Qed.
Lemma exchange_scan_units (temps : list R) s : forall i k xs xs' lps, Forall2 iu xs xs' ->
  Forall2 iu (fst (fst (exchange_scan temps s i k xs lps))) (fst (fst (exchange_scan temps s i k xs' lps))) /\
  snd (fst (exchange_scan temps s i k xs' lps)) = snd (fst (exchange_scan temps s i k xs lps)) /\
  snd (exchange_scan temps s i k xs' lps) = snd (exchange_scan temps s i k xs lps).
Proof.
  induction s as [|s IH]; intros i k xs xs' lps X; cbn [exchange_scan]; [auto|].
  rewrite !unlet. cbn [fst snd].
  assert (K : forall ys ys' l c, Forall2 iu ys ys' ->
    Forall2 iu (fst (fst (exchange_scan temps s (i + 1) (split k 2 0) ys l))) (fst (fst (exchange_scan temps s (i + 1) (split k 2 0) ys' l))) /\
    snd (fst (exchange_scan temps s (i + 1) (split k 2 0) ys' l)) = snd (fst (exchange_scan temps s (i + 1) (split k 2 0) ys l)) /\
    c :: snd (exchange_scan temps s (i + 1) (split k 2 0) ys' l) = c :: snd (exchange_scan temps s (i + 1) (split k 2 0) ys l)).
  { intros ys ys' l c0 Y. destruct (IH (i + 1)%nat (split k 2 0) ys ys' l Y) as (A & B & C). split; [exact A|]. split; [exact B|]. exact (f_equal (cons c0) C). }
  destruct (mh_accept _ _); apply K; [apply f2_swap|]; exact X.
Qed.
Lemma exchange_units t t' d (temps : list R) k xs xs' : tempered_in_units n a b t t' -> Forall2 iu xs xs' ->
  Forall2 iu (fst (fst (exchange t d temps k xs))) (fst (fst (exchange t' d temps k xs'))) /\
  snd (fst (exchange t' d temps k xs')) = snd (fst (exchange t d temps k xs)) /\
  snd (exchange t' d temps k xs') = snd (exchange t d temps k xs).
Proof.
  intros [H _] X. unfold exchange. rnorm. rewrite <- (f2_len _ _ _ X).
  assert (E : map (fun x => tempered_call t' x d) xs' = map (fun x => tempered_call t x d) xs).
  { clear - X H. induction X as [|u v l l' U _ IH]; cbn; [reflexivity|]. f_equal; [apply (proj1 (H u v d U))|exact IH]. }
  rnorm. rewrite E. now apply exchange_scan_units.
Qed.
End Units2.
