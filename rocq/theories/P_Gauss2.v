(** Proofs of C55 (textbook formula, samples, Composable) and of the decayed base of C53. *)
From Coq Require Import Reals Psatz.
From Coquelicot Require Import Coquelicot.
From Verif Require Import Prelude Num M_Core M_Kernels M_Flow M_Net P_Lists RNum MxR Spec_Jac P_Jac Spec_Real Spec_Flow P_Real1 P_Flow4 P_Flow5 P_Flow6 Spec_Net P_Decay P_Gauss.
Open Scope R_scope.

Section Textbook.
Variables (n : nat) (l cov : list (list R)) (mean : list R).
Hypothesis Hc : cholesky_shape n l.
Hypothesis Hf : factor_of n l cov.
Hypothesis Hm : length mean = n.
Lemma det_cov : mdet n (ent cov) = Rprod n (fun i => ent l i i) * Rprod n (fun i => ent l i i).
Proof.
  rewrite (@mdet_ext n (ent cov) (mmul n (ent l) (fun k j => ent l j k))) by (intros i j Hi Hj; now apply Hf).
  rewrite mdet_mul, (@mdet_transpose n (ent l)). now rewrite (proj1 (det_l n l Hc mean Hm)).
Qed.
Lemma textbook_proof (x w : list R) : length x = n -> length w = n ->
  (forall i, (i < n)%nat -> Rsum n (fun j => ent cov i j * nth j w 0) = nth i x 0 - nth i mean 0) ->
  0 < mdet n (ent cov) /\
  @gaussian_logp RNum mean l x =
  - / 2 * Rsum n (fun i => (nth i x 0 - nth i mean 0) * nth i w 0) - INR n / 2 * ln (2 * PI) - / 2 * ln (mdet n (ent cov)).
Proof.
  intros Hx Hw H. destruct (det_l n l Hc mean Hm) as [_ Hp]. rewrite det_cov. split; [now apply Rmult_lt_0_compat|].
  rewrite (logp_R n l Hc mean Hm x Hx). set (y := forward_subst l (vsub x mean) [] : list R).
  assert (Ly : length y = n) by (apply T_len; auto).
  set (z := map (fun j => Rsum n (fun i => ent l i j * nth i w 0)) (seq 0 n)).
  assert (Lz : length z = n) by (unfold z; now rewrite map_length, seq_length).
  assert (Ez : forall j, (j < n)%nat -> nth j z 0 = Rsum n (fun i => ent l i j * nth i w 0)) by (intros; unfold z; now rewrite nth_map_seq).
  assert (Es : forall i, (i < n)%nat -> Rsum n (fun j => ent l i j * nth j y 0) = nth i x 0 - nth i mean 0).
  { intros i Hi. unfold y. etransitivity; [apply fs_solves; auto using sub_len|]. rewrite vsubR by lia. reflexivity. }
  assert (E : y = z).
  { apply (tri_inj n l Hc []); auto. intros i Hi. rewrite Es by auto. rewrite <- H by auto.
    rewrite (Rsum_ext n (fun j => ent l i j * nth j z 0) (fun k => Rsum n (fun j => ent l i k * ent l j k * nth j w 0))).
    - rewrite Rsum_swap. apply Rsum_ext. intros j Hj. rewrite Hf by auto. rewrite Rmult_comm, <- Rsum_scal. apply Rsum_ext. intros; ring.
    - intros k Hk. rewrite Ez by auto. rewrite <- Rsum_scal. apply Rsum_ext. intros; ring. }
  assert (Q : Rsum n (fun i => nth i y 0 ^ 2) = Rsum n (fun i => (nth i x 0 - nth i mean 0) * nth i w 0)).
  { rewrite (Rsum_ext n (fun i => (nth i x 0 - nth i mean 0) * nth i w 0) (fun i => Rsum n (fun j => ent l i j * nth j y 0 * nth i w 0))).
    - rewrite Rsum_swap. apply Rsum_ext. intros j Hj.
      rewrite (Rsum_ext n _ (fun i => nth j y 0 * (ent l i j * nth i w 0))) by (intros; ring). rewrite Rsum_scal, <- Ez by auto. rewrite <- E. ring.
    - intros i Hi. rewrite <- Es by auto. rewrite Rmult_comm, <- Rsum_scal. apply Rsum_ext. intros; ring. }
  etransitivity; [apply (f_equal2 Rminus); [apply (f_equal2 Rminus); [apply (f_equal2 Rmult); [reflexivity|exact Q]|reflexivity]|reflexivity]|].
  apply (f_equal2 Rminus); [reflexivity|]. rewrite ln_mult by auto. destruct (P_Decay.ln_Rprod n (fun i => ent l i i)) as [_ ->]; [intros; now apply (tri_pos n l Hc)|]. field.
Qed.
End Textbook.

Lemma gaussian_samples_proof (G : @Rng RNum) n (l : list (list R)) (mean : list R) k s i : cholesky_shape n l -> length mean = n ->
  length (@normal RNum G k (s * n)) = (s * n)%nat -> (i < s)%nat ->
  let z := @slice R (i * n) (i * n + n) (@normal RNum G k (s * n)) in
  let x := @nth (list R) i (@gaussian_sample RNum G mean l k s) [] in
  length (@gaussian_sample RNum G mean l k s) = s /\ length x = n /\
  (forall r, (r < n)%nat -> @nth R r x 0 = nth r mean 0 + Rsum n (fun j => ent l r j * nth j z 0)) /\
  @forward_subst RNum l (@vsub RNum x mean) [] = z.
Proof.
  intros Hc Hm Hn Hi. cbv zeta. set (zz := normal k (s * n) : list R) in * . set (z := @slice R (i * n) (i * n + n) zz).
  assert (Lz : length z = n) by (unfold z; rewrite slice_length; rnorm; rewrite Hn; assert (i * n + n <= s * n)%nat by nia; lia).
  assert (E : @nth (list R) i (@gaussian_sample RNum G mean l k s) [] = @gaussian_of_noise RNum mean l z).
  { unfold gaussian_sample. rnorm. rewrite Hm. fold zz.
    assert (Li : (i < length (reshape_rows s n zz))%nat) by (now rewrite reshape_rows_length).
    etransitivity; [exact (nth_map' (@gaussian_of_noise RNum mean l) (reshape_rows s n zz) i [] [] Li)|]. now rewrite nth_reshape_rows. }
  split; [unfold gaussian_sample; now rewrite map_length, reshape_rows_length|]. rewrite E.
  split; [now apply (S_len n l Hc mean Hm)|]. split; [intros r Hr; now apply (S_nth n l Hc mean Hm)|now apply (TS n l Hc mean Hm)].
Qed.

(* ------------------------------------------------------------------ Composable *)

Section Comp.
Context {G : @Rng RNum}.
Lemma comp_blocks (ds : list (@dist RNum G)) : forall (ps : list (string * (nat * nat))) (ys : list (list R)) (pre : list R) (a : R),
  length ds = length ps -> length ys = length ps -> consecutive (length pre) (map snd ps) (length (pre ++ concat ys)) ->
  (forall k, (k < length ps)%nat -> length (nth k ys []) = (snd (snd (nth k ps (""%string, (0, 0)%nat))) - fst (snd (nth k ps (""%string, (0, 0)%nat))))%nat) ->
  fold_left (fun acc dp => acc +. ds_logp (fst dp) (slice (fst (snd (snd dp))) (snd (snd (snd dp))) (pre ++ concat ys)))%num (combine ds ps) a =
  a + Rsum (length ds) (fun k => ds_logp (nth k ds (mkDist (fun _ => 0) (fun _ _ => []))) (nth k ys [])).
Proof.
  induction ds as [|d ds IH]; intros [|[nm [b e]] ps] [|y ys] pre a L1 L2 Hc Hl; try discriminate.
  - cbn. ring.
  - cbn [combine fold_left map snd fst consecutive] in * . destruct Hc as (-> & Hbe & Hc).
    pose proof (Hl 0%nat ltac:(cbn; lia)) as Ly. cbn [nth snd fst] in Ly.
    assert (Es : slice (length pre) e (pre ++ concat (y :: ys)) = y).
    { unfold slice. rewrite skipn_app, skipn_all, Nat.sub_diag. cbn [app skipn concat]. rewrite <- Ly. now rewrite firstn_app, firstn_all, Nat.sub_diag, firstn_O, app_nil_r. }
    rewrite Es. assert (Ep : (pre ++ concat (y :: ys) = (pre ++ y) ++ concat ys)%list) by (cbn [concat]; now rewrite app_assoc).
    assert (Lp : length (pre ++ y) = e) by (rewrite app_length; lia).
    rewrite Ep in Hc |- * . rewrite (IH ps ys (pre ++ y)%list).
    + cbn [length]. rewrite Rsum_S. cbn [nth]. rnorm. cbn [fadd RNum]. ring.
    + now injection L1.
    + now injection L2.
    + now rewrite Lp.
    + intros k Hk. apply (Hl (S k)). cbn. lia.
Qed.
Lemma composable_proof (ds : list (@dist RNum G)) (ps : list (string * (nat * nat))) (ys : list (list R)) :
  length ds = length ps -> length ys = length ps -> consecutive 0 (map snd ps) (length (concat ys)) ->
  (forall k, (k < length ps)%nat -> length (nth k ys []) = (snd (snd (nth k ps (""%string, (0, 0)%nat))) - fst (snd (nth k ps (""%string, (0, 0)%nat))))%nat) ->
  @composable_logp RNum G (mkComp ds ps) (concat ys) =
  Rsum (length ds) (fun k => ds_logp (nth k ds (mkDist (fun _ => 0) (fun _ _ => []))) (nth k ys [])).
Proof.
  intros L1 L2 Hc Hl. unfold composable_logp. cbn [cm_dists cm_parts]. 
  etransitivity; [exact (comp_blocks ds ps ys [] 0 L1 L2 Hc Hl)|]. exact (Rplus_0_l _).
Qed.
End Comp.

Section CompSample.
Context {N : Num} {G : Rng}.
Lemma dset_fresh {V} (d : dict V) k v : ~ In k (dkeys d) -> dset d k v = (d ++ [(k, v)])%list.
Proof.
  induction d as [|[k' v'] d IH]; intros H; auto. cbn [dset]. destruct (String.eqb_spec k k') as [->|Hne]; [exfalso; apply H; now left|].
  cbn [app]. f_equal. apply IH. intros Hin. apply H. now right.
Qed.
Lemma sample_loop (ds : list dist) : forall (ps : list (string * (nat * nat))) k n (out : dict (list vec)), length ds = length ps ->
  NoDup (dkeys out ++ map fst ps) ->
  composable_sample_loop (combine ds ps) k n out =
  (out ++ map (fun i => (fst (nth i ps (""%string, (0, 0)%nat)), ds_sample (nth i ds (mkDist (fun _ => f0) (fun _ _ => []))) (split (iter i (fun q => split q 2 0) k) 2 1) n))
     (seq 0 (length ps)))%list.
Proof.
  induction ds as [|d ds IH]; intros [|[nm r] ps] k n out L Hd; try discriminate.
  - cbn. now rewrite app_nil_r.
  - cbn [combine composable_sample_loop]. cbn [map fst] in Hd.
    assert (Hf : ~ In nm (dkeys out)) by (intros Hin; apply NoDup_remove_2 in Hd; apply Hd, in_or_app; now left).
    rewrite dset_fresh by auto. rewrite IH.
    + rewrite <- app_assoc. f_equal. cbn [length seq map nth fst iter app]. f_equal.
      rewrite <- seq_shift, map_map. reflexivity.
    + now injection L.
    + unfold dkeys in * . rewrite map_app. cbn [map fst]. rewrite <- app_assoc. exact Hd.
Qed.
Lemma composable_sample_proof (ds : list dist) (ps : list (string * (nat * nat))) k n : length ds = length ps -> NoDup (map fst ps) ->
  let out := composable_sample (mkComp ds ps) k n in
  dkeys out = map fst ps /\
  forall i, (i < length ps)%nat ->
    dget out (fst (nth i ps (""%string, (0, 0)%nat))) =
    Some (ds_sample (nth i ds (mkDist (fun _ => f0) (fun _ _ => []))) (split (iter i (fun q => split q 2 0) k) 2 1) n).
Proof.
  intros L Hd. cbv zeta. unfold composable_sample. cbn [cm_dists cm_parts]. rewrite (sample_loop ds ps k n [] L Hd). cbn [app].
  set (f := fun i => (fst (nth i ps (""%string, (0, 0)%nat)), ds_sample (nth i ds (mkDist (fun _ => f0) (fun _ _ => []))) (split (iter i (fun q => split q 2 0) k) 2 1) n)).
  assert (E : dkeys (map f (seq 0 (length ps))) = map fst ps).
  { unfold dkeys. rewrite map_map. apply (list_eq_nth ""%string); rewrite !map_length, ?seq_length; auto. intros i Hi.
    rewrite nth_map_seq by auto. unfold f. cbn [fst]. now rewrite (nth_map' fst ps i (""%string, (0, 0)%nat)) by auto. }
  split; auto. intros i Hi. rewrite <- E in Hd.
  assert (HI : In (f i) (map f (seq 0 (length ps)))) by (apply in_map, in_seq; lia).
  clear -HI Hd. change (fst (nth i ps (""%string, (0, 0)%nat))) with (fst (f i)). 
  change (ds_sample (nth i ds (mkDist (fun _ => f0) (fun _ _ => []))) (split (iter i (fun q => split q 2 0) k) 2 1) n) with (snd (f i)).
  revert HI Hd. generalize (f i). intros [a b]. generalize (map f (seq 0 (length ps))). intros dd. cbn [fst snd].
  induction dd as [|[a' b'] dd IH]; intros HI Hd; [destruct HI|]. cbn [dget]. inversion Hd as [|? ? H1 H2]; subst. destruct HI as [E|HI].
  - injection E as -> ->. now rewrite String.eqb_refl.
  - destruct (String.eqb_spec a a') as [->|_]; auto. exfalso. apply H1. change a' with (fst (a', b)). now apply in_map.
Qed.
End CompSample.

(* ------------------------------------------------------------------ the decayed base distribution *)
Section Base.
Variables (n : nat) (lr momentum : R) (gs : list (list R)) (rest : list R) (l : list (list R)).
Let eye := map (fun i => map (fun j => if (i =? j)%nat then 1 else 0) (seq 0 n)) (seq 0 n).
Let p := (concat eye ++ rest)%list.
Let p' : list R := fst (adamw_steps (@optimizer_new RNum lr momentum) gs p (adamw_init p)).
Let cov := reshape_rows n n (firstn (n * n) p').
Let r := (1 - lr * (1 / 10000)) ^ length gs.
Hypothesis Hlr : 0 < lr < 10000.
Hypothesis Hgs : gs <> [].
Hypothesis Hg : forall g i, In g gs -> (i < n * n)%nat -> nth i g 0 = 0.
Hypothesis Hc : cholesky_shape n l.
Hypothesis Hf : factor_of n l cov.
Lemma b_r01 : 0 < r < 1.
Proof. apply factor01; auto. destruct gs; [congruence|cbn; lia]. Qed.
Lemma eye_rows : Forall (fun q => length q = n) eye.
Proof. apply Forall_forall. intros q Hq. apply in_map_iff in Hq as (i & <- & _). now rewrite map_length, seq_length. Qed.
Lemma eye_len : length eye = n. Proof. unfold eye. now rewrite map_length, seq_length. Qed.
Lemma eye_flat : length (concat eye) = (n * n)%nat.
Proof.
  rewrite <- eye_len at 1. pose proof eye_rows as H. revert H. generalize eye. intros q H. clear -H. induction H as [|a q Ha H IH]; auto. cbn [concat length]. rewrite app_length, Ha, IH. lia.
Qed.
Lemma cov_ent i j : (i < n)%nat -> (j < n)%nat -> ent cov i j = mid i j * r.
Proof.
  intros Hi Hj. unfold ent, cov. rewrite nth_reshape_rows by auto. rewrite nth_slice by lia. rewrite nth_firstn by nia.
  pose proof eye_flat as L. unfold p'. etransitivity; [apply decay_proof|].
  - unfold p. rewrite app_length. nia.
  - intros g Hin. apply Hg; auto. nia.
  - unfold p. rewrite nth_app_l by nia. rewrite (nth_concat_uniform eye n i j 0 eye_rows Hj) by (now rewrite eye_len).
    unfold eye. rewrite nth_map_seq by auto. rewrite nth_map_seq by auto. reflexivity.
Qed.
Lemma cov_det : mdet n (ent cov) = r ^ n.
Proof.
  rewrite (@mdet_ext n (ent cov) (fun i j => mid i j * r)) by (intros; now apply cov_ent).
  rewrite mdet_lower; [|intros i j Hi Hj Hij; unfold mid; destruct (Nat.eqb_spec i j); [lia|apply Rmult_0_l]].
  rewrite (Rprod_ext n _ (fun _ => r)) by (intros; unfold mid; rewrite Nat.eqb_refl; ring).
  clear. induction n as [|k IH]; cbn; [reflexivity|]. rewrite IH. ring.
Qed.
Lemma base_logp (x : list R) : length x = n ->
  @gaussian_logp RNum (repeat 0 n) l x = - / (2 * r) * Rsum n (fun i => nth i x 0 ^ 2) - INR n / 2 * ln (2 * PI) - INR n / 2 * ln r.
Proof.
  intros Hx. pose proof b_r01 as Hr.
  destruct (textbook_proof n l cov (repeat 0 n) Hc Hf (repeat_length 0 n) x (map (fun v => v / r) x) Hx) as [_ E].
  - now rewrite map_length.
  - intros i Hi. rewrite (Rsum_single n _ i Hi).
    + rewrite cov_ent by auto. unfold mid. rewrite Nat.eqb_refl. rewrite (mapRR (fun v => v / r)) by lia. rewrite nth_repeat. field. lra.
    + intros j Hj Hne. rewrite cov_ent by auto. unfold mid. destruct (Nat.eqb_spec i j); [congruence|]. ring.
  - rewrite E. rewrite cov_det. rewrite ln_pow by lra.
    rewrite (Rsum_ext n _ (fun i => / r * nth i x 0 ^ 2)).
    + rewrite Rsum_scal. rnorm. field. lra.
    + intros i Hi. rewrite (mapRR (fun v => v / r)) by lia. rewrite nth_repeat. field. lra.
Qed.
Lemma trained_base_proof (m : @flow RNum) nets : fl_n m = n -> (0 < n)%nat -> good_stats m ->
  fl_layers m = map coupling_layer (realnvp_layers (fl_n m) nets) -> nets_shape (fl_n m) nets ->
  (forall s t c, In (s, t) nets -> length c = fl_n m -> differentiable (fl_n m) s c /\ differentiable (fl_n m) t c) ->
  exists z1 z2 : list R, length z1 = n /\ length z2 = n /\
  let base y := exp (@gaussian_logp RNum (repeat 0 n) l y) in
  let x1 := nth 0 (flow_sample m [z1; z2]) [] in let x2 := nth 1 (flow_sample m [z1; z2]) [] in
  exists d1 d2, 0 < d1 /\ 0 < d2 /\ density_through n (latent m) base x1 d1 /\ density_through n (latent m) base x2 d2 /\
    realnvp_log_prob m x1 - realnvp_log_prob m x2 <> ln d1 - ln d2.
Proof.
  intros En Hn Hs Hly Hsh Hd. pose proof b_r01 as Hr.
  exists (repeat 0 n), (set_nth 0 1 (repeat 0 n)). split; [apply repeat_length|split; [now rewrite set_nth_length, repeat_length|]].
  pose proof (custom_base m nets (fun y => exp (@gaussian_logp RNum (repeat 0 n) l y)) (repeat 0 n) (set_nth 0 1 (repeat 0 n)) Hs Hly Hsh Hd) as K.
  cbv zeta in K |- * . rewrite En in K. apply K; clear K.
  - intros. apply exp_pos.
  - apply repeat_length.
  - now rewrite set_nth_length, repeat_length.
  - rewrite !ln_exp. rewrite !base_logp by (rewrite ?set_nth_length; apply repeat_length).
    rewrite !std_density_gauss, !ln_gauss by (intros; lra). rewrite Rabs_R1, ln_1.
    assert (A : forall (z : list R), Rsum n (fun i => - (nth i z 0 - 0) ^ 2 / (2 * 1 ^ 2) - 0 - ln (2 * PI) / 2) = - / 2 * Rsum n (fun i => nth i z 0 ^ 2) - INR n * (ln (2 * PI) / 2)).
    { intros z. rewrite <- Rsum_scal, <- Rsum_const, <- Rsum_minus. apply Rsum_ext. intros; field. }
    rewrite !A.
    assert (B0 : Rsum n (fun i => nth i (repeat 0 n) 0 ^ 2) = 0) by (apply Rsum_0; intros; rewrite nth_repeat; ring).
    assert (B1 : Rsum n (fun i => nth i (set_nth 0 1 (repeat 0 n)) 0 ^ 2) = 1).
    { rewrite (Rsum_single n _ 0%nat Hn).
      - rewrite nth_set_nth_eq by (now rewrite repeat_length). ring.
      - intros i Hi Hne. rewrite nth_set_nth_neq by auto. rewrite nth_repeat. ring. }
    rewrite B0, B1. intros E.
    assert (E2 : / (2 * r) = / 2) by lra. assert (E3 : / (2 * r) * (2 * r) = / 2 * (2 * r)) by (now rewrite E2). rewrite Rinv_l in E3 by lra. lra.
Qed.
End Base.
