(** Proofs about coupling layers (C29). *)
From Coq Require Import Reals Psatz.
From Coquelicot Require Import Coquelicot.
From Verif Require Import Prelude Num M_Core M_Kernels M_Flow P_Lists RNum MxR Spec_Jac P_Jac Spec_Spline Spec_Flow P_Real1 P_Spline2 P_Spline3.
Open Scope R_scope.

Lemma nth_repeat_lt {A} (a d : A) n i : (i < n)%nat -> nth i (repeat a n) d = a.
Proof. revert i. induction n; intros [|i] H; cbn; auto; try lia. apply IHn. lia. Qed.

(** A bijection acting coordinate by coordinate for condition c. *)
Record cbij (n : nat) (b : @bij RNum) (c : list R) (g l gi li : nat -> R -> R) : Prop := {
  cb_fl : forall x : list R, length x = n -> length (fst (bj_fwd b x c)) = n /\ length (snd (bj_fwd b x c)) = n;
  cb_il : forall x : list R, length x = n -> length (fst (bj_inv b x c)) = n /\ length (snd (bj_inv b x c)) = n;
  cb_f : forall (x : list R) i, length x = n -> (i < n)%nat ->
     @nth R i (fst (bj_fwd b x c)) 0 = g i (nth i x 0) /\ @nth R i (snd (bj_fwd b x c)) 0 = l i (nth i x 0);
  cb_i : forall (x : list R) i, length x = n -> (i < n)%nat ->
     @nth R i (fst (bj_inv b x c)) 0 = gi i (nth i x 0) /\ @nth R i (snd (bj_inv b x c)) 0 = li i (nth i x 0);
  cb_gig : forall i t, (i < n)%nat -> gi i (g i t) = t;
  cb_ggi : forall i t, (i < n)%nat -> g i (gi i t) = t;
  cb_lig : forall i t, (i < n)%nat -> li i (g i t) = - l i t }.

Definition bswap (b : @bij RNum) : @bij RNum := mkBij (bj_inv b) (bj_fwd b).
Lemma cbij_swap n b c g l gi li : cbij n b c g l gi li -> cbij n (bswap b) c gi li g l.
Proof.
  intros [A1 A2 A3 A4 A5 A6 A7]. constructor; auto. intros i t Hi. rewrite <- (A6 i t Hi) at 2. rewrite A7 by auto. ring.
Qed.

Section Mix.
Variables (n : nat) (m : list R).
Hypothesis Hm : binary_mask n m.
Lemma mask_mix_len (y x : list R) : length y = n -> length x = n -> length (@mask_mix RNum m y x) = n.
Proof. intros. destruct Hm. unfold mask_mix. rlen. lia. Qed.
Lemma mask_mix_nth (y x : list R) i : length y = n -> length x = n -> (i < n)%nat ->
  @nth R i (@mask_mix RNum m y x) 0 = (1 - nth i m 0) * nth i y 0 + nth i m 0 * nth i x 0.
Proof.
  intros Hy Hx Hi. destruct Hm as [Hl _]. unfold mask_mix.
  rewrite vaddR by (rlen; lia). rewrite !vmulR by (rlen; lia). rewrite (mapR (fun a => 1 - a)) by lia. reflexivity.
Qed.
Lemma mask_logdet_sum (ld : list R) : length ld = n -> @mask_logdet RNum m ld = Rsum n (fun i => (1 - nth i m 0) * nth i ld 0).
Proof.
  intros Hl. destruct Hm as [Hlm _]. unfold mask_logdet. rewrite fsumR. rlen. rewrite Hl, Hlm, Nat.min_id. apply Rsum_ext. intros i Hi.
  rewrite vmulR by (rlen; lia). rewrite (mapR (fun a => 1 - a)) by lia. reflexivity.
Qed.
Lemma cond_nth (x : list R) i : length x = n -> (i < n)%nat -> @nth R i (@vmul RNum x m) 0 = nth i x 0 * nth i m 0.
Proof. intros. destruct Hm. apply vmulR; lia. Qed.
Lemma cond_len (x : list R) : length x = n -> length (@vmul RNum x m) = n.
Proof. intros. destruct Hm. rlen. lia. Qed.
Lemma cond_ext (x y : list R) : length x = n -> length y = n -> (forall i, (i < n)%nat -> nth i m 0 = 1 -> nth i x 0 = nth i y 0) ->
  @vmul RNum x m = @vmul RNum y m.
Proof.
  intros Hx Hy H. apply (list_eq_nth (0 : R)); rnorm; rewrite !cond_len by auto; auto. intros i Hi. rewrite !cond_nth by auto.
  destruct (proj2 Hm i Hi) as [E|E]; rewrite E; [ring|]. rewrite (H i); auto.
Qed.
End Mix.

Section Coupling.
Variables (n : nat) (m : list R) (b : @bij RNum).
Hypothesis Hm : binary_mask n m.
Hypothesis Hb : forall c : list R, length c = n -> exists g l gi li, cbij n b c g l gi li.

Lemma coupling_fwd_spec (x : list R) : length x = n -> exists g l gi li, cbij n b (@vmul RNum x m) g l gi li /\
  length (fst (coupling_fwd (mkCoupling m b) x)) = n /\
  (forall i, (i < n)%nat -> @nth R i (fst (coupling_fwd (mkCoupling m b) x)) 0 = (1 - nth i m 0) * g i (nth i x 0) + nth i m 0 * nth i x 0) /\
  snd (coupling_fwd (mkCoupling m b) x) = Rsum n (fun i => (1 - nth i m 0) * l i (nth i x 0)).
Proof.
  intros Hx. destruct (Hb (@vmul RNum x m) (cond_len n m Hm x Hx)) as (g & l & gi & li & C). exists g, l, gi, li. split; auto.
  unfold coupling_fwd. cbn [cp_mask cp_bij]. destruct (bj_fwd b x (vmul x m)) as [y ld] eqn:E. cbn [fst snd].
  destruct (cb_fl _ _ _ _ _ _ _ C x Hx) as [Ly Ll]. rewrite E in Ly, Ll. cbn [fst snd] in Ly, Ll.
  pose proof (cb_f _ _ _ _ _ _ _ C x) as Hn. rewrite E in Hn. cbn [fst snd] in Hn.
  split; [|split].
  - now apply (mask_mix_len n m Hm).
  - intros i Hi. rewrite (mask_mix_nth n m Hm) by auto. now rewrite (proj1 (Hn i Hx Hi)).
  - rewrite (mask_logdet_sum n m Hm) by auto. apply Rsum_ext. intros i Hi. now rewrite (proj2 (Hn i Hx Hi)).
Qed.
End Coupling.
Lemma coupling_inv_swap m b x : @coupling_inv RNum (mkCoupling m b) x = @coupling_fwd RNum (mkCoupling m (bswap b)) x.
Proof. reflexivity. Qed.
Lemma bswap2 b : bswap (bswap b) = b. Proof. destruct b; reflexivity. Qed.

Lemma cbij_fun n b c g l gi li g' l' gi' li' : cbij n b c g l gi li -> cbij n b c g' l' gi' li' ->
  forall i t, (i < n)%nat -> g i t = g' i t /\ l i t = l' i t.
Proof.
  intros A B i t Hi. set (x := repeat t n). assert (Hx : length x = n) by apply repeat_length.
  assert (E : nth i x 0 = t) by (apply nth_repeat_lt; auto).
  destruct (cb_f _ _ _ _ _ _ _ A x i Hx Hi) as [P1 P2]. destruct (cb_f _ _ _ _ _ _ _ B x i Hx Hi) as [Q1 Q2].
  rewrite E in * . split; congruence.
Qed.

Lemma coupling_half n m b : binary_mask n m -> (forall c : list R, length c = n -> exists g l gi li, cbij n b c g l gi li) ->
  forall x : list R, length x = n -> 
  coupling_inv (mkCoupling m b) (fst (coupling_fwd (mkCoupling m b) x)) = (x, - snd (coupling_fwd (mkCoupling m b) x)).
Proof.
  intros Hm Hb x Hx. destruct (coupling_fwd_spec n m b Hm Hb x Hx) as (g & l & gi & li & C & Ly & Hy & Hl).
  set (y := fst (coupling_fwd (mkCoupling m b) x)) in * .
  assert (Hb' : forall c : list R, length c = n -> exists g l gi li, cbij n (bswap b) c g l gi li).
  { intros c Hc. destruct (Hb c Hc) as (g0 & l0 & gi0 & li0 & C0). do 4 eexists. apply cbij_swap. exact C0. }
  rewrite coupling_inv_swap.
  destruct (coupling_fwd_spec n m (bswap b) Hm Hb' y Ly) as (g2 & l2 & gi2 & li2 & C2 & Lz & Hz & Hl2).
  assert (Ec : @vmul RNum y m = @vmul RNum x m).
  { apply (cond_ext n m Hm); auto. intros i Hi E. rewrite Hy, E by auto. ring. }
  rewrite Ec in C2. pose proof (cbij_fun _ _ _ _ _ _ _ _ _ _ _ C2 (cbij_swap _ _ _ _ _ _ _ C)) as Hg.
  destruct (coupling_fwd (mkCoupling m (bswap b)) y) as [z d]. cbn [fst snd] in * . f_equal.
  - apply (list_eq_nth (0 : R)); rnorm; [congruence|]. intros i Hi. rewrite Lz in Hi. rewrite Hz, Hy by auto.
    rewrite (proj1 (Hg i _ Hi)). destruct (proj2 Hm i Hi) as [E|E]; rewrite E.
    + replace ((1 - 0) * g i (nth i x 0) + 0 * nth i x 0) with (g i (nth i x 0)) by ring. rewrite (cb_gig _ _ _ _ _ _ _ C) by auto. ring.
    + ring.
  - rewrite Hl2, Hl, <- Rsum_opp. apply Rsum_ext. intros i Hi. rewrite (proj2 (Hg i _ Hi)), Hy by auto.
    destruct (proj2 Hm i Hi) as [E|E]; rewrite E.
    + replace ((1 - 0) * g i (nth i x 0) + 0 * nth i x 0) with (g i (nth i x 0)) by ring. rewrite (cb_lig _ _ _ _ _ _ _ C) by auto. ring.
    + ring.
Qed.
Lemma coupling_exact n m b : binary_mask n m -> (forall c : list R, length c = n -> exists g l gi li, cbij n b c g l gi li) ->
  exact_inverse n (coupling_fwd (mkCoupling m b)) (coupling_inv (mkCoupling m b)).
Proof.
  intros Hm Hb.
  assert (Hb' : forall c : list R, length c = n -> exists g l gi li, cbij n (bswap b) c g l gi li).
  { intros c Hc. destruct (Hb c Hc) as (g0 & l0 & gi0 & li0 & C0). do 4 eexists. apply cbij_swap. exact C0. }
  constructor; intros x Hx.
  - destruct (coupling_fwd_spec n m b Hm Hb x Hx) as (g & l & gi & li & C & Ly & _). exact Ly.
  - rewrite coupling_inv_swap. destruct (coupling_fwd_spec n m (bswap b) Hm Hb' x Hx) as (g & l & gi & li & C & Ly & _). exact Ly.
  - now apply (coupling_half n).
  - pose proof (coupling_half n m (bswap b) Hm Hb' x Hx) as E. rewrite coupling_inv_swap, bswap2 in E. exact E.
Qed.

(* ------------------------------------------------------------------ instances *)
Lemma mlp_cbij n s t (dt : R) (c : list R) : net_shape n s -> net_shape n t -> length c = n ->
  cbij n (mlp_affine s t dt) c
    (fun i x => (x + nth i (t c) 0 * dt) * exp (tanh (nth i (s c) 0) * dt))
    (fun i _ => tanh (nth i (s c) 0) * dt)
    (fun i x => x * exp (- (tanh (nth i (s c) 0) * dt)) - nth i (t c) 0 * dt)
    (fun i _ => - (tanh (nth i (s c) 0) * dt)).
Proof.
  intros Hs Ht Hc. pose proof (Hs c Hc) as Ls. pose proof (Ht c Hc) as Lt. rnorm.
  unfold mlp_affine, vneg. constructor; cbn [bj_fwd bj_inv fst snd fmul fexp fneg ftanh RNum].
  - intros x Hx. rlen. lia.
  - intros x Hx. rlen. lia.
  - intros x i Hx Hi. split.
    + rewrite vmulR by (rlen; lia). rewrite vaddR by (rlen; lia).
      rewrite (mapR exp) by (rlen; lia). rewrite (mapR (fun s => tanh s * dt)) by lia. rewrite (mapR (fun s => s * dt)) by lia. reflexivity.
    + rewrite (mapR (fun s => tanh s * dt)) by lia. reflexivity.
  - intros x i Hx Hi. split.
    + rewrite vsubR by (rlen; lia). rewrite vmulR by (rlen; lia).
      rewrite (mapR (fun s => exp (- s))) by (rlen; lia). rewrite (mapR (fun s => tanh s * dt)) by lia. rewrite (mapR (fun s => s * dt)) by lia. reflexivity.
    + rewrite (mapR Ropp) by (rlen; lia). rewrite (mapR (fun s => tanh s * dt)) by lia. reflexivity.
  - intros i x Hi. rewrite exp_Ropp. field. apply Rgt_not_eq, exp_pos.
  - intros i x Hi. rewrite exp_Ropp. field. apply Rgt_not_eq, exp_pos.
  - reflexivity.
Qed.
Lemma scalar_cbij n (scale shift : R) (c : list R) :
  cbij n (scalar_affine scale shift) c (fun _ x => (x + shift) * exp scale) (fun _ _ => scale)
    (fun _ x => x * exp (- scale) - shift) (fun _ _ => - scale).
Proof.
  unfold scalar_affine. constructor; cbn [bj_fwd bj_inv fst snd fmul fadd fsub fexp fneg RNum].
  - intros x Hx. rlen. rewrite repeat_length. auto.
  - intros x Hx. rlen. rewrite repeat_length. auto.
  - intros x i Hx Hi. rewrite (mapR (fun a => (a + shift) * exp scale)) by lia. split; auto. rnorm. now rewrite nth_repeat_lt by lia.
  - intros x i Hx Hi. rewrite (mapR (fun a => a * exp (- scale) - shift)) by lia. split; auto. rnorm. now rewrite nth_repeat_lt by lia.
  - intros i x Hi. rewrite exp_Ropp. field. apply Rgt_not_eq, exp_pos.
  - intros i x Hi. rewrite exp_Ropp. field. apply Rgt_not_eq, exp_pos.
  - reflexivity.
Qed.
Definition par_x (q : @rqspline RNum) n c i : list R := let '(xp, yp, sl) := nth i (get_params q n c) ([], [], []) in xp.
Definition par_y (q : @rqspline RNum) n c i : list R := let '(xp, yp, sl) := nth i (get_params q n c) ([], [], []) in yp.
Definition par_s (q : @rqspline RNum) n c i : list R := let '(xp, yp, sl) := nth i (get_params q n c) ([], [], []) in sl.
Lemma rq_run_nth (q : @rqspline RNum) n c (x : list R) i (f : list R -> list R -> list R -> R -> R * R) : length x = n -> (i < n)%nat ->
  nth i (map2 (fun p xi => let '(xp, yp, sl) := p in f xp yp sl xi) (get_params q (length x) c) x) (0, 0) =
  f (par_x q n c i) (par_y q n c i) (par_s q n c i) (nth i x 0).
Proof.
  intros Hx Hi. rewrite Hx. rewrite (nth_map2 _ _ _ i ([], [], []) 0 (0, 0)) by (rewrite ?get_params_len; lia).
  unfold par_x, par_y, par_s. pose (p := nth i (get_params q n c) ([], [], []) : list R * list R * list R).
  change ((let '(xp, yp, sl) := p in f xp yp sl (nth i x 0)) =
    f (let '(xp, _, _) := p in xp) (let '(_, yp, _) := p in yp) (let '(_, _, sl) := p in sl) (nth i x 0)).
  destruct p as [[xp yp] sl]. reflexivity.
Qed.
Lemma rq_cbij_fwd (q : @rqspline RNum) n (c : list R) : rq_admissible q -> rq_shape q n -> length c = n ->
  forall x : list R, length x = n ->
  (length (fst (bj_fwd (rqspline_bij q) x c)) = n /\ length (snd (bj_fwd (rqspline_bij q) x c)) = n) /\
  forall i, (i < n)%nat -> 
     @nth R i (fst (bj_fwd (rqspline_bij q) x c)) 0 = spline (par_x q n c i) (par_y q n c i) (par_s q n c i) (nth i x 0) /\
     @nth R i (snd (bj_fwd (rqspline_bij q) x c)) 0 = spline_ld (par_x q n c i) (par_y q n c i) (par_s q n c i) (nth i x 0).
Proof.
  intros A Hs Hc x Hx. unfold rqspline_bij. cbn [bj_fwd fst snd].
  assert (L : length (map2 (fun p (xi : @F RNum) => let '(xp, yp, sl) := p in rqs_fwd xp yp sl xi) (get_params q (length x) c) x) = n).
  { rewrite map2_length, get_params_len. rnorm. lia. }
  split; [rewrite !map_length; auto|]. intros i Hi. rnorm.
  rewrite (nth_map' fst _ i (0, 0) 0) by (rnorm; lia). rewrite (nth_map' snd _ i (0, 0) 0) by (rnorm; lia).
  pose proof (rq_run_nth q n c x i (@rqs_fwd RNum) Hx Hi) as E. rnorm. rewrite E. split; reflexivity.
Qed.
Lemma rq_cbij_inv (q : @rqspline RNum) n (c : list R) : rq_admissible q -> rq_shape q n -> length c = n ->
  forall x : list R, length x = n ->
  (length (fst (bj_inv (rqspline_bij q) x c)) = n /\ length (snd (bj_inv (rqspline_bij q) x c)) = n) /\
  forall i, (i < n)%nat -> 
     @nth R i (fst (bj_inv (rqspline_bij q) x c)) 0 = spline_inv (par_x q n c i) (par_y q n c i) (par_s q n c i) (nth i x 0) /\
     @nth R i (snd (bj_inv (rqspline_bij q) x c)) 0 = spline_inv_ld (par_x q n c i) (par_y q n c i) (par_s q n c i) (nth i x 0).
Proof.
  intros A Hs Hc x Hx. unfold rqspline_bij. cbn [bj_inv fst snd].
  assert (L : length (map2 (fun p (xi : @F RNum) => let '(xp, yp, sl) := p in rqs_inv xp yp sl xi) (get_params q (length x) c) x) = n).
  { rewrite map2_length, get_params_len. rnorm. lia. }
  split; [rewrite !map_length; auto|]. intros i Hi. rnorm.
  rewrite (nth_map' fst _ i (0, 0) 0) by (rnorm; lia). rewrite (nth_map' snd _ i (0, 0) 0) by (rnorm; lia).
  pose proof (rq_run_nth q n c x i (@rqs_inv RNum) Hx Hi) as E. rnorm. rewrite E. split; reflexivity.
Qed.
Lemma rq_valid_at (q : @rqspline RNum) n (c : list R) i : rq_admissible q -> rq_shape q n -> length c = n -> (i < n)%nat ->
  valid_spline (par_x q n c i) (par_y q n c i) (par_s q n c i).
Proof.
  intros A Hs Hc Hi. destruct (C28_proof q n c i A Hs Hc Hi) as (xp & yp & sl & E & W).
  unfold par_x, par_y, par_s. rewrite E. apply (sw_valid _ _ _ _ _ _ _ _ W).
Qed.
Lemma rq_cond_at (q : @rqspline RNum) n (c : list R) i : rq_conditioned q n -> length c = n -> (i < n)%nat ->
  well_conditioned (par_x q n c i) (par_y q n c i) (par_s q n c i).
Proof.
  intros W Hc Hi. unfold par_x, par_y, par_s. destruct (nth i (get_params q n c) ([], [], [])) as [[xp yp] sl] eqn:E. eapply W; eauto.
Qed.
Lemma rq_cbij (q : @rqspline RNum) n (c : list R) : rq_admissible q -> rq_shape q n -> rq_conditioned q n -> length c = n ->
  cbij n (rqspline_bij q) c
    (fun i => spline (par_x q n c i) (par_y q n c i) (par_s q n c i))
    (fun i => spline_ld (par_x q n c i) (par_y q n c i) (par_s q n c i))
    (fun i => spline_inv (par_x q n c i) (par_y q n c i) (par_s q n c i))
    (fun i => spline_inv_ld (par_x q n c i) (par_y q n c i) (par_s q n c i)).
Proof.
  intros A Hs W Hc. constructor.
  - intros x Hx. apply (rq_cbij_fwd q n c A Hs Hc x Hx).
  - intros x Hx. apply (rq_cbij_inv q n c A Hs Hc x Hx).
  - intros x i Hx Hi. now apply (rq_cbij_fwd q n c A Hs Hc x Hx).
  - intros x i Hx Hi. now apply (rq_cbij_inv q n c A Hs Hc x Hx).
  - intros i t Hi. exact (f_equal fst (inv_of_fwd _ _ _ (rq_valid_at q n c i A Hs Hc Hi) (rq_cond_at q n c i W Hc Hi) t)).
  - intros i t Hi. exact (fwd_of_inv _ _ _ (rq_valid_at q n c i A Hs Hc Hi) (rq_cond_at q n c i W Hc Hi) t).
  - intros i t Hi. exact (f_equal snd (inv_of_fwd _ _ _ (rq_valid_at q n c i A Hs Hc Hi) (rq_cond_at q n c i W Hc Hi) t)).
Qed.

(** Pass-through, for any inner map whose output has the right length. *)
Lemma pass_through n m (b : @bij RNum) (x : list R) i : binary_mask n m -> length x = n -> (i < n)%nat -> nth i m 0 = 1 ->
  length (fst (bj_fwd b x (vmul x m))) = n -> @nth R i (fst (coupling_fwd (mkCoupling m b) x)) 0 = nth i x 0.
Proof.
  intros Hm Hx Hi E L. unfold coupling_fwd. cbn [cp_mask cp_bij]. destruct (bj_fwd b x (vmul x m)) as [y ld]. cbn [fst] in * .
  rewrite (mask_mix_nth n m Hm) by auto. rewrite E. ring.
Qed.
Lemma pass_through_inv n m (b : @bij RNum) (x : list R) i : binary_mask n m -> length x = n -> (i < n)%nat -> nth i m 0 = 1 ->
  length (fst (bj_inv b x (vmul x m))) = n -> @nth R i (fst (coupling_inv (mkCoupling m b) x)) 0 = nth i x 0.
Proof. intros. rewrite coupling_inv_swap. now apply (pass_through n). Qed.
