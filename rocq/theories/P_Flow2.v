(** Proofs about AffineCoupling, flows and log-determinants (C29-C31). *)
From Coq Require Import Reals Psatz.
From Coquelicot Require Import Coquelicot.
From Verif Require Import Prelude Num M_Core M_Kernels M_Flow P_Lists RNum MxR Spec_Jac P_Jac Spec_Spline Spec_Flow P_Real1 P_Spline2 P_Spline3 P_Flow.
Open Scope R_scope.

(* ------------------------------------------------------------------ AffineCoupling *)
Lemma pair_eq' {A B} (p : A * B) a b : fst p = a -> snd p = b -> p = (a, b).
Proof. destruct p; cbn; congruence. Qed.
Section AC.
Variables (n : nat) (a : @affine_coupling RNum).
Hypothesis Hm : binary_mask n (ac_mask a).
Hypothesis Hs : net_shape n (ac_scale a).
Hypothesis Ht : net_shape n (ac_translate a).
Let m : list R := ac_mask a.
Let dt : R := ac_dt a.
Let cnd (x : list R) : list R := @vmul RNum x (inv_mask m).
Lemma inv_mask_len : length (inv_mask m) = n.
Proof. unfold inv_mask. rlen. apply Hm. Qed.
Lemma inv_mask_nth i : (i < n)%nat -> @nth R i (inv_mask m) 0 = 1 - nth i m 0.
Proof. intros. unfold inv_mask. destruct Hm. exact (mapR (fun a => 1 - a) m i ltac:(unfold m; lia)). Qed.
Lemma inv_mask_binary : binary_mask n (inv_mask m).
Proof. split; [apply inv_mask_len|]. intros i Hi. rewrite inv_mask_nth by auto. destruct (proj2 Hm i Hi) as [E|E]; unfold m; rewrite E; [right|left]; ring. Qed.
Lemma cnd_len x : length x = n -> length (cnd x) = n.
Proof. intros. unfold cnd. apply cond_len; auto. apply inv_mask_binary. Qed.
Lemma ac_s_len x : length x = n -> length (ac_s a x) = n.
Proof. intros H. unfold ac_s. rlen. pose proof (Hs (cnd x) (cnd_len x H)) as L. unfold cnd, m in L. destruct Hm. rnorm. lia. Qed.
Lemma ac_t_len x : length x = n -> length (ac_t a x) = n.
Proof. intros H. unfold ac_t. rlen. pose proof (Ht (cnd x) (cnd_len x H)) as L. unfold cnd, m in L. destruct Hm. rnorm. lia. Qed.
Lemma ac_s_nth (x : list R) i : length x = n -> (i < n)%nat -> @nth R i (ac_s a x) 0 = tanh (nth i m 0 * nth i (ac_scale a (cnd x)) 0) * dt.
Proof.
  intros Hx Hi. pose proof (Hs (cnd x) (cnd_len x Hx)) as L. destruct Hm as [Lm _]. unfold ac_s.
  change (@nth R i (map (fun s => tanh s * dt) (@vmul RNum m (ac_scale a (cnd x)))) 0 = tanh (nth i m 0 * nth i (ac_scale a (cnd x)) 0) * dt).
  rewrite (mapR (fun s => tanh s * dt)) by (rlen; unfold m; rnorm; lia). rewrite vmulR by (unfold m; rnorm; lia). reflexivity.
Qed.
Lemma ac_t_nth (x : list R) i : length x = n -> (i < n)%nat -> @nth R i (ac_t a x) 0 = nth i m 0 * nth i (ac_translate a (cnd x)) 0 * dt.
Proof.
  intros Hx Hi. pose proof (Ht (cnd x) (cnd_len x Hx)) as L. destruct Hm as [Lm _]. unfold ac_t.
  change (@nth R i (map (fun s => s * dt) (@vmul RNum m (ac_translate a (cnd x)))) 0 = nth i m 0 * nth i (ac_translate a (cnd x)) 0 * dt).
  rewrite (mapR (fun s => s * dt)) by (rlen; unfold m; rnorm; lia). rewrite vmulR by (unfold m; rnorm; lia). reflexivity.
Qed.
Lemma ac_fwd_len x : length x = n -> length (fst (ac_fwd a x)) = n.
Proof. intros. unfold ac_fwd. cbn [fst]. rlen. rewrite ac_s_len, ac_t_len by auto. lia. Qed.
Lemma ac_inv_len x : length x = n -> length (fst (ac_inv a x)) = n.
Proof. intros. unfold ac_inv. cbn [fst]. rlen. rewrite ac_s_len, ac_t_len by auto. lia. Qed.
Lemma ac_fwd_nth (x : list R) i : length x = n -> (i < n)%nat -> @nth R i (fst (ac_fwd a x)) 0 = (nth i x 0 + @nth R i (ac_t a x) 0) * exp (@nth R i (ac_s a x) 0).
Proof.
  intros Hx Hi. pose proof (ac_s_len x Hx). pose proof (ac_t_len x Hx). unfold ac_fwd. cbn [fst].
  rewrite vmulR by (rlen; lia). rewrite vaddR by rlia. rewrite (mapR exp) by rlia. reflexivity.
Qed.
Lemma ac_inv_nth (x : list R) i : length x = n -> (i < n)%nat -> @nth R i (fst (ac_inv a x)) 0 = nth i x 0 * exp (- @nth R i (ac_s a x) 0) - @nth R i (ac_t a x) 0.
Proof.
  intros Hx Hi. pose proof (ac_s_len x Hx). pose proof (ac_t_len x Hx). unfold ac_inv. cbn [fst].
  rewrite vsubR by (rlen; lia). rewrite vmulR by (rlen; lia). rewrite (mapR (fun s => exp (- s))) by rlia. reflexivity.
Qed.
Lemma tanh_0 : tanh 0 = 0. Proof. unfold tanh, sinh. rewrite Ropp_0. unfold Rdiv. ring. Qed.
Lemma ac_fixed (x : list R) i : length x = n -> (i < n)%nat -> nth i m 0 = 0 -> @nth R i (ac_s a x) 0 = 0 /\ @nth R i (ac_t a x) 0 = 0.
Proof. intros Hx Hi E. rewrite ac_s_nth, ac_t_nth, E by auto. rewrite !Rmult_0_l, tanh_0. split; ring. Qed.
Lemma ac_cnd_same (x y : list R) : length x = n -> length y = n -> (forall i, (i < n)%nat -> nth i m 0 = 0 -> nth i x 0 = nth i y 0) ->
  ac_s a x = ac_s a y /\ ac_t a x = ac_t a y.
Proof.
  intros Hx Hy H. assert (E : cnd x = cnd y).
  { apply (cond_ext n (inv_mask m) inv_mask_binary); auto. intros i Hi E. rewrite inv_mask_nth in E by auto. apply H; auto. lra. }
  unfold ac_s, ac_t. change (@vmul RNum x (inv_mask (ac_mask a))) with (cnd x). change (@vmul RNum y (inv_mask (ac_mask a))) with (cnd y).
  rewrite E. auto.
Qed.
Lemma ac_pass (x : list R) i : length x = n -> (i < n)%nat -> nth i m 0 = 0 -> @nth R i (fst (ac_fwd a x)) 0 = nth i x 0 /\ @nth R i (fst (ac_inv a x)) 0 = nth i x 0.
Proof.
  intros Hx Hi E. destruct (ac_fixed x i Hx Hi E) as [E1 E2]. rewrite ac_fwd_nth, ac_inv_nth, E1, E2, Ropp_0, exp_0 by auto. split; ring.
Qed.
Lemma ac_exact : exact_inverse n (ac_fwd a) (ac_inv a).
Proof.
  constructor.
  - apply ac_fwd_len.
  - apply ac_inv_len.
  - intros x Hx. rnorm. pose (y := fst (ac_fwd a x) : list R). change (fst (ac_fwd a x)) with y. assert (Ly : length y = n) by now apply ac_fwd_len.
    destruct (ac_cnd_same y x) as [E1 E2]; auto. { intros i Hi E. now apply ac_pass. }
    apply pair_eq'.
    + apply (list_eq_nth (0 : R)); rnorm; [rewrite ac_inv_len; auto|]. rewrite ac_inv_len by auto. intros i Hi. rewrite (ac_inv_nth y) by auto. rewrite E1, E2.
      unfold y. rewrite ac_fwd_nth by auto. rewrite exp_Ropp. field. apply Rgt_not_eq, exp_pos.
    + unfold ac_inv, ac_fwd. cbn [snd]. rewrite E1. reflexivity.
  - intros x Hx. rnorm. pose (y := fst (ac_inv a x) : list R). change (fst (ac_inv a x)) with y. assert (Ly : length y = n) by now apply ac_inv_len.
    destruct (ac_cnd_same y x) as [E1 E2]; auto. { intros i Hi E. now apply ac_pass. }
    apply pair_eq'.
    + apply (list_eq_nth (0 : R)); rnorm; [rewrite ac_fwd_len; auto|]. rewrite ac_fwd_len by auto. intros i Hi. rewrite (ac_fwd_nth y) by auto. rewrite E1, E2.
      unfold y. rewrite ac_inv_nth by auto. rewrite exp_Ropp. field. apply Rgt_not_eq, exp_pos.
    + unfold ac_inv, ac_fwd. cbn [snd]. rewrite E1. symmetry. apply Ropp_involutive.
Qed.
(** log-determinant of AffineCoupling *)
Lemma ac_logdet (x : list R) : length x = n -> differentiable n (fun y => fst (ac_fwd a y)) x -> reports_logdet n (ac_fwd a) x.
Proof.
  intros Hx [J HJ]. exists J. split; auto.
  set (S := fun i => if Req_EM_T (nth i m 0) 0 then true else false).
  rewrite (shear_det n _ x J S (fun i => exp (@nth R i (ac_s a x) 0)) Hx HJ).
  - unfold ac_fwd. cbn [snd]. rewrite fsumR. rewrite ac_s_len by auto. rewrite exp_Rsum. rewrite (Rprod_ext n _ (fun i => exp (@nth R i (ac_s a x) 0))).
    + apply Rabs_pos_eq. left. apply Rprod_pos. intros; apply exp_pos.
    + intros i Hi. unfold S. destruct (Req_EM_T (nth i m 0) 0) as [E|E]; auto. rewrite (proj1 (ac_fixed x i Hx Hi E)). symmetry. apply exp_0.
  - intros i y Hi Hy E. unfold S in E. destruct (Req_EM_T (nth i m 0) 0) as [E'|]; [|discriminate]. now apply ac_pass.
  - intros i j t Hi Hj Hij Ei Ej. set (y := set_nth j t x). assert (Ly : length y = n) by (unfold y; now rewrite set_nth_length).
    assert (Hsame : ac_s a y = ac_s a x /\ ac_t a y = ac_t a x).
    { apply ac_cnd_same; auto. intros k Hk E. unfold y. rewrite nth_set_nth_neq; auto. intros <-. unfold S in Ej. destruct (Req_EM_T (nth j m 0) 0); [discriminate|auto]. }
    rewrite !ac_fwd_nth by auto. destruct Hsame as [-> ->]. unfold y. rewrite nth_set_nth_neq by auto. reflexivity.
  - intros i Hi Ei.
    apply is_derive_ext with (fun t => (t + @nth R i (ac_t a x) 0) * exp (@nth R i (ac_s a x) 0)).
    + intros t. change (AbsRing.sort R_AbsRing) with R in * . set (y := set_nth i t x). assert (Ly : length y = n) by (unfold y; now rewrite set_nth_length).
      assert (Hsame : ac_s a y = ac_s a x /\ ac_t a y = ac_t a x).
      { apply ac_cnd_same; auto. intros k Hk E. unfold y. rewrite nth_set_nth_neq; auto. intros <-. unfold S in Ei. destruct (Req_EM_T (nth i m 0) 0); [discriminate|auto]. }
      rewrite ac_fwd_nth by auto. destruct Hsame as [-> ->]. unfold y. rewrite nth_set_nth_eq by lia. reflexivity.
    + auto_derive; auto. ring.
Qed.
End AC.

(* ------------------------------------------------------------------ coupling layers: log-determinant *)
(** Forward part of a coordinate-wise bijection, with derivative exp(log_det). *)
Record cfwd (n : nat) (b : @bij RNum) (c : list R) (g l : nat -> R -> R) : Prop := {
  cf_l : forall x : list R, length x = n -> length (fst (bj_fwd b x c)) = n /\ length (snd (bj_fwd b x c)) = n;
  cf_f : forall (x : list R) i, length x = n -> (i < n)%nat ->
     @nth R i (fst (bj_fwd b x c)) 0 = g i (nth i x 0) /\ @nth R i (snd (bj_fwd b x c)) 0 = l i (nth i x 0);
  cf_d : forall i t, (i < n)%nat -> is_derive (g i) t (exp (l i t)) }.
Section CLD.
Variables (n : nat) (m : list R) (b : @bij RNum).
Hypothesis Hm : binary_mask n m.
Hypothesis Hb : forall c : list R, length c = n -> exists g l, cfwd n b c g l.
Let cf := @coupling_fwd RNum (mkCoupling m b).
Lemma cl_spec g l (x : list R) : length x = n -> cfwd n b (@vmul RNum x m) g l ->
  length (fst (cf x)) = n /\
  (forall i, (i < n)%nat -> @nth R i (fst (cf x)) 0 = (1 - nth i m 0) * g i (nth i x 0) + nth i m 0 * nth i x 0) /\
  snd (cf x) = Rsum n (fun i => (1 - nth i m 0) * l i (nth i x 0)).
Proof.
  intros Hx C. unfold cf, coupling_fwd. cbn [cp_mask cp_bij]. destruct (bj_fwd b x (vmul x m)) as [y ld] eqn:E. cbn [fst snd].
  destruct (cf_l _ _ _ _ _ C x Hx) as [Ly Ll]. rewrite E in Ly, Ll. cbn [fst snd] in Ly, Ll.
  pose proof (cf_f _ _ _ _ _ C x) as Hn. rewrite E in Hn. cbn [fst snd] in Hn.
  split; [|split].
  - now apply (mask_mix_len n m Hm).
  - intros i Hi. rewrite (mask_mix_nth n m Hm) by auto. now rewrite (proj1 (Hn i Hx Hi)).
  - rewrite (mask_logdet_sum n m Hm) by auto. apply Rsum_ext. intros i Hi. now rewrite (proj2 (Hn i Hx Hi)).
Qed.
Lemma cl_len (x : list R) : length x = n -> length (fst (cf x)) = n.
Proof. intros Hx. destruct (Hb _ (cond_len n m Hm x Hx)) as (g & l & C). now apply (cl_spec g l). Qed.
Lemma cl_logdet (x : list R) : length x = n -> differentiable n (fun y => fst (cf y)) x -> reports_logdet n cf x.
Proof.
  intros Hx [J HJ]. exists J. split; auto. destruct (Hb _ (cond_len n m Hm x Hx)) as (g & l & C).
  set (S := fun i => if Req_EM_T (nth i m 0) 1 then true else false).
  assert (HS : forall i, (i < n)%nat -> S i = false -> nth i m 0 = 0).
  { intros i Hi E. unfold S in E. destruct (Req_EM_T (nth i m 0) 1); [discriminate|]. destruct (proj2 Hm i Hi); tauto. }
  assert (Hset : forall j t, (j < n)%nat -> S j = false -> @vmul RNum (set_nth j t x) m = @vmul RNum x m).
  { intros j t Hj E. apply (cond_ext n m Hm); auto. now rewrite set_nth_length. intros k Hk Ek.
    apply nth_set_nth_neq. intros <-. rewrite (HS j Hj E) in Ek. lra. }
  assert (Hval : forall i j t, (i < n)%nat -> (j < n)%nat -> S i = false -> S j = false -> @nth R i (fst (cf (set_nth j t x))) 0 = g i (nth i (set_nth j t x) 0)).
  { intros i j t Hi Hj Ei Ej. destruct (cl_spec g l (set_nth j t x)) as (_ & H & _). { now rewrite set_nth_length. } { rewrite Hset; auto. }
    rewrite H by auto. rewrite (HS i Hi Ei). ring. }
  destruct (cl_spec g l x Hx C) as (_ & Hv & Hld).
  rewrite (shear_det n _ x J S (fun i => exp (l i (nth i x 0))) Hx HJ).
  - transitivity (exp (Rsum n (fun i => (1 - nth i m 0) * l i (nth i x 0)))); [|f_equal; symmetry; exact Hld].
    rewrite exp_Rsum. rewrite (Rprod_ext n _ (fun i => exp ((1 - nth i m 0) * l i (nth i x 0)))).
    + apply Rabs_pos_eq. left. apply Rprod_pos. intros; apply exp_pos.
    + intros i Hi. unfold S. destruct (Req_EM_T (nth i m 0) 1) as [E|E].
      * rewrite E. rewrite <- exp_0 at 1. f_equal. ring.
      * destruct (proj2 Hm i Hi) as [E'|E']; [|tauto]. rewrite E'. f_equal. ring.
  - intros i y Hi Hy E. unfold S in E. destruct (Req_EM_T (nth i m 0) 1) as [E'|]; [|discriminate].
    destruct (Hb _ (cond_len n m Hm y Hy)) as (g2 & l2 & C2). destruct (cl_spec g2 l2 y Hy C2) as (_ & H & _). rewrite H, E' by auto. ring.
  - intros i j t Hi Hj Hij Ei Ej. rewrite Hval by auto. rewrite nth_set_nth_neq by auto. rewrite Hv, (HS i Hi Ei) by auto. ring.
  - intros i Hi Ei. apply is_derive_ext with (g i).
    + intros t. change (AbsRing.sort R_AbsRing) with R in * . rewrite Hval by auto. now rewrite nth_set_nth_eq by lia.
    + now apply (cf_d _ _ _ _ _ C).
Qed.
End CLD.

Lemma mlp_cfwd n s t (dt : R) (c : list R) : net_shape n s -> net_shape n t -> length c = n -> exists g l, cfwd n (mlp_affine s t dt) c g l.
Proof.
  intros Hs Ht Hc. pose proof (mlp_cbij n s t dt c Hs Ht Hc) as C. do 2 eexists. constructor; [exact (cb_fl _ _ _ _ _ _ _ C)|exact (cb_f _ _ _ _ _ _ _ C)|].
  intros i x Hi. cbn beta. auto_derive; auto. ring.
Qed.
Lemma scalar_cfwd n (scale shift : R) (c : list R) : exists g l, cfwd n (scalar_affine scale shift) c g l.
Proof.
  pose proof (scalar_cbij n scale shift c) as C. do 2 eexists. constructor; [exact (cb_fl _ _ _ _ _ _ _ C)|exact (cb_f _ _ _ _ _ _ _ C)|].
  intros i x Hi. cbn beta. auto_derive; auto. ring.
Qed.
Lemma rq_cfwd (q : @rqspline RNum) n (c : list R) : rq_admissible q -> rq_shape q n -> length c = n -> exists g l, cfwd n (rqspline_bij q) c g l.
Proof.
  intros A Hs Hc. exists (fun i => spline (par_x q n c i) (par_y q n c i) (par_s q n c i)), (fun i => spline_ld (par_x q n c i) (par_y q n c i) (par_s q n c i)).
  constructor.
  - intros x Hx. apply (rq_cbij_fwd q n c A Hs Hc x Hx).
  - intros x i Hx Hi. now apply (rq_cbij_fwd q n c A Hs Hc x Hx).
  - intros i t Hi. apply spline_derive. now apply rq_valid_at.
Qed.

(* ------------------------------------------------------------------ sequences of layers *)
Lemma flow_fold_acc (fw : list R -> layer -> list R * R) (ls : list (@layer RNum)) (x : list R) (d : R) :
  fold_left (fun s l => let '(y, e) := fw (fst s) l in (y, snd s + e)) ls (x, d) =
  (fst (fold_left (fun s l => let '(y, e) := fw (fst s) l in (y, snd s + e)) ls (x, 0)),
   d + snd (fold_left (fun s l => let '(y, e) := fw (fst s) l in (y, snd s + e)) ls (x, 0))).
Proof.
  revert x d. induction ls as [|l ls IH]; intros x d; [cbn; f_equal; ring|].
  cbn [fold_left fst snd]. destruct (fw x l) as [y e]. rewrite (IH y (d + e)), (IH y (0 + e)). cbn [fst snd]. f_equal. ring.
Qed.
Lemma flow_fwd_cons l ls (x : list R) : @flow_fwd RNum (l :: ls) x =
  (fst (flow_fwd ls (fst (ly_fwd l x))), snd (ly_fwd l x) + snd (flow_fwd ls (fst (ly_fwd l x)))).
Proof.
  unfold flow_fwd. cbn [fold_left fst snd]. destruct (ly_fwd l x) as [y d]. cbn [fst snd].
  pose proof (flow_fold_acc (fun x l => ly_fwd l x) ls y (@f0 RNum + d)) as E. 
  etransitivity; [exact E|]. apply pair_eq'; cbn [fst snd]; [reflexivity|].
  unfold f0. cbn [fofZ fadd RNum]. match goal with |- _ + ?u = _ + ?v => change (@eq R (0 + d + u) (d + u)) end. ring.
Qed.
Lemma flow_inv_snoc l ls (x : list R) : @flow_inv RNum (l :: ls) x =
  (fst (ly_inv l (fst (flow_inv ls x))), snd (flow_inv ls x) + snd (ly_inv l (fst (flow_inv ls x)))).
Proof.
  unfold flow_inv. cbn [rev]. rewrite fold_left_app. cbn [fold_left].
  match goal with |- context [fold_left ?f (rev ls) ?a] => destruct (fold_left f (rev ls) a) as [y d] end. cbn [fst snd]. destruct (ly_inv l y) as [z e]. reflexivity.
Qed.
Lemma flow_exact n (ls : list (@layer RNum)) : (forall l, In l ls -> exact_inverse n (ly_fwd l) (ly_inv l)) ->
  exact_inverse n (flow_fwd ls) (flow_inv ls).
Proof.
  induction ls as [|l ls IH]; intros H.
  - constructor; intros x Hx; cbn; auto; f_equal; unfold f0; cbn; ring.
  - destruct (H l (or_introl eq_refl)) as [A1 A2 A3 A4]. destruct (IH ltac:(intros; apply H; now right)) as [B1 B2 B3 B4].
    constructor; intros x Hx.
    + rewrite flow_fwd_cons. cbn [fst]. auto.
    + rewrite flow_inv_snoc. cbn [fst]. auto.
    + rewrite flow_fwd_cons, flow_inv_snoc. cbn [fst snd]. rewrite B3 by auto. cbn [fst snd]. rewrite A3 by auto. cbn [fst snd]. f_equal. cbn. ring.
    + rewrite flow_inv_snoc, flow_fwd_cons. cbn [fst snd]. rewrite A4 by auto. cbn [fst snd]. rewrite B4 by auto. cbn [fst snd]. f_equal. cbn. ring.
Qed.

Lemma logdet_compose n (f g : list R -> list R * R) (x : list R) : length x = n ->
  (forall y, length y = n -> length (fst (f y)) = n) -> reports_logdet n f x -> reports_logdet n g (fst (f x)) ->
  reports_logdet n (fun x => (fst (g (fst (f x))), snd (f x) + snd (g (fst (f x))))) x.
Proof.
  intros Hx L (J & HJ & DJ) (K & HK & DK). exists (mmul n K J). split.
  - cbn [fst]. exact (is_jac_chain n n n _ (fun y => fst (g y)) x J K HJ L HK).
  - rewrite (@mdet_mul n), Rabs_mult, DJ, DK. cbn [snd]. rewrite exp_plus. ring.
Qed.
Lemma reports_logdet_ext n (f g : list R -> list R * R) x : length x = n -> (forall y, length y = n -> f y = g y) -> reports_logdet n f x -> reports_logdet n g x.
Proof.
  intros Hx H (J & HJ & D). exists J. rewrite <- H by auto. split; auto. eapply is_jac_ext; [exact Hx| |exact HJ]. intros y Hy. cbn beta. now rewrite H.
Qed.
Lemma flow_logdet n (ls : list (@layer RNum)) (x : list R) :
  (forall l, In l ls -> (forall y, length y = n -> length (fst (ly_fwd l y)) = n) /\
     forall y, length y = n -> differentiable n (fun y => fst (ly_fwd l y)) y -> reports_logdet n (ly_fwd l) y) ->
  length x = n -> layers_differentiable n ls x -> reports_logdet n (flow_fwd ls) x.
Proof.
  revert x. induction ls as [|l ls IH]; intros x H Hx D.
  - exists mid. split; [apply is_jac_id|]. rewrite (@mdet_id n). cbn. rewrite exp_0. apply Rabs_R1.
  - destruct D as [D1 D2]. destruct (H l (or_introl eq_refl)) as [L1 R1].
    apply (reports_logdet_ext n (fun x => (fst (flow_fwd ls (fst (ly_fwd l x))), snd (ly_fwd l x) + snd (flow_fwd ls (fst (ly_fwd l x)))))); auto.
    { intros y Hy. symmetry. apply flow_fwd_cons. }
    apply logdet_compose; auto. apply IH; auto. intros; apply H; now right.
Qed.
