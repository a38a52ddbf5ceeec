(** Proofs about RealNVP, MaskedCouplingRQSpline, their densities and masks (C30-C33). *)
From Coq Require Import Reals Psatz.
From Coquelicot Require Import Coquelicot.
From Verif Require Import Prelude Num M_Core M_Kernels M_Flow P_Lists RNum MxR Spec_Jac P_Jac Spec_Kernels Spec_Real Spec_Spline Spec_Flow P_Real1 P_Real2 P_Spline2 P_Spline3 P_Flow P_Flow2.
Open Scope R_scope.

(* ------------------------------------------------------------------ masks *)
Lemma realnvp_mask_nth n i j : (j < n)%nat -> @nth R j (@realnvp_mask RNum n i) 0 =
  if Bool.eqb (j <? n / 2)%nat (Nat.even i) then 1 else 0.
Proof.
  intros Hj. unfold realnvp_mask.
  assert (E : forall j, (j < n)%nat -> @nth R j (map (fun j => if (j <? n / 2)%nat then @f0 RNum else f1) (seq 0 n)) 0 = if (j <? n / 2)%nat then 0 else 1).
  { intros k Hk. exact (nth_map_seq (fun j => if (j <? n / 2)%nat then 0 else 1) n k 0 Hk). }
  replace (i mod 2 =? 0)%nat with (Nat.even i).
  2:{ symmetry. destruct (Nat.even i) eqn:Ev.
      - apply Nat.even_spec in Ev as [k ->]. apply Nat.eqb_eq. rewrite Nat.mul_comm. apply Nat.mod_mul. lia.
      - apply Nat.eqb_neq. intros H. apply Nat.mod_divides in H as [k ->]; [|lia]. rewrite Nat.even_mul in Ev. discriminate. }
  destruct (Nat.even i).
  - rewrite (mapR (fun a => 1 - a)) by (rlen; lia). rewrite E by auto. destruct (j <? n / 2)%nat; cbn; ring.
  - rewrite E by auto. destruct (j <? n / 2)%nat; reflexivity.
Qed.
Lemma realnvp_mask_len n i : length (@realnvp_mask RNum n i) = n.
Proof. unfold realnvp_mask. destruct (_ =? _)%nat; rlen; auto. Qed.
Lemma realnvp_mask_binary n i : binary_mask n (@realnvp_mask RNum n i).
Proof. split; [apply realnvp_mask_len|]. intros j Hj. rewrite realnvp_mask_nth by auto. destruct (Bool.eqb _ _); auto. Qed.
Lemma realnvp_mask_alt n i j : (j < n)%nat -> @nth R j (@realnvp_mask RNum n (S i)) 0 = 1 - @nth R j (@realnvp_mask RNum n i) 0.
Proof.
  intros Hj. rewrite !realnvp_mask_nth by auto. rewrite Nat.even_succ, <- Nat.negb_even. destruct (Nat.even i), (j <? n / 2)%nat; cbn; ring.
Qed.
Lemma rqs_mask_nth n i j : (j < n)%nat -> @nth R j (@rqs_mask RNum n i) 0 = if Nat.odd (j + i) then 1 else 0.
Proof.
  intros Hj. unfold rqs_mask.
  transitivity (@b2f RNum ((j + i) mod 2 =? 1)%nat). { exact (nth_map_seq (fun j => @b2f RNum ((j + i) mod 2 =? 1)%nat) n j 0 Hj). }
  replace ((j + i) mod 2 =? 1)%nat with (Nat.odd (j + i)); [destruct (Nat.odd _); reflexivity|].
  destruct (Nat.odd (j + i)) eqn:E; symmetry.
  - apply Nat.odd_spec in E as [k ->]. apply Nat.eqb_eq. rewrite Nat.add_comm, Nat.mul_comm, Nat.mod_add by lia. reflexivity.
  - apply Nat.eqb_neq. intros H. rewrite <- Nat.negb_even in E. apply Bool.negb_false_iff in E. apply Nat.even_spec in E as [k Ek].
    rewrite Ek, Nat.mul_comm, Nat.mod_mul in H by lia. lia.
Qed.
Lemma rqs_mask_len n i : length (@rqs_mask RNum n i) = n.
Proof. unfold rqs_mask. rlen. auto. Qed.
Lemma rqs_mask_binary n i : binary_mask n (@rqs_mask RNum n i).
Proof. split; [apply rqs_mask_len|]. intros j Hj. rewrite rqs_mask_nth by auto. destruct (Nat.odd _); auto. Qed.
Lemma rqs_mask_alt n i j : (j < n)%nat -> @nth R j (@rqs_mask RNum n (S i)) 0 = 1 - @nth R j (@rqs_mask RNum n i) 0.
Proof.
  intros Hj. rewrite !rqs_mask_nth by auto. rewrite Nat.add_succ_r, Nat.odd_succ, <- Nat.negb_odd. destruct (Nat.odd (j + i)); cbn; ring.
Qed.
Lemma zero_mask_binary n : binary_mask n (repeat (@f0 RNum) n).
Proof. split; [apply repeat_length|]. intros i Hi. left. now apply nth_repeat_lt. Qed.
Lemma num_bins_ok n b : (0 < n)%nat -> num_bins_of (n * (b * 3 + 1)) n = b.
Proof. intros Hn. unfold num_bins_of. rewrite Nat.mul_comm, Nat.div_mul by lia. replace (b * 3 + 1 - 1)%nat with (b * 3)%nat by lia. apply Nat.div_mul. lia. Qed.

(* ------------------------------------------------------------------ RealNVP *)
Lemma realnvp_layers_In n nets c : nets_shape n nets -> In c (@realnvp_layers RNum n nets) ->
  exists m s t, c = mkCoupling m (mlp_affine s t 1) /\ binary_mask n m /\ net_shape n s /\ net_shape n t.
Proof.
  intros Hs Hc. unfold realnvp_layers in Hc. apply in_map_iff in Hc as ([i [s t]] & <- & Hin).
  apply in_combine_r in Hin. destruct (Hs s t Hin) as [H1 H2]. exists (realnvp_mask n i), s, t. split; [reflexivity|]. split; [apply realnvp_mask_binary|auto].
Qed.
Lemma mlp_layer_exact n m s t (dt : R) : binary_mask n m -> net_shape n s -> net_shape n t ->
  exact_inverse n (coupling_fwd (mkCoupling m (mlp_affine s t dt))) (coupling_inv (mkCoupling m (mlp_affine s t dt))).
Proof. intros Hm Hs Ht. apply coupling_exact; auto. intros c Hc. do 4 eexists. now apply mlp_cbij. Qed.
Lemma scalar_layer_exact n m (scale shift : R) : binary_mask n m ->
  exact_inverse n (coupling_fwd (mkCoupling m (scalar_affine scale shift))) (coupling_inv (mkCoupling m (scalar_affine scale shift))).
Proof. intros Hm. apply coupling_exact; auto. intros c Hc. do 4 eexists. now apply scalar_cbij. Qed.
Lemma rq_layer_exact n m (q : @rqspline RNum) : binary_mask n m -> rq_admissible q -> rq_shape q n -> rq_conditioned q n ->
  exact_inverse n (coupling_fwd (mkCoupling m (rqspline_bij q))) (coupling_inv (mkCoupling m (rqspline_bij q))).
Proof. intros Hm A Hs W. apply coupling_exact; auto. intros c Hc. do 4 eexists. now apply rq_cbij. Qed.
Lemma realnvp_exact n nets : nets_shape n nets ->
  exact_inverse n (flow_fwd (map coupling_layer (realnvp_layers n nets))) (flow_inv (map coupling_layer (realnvp_layers n nets))).
Proof.
  intros Hs. apply flow_exact. intros l Hl. apply in_map_iff in Hl as (c & <- & Hc).
  destruct (realnvp_layers_In n nets c Hs Hc) as (m & s & t & -> & Hm & H1 & H2). now apply mlp_layer_exact.
Qed.
Lemma realnvp_logdet n nets (x : list R) : nets_shape n nets -> length x = n ->
  layers_differentiable n (map coupling_layer (realnvp_layers n nets)) x ->
  reports_logdet n (flow_fwd (map coupling_layer (realnvp_layers n nets))) x.
Proof.
  intros Hs Hx D. apply flow_logdet; auto. intros l Hl. apply in_map_iff in Hl as (c & <- & Hc).
  destruct (realnvp_layers_In n nets c Hs Hc) as (m & s & t & -> & Hm & H1 & H2).
  assert (Hb : forall c, length c = n -> exists g l, cfwd n (mlp_affine s t 1) c g l) by (intros; now apply mlp_cfwd).
  split; [exact (cl_len n m _ Hm Hb)|exact (cl_logdet n m _ Hm Hb)].
Qed.

(* ------------------------------------------------------------------ differentiability of the affine layer *)
Lemma tanh_derive (v : R) : is_derive tanh v (1 - tanh v * tanh v).
Proof.
  assert (Hc : cosh v <> 0). { unfold cosh. pose proof (exp_pos v). pose proof (exp_pos (- v)). lra. }
  replace (1 - tanh v * tanh v) with ((cosh v * cosh v - sinh v * sinh v) / (cosh v)²) by (unfold tanh, Rsqr; field; auto).
  apply is_derive_Reals. exact (derivable_pt_lim_div sinh cosh v (cosh v) (sinh v) (derivable_pt_lim_sinh v) (derivable_pt_lim_cosh v) Hc).
Qed.
Lemma mlp_layer_differentiable n m s t (dt : R) (x : list R) : binary_mask n m -> net_shape n s -> net_shape n t -> length x = n ->
  differentiable n s (@vmul RNum x m) -> differentiable n t (@vmul RNum x m) ->
  differentiable n (fun y => fst (coupling_fwd (mkCoupling m (mlp_affine s t dt)) y)) x.
Proof.
  intros Hm Hs Ht Hx [Js HJs] [Jt HJt].
  set (C := fun y : list R => @vmul RNum y m : list R).
  assert (HC : exists J, is_jac n n C x J).
  { exists (fun i j => nth i m 0 * mid i j). intros i Hi. apply (is_dif_ext n (fun y => nth i m 0 * nth i y 0)); auto.
    - intros y Hy. unfold C. rewrite (cond_nth n m Hm) by auto. ring.
    - apply is_dif_scal. now apply is_dif_proj. }
  destruct HC as [JC HC].
  assert (LC : forall y, length y = n -> length (C y) = n) by (intros; now apply cond_len).
  pose proof (is_jac_chain n n n C s x JC Js HC LC HJs) as Ds. pose proof (is_jac_chain n n n C t x JC Jt HC LC HJt) as Dt.
  set (Ks := mmul n Js JC) in * . set (Kt := mmul n Jt JC) in * .
  set (phi := fun i y => (1 - nth i m 0) * ((nth i y 0 + dt * nth i (t (C y)) 0) * exp (dt * tanh (nth i (s (C y)) 0))) + nth i m 0 * nth i y 0).
  assert (D : forall i, (i < n)%nat -> exists g, is_dif n (phi i) x g).
  { intros i Hi. eexists. unfold phi. apply is_dif_plus.
    - apply is_dif_scal. apply is_dif_mult.
      + apply is_dif_plus; [now apply is_dif_proj|]. apply is_dif_scal. exact (Dt i Hi).
      + apply (is_dif_comp n exp (fun y => dt * tanh (nth i (s (C y)) 0))).
        * apply is_dif_scal. apply (is_dif_comp n tanh (fun y => nth i (s (C y)) 0)); [exact (Ds i Hi)|apply tanh_derive].
        * apply is_derive_exp.
    - apply is_dif_scal. now apply is_dif_proj. }
  assert (HJ : exists J : nat -> nat -> R, forall i, (i < n)%nat -> is_dif n (phi i) x (J i)).
  { clear -D. assert (G : forall k', (k' <= n)%nat -> exists J : nat -> nat -> R, forall i, (i < k')%nat -> is_dif n (phi i) x (J i)).
    { induction k' as [|k' IHk]; intros Hk; [exists (fun _ _ => 0); intros; lia|].
      destruct (IHk ltac:(lia)) as [J HJ]. destruct (D k' ltac:(lia)) as [g Hg].
      exists (fun i => if Nat.eq_dec i k' then g else J i). intros i Hi. destruct (Nat.eq_dec i k') as [->|]; auto. apply HJ. lia. }
    apply G. lia. }
  destruct HJ as [J HJ]. exists J. intros i Hi. apply (is_dif_ext n (phi i)); auto.
  intros y Hy. destruct (coupling_fwd_spec n m (mlp_affine s t dt) Hm) with (x := y) as (_ & _ & _ & _ & _ & _ & _ & _); auto.
  { intros c Hc. do 4 eexists. now apply mlp_cbij. }
  unfold coupling_fwd. cbn [cp_mask cp_bij]. destruct (bj_fwd (mlp_affine s t dt) y (vmul y m)) as [z ld] eqn:E. cbn [fst].
  pose proof (mlp_cbij n s t dt (@vmul RNum y m) Hs Ht (LC y Hy)) as CB.
  pose proof (cb_fl _ _ _ _ _ _ _ CB y Hy) as [L1 _]. pose proof (cb_f _ _ _ _ _ _ _ CB y i Hy Hi) as [E1 _]. rewrite E in L1, E1. cbn [fst] in L1, E1.
  rewrite (mask_mix_nth n m Hm) by auto. rewrite E1. unfold phi, C. rewrite (Rmult_comm dt (nth i (t _) 0)), (Rmult_comm dt (tanh _)). reflexivity.
Qed.
Lemma realnvp_smooth n nets (x : list R) : nets_shape n nets ->
  (forall s t c, In (s, t) nets -> length c = n -> differentiable n s c /\ differentiable n t c) -> length x = n ->
  layers_differentiable n (map coupling_layer (realnvp_layers n nets)) x.
Proof.
  intros Hs Hd Hx0. unfold realnvp_layers. match goal with |- context [combine ?q _] => generalize q end. intros sq. revert x sq Hx0.
  induction nets as [|[s t] nets IH]; intros x sq Hx; [destruct sq; exact I|]. destruct sq as [|i sq]; [exact I|].
  cbn [combine map layers_differentiable fst snd coupling_layer ly_fwd].
  destruct (Hs s t (or_introl eq_refl)) as [H1 H2]. split.
  - apply mlp_layer_differentiable; auto; try apply realnvp_mask_binary; apply (Hd s t _ (or_introl eq_refl)); apply cond_len; auto; apply realnvp_mask_binary.
  - apply IH; auto.
    + intros s' t' Hin. apply Hs. now right.
    + intros s' t' c Hin. apply Hd. now right.
    + apply (ei_fwd_len _ _ _ (mlp_layer_exact n (realnvp_mask n i) s t 1 (realnvp_mask_binary n i) H1 H2)). auto.
Qed.
