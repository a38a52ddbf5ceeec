(** Proofs of C54 over the reals: networks are differentiable; fresh flows are exact. *)
From Coq Require Import Reals Psatz.
From Coquelicot Require Import Coquelicot.
From Verif Require Import Prelude Num M_Core M_Kernels M_Flow M_Net P_Lists RNum MxR Spec_Kernels Spec_Jac P_Jac Spec_Real Spec_Spline Spec_Flow P_Real1 P_Flow P_Flow2 P_Flow3 P_Flow4 P_Flow5 P_Flow6 Spec_Net P_Gauss P_Net.
Open Scope R_scope.

Definition bias_at (l : @linear RNum) (i : nat) : R := match ln_b l with Some v => nth i v 0 | None => 0 end.
Lemma linear_nth (l : @linear RNum) a b (x : list R) i : linear_shape a b l -> length x = a -> (i < b)%nat ->
  @nth R i (linear_call l x) 0 = Rsum a (fun j => ent (ln_w l) i j * nth j x 0) + bias_at l i.
Proof.
  intros (L & Hr & Hb) Hx Hi.
  assert (E : @nth R i (map (fun row => @vdot RNum row x) (ln_w l)) 0 = Rsum a (fun j => ent (ln_w l) i j * nth j x 0)).
  { assert (Li : (i < length (ln_w l))%nat) by (rnorm; lia).
    etransitivity; [exact (nth_map' (fun row => @vdot RNum row x) (ln_w l) i [] 0 Li)|]. apply vdot_R; auto. apply Hr. now apply nth_In. }
  unfold linear_call, bias_at. destruct (ln_b l) as [v|] eqn:Ev.
  - specialize (Hb v eq_refl). rewrite vaddR by (rewrite ?map_length; rnorm; lia). rewrite E. reflexivity.
  - etransitivity; [exact E|]. ring.
Qed.
Fixpoint act_ok (act : R -> R) (ls : list (@linear RNum)) (x : list R) : Prop :=
  match ls with
  | [] => True
  | l :: r => (forall v, In v (@linear_call RNum l x) -> ex_derive act v) /\ act_ok act r (map act (@linear_call RNum l x))
  end.
Section Dif.
Variables (n : nat) (x : list R).
Hypothesis Hx : length x = n.
Lemma linear_dif (l : @linear RNum) a b (h : list R -> list R) i : linear_shape a b l -> (i < b)%nat ->
  (forall y, length y = n -> length (h y) = a) -> (forall j, (j < a)%nat -> dif n (fun y => nth j (h y) 0) x) ->
  dif n (fun y => @nth R i (linear_call l (h y)) 0) x.
Proof.
  intros Hs Hi Hl Hd. apply (dif_ext n x Hx (fun y => Rsum a (fun j => ent (ln_w l) i j * nth j (h y) 0) + bias_at l i)).
  - intros y Hy. symmetry. apply (linear_nth l a b); auto.
  - apply dif_plus; [|apply dif_const]. apply dif_Rsum. intros j Hj. apply dif_scal. auto.
Qed.
Lemma chain_dif (act : R -> R) (last : @linear RNum) : forall (hs : list (@linear RNum)) (shape : list nat) (h : list R -> list R) a b,
  chain_shape shape (hs ++ [last]) -> nth_error shape 0 = Some a -> nth_error shape (length shape - 1) = Some b ->
  (forall y, length y = n -> length (h y) = a) -> (forall j, (j < a)%nat -> dif n (fun y => nth j (h y) 0) x) ->
  act_ok act hs (h x) ->
  forall i, (i < b)%nat -> dif n (fun y => @nth R i (@linear_call RNum last (fold_left (fun h l => map act (@linear_call RNum l h)) hs (h y))) 0) x.
Proof.
  induction hs as [|l hs IH]; intros shape h a b Hc Ha Hb Hl Hd Ho i Hi.
  - destruct shape as [|s1 [|s2 [|s3 shape]]]; cbn [app chain_shape] in Hc; try contradiction; destruct Hc as [Hs Hr]; try contradiction.
    cbn in Ha, Hb. injection Ha as ->. injection Hb as ->. cbn [fold_left]. now apply (linear_dif last a b h).
  - destruct shape as [|s1 [|s2 shape]]; cbn [app chain_shape] in Hc; try contradiction. destruct Hc as [Hs Hr].
    cbn in Ha. injection Ha as ->. destruct Ho as [Ho1 Ho2]. cbn [fold_left].
    apply (IH (s2 :: shape) (fun y => map act (linear_call l (h y))) s2 b); auto.
    + cbn [length] in * . replace (S (length shape) - 1)%nat with (length shape) by lia. replace (S (S (length shape)) - 1)%nat with (S (length shape)) in Hb by lia. exact Hb.
    + intros y Hy. rewrite map_length. exact (linear_len _ _ _ _ Hs).
    + intros j Hj. pose proof (linear_len a s2 l (h x) Hs) as Ll.
      assert (Hin : In (@nth R j (linear_call l (h x)) 0) (linear_call l (h x))) by (apply nth_In; rnorm; lia).
      destruct (Ho1 _ Hin) as [dv Hdv].
      apply (dif_ext n x Hx (fun y => act (@nth R j (linear_call l (h y)) 0))).
      * intros y Hy. symmetry. apply (mapR act). pose proof (linear_len a s2 l (h y) Hs) as Ly. rnorm. lia.
      * apply (dif_comp n x act dv (fun y => @nth R j (linear_call l (h y)) 0)); [now apply (linear_dif l a s2 h)|exact Hdv].
Qed.
End Dif.
(* one Jacobian out of the coordinates' derivatives *)
Lemma dif_jac n p (T : list R -> list R) x : (forall i, (i < p)%nat -> dif n (fun y => nth i (T y) 0) x) -> differentiable_to n p T x.
Proof.
  intros H. assert (K : forall i, exists g, (i < p)%nat -> is_dif n (fun y => nth i (T y) 0) x g).
  { intros i. destruct (lt_dec i p) as [Hi|Hi]; [|exists (fun _ => 0); lia]. destruct (H i Hi) as [g Hg]. now exists g. }
  apply ClassicalEpsilon.choice in K. destruct K as [J HJ]. exists J. intros i Hi. now apply HJ.
Qed.
Section Mlp.
Context {G : @Rng RNum}.
Variable li : nat -> nat -> key -> bool -> @linear RNum.
Hypothesis Hli : linear_law li.
Hypothesis Hno : normal_shape.
Lemma mlp_dif shape k (scale : R) act bias m a b (x : list R) : mlp_new li shape k scale act bias = Ok m ->
  nth_error shape 0 = Some a -> nth_error shape (length shape - 1) = Some b -> length x = a -> act_ok act (ml_hidden m) x ->
  differentiable_to a b (mlp_call m) x.
Proof.
  intros H Ha Hb Hx Ho. destruct (mlp_new_spec li Hli Hno _ _ _ _ _ _ H) as (_ & Ea & Hc & _).
  apply dif_jac. intros i Hi. unfold mlp_call. rewrite Ea.
  apply (chain_dif a x Hx act (ml_last m) (ml_hidden m) shape (fun y => y) a b Hc Ha Hb); auto. intros. now apply dif_proj.
Qed.
Lemma tanh_ok ls : forall x, act_ok tanh ls x.
Proof. induction ls as [|l ls IH]; intros x; cbn; auto. split; auto. intros v _. exists (1 - tanh v * tanh v). apply tanh_derive. Qed.
Lemma relu_derive (v : R) : v <> 0 -> ex_derive (@relu RNum) v.
Proof.
  intros Hv. unfold relu. destruct (Rlt_le_dec v 0) as [H|H].
  - exists 0. apply (is_derive_ext_loc (fun _ => 0)).
    + exists (mkposreal (- v) ltac:(lra)). intros y Hy. apply Rabs_lt_between' in Hy. cbn in Hy. symmetry. etransitivity; [exact (fmax_R y 0)|]. apply (Rmax_right y 0). lra.
    + apply @is_derive_const.
  - exists 1. apply (is_derive_ext_loc (fun y => y)).
    + exists (mkposreal v ltac:(lra)). intros y Hy. apply Rabs_lt_between' in Hy. cbn in Hy. symmetry. etransitivity; [exact (fmax_R y 0)|]. apply (Rmax_left y 0). lra.
    + apply @is_derive_id.
Qed.
Lemma relu_ok ls : forall x, no_kink (@relu RNum) ls x -> act_ok (@relu RNum) ls x.
Proof. induction ls as [|l ls IH]; intros x; cbn [no_kink act_ok]; auto. intros [H1 H2]. split; auto. intros v Hv. now apply relu_derive, H1. Qed.
Lemma tanh_bound v : Rabs (tanh v) <= 1.
Proof.
  unfold tanh, sinh, cosh. pose proof (exp_pos v). pose proof (exp_pos (- v)). apply Rabs_le. split.
  - apply (Rmult_le_reg_r ((exp v + exp (- v)) / 2)); [lra|]. unfold Rdiv at 2. rewrite Rmult_assoc, Rinv_l by lra. lra.
  - apply (Rmult_le_reg_r ((exp v + exp (- v)) / 2)); [lra|]. unfold Rdiv at 1. rewrite Rmult_assoc, Rinv_l by lra. lra.
Qed.
(** With at least one hidden layer of tanh and last-layer entries in [-1, 1], outputs are bounded by the width of
    the last hidden layer plus one. *)
Lemma chain_bound (last : @linear RNum) : forall hs shape (x : list R) a b,
  chain_shape shape (hs ++ [last]) -> nth_error shape (length shape - 2) = Some a -> nth_error shape (length shape - 1) = Some b -> hs <> [] ->
  (forall i j, Rabs (ent (ln_w last) i j) <= 1) -> (forall i, Rabs (bias_at last i) <= 1) ->
  forall i, (i < b)%nat -> Rabs (@nth R i (@linear_call RNum last (fold_left (fun h l => map tanh (@linear_call RNum l h)) hs x)) 0) <= INR a + 1.
Proof.
  induction hs as [|l hs IH]; intros shape x a b Hc Ha Hb Hne Hw Hbi i Hi; [congruence|].
  destruct shape as [|s1 [|s2 shape]]; cbn [app chain_shape] in Hc; try contradiction. destruct Hc as [Hs Hr].
  cbn [fold_left]. destruct hs as [|l2 hs].
  - destruct shape as [|s3 [|s4 shape]]; cbn [app chain_shape] in Hr; try contradiction; destruct Hr as [Hs2 Hr]; try contradiction.
    cbn in Ha, Hb. injection Ha as ->. injection Hb as ->. cbn [fold_left].
    set (v := map tanh (linear_call l x)). assert (Lv : length v = a) by (unfold v; rewrite map_length; exact (linear_len _ _ _ _ Hs)).
    rewrite (linear_nth last a b v i Hs2 Lv Hi). eapply Rle_trans; [apply Rabs_triang|]. apply Rplus_le_compat; auto.
    eapply Rle_trans; [apply Rabs_Rsum|]. rewrite <- (Rmult_1_r (INR a)), <- Rsum_const. apply Rsum_le. intros j Hj.
    rewrite Rabs_mult. assert (Hv : Rabs (nth j v 0) <= 1).
    { unfold v. assert (Lj : (j < length (linear_call l x))%nat) by (pose proof (linear_len _ _ l x Hs) as Q; rnorm; lia).
      pose proof (mapR tanh (linear_call l x) j Lj) as Q. rnorm. rewrite Q. apply tanh_bound. }
    pose proof (Hw i j). pose proof (Rabs_pos (ent (ln_w last) i j)). pose proof (Rabs_pos (nth j v 0)). nra.
  - apply (IH (s2 :: shape) _ a b Hr); auto; try discriminate.
    + cbn [length] in * . destruct shape as [|s3 shape]; cbn in Hr; [tauto|]. cbn [length] in * .
      replace (S (S (length shape)) - 2)%nat with (length shape) by lia. replace (S (S (S (length shape))) - 2)%nat with (S (length shape)) in Ha by lia. exact Ha.
    + cbn [length] in * . replace (S (length shape) - 1)%nat with (length shape) by lia. replace (S (S (length shape)) - 1)%nat with (S (length shape)) in Hb by lia. exact Hb.
Qed.
End Mlp.
