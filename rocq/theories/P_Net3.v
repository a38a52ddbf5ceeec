(** Proofs of C54: the flows the constructors build. *)
From Coq Require Import Reals Psatz.
From Coquelicot Require Import Coquelicot.
From Verif Require Import Prelude Num M_Core M_Kernels M_Flow M_Net P_Lists RNum MxR Spec_Kernels Spec_Jac P_Jac Spec_Real Spec_Spline Spec_Flow P_Real1 P_Real2 P_Spline P_Spline2 P_Spline3 P_Flow P_Flow2 P_Flow3 P_Flow4 P_Flow5 P_Flow6 Spec_Net P_Gauss P_Net P_Net2.
Open Scope R_scope.

(* unit statistics *)
Lemma unit_good n ls : good_stats (@mkFlow RNum n ls (repeat f0 n) (repeat f1 n)).
Proof. repeat split; cbn [fl_mean fl_var fl_n]; rewrite ?repeat_length; auto. intros i Hi. rewrite (nth_repeat_lt (1 : R)) by auto. lra. Qed.
Lemma unit_logs n : Rsum n (fun i => ln (sqrt (@nth R i (repeat (@f1 RNum) n) 0))) = 0.
Proof. rewrite (Rsum_ext n _ (fun _ => 0)); [rewrite Rsum_const; ring|]. intros i Hi. rewrite (nth_repeat_lt (1 : R)) by auto. rewrite sqrt_1. apply ln_1. Qed.
Lemma unit_whiten n ls (x : list R) : length x = n -> whiten (@mkFlow RNum n ls (repeat f0 n) (repeat f1 n)) x = x.
Proof.
  intros Hx. pose proof (whiten_len _ (unit_good n ls) x Hx) as L. apply (list_eq_nth (0 : R)); rnorm; [cbn [fl_n] in L; congruence|].
  intros i Hi. cbn [fl_n] in L. assert (Hi' : (i < n)%nat) by (rewrite <- L; exact Hi).
  etransitivity; [exact (whiten_nth _ (unit_good n ls) x i Hx Hi')|]. cbn [fl_mean fl_var].
  rewrite (nth_repeat_lt (0 : R)) by auto. rewrite (nth_repeat_lt (1 : R)) by auto. rewrite sqrt_1. unfold Rdiv. rewrite Rinv_1. ring.
Qed.

Lemma nth_error_last2 {A} (a : A) l b : nth_error (a :: l ++ [b]) (length (a :: l ++ [b]) - 1) = Some b.
Proof.
  cbn [length]. rewrite app_length. cbn [length]. replace (S (length l + 1) - 1)%nat with (S (length l)) by lia. cbn [nth_error].
  rewrite nth_error_app2 by lia. now rewrite Nat.sub_diag.
Qed.

Section RealNVP.
Context {G : @Rng RNum}.
Variable li : nat -> nat -> key -> bool -> @linear RNum.
Hypothesis Hli : linear_law li.
Hypothesis Hno : normal_shape.
Variables (n h : nat).
Definition nvp_pair (ik : key) (st : @mlp RNum * @mlp RNum) : Prop :=
  @mlp_new RNum G li [n; h; n] (split ik 3 1) (1 / 10000) (@relu RNum) true = Ok (fst st) /\
  @mlp_new RNum G li [n; h; n] (split ik 3 2) (1 / 10000) (@relu RNum) true = Ok (snd st).
Lemma make_layer_spec i ik : exists st, nvp_pair ik st /\
  realnvp_make_layer li n h i ik = Ok (coupling_layer (mkCoupling (realnvp_mask n i) (mlp_affine (mlp_call (fst st)) (mlp_call (snd st)) 1))).
Proof.
  destruct (@mlp_new_ok RNum G li [n; h; n] (split ik 3 1) (1 / 10000) (@relu RNum) true ltac:(cbn; lia)) as [s Hs].
  destruct (@mlp_new_ok RNum G li [n; h; n] (split ik 3 2) (1 / 10000) (@relu RNum) true ltac:(cbn; lia)) as [t Ht].
  exists (s, t). split; [split; auto|]. unfold realnvp_make_layer. change (@fdiv RNum f1 (fofZ 10000)) with (1 / 10000).
  rewrite Hs. cbn [rbind]. rewrite Ht. reflexivity.
Qed.
Lemma pair_net ik st : nvp_pair ik st -> net_shape n (mlp_call (fst st)) /\ net_shape n (mlp_call (snd st)).
Proof. intros [H1 H2]. split; intros c _; [exact (mlp_call_len li Hli Hno _ _ _ _ _ _ c n H1 eq_refl)|exact (mlp_call_len li Hli Hno _ _ _ _ _ _ c n H2 eq_refl)]. Qed.
Lemma pair_dif ik st (c : list R) : nvp_pair ik st -> length c = n ->
  (off_kinks (fst st) c -> differentiable n (mlp_call (fst st)) c) /\ (off_kinks (snd st) c -> differentiable n (mlp_call (snd st)) c).
Proof.
  intros [H1 H2] Hc. split; intros Ho; [apply (mlp_dif li Hli Hno _ _ _ _ _ _ n n c H1 eq_refl eq_refl Hc)|apply (mlp_dif li Hli Hno _ _ _ _ _ _ n n c H2 eq_refl eq_refl Hc)];
    apply relu_ok; unfold off_kinks in Ho.
  - destruct (mlp_new_spec li Hli Hno _ _ _ _ _ _ H1) as (_ & E & _). rewrite E in Ho. exact Ho.
  - destruct (mlp_new_spec li Hli Hno _ _ _ _ _ _ H2) as (_ & E & _). rewrite E in Ho. exact Ho.
Qed.
Definition calls2 (st : @mlp RNum * @mlp RNum) := (@mlp_call RNum (fst st), @mlp_call RNum (snd st)).
Lemma realnvp_new_spec L k0 : exists ms, Forall2 (fun i st => nvp_pair (split k0 L i) st) (seq 0 L) ms /\
  realnvp_new li n L h k0 = Ok (mkFlow n (map coupling_layer (realnvp_layers n (map calls2 ms))) (repeat f0 n) (repeat f1 n)).
Proof.
  unfold realnvp_new, per_layer.
  assert (K : forall sq, exists ms, Forall2 (fun i st => nvp_pair (split k0 L i) st) sq ms /\
    rmapM (fun i => realnvp_make_layer li n h i (split k0 L i)) sq =
    Ok (map coupling_layer (map (fun inet => mkCoupling (realnvp_mask n (fst inet)) (mlp_affine (fst (snd inet)) (snd (snd inet)) 1)) (combine sq (map calls2 ms))))).
  { induction sq as [|i sq (ms & F & E)]; [exists []; split; [constructor|reflexivity]|].
    destruct (make_layer_spec i (split k0 L i)) as (st & Hp & Em). exists (st :: ms). split; [now constructor|].
    cbn [rmapM]. rewrite Em. cbn [rbind]. rewrite E. reflexivity. }
  destruct (K (seq 0 L)) as (ms & F & E). exists ms. split; auto. rewrite E. cbn [rbind]. f_equal. f_equal. unfold realnvp_layers.
  rewrite map_length. assert (Lm : length ms = L) by (apply Forall2_length' in F; rewrite seq_length in F; congruence). rewrite Lm. reflexivity.
Qed.
Lemma calls_shape ks ms : Forall2 (fun ik st => nvp_pair ik st) ks ms -> nets_shape n (map calls2 ms).
Proof.
  induction 1 as [|ik st ks ms Hp _ IH]; intros s t Hin; [destruct Hin|]. destruct Hin as [E|Hin]; [|now apply IH].
  unfold calls2 in E. injection E as <- <-. exact (pair_net _ _ Hp).
Qed.
Lemma off_differentiable ks ms : Forall2 (fun ik st => nvp_pair ik st) ks ms -> forall i (x : list R), length x = n -> flow_off_kinks n i ms x ->
  layers_differentiable n (map coupling_layer (map (fun inet => mkCoupling (realnvp_mask n (fst inet)) (mlp_affine (fst (snd inet)) (snd (snd inet)) 1)) (combine (seq i (length ms)) (map calls2 ms)))) x.
Proof.
  induction 1 as [|ik st ks ms Hp _ IH]; intros i x Hx Ho; [exact I|].
  destruct st as [s t]. cbn [flow_off_kinks] in Ho. destruct Ho as (O1 & O2 & O3).
  destruct (pair_net _ _ Hp) as [N1 N2]. cbn [fst snd] in N1, N2.
  cbn [length seq map combine layers_differentiable fst snd coupling_layer ly_fwd calls2].
  pose proof (cond_len n (realnvp_mask n i) (realnvp_mask_binary n i) x Hx) as Lc.
  destruct (pair_dif _ _ (@vmul RNum x (realnvp_mask n i)) Hp Lc) as [D1 D2]. split.
  - apply mlp_layer_differentiable; auto. apply realnvp_mask_binary.
  - apply IH; auto. apply (ei_fwd_len _ _ _ (mlp_layer_exact n (realnvp_mask n i) _ _ 1 (realnvp_mask_binary n i) N1 N2)). auto.
Qed.
Lemma Forall2_keys L k0 l ms : Forall2 (fun i st => nvp_pair (split k0 L i) st) l ms -> Forall2 (fun ik st => nvp_pair ik st) (map (split k0 L) l) ms.
Proof. induction 1; cbn; constructor; auto. Qed.
Lemma fresh_realnvp L k0 : exists m ms, realnvp_new li n L h k0 = Ok m /\
  Forall2 (fun i st => nvp_pair (split k0 L i) st) (seq 0 L) ms /\
  fl_n m = n /\ length (fl_layers m) = L /\
  exact_inverse n (flow_fwd (fl_layers m)) (flow_inv (fl_layers m)) /\
  forall x, length x = n -> flow_off_kinks n 0 ms x ->
    exists d, 0 < d /\ density_through n (latent m) (std_density n) x d /\ realnvp_log_prob m x = ln d.
Proof.
  destruct (realnvp_new_spec L k0) as (ms & F & E). eexists. exists ms. split; [exact E|]. split; auto.
  pose proof (Forall2_keys _ _ _ _ F) as F'. pose proof (calls_shape _ _ F') as Hs.
  assert (Lm : length ms = L) by (apply Forall2_length' in F; rewrite seq_length in F; congruence).
  split; [reflexivity|]. split.
  { cbn [fl_layers]. unfold realnvp_layers. rewrite !map_length, combine_length, seq_length, map_length. lia. }
  split; [exact (realnvp_exact n (map calls2 ms) Hs)|]. intros x Hx Ho.
  set (m := mkFlow n (map coupling_layer (realnvp_layers n (map calls2 ms))) (repeat f0 n) (repeat f1 n)).
  pose proof (unit_good n (map coupling_layer (realnvp_layers n (map calls2 ms)))) as Hg. fold m in Hg.
  assert (HL : forall y : list R, length y = n -> length (fst (flow_fwd (fl_layers m) y)) = n) by (apply (ei_fwd_len _ _ _ (realnvp_exact _ _ Hs))).
  assert (Ew : whiten m x = x) by now apply unit_whiten.
  destruct (latent_density m Hg (std_density n) x Hx HL) as (d & H0 & H1 & H2).
  - rewrite Ew. apply (realnvp_logdet n (map calls2 ms) x Hs Hx). unfold realnvp_layers. rewrite map_length. now apply (off_differentiable _ _ F').
  - intros. apply std_density_pos.
  - exists d. split; [exact H0|]. split; [exact H1|]. unfold realnvp_log_prob. rewrite Ew in H2 |- * . specialize (HL _ Hx).
    unfold latent in H2. rewrite Ew in H2. destruct (flow_fwd (fl_layers m) x) as [y ld]. cbn [fst snd] in * .
    etransitivity; [apply (f_equal (Rplus ld)); apply std_normal_R; exact HL|]. change (fl_n m) with n in H2 |- * .
    change (fl_var m) with (repeat (@f1 RNum) n) in H2. pose proof (unit_logs n) as Q. rnorm. rewrite Q in H2. rewrite Rplus_0_r in H2. exact H2.
Qed.
End RealNVP.
