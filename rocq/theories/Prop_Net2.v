(** Property C54: the networks and the flows the constructors build, in exact real arithmetic. *)
From Coq Require Import Reals Psatz.
From Coquelicot Require Import Coquelicot.
From Verif Require Import Prelude Num M_Core M_Kernels M_Flow M_Net RNum MxR Spec_Kernels Spec_Jac Spec_Real Spec_Spline Spec_Flow Spec_Net P_Real3 P_Net P_Net2 P_Net3 P_Net4 P_Net6.
Open Scope R_scope.

(* ==================================================================================== *)
(** C54.  MLP(shape) exists exactly for shapes with at least two entries (otherwise IndexError), has the first
    entry as n_input and the last as n_output, and always returns vectors of the last size. *)
Theorem C54_mlp_shape : forall (N : Num) (G : Rng) li, linear_law li -> normal_shape ->
  forall (shape : list nat) k scale act bias,
  ((length shape < 2)%nat -> mlp_new li shape k scale act bias = Raise IndexError) /\
  ((2 <= length shape)%nat -> exists m, mlp_new li shape k scale act bias = Ok m /\
     length (ml_hidden m) = (length shape - 2)%nat /\
     (forall x b, nth_error shape (length shape - 1) = Some b -> length (mlp_call m x) = b) /\
     ((forall s, In s shape -> (0 < s)%nat) ->
        Some (mlp_n_input m) = nth_error shape 0 /\ Some (mlp_n_output m) = nth_error shape (length shape - 1))).
Proof. exact @mlp_shape_proof. Qed.
(** Its value: the vectors between the layers are the activations of weights times the previous vector plus
    bias, and the last layer has no activation. *)
Theorem C54_mlp_value : forall (G : @Rng RNum) li, linear_law li -> normal_shape ->
  forall (shape : list nat) k (scale : R) act bias m (x : list R), mlp_new li shape k scale act bias = Ok m ->
  nth_error shape 0 = Some (length x) ->
  exists vs : list (list R), length vs = S (length (ml_hidden m)) /\ nth 0 vs [] = x /\
  (forall i l, nth_error (ml_hidden m) i = Some l -> length (nth (S i) vs []) = nth (S i) shape 0%nat /\
     forall r, (r < nth (S i) shape 0)%nat -> nth r (nth (S i) vs []) 0 =
     act (Rsum (nth i shape 0%nat) (fun c => ent (ln_w l) r c * nth c (nth i vs []) 0) + match ln_b l with Some v => nth r v 0 | None => 0 end)) /\
  forall r, (r < nth (length shape - 1) shape 0)%nat ->
    @nth R r (mlp_call m x) 0 =
    Rsum (nth (length shape - 2) shape 0%nat) (fun c => ent (ln_w (ml_last m)) r c * nth c (nth (length (ml_hidden m)) vs []) 0)
    + match ln_b (ml_last m) with Some v => nth r v 0 | None => 0 end.
Proof. exact @mlp_value_proof. Qed.
(** The network is differentiable everywhere with tanh, and wherever no relu sits at its kink with relu. *)
Theorem C54_mlp_differentiable : forall (G : @Rng RNum) li, linear_law li -> normal_shape ->
  forall (shape : list nat) k (scale : R) bias a b (x : list R),
  nth_error shape 0 = Some a -> nth_error shape (length shape - 1) = Some b -> length x = a ->
  (forall m, mlp_new li shape k scale tanh bias = Ok m -> differentiable_to a b (mlp_call m) x) /\
  (forall m, mlp_new li shape k scale (@relu RNum) bias = Ok m -> off_kinks m x -> differentiable_to a b (mlp_call m) x).
Proof. exact @mlp_differentiable_proof. Qed.

(** A freshly constructed RealNVP of any size: its inverse is exact, and wherever no relu sits at its kink
    log_prob is the logarithm of the density its samples have (both directions of C30 and C32 hold with no
    further hypothesis).  [ms] are the two networks of each layer. *)
Theorem C54_fresh_realnvp : forall (G : @Rng RNum) li, linear_law li -> normal_shape -> forall n h L k,
  exists m ms, realnvp_new li n L h k = Ok m /\
  Forall2 (fun i st =>
    mlp_new li [n; h; n] (split (split k L i) 3 1) (1 / 10000) (@relu RNum) true = Ok (fst st) /\
    mlp_new li [n; h; n] (split (split k L i) 3 2) (1 / 10000) (@relu RNum) true = Ok (snd st)) (seq 0 L) ms /\
  fl_n m = n /\ length (fl_layers m) = L /\
  exact_inverse n (flow_fwd (fl_layers m)) (flow_inv (fl_layers m)) /\
  forall x, length x = n -> flow_off_kinks n 0 ms x ->
    exists d, 0 < d /\ density_through n (latent m) (std_density n) x d /\ realnvp_log_prob m x = ln d.
Proof. intros G li H1 H2 n h L k. exact (fresh_realnvp li H1 H2 n h L k). Qed.

(** A freshly constructed MaskedCouplingRQSpline with the default range, at least one hidden layer and
    reasonable sizes: exact inverse and exact log_prob at every point, for every positive base density.
    (In particular the float clipping of C26 never acts: the initial weights of the last layer bound the
    slopes.) *)
Theorem C54_fresh_rqspline : forall (G : @Rng RNum) li, linear_law li -> linear_bounded li -> normal_shape ->
  forall n bins w hs, (0 < n)%nat -> (1 <= bins)%nat -> INR bins < 200000 -> (1 <= w)%nat -> INR w <= 399999990 ->
  forall L k p, (forall y, 0 < p y) ->
  exists m, rqs_new li n L bins (hs ++ [w]) (-10) 10 k = Ok m /\
  fl_n m = n /\ length (fl_layers m) = L /\
  exact_inverse n (flow_fwd (fl_layers m)) (flow_inv (fl_layers m)) /\
  forall x, length x = n -> exists d, 0 < d /\ density_through n (latent m) p x d /\ rqs_log_prob (fun y => ln (p y)) m x = ln d.
Proof. intros G li H1 H2 H3 n bins w hs. exact (fresh_rqs li H1 H2 H3 n bins w hs). Qed.

(* ==================================================================================== *)
(** Concrete cases: an initialiser meeting the laws, and a RealNVP whose points are all off the kinks. *)
Definition toy_linear (a b : nat) (k : @key RNum RRng) (bias : bool) : @linear RNum :=
  @mkLinear RNum (repeat (repeat (1 / 2) a) b) (Some (repeat 1 b)).
Example C54_laws : @linear_law RNum RRng toy_linear /\ @linear_bounded RRng toy_linear /\ @normal_shape RNum RRng.
Proof.
  assert (A : forall c b i, 0 <= c <= 1 -> Rabs (@nth R i (repeat c b) 0) <= 1).
  { intros c b i Hc. destruct (nth_in_or_default i (repeat c b) 0) as [H|H]; [apply repeat_spec in H|]; rewrite H; rewrite Rabs_pos_eq; lra. }
  split; [|split].
  - intros a b k bias. repeat split; cbn [toy_linear ln_w ln_b]; rewrite ?repeat_length; auto.
    + intros row Hr. apply repeat_spec in Hr. subst. apply repeat_length.
    + intros v Hv. injection Hv as <-. apply repeat_length.
  - intros a b k bias _. split.
    + intros i j. unfold ent. cbn [toy_linear ln_w].
      destruct (nth_in_or_default i (repeat (repeat (1 / 2) a) b) []) as [H|H]; [apply repeat_spec in H; rewrite H; apply A; lra|].
      rewrite H. replace (@nth R j [] 0) with 0 by (destruct j; reflexivity). rewrite Rabs_R0. lra.
    + intros v i Hv. cbn [toy_linear ln_b] in Hv. injection Hv as <-. apply A. lra.
  - intros k n. apply repeat_length.
Qed.
(** Every point is off the kinks of this RealNVP with two layers: the theorem gives its density everywhere. *)
Example C54_case : exists m, realnvp_new toy_linear 2 2 1 true = Ok m /\
  forall x, length x = 2%nat -> exists d, 0 < d /\ density_through 2 (latent m) (std_density 2) x d /\ realnvp_log_prob m x = ln d.
Proof.
  destruct (C54_fresh_realnvp RRng toy_linear (proj1 C54_laws) (proj2 (proj2 C54_laws)) 2 1 2 true) as (m & ms & E & F & _ & _ & _ & H).
  exists m. split; [exact E|]. intros x Hx. apply H; auto.
  assert (K : forall st, In st ms -> forall y, off_kinks (fst st) y /\ off_kinks (snd st) y).
  { intros st Hin. clear -F Hin. induction F as [|i st' l ms [H1 H2] F IH]; [destruct Hin|]. destruct Hin as [->|Hin]; [|auto].
    cbn in H1, H2. injection H1 as H1. injection H2 as H2. intros [|a [|b y]];
    rewrite <- H1, <- H2; split; split; try exact I; intros v; cbn; (intros [<-|[]]); unfold Rdiv; rewrite ?Rmult_0_l; lra. }
  clear -F K Hx. inversion F as [|? st1 ? ms1 _ F1]; subst. inversion F1 as [|? st2 ? ms2 _ F2]; subst. inversion F2; subst.
  destruct st1 as [s1 t1], st2 as [s2 t2]. cbn [flow_off_kinks].
  repeat split; first [exact I | apply (K (s1, t1)); now left | apply (K (s2, t2)); right; now left].
Qed.
Print Assumptions C54_mlp_shape.
Print Assumptions C54_mlp_value.
Print Assumptions C54_mlp_differentiable.
Print Assumptions C54_fresh_realnvp.
Print Assumptions C54_fresh_rqspline.
