(** Property C78: the spline in IEEE single precision. *)
From Coq Require Import ZArith Reals Lra Lia.
From Flocq Require Import Core BinarySingleNaN.
From Verif Require Import Prelude Num M_Flow M_Net Float32 Float32t Spec_FSpline P_FSpline1 P_FSpline2 P_FSpline3 P_FSpline5 P_FSpline8 P_FSpline9 P_FSpline10 P_FSpline11.
Open Scope R_scope.

(** C78.  Whatever finite numbers the conditioner produces, the knots are finite, run from the lower to the upper end
    of the range and are at least 2^-16 apart. *)
Theorem C78_knots : forall pi fe fl ft, lib_ok fe fl ->
  forall (q : @rqspline (B32Num pi fe fl ft)) (w : list B32),
  range_ok (@rq_min (B32Num pi fe fl ft) q) (@rq_max (B32Num pi fe fl ft) q) (@rq_min_bin (B32Num pi fe fl ft) q) (length w) ->
  (forall x, In x w -> isfin x) ->
  length (@knot_positions (B32Num pi fe fl ft) q w) = S (length w) /\
  separated (@knot_positions (B32Num pi fe fl ft) q w) (@rq_min (B32Num pi fe fl ft) q) (@rq_max (B32Num pi fe fl ft) q).
Proof.
  intros pi fe fl ft LIB q w RO H. assert (N : w <> []). { intros ->. destruct RO as (_ & _ & _ & K & _). cbn in K. lia. }
  destruct (knots_ok pi fe fl ft LIB q w N RO H) as [A B]. exact (conj B A).
Qed.
(** One coordinate: with conditioner outputs up to 2^30 and an argument up to 2^60, the value and the
    log-derivative of the spline and of its inverse are finite, and the range is mapped into the range up to rounding. *)
Theorem C78_forward : forall pi fe fl ft, lib_ok fe fl ->
  forall (q : @rqspline (B32Num pi fe fl ft)) row x, settings_ok q -> length row = (rq_bins q * 3 + 1)%nat ->
  (forall v, In v row -> within 30 v) -> within 60 x ->
  let '(xp, yp, sl) := @row_params (B32Num pi fe fl ft) q row in coordinate_result q (/ 16384) x (@rqs_fwd (B32Num pi fe fl ft) xp yp sl x).
Proof. intros pi fe fl ft LIB q row x S L H W. exact (coord_fwd pi fe fl ft LIB q row x S L H W). Qed.
Theorem C78_inverse : forall pi fe fl ft, lib_ok fe fl ->
  forall (q : @rqspline (B32Num pi fe fl ft)) row x, settings_ok q -> length row = (rq_bins q * 3 + 1)%nat ->
  (forall v, In v row -> within 30 v) -> within 60 x ->
  let '(xp, yp, sl) := @row_params (B32Num pi fe fl ft) q row in coordinate_result q (/ 524288) x (@rqs_inv (B32Num pi fe fl ft) xp yp sl x).
Proof. intros pi fe fl ft LIB q row x S L H W. exact (coord_inv pi fe fl ft LIB q row x S L H W). Qed.
(** Layer [i] of the flow on a point with any number of coordinates. *)
Theorem C78_layer : forall pi fe fl ft, lib_ok fe fl ->
  forall (q : @rqspline (B32Num pi fe fl ft)) i a b x, settings_ok q -> conditioner_ok q (length x) ->
  (Z.of_nat (length x) <= 2 ^ 24)%Z -> (forall v, In v x -> within 60 v) ->
  let layer := @rl_spline (B32Num pi fe fl ft) (@make_rqs_layer (B32Num pi fe fl ft) (length x) i a b q) in
  layer_result q i (/ 16384) x (@coupling_fwd (B32Num pi fe fl ft) layer x) /\
  layer_result q i (/ 524288) x (@coupling_inv (B32Num pi fe fl ft) layer x).
Proof. intros pi fe fl ft LIB q i a b x S C N H. exact (layer_both pi fe fl ft LIB q i a b x S C N H). Qed.
(** The repository's settings with up to sixteen bins are such settings. *)
Theorem C78_defaults : forall pi fe fl ft K (cond : list B32 -> list B32), (1 <= K <= 16)%nat ->
  let N := B32Num pi fe fl ft in
  @settings_ok pi fe fl ft (@mkRQ N (@fofZ N (-10)) (@fofZ N 10) K (@fdiv N (@f1 N) (@fofZ N 10000)) (@fdiv N (@f1 N) (@fofZ N 10000)) cond).
Proof. intros pi fe fl ft K cond H. exact (default_settings pi fe fl ft K cond H). Qed.
(** A network with at least one hidden layer, tanh activations, parameters up to 2^12 and widths up to 2^16 is such a
    conditioner. *)
Theorem C78_network : forall pi fe fl ft, tanh_ok ft ->
  forall (m : @mlp (B32Num pi fe fl ft)) n K lo hi ws, (1 <= n)%nat -> @ml_act (B32Num pi fe fl ft) m = ft -> @ml_hidden (B32Num pi fe fl ft) m <> [] ->
  linears_ok (@ml_hidden (B32Num pi fe fl ft) m ++ [@ml_last (B32Num pi fe fl ft) m]) (n :: ws ++ [(n * (K * 3 + 1))%nat]) ->
  conditioner_ok (@rqspline_new (B32Num pi fe fl ft) (n * (K * 3 + 1)) n lo hi (@mlp_call (B32Num pi fe fl ft) m)) n.
Proof. intros pi fe fl ft TH m n K lo hi ws. exact (conditioner_proof pi fe fl ft TH m n K lo hi ws). Qed.

(* ------------------------------------------------------------------ *)
(** The hypotheses are met: correctly rounded exponential and logarithm, and a conditioner with extreme outputs. *)
Example ex_library : lib_ok b32_exp b32_ln. Proof. exact b32_lib. Qed.
Definition fN : Num := B32Num (b32_ofZ 3) b32_exp b32_ln b32_exp.
Definition ex_spline : @rqspline fN :=
  @mkRQ fN (@fofZ fN (-10)) (@fofZ fN 10) 8 (@fdiv fN (@f1 fN) (@fofZ fN 10000)) (@fdiv fN (@f1 fN) (@fofZ fN 10000))
    (fun _ => repeat (b32_ofZ (-1000000)) 25 ++ repeat (b32_ofZ 1000000) 25).
Lemma bounded_million z : (Z.abs z <= 2 ^ 24)%Z -> within 30 (b32_ofZ z).
Proof. intros H. destruct (ofZ_ok z H) as [A B]. split; [exact A|]. change (Rabs (V (b32_ofZ z)) <= IZR (2 ^ 30)). rewrite B, <- abs_IZR. apply IZR_le. lia. Qed.
Example ex_layer : forall i, layer_result ex_spline i (/ 16384) [b32_ofZ 9; b32_ofZ (-1000)]
  (@coupling_fwd fN (@rl_spline fN (@make_rqs_layer fN 2 i (b32_ofZ 0) (b32_ofZ 0) ex_spline)) [b32_ofZ 9; b32_ofZ (-1000)]).
Proof.
  intros i. refine (proj1 (C78_layer (b32_ofZ 3) b32_exp b32_ln b32_exp b32_lib ex_spline i _ _ [b32_ofZ 9; b32_ofZ (-1000)] _ _ _ _)).
  - exact (C78_defaults (b32_ofZ 3) b32_exp b32_ln b32_exp 8 _ ltac:(lia)).
  - intros c _ _. split; [reflexivity|]. intros v Hv. apply in_app_iff in Hv as [Hv|Hv]; apply repeat_spec in Hv; subst v; apply bounded_million; lia.
  - cbn. lia.
  - assert (W : forall v, within 30 v -> within 60 v). { intros v [A B]. split; [exact A|]. eapply Rle_trans; [exact B|]. apply IZR_le. lia. }
    intros v [<-|[<-|[]]]; apply W, bounded_million; lia.
Qed.
(** Knots for bin sizes that differ by the largest finite float. *)
Definition huge : B32 := b32_ofZ (2 ^ 127)%Z.
Example ex_knots : separated (@knot_positions fN ex_spline [huge; Bopp huge; huge; b32_ofZ 0]) (b32_ofZ (-10)) (b32_ofZ 10).
Proof.
  refine (proj2 (C78_knots (b32_ofZ 3) b32_exp b32_ln b32_exp b32_lib ex_spline [huge; Bopp huge; huge; b32_ofZ 0] _ _)).
  - exact (proj1 (C78_defaults (b32_ofZ 3) b32_exp b32_ln b32_exp 4 (fun c => c) ltac:(lia))).
  - intros x [<-|[<-|[<-|[<-|[]]]]]; vm_compute; reflexivity.
Qed.
(** A network from two to fourteen numbers through three units. *)
Definition clip1 (x : B32) : B32 := if Bltb (b32_ofZ 0) x then b32_ofZ 1 else if Bltb x (b32_ofZ 0) then b32_ofZ (-1) else b32_ofZ 0.
Example ex_tanh : tanh_ok clip1.
Proof.
  intros x _. unfold clip1. destruct (Bltb _ x); [|destruct (Bltb x _)].
  - destruct (ofZ_ok 1 ltac:(lia)) as [A B]. split; [exact A|]. change val with V. rewrite B. lra.
  - destruct (ofZ_ok (-1) ltac:(lia)) as [A B]. split; [exact A|]. change val with V. rewrite B. lra.
  - destruct (ofZ_ok 0 ltac:(lia)) as [A B]. split; [exact A|]. change val with V. rewrite B. lra.
Qed.
Definition gN : Num := B32Num (b32_ofZ 3) b32_exp b32_ln clip1.
Definition ex_net : @mlp gN :=
  @mkMlp gN [@mkLinear gN (repeat [b32_ofZ 7; b32_ofZ (-4000)] 3) (Some (repeat (b32_ofZ 5) 3))] (@mkLinear gN (repeat (repeat (b32_ofZ (-2)) 3) 14) None) clip1.
Example ex_network : conditioner_ok (@rqspline_new gN (2 * (2 * 3 + 1)) 2 (b32_ofZ (-10)) (b32_ofZ 10) (@mlp_call gN ex_net)) 2.
Proof.
  assert (W : forall z, (Z.abs z <= 2 ^ 12)%Z -> within 12 (b32_ofZ z)).
  { intros z H. destruct (ofZ_ok z ltac:(lia)) as [A B]. split; [exact A|]. change (Rabs (V (b32_ofZ z)) <= IZR (2 ^ 12)). rewrite B, <- abs_IZR. apply IZR_le. lia. }
  refine (C78_network _ _ _ _ ex_tanh ex_net 2 2 _ _ [3%nat] ltac:(lia) eq_refl _ _); [discriminate|].
  assert (B16 : forall a, (a <= 16)%nat -> (a <= 2 ^ 16)%nat). { intros a H. apply Nat.le_trans with (2 ^ 4)%nat; [exact H|apply Nat.pow_le_mono_r; lia]. }
  split; [apply B16; lia|]. split; [split; [reflexivity|]; split; [|split; [reflexivity|]]|].
  - intros row H. apply repeat_spec in H. subst row. split; [reflexivity|]. intros v [<-|[<-|[]]]; apply W; lia.
  - intros v H. apply repeat_spec in H. subst v. apply W. lia.
  - split; [apply B16; lia|]. split; [|exact I]. split; [reflexivity|]. split; [|exact I]. intros row H. apply repeat_spec in H. subst row. split; [reflexivity|].
    intros v H. apply repeat_spec in H. subst v. apply W. lia.
Qed.
Print Assumptions C78_network. Print Assumptions ex_network. Print Assumptions C78_knots. Print Assumptions C78_forward. Print Assumptions C78_inverse. Print Assumptions C78_layer. Print Assumptions C78_defaults. Print Assumptions ex_layer. Print Assumptions ex_knots.
