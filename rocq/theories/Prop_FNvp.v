(** C89: the affine coupling layer of RealNVP in IEEE single precision. *)
From Coq Require Import ZArith Reals Lra Lia Psatz.
From Flocq Require Import Core BinarySingleNaN.
From Verif Require Import Prelude Num M_Flow M_Net Float32 Float32t Spec_FSpline Spec_FNvp P_FSpline1 P_FSpline5 P_FSpline10 P_FNvp1 P_FNvp2 P_FNvp3.
Open Scope R_scope.
Local Strategy 100 [Bplus Bminus Bmult Bdiv Bopp Bsqrt].

(** C89: layer [i] of a RealNVP flow, in single precision, with a reasonable exponential and hyperbolic tangent and
    conditioner networks of moderate outputs: forward and back again, and back and forward again, every coordinate returns to
    itself up to rounding; nothing overflows, and the log-determinants are exact opposites. *)
Theorem C89_layer : forall pi fe fl ft (sn tn : list B32 -> list B32) n i x,
  let BN := B32Num pi fe fl ft in
  let L := @coupling_layer BN (@mkCoupling BN (@realnvp_mask BN n i) (@mlp_affine BN sn tn (@f1 BN))) in
  exp_accurate fe -> tanh_fit ft -> network_ok sn n -> network_ok tn n -> (n <= 2 ^ 16)%nat ->
  length x = n -> (forall v, In v x -> within 40 v) ->
  let t := tn (@vmul BN x (@realnvp_mask BN n i)) in
  (let '(y, l) := @ly_fwd BN L x in let '(x', l') := @ly_inv BN L y in back_again n i t x x' l l') /\
  (let '(y, l) := @ly_inv BN L x in let '(x', l') := @ly_fwd BN L y in back_again n i t x x' l l').
Proof.
  intros pi fe fl ft sn tn n i x BN L0 EA TH Hs Ht Hn Lx Bx t. split.
  - exact (fwd_inv pi fe fl ft sn tn n i EA TH Hs Ht Hn x Lx Bx).
  - exact (inv_fwd pi fe fl ft sn tn n i EA TH Hs Ht Hn x Lx Bx).
Qed.
(** And each pass computes what it should: the transformed coordinates are (x + t) exp(tanh s), and back y exp(- tanh s) - t, to a
    relative error of 2^-19, [s] and [t] being the outputs of the two networks at the held coordinates. *)
Theorem C89_value : forall pi fe fl ft (sn tn : list B32 -> list B32) n i x,
  let BN := B32Num pi fe fl ft in
  let L := @coupling_layer BN (@mkCoupling BN (@realnvp_mask BN n i) (@mlp_affine BN sn tn (@f1 BN))) in
  exp_accurate fe -> tanh_fit ft -> network_ok sn n -> network_ok tn n -> (n <= 2 ^ 16)%nat ->
  length x = n -> (forall v, In v x -> within 40 v) ->
  let c := @vmul BN x (@realnvp_mask BN n i) in
  forall j d, (j < n)%nat -> held n i j = false ->
  let xj := val (nth j x d) in let s := val (ft (nth j (sn c) d)) in let t := val (nth j (tn c) d) in
  Rabs (val (nth j (fst (@ly_fwd BN L x)) d) - (xj + t) * exp s) <= / 524288 * Rabs ((xj + t) * exp s) + / IZR (2 ^ 140) /\
  Rabs (val (nth j (fst (@ly_inv BN L x)) d) - (xj * exp (- s) - t)) <= / 524288 * (Rabs (xj * exp (- s)) + Rabs t) + / IZR (2 ^ 140).
Proof.
  intros pi fe fl ft sn tn n i x BN L0 EA TH Hs Ht Hn Lx Bx c j d Hj Hh xj s t. split.
  - exact (fwd_value pi fe fl ft sn tn n i EA TH Hs Ht Hn x Lx Bx j d Hj Hh).
  - exact (inv_value pi fe fl ft sn tn n i EA TH Hs Ht Hn x Lx Bx j d Hj Hh).
Qed.
(** The repository's conditioner (one hidden layer, relu) with parameters up to 2^12 and widths up to 2^16 is such a network. *)
Theorem C89_network : forall pi fe fl ft (m : @mlp (B32Num pi fe fl ft)) l n h,
  let BN := B32Num pi fe fl ft in
  @ml_act BN m = @relu BN -> @ml_hidden BN m = [l] -> linears_ok [l; @ml_last BN m] [n; h; n] -> network_ok (@mlp_call BN m) n.
Proof. intros pi fe fl ft m l n h BN. exact (network_proof pi fe fl ft m l n h). Qed.

(** The correctly rounded exponential, a crude hyperbolic tangent, and two small networks meet the hypotheses. *)
Example C89_case_exp : exp_accurate b32_exp.
Proof.
  intros x Fx Hx. change val with V in * . rewrite (b32_exp_fin x Fx). pose proof (exp_range _ Hx) as E.
  destruct (b32_of_ok (exp (V x))) as [A B]. { rewrite Rabs_pos_eq by lra. unfold big. apply Rle_trans with 3; [lra|apply IZR_le; lia]. }
  split; [exact A|]. rewrite B. pose proof (rnd_rel (exp (V x))) as H. rewrite (Rabs_pos_eq (exp _)) in H by lra.
  assert (eta <= / 16777216). { pose proof eta_140 as Q. pose proof eta_pos. assert (/ IZR (2 ^ 140) <= / 16777216). { apply Rinv_le_contravar; [lra|apply IZR_le; lia]. } lra. }
  unfold u in H. lra.
Qed.
Definition clip1 (x : B32) : B32 := if Bltb (b32_ofZ 0) x then b32_ofZ 1 else if Bltb x (b32_ofZ 0) then b32_ofZ (-1) else b32_ofZ 0.
Example C89_case_tanh : tanh_fit clip1.
Proof.
  split.
  - intros x _. unfold clip1. destruct (Bltb _ x); [|destruct (Bltb x _)].
    + destruct (ofZ_ok 1 ltac:(lia)) as [A B]. split; [exact A|]. change val with V. rewrite B. lra.
    + destruct (ofZ_ok (-1) ltac:(lia)) as [A B]. split; [exact A|]. change val with V. rewrite B. lra.
    + destruct (ofZ_ok 0 ltac:(lia)) as [A B]. split; [exact A|]. change val with V. rewrite B. lra.
  - intros x y Fx Fy E. change val with V in * . destruct (ofZ_ok 0 ltac:(lia)) as [F0 _]. unfold clip1.
    assert (E1 : Bltb (b32_ofZ 0) x = Bltb (b32_ofZ 0) y).
    { apply eq_true_iff_eq. rewrite (ltb_V _ _ F0 Fx), (ltb_V _ _ F0 Fy), E. reflexivity. }
    assert (E2 : Bltb x (b32_ofZ 0) = Bltb y (b32_ofZ 0)).
    { apply eq_true_iff_eq. rewrite (ltb_V _ _ Fx F0), (ltb_V _ _ Fy F0), E. reflexivity. }
    rewrite E1, E2. reflexivity.
Qed.
Definition cN : Num := B32Num (b32_ofZ 3) b32_exp b32_ln clip1.
Definition c_net (a b : Z) : @mlp cN := @mkMlp cN [@mkLinear cN [[b32_ofZ a; b32_ofZ b; b32_ofZ 5]] (Some [b32_ofZ 4])] (@mkLinear cN [[b32_ofZ b]; [b32_ofZ a]; [b32_ofZ 7]] None) (@relu cN).
Example C89_case_net a b : (Z.abs a <= 4096)%Z -> (Z.abs b <= 4096)%Z -> network_ok (@mlp_call cN (c_net a b)) 3.
Proof.
  intros Ha Hb. refine (C89_network _ _ _ _ (c_net a b) _ 3 1 eq_refl eq_refl _).
  assert (W : forall z, (Z.abs z <= 4096)%Z -> within 12 (b32_ofZ z)).
  { intros z Hz. destruct (ofZ_ok z ltac:(lia)) as [A B]. split; [exact A|]. change val with V. rewrite B, <- abs_IZR. apply IZR_le. exact Hz. }
  assert (W1 : within 12 (b32_ofZ a)) by auto. assert (W2 : within 12 (b32_ofZ b)) by auto.
  assert (W3 : within 12 (b32_ofZ 5)) by (apply W; lia). assert (W4 : within 12 (b32_ofZ 4)) by (apply W; lia). assert (W5 : within 12 (b32_ofZ 7)) by (apply W; lia).
  assert (P2 : (1 <= 2 ^ 16)%nat) by (clear; apply Nat.leb_le; vm_compute; reflexivity). assert (P3 : (3 <= 2 ^ 16)%nat) by (clear; apply Nat.leb_le; vm_compute; reflexivity).
  split; [exact P3|]. split; [|split; [exact P2|split; [|exact I]]].
  - split; [reflexivity|]. split.
    + intros row [<-|[]]. split; [reflexivity|]. intros v [<-|[<-|[<-|[]]]]; assumption.
    + split; [reflexivity|]. intros v [<-|[]]. assumption.
  - split; [reflexivity|]. split; [|exact I].
    intros row [<-|[<-|[<-|[]]]]; (split; [reflexivity|]); intros v [<-|[]]; assumption.
Qed.
(** Layers 0 and 1 on three coordinates of size up to a million, there and back: the held coordinates (the first of the three in
    layer 0, the others in layer 1) are unchanged. *)
Example C89_case i p q r : (Z.abs p <= 1000000)%Z -> (Z.abs q <= 1000000)%Z -> (Z.abs r <= 1000000)%Z ->
  let x := [b32_ofZ p; b32_ofZ q; b32_ofZ r] in
  let L := @coupling_layer cN (@mkCoupling cN (@realnvp_mask cN 3 i) (@mlp_affine cN (@mlp_call cN (c_net 7 (-40))) (@mlp_call cN (c_net 3 4000)) (@f1 cN))) in
  let t := @mlp_call cN (c_net 3 4000) (@vmul cN x (@realnvp_mask cN 3 i)) in
  let '(y, l) := @ly_fwd cN L x in let '(x', l') := @ly_inv cN L y in back_again 3 i t x x' l l'.
Proof.
  intros Hp Hq Hr. refine (proj1 (C89_layer _ _ _ _ _ _ 3 i [b32_ofZ p; b32_ofZ q; b32_ofZ r] C89_case_exp C89_case_tanh (C89_case_net 7 (-40) _ _) (C89_case_net 3 4000 _ _) _ eq_refl _)); try lia.
  - apply Nat.leb_le. vm_compute. reflexivity.
  - assert (W : forall z, (Z.abs z <= 1000000)%Z -> within 40 (b32_ofZ z)).
    { intros z Hz. destruct (ofZ_ok z ltac:(lia)) as [A B]. split; [exact A|]. change val with V. rewrite B, <- abs_IZR. apply IZR_le. lia. }
    intros v [<-|[<-|[<-|[]]]]; auto.
Qed.

Print Assumptions C89_layer.
Print Assumptions C89_value.
Print Assumptions C89_network.
