(** Correctly rounded exponential and logarithm in single precision; the layers of the flow. *)
From Coq Require Import ZArith Reals Lra Lia Psatz Sorted.
From Flocq Require Import Core BinarySingleNaN.
From Verif Require Import Prelude Num M_Flow Float32 Float32t Spec_FSpline P_Lists P_FSpline1 P_FSpline2 P_FSpline3 P_FSpline4 P_FSpline5 P_FSpline6 P_FSpline7 P_FSpline8 P_FSpline9.
Open Scope R_scope.
Local Strategy 100 [Bplus Bminus Bmult Bdiv Bopp Bsqrt].

(** The float nearest to a real number. *)
Definition b32_of (r : R) : B32 :=
  binary_normalize 24 128 _ _ mode_NE (ZnearestE (scaled_mantissa radix2 (FLT_exp (-149) 24) r)) (cexp radix2 (FLT_exp (-149) 24) r) false.
Lemma b32_of_ok r : Rabs r <= big -> fin (b32_of r) /\ V (b32_of r) = rnd r.
Proof.
  intros H. pose proof (binary_normalize_correct 24 128 _ _ mode_NE (ZnearestE (scaled_mantissa radix2 (FLT_exp (-149) 24) r)) (cexp radix2 (FLT_exp (-149) 24) r) false) as C. cbv zeta in C.
  change (F2R (Float radix2 (ZnearestE (scaled_mantissa radix2 (FLT_exp (-149) 24) r)) (cexp radix2 (FLT_exp (-149) 24) r))) with (rnd r) in C.
  change (round radix2 (SpecFloat.fexp 24 128) (round_mode mode_NE) (rnd r)) with (rnd (rnd r)) in C.
  rewrite (rnd_fmt (rnd r)) in C by (apply generic_format_round; typeclasses eauto).
  rewrite Rlt_bool_true in C. { destruct C as (A & B & _). split; [exact B|exact A]. }
  apply big_lt. apply (rnd_abs big); [exact fmt_big|exact H].
Qed.
(** exp and log, correctly rounded. *)
Definition b32_exp (x : B32) : B32 :=
  match x with B754_nan => B754_nan | B754_infinity true => b32_ofZ 0 | B754_infinity false => B754_infinity false | _ => b32_of (exp (V x)) end.
Definition b32_ln (x : B32) : B32 :=
  match x with B754_nan => B754_nan | B754_infinity s => if s then B754_nan else x | _ => if Rlt_dec 0 (V x) then b32_of (ln (V x)) else B754_nan end.
Lemma b32_exp_fin x : fin x -> b32_exp x = b32_of (exp (V x)). Proof. destruct x; cbn; auto; discriminate. Qed.
Lemma b32_ln_fin x : fin x -> 0 < V x -> b32_ln x = b32_of (ln (V x)).
Proof. intros F H. destruct x; try discriminate F; unfold b32_ln; destruct (Rlt_dec _ _); auto; contradiction. Qed.
Lemma ln2_le : ln 2 <= 3 / 4.
Proof.
  apply Rnot_lt_le. intros L. apply exp_increasing in L. rewrite exp_ln in L by lra. revert L. apply Rle_not_lt. replace (3 / 4) with (1 / 8 + (1 / 8 + (1 / 8 + (1 / 8 + (1 / 8 + 1 / 8))))) by lra. rewrite !exp_plus.
  pose proof (exp_ineq1_le (1 / 8)) as H. set (e := exp (1 / 8)) in * . clearbody e. assert (9 / 8 <= e) by lra.
  assert (A2 : 81 / 64 <= e * e) by nra. assert (A3 : 729 / 512 <= e * (e * e)) by nra.
  replace (e * (e * (e * (e * (e * e))))) with ((e * (e * e)) * (e * (e * e))) by ring. nra.
Qed.
Lemma ln_P k : ln (P k) = IZR k * ln 2.
Proof. rewrite bpow_exp. rewrite ln_exp. f_equal. Qed.
Lemma b32_lib : lib_ok b32_exp b32_ln.
Proof.
  constructor; change val with V; change isfin with fin.
  - intros x H. destruct (ofZ_ok 0 ltac:(lia)) as [F0 V0].
    assert (D : fin x \/ x = B754_infinity true). { destruct x as [s|s| |s m e Hb]; [left; reflexivity| | |left; reflexivity]; [destruct s; [right; reflexivity|discriminate]|discriminate]. }
    destruct D as [Fx| ->]; [|split; [exact F0|cbn [b32_exp]; rewrite V0; lra]].
    rewrite (b32_exp_fin x Fx). assert (HX : V x <= 0) by (rewrite <- V0; now apply leb_V).
    assert (E : 0 <= exp (V x) <= 1). { pose proof (exp_pos (V x)). split; [lra|]. rewrite <- exp_0. destruct (Req_dec (V x) 0) as [->|N]; [lra|]. left. apply exp_increasing. lra. }
    destruct (b32_of_ok (exp (V x))) as [A B]. { rewrite Rabs_pos_eq by lra. unfold big. apply Rle_trans with 1; [lra|apply IZR_le; lia]. }
    split; [exact A|]. rewrite B. apply rnd_in; [apply fmt_0|apply (fmt_Z 1); lia|exact E].
  - intros x Fx E. rewrite (b32_exp_fin x Fx), E, exp_0. destruct (b32_of_ok 1) as [A B]. { rewrite Rabs_R1. unfold big. apply IZR_le. lia. }
    rewrite B. apply rnd_fmt, (fmt_Z 1). lia.
  - intros x Fx H. rewrite (b32_exp_fin x Fx).
    assert (E : 3 / 2 <= exp (V x) <= 3).
    { split; [pose proof (exp_ineq1_le (V x)); lra|]. apply Rle_trans with (exp 1); [|apply exp_le_3]. destruct (Req_dec (V x) 1) as [->|N]; [lra|]. left. apply exp_increasing. lra. }
    destruct (b32_of_ok (exp (V x))) as [A B]. { rewrite Rabs_pos_eq by lra. unfold big. apply Rle_trans with 3; [lra|apply IZR_le; lia]. }
    split; [exact A|]. rewrite B. apply rnd_in; [exact (fmt_frac 3 1 ltac:(lia) ltac:(lia))|apply (fmt_Z 3); lia|exact E].
  - intros x Fx H. rewrite (b32_ln_fin x Fx H).
    assert (E : Rabs (ln (V x)) <= 128).
    { assert (LO : P (-149) <= V x).
      { pose proof (abs_B2R_ge_emin 24 128 x) as G. assert (S : is_finite_strict x = true). { destruct x as [s|s| |s m e Hb]; try discriminate Fx; [|reflexivity]. unfold V in H. cbn in H. lra. }
        specialize (G S). fold (V x) in G. rewrite Rabs_pos_eq in G by lra. exact G. }
      assert (HI : V x <= P 128). { pose proof (abs_B2R_lt_emax 24 128 x) as G. fold (V x) in G. rewrite Rabs_pos_eq in G by lra. lra. }
      pose proof ln2_le. pose proof ln_lt_2. pose proof (P_pos (-149)). pose proof (P_pos 128).
      assert (ln (P (-149)) <= ln (V x)) by (destruct (Req_dec (P (-149)) (V x)) as [->|]; [lra|left; apply ln_increasing; lra]).
      assert (ln (V x) <= ln (P 128)) by (destruct (Req_dec (V x) (P 128)) as [->|]; [lra|left; apply ln_increasing; lra]).
      rewrite ln_P in * . apply Rabs_le. lra. }
    destruct (b32_of_ok (ln (V x))) as [A B]. { eapply Rle_trans; [exact E|]. unfold big. apply IZR_le. lia. }
    split; [exact A|]. rewrite B. apply rnd_abs; [apply (fmt_Z 128); lia|exact E].
  - intros x Fx H. rewrite (b32_ln_fin x Fx) by lra.
    assert (L0 : 0 <= ln (V x)). { rewrite <- ln_1. destruct (Req_dec 1 (V x)) as [<-|]; [lra|left; apply ln_increasing; lra]. }
    assert (LU : ln (V x) <= V x). { pose proof (exp_ineq1_le (ln (V x))) as G. rewrite exp_ln in G by lra. lra. }
    destruct (b32_of_ok (ln (V x))) as [A B]. { rewrite Rabs_pos_eq by exact L0. assert (V x <= P 128) by (pose proof (abs_B2R_lt_emax 24 128 x) as G; fold (V x) in G; rewrite Rabs_pos_eq in G by lra; lra).
      apply Rle_trans with 128; [|unfold big; apply IZR_le; lia]. pose proof ln2_le. pose proof ln_lt_2. pose proof (P_pos 128).
      assert (ln (V x) <= ln (P 128)) by (destruct (Req_dec (V x) (P 128)) as [->|]; [lra|left; apply ln_increasing; lra]). rewrite ln_P in * . lra. }
    rewrite B, <- (rnd_fmt 0 fmt_0). now apply rnd_le.
Qed.

Lemma tenth_ok : fin (Bdiv mode_NE (b32_ofZ 1) (b32_ofZ 10000)) /\ / 16384 <= V (Bdiv mode_NE (b32_ofZ 1) (b32_ofZ 10000)) <= / 8192.
Proof.
  destruct (ofZ_ok 1 ltac:(lia)) as [F1 V1]. destruct (ofZ_ok 10000 ltac:(lia)) as [F2 V2].
  change (/ 16384) with (P (-14)). change (/ 8192) with (P (-13)). apply div_in; [exact F1|lra|apply fbP; lia|apply fbP; lia|].
  rewrite V1, V2. change (P (-14)) with (/ 16384). change (P (-13)) with (/ 8192). lra.
Qed.
Section BN.
Variables (pi : B32) (fe fl ft : B32 -> B32).
Hypothesis LIB : lib_ok fe fl.
Let BN := B32Num pi fe fl ft.
Lemma default_settings K cond : (1 <= K <= 16)%nat ->
  settings_ok (@mkRQ BN (@fofZ BN (-10)) (@fofZ BN 10) K (@fdiv BN (@f1 BN) (@fofZ BN 10000)) (@fdiv BN (@f1 BN) (@fofZ BN 10000)) cond).
Proof.
  intros HK. destruct tenth_ok as [F B]. destruct (ofZ_ok (-10) ltac:(lia)) as [F1 V1]. destruct (ofZ_ok 10 ltac:(lia)) as [F2 V2].
  assert (KB : 1 <= INR K <= 16). { split; [replace 1 with (INR 1) by reflexivity|replace 16 with (INR 16) by (cbn; lra)]; apply le_INR; lia. }
  set (m := Bdiv mode_NE (b32_ofZ 1) (b32_ofZ 10000)) in * .
  assert (A : range_ok (b32_ofZ (-10)) (b32_ofZ 10) m K).
  { split; [exact F1|]. split; [exact F2|]. split; [exact F|]. split; [exact HK|]. change val with V. rewrite V1, V2. split; [lra|]. split; [lra|]. split; [lra|]. nra. }
  assert (C : isfin m /\ / 16384 <= val m <= 1 / 2) by (split; [exact F|change val with V; lra]). exact (conj A C).
Qed.
Lemma rqs_mask01 n i : mask01 (@rqs_mask BN n i) n /\ forall j d, (j < n)%nat -> nth j (@rqs_mask BN n i) d = @b2f BN ((j + i) mod 2 =? 1).
Proof.
  assert (E : forall j d, (j < n)%nat -> nth j (@rqs_mask BN n i) d = @b2f BN ((j + i) mod 2 =? 1)).
  { intros j d H. unfold rqs_mask. rewrite (nth_indep _ d (@b2f BN ((0 + i) mod 2 =? 1))) by (rewrite map_length, seq_length; lia).
    rewrite (map_nth (fun j => @b2f BN ((j + i) mod 2 =? 1)) (seq 0 n) 0%nat). rewrite seq_nth by lia. reflexivity. }
  split; [|exact E]. split; [unfold rqs_mask; rewrite map_length, seq_length; reflexivity|]. intros j d H. pose proof (E j d H) as Q. destruct (_ =? 1); [right|left]; exact Q.
Qed.
(** What one layer returns. *)
Definition layer_post (q : @rqspline BN) (i : nat) (slack : R) (x : list B32) (r : list B32 * B32) : Prop :=
  length (fst r) = length x /\ isfin (snd r) /\
  forall j d, (j < length x)%nat -> within 102 (nth j (fst r) d) /\
    ((j + i) mod 2 = 1%nat -> val (nth j (fst r) d) = val (nth j x d)) /\
    ((j + i) mod 2 = 0%nat -> val (@rq_min BN q) <= val (nth j x d) <= val (@rq_max BN q) -> val (@rq_min BN q) <= val (nth j (fst r) d) <= val (@rq_max BN q) + slack).
Lemma layer_both (q : @rqspline BN) i a b x : settings_ok q -> conditioner_ok q (length x) -> (Z.of_nat (length x) <= 2 ^ 24)%Z -> (forall v, In v x -> within 60 v) ->
  layer_post q i (/ 16384) x (@coupling_fwd BN (@rl_spline BN (@make_rqs_layer BN (length x) i a b q)) x) /\
  layer_post q i (/ 524288) x (@coupling_inv BN (@rl_spline BN (@make_rqs_layer BN (length x) i a b q)) x).
Proof.
  intros S C HN Hx. destruct (rqs_mask01 (length x) i) as [M E]. destruct (context_ok pi fe fl ft _ x M Hx) as [LC HC]. fold BN in LC, HC. split.
  - destruct (layer_ok pi fe fl ft q (@rqs_fwd BN) (/ 16384) _ x S C M HN Hx (fun row v L H W => coord_fwd pi fe fl ft LIB q row v S L H W) (@vmul BN x (@rqs_mask BN (length x) i)) LC HC) as (L & F & A).
    fold BN in L, F, A. split; [exact L|]. split; [exact F|]. intros j d Hj. destruct (A j d Hj) as (A1 & A2 & A3). pose proof (E j d Hj) as EM. split; [exact A1|]. split.
    + intros Q. rewrite Q in EM. exact (A2 EM).
    + intros Q. rewrite Q in EM. exact (A3 EM).
  - destruct (layer_ok pi fe fl ft q (@rqs_inv BN) (/ 524288) _ x S C M HN Hx (fun row v L H W => coord_inv pi fe fl ft LIB q row v S L H W) (@vmul BN x (@rqs_mask BN (length x) i)) LC HC) as (L & F & A).
    fold BN in L, F, A. split; [exact L|]. split; [exact F|]. intros j d Hj. destruct (A j d Hj) as (A1 & A2 & A3). pose proof (E j d Hj) as EM. split; [exact A1|]. split.
    + intros Q. rewrite Q in EM. exact (A2 EM).
    + intros Q. rewrite Q in EM. exact (A3 EM).
Qed.
End BN.
