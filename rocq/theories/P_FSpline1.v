(** Knots of the spline in single precision. *)
From Coq Require Import ZArith Reals Lra Lia Psatz.
From Flocq Require Import Core BinarySingleNaN.
From Verif Require Import Prelude Num M_Flow Float32 Float32t Spec_FSpline P_Lists.
Open Scope R_scope.

Definition tot (l : list B32) : R := fold_right (fun x a => V x + a) 0 l.
Lemma tot_ge l b : (forall x, In x l -> b <= V x) -> INR (length l) * b <= tot l.
Proof.
  induction l as [|x l IH]; intros H; cbn [tot fold_right length]; [cbn; lra|]. rewrite S_INR.
  pose proof (H x (or_introl eq_refl)). pose proof (IH (fun y Hy => H y (or_intror Hy))). unfold tot in * . lra.
Qed.
Lemma tot_le l b : (forall x, In x l -> V x <= b) -> tot l <= INR (length l) * b.
Proof.
  induction l as [|x l IH]; intros H; cbn [tot fold_right length]; [cbn; lra|]. rewrite S_INR.
  pose proof (H x (or_introl eq_refl)). pose proof (IH (fun y Hy => H y (or_intror Hy))). unfold tot in * . lra.
Qed.
Lemma tot_app l r : tot (l ++ r) = tot l + tot r.
Proof. unfold tot. induction l as [|x l IH]; cbn; [lra|]. rewrite IH. lra. Qed.

(* ------------------------------------------------------------------ sums *)
Definition bsum (l : list B32) : B32 := fold_right (Bplus mode_NE) (b32_ofZ 0) l.
Lemma bsum_ok l : (length l <= 16)%nat -> (forall x, In x l -> fin x /\ 0 <= V x <= 1) ->
  fin (bsum l) /\ 0 <= V (bsum l) <= INR (length l) /\ tot l * (1 - INR (length l) * u) <= V (bsum l) /\
  ((exists x, In x l /\ V x = 1) -> 1 <= V (bsum l)).
Proof.
  induction l as [|x l IH]; intros Hl H.
  - cbn [bsum fold_right length tot INR]. destruct (ofZ_ok 0 ltac:(lia)) as [A B]. split; [exact A|]. rewrite B. cbn. split; [lra|split; [lra|]]. intros (x & [] & _).
  - destruct (H x (or_introl eq_refl)) as [Fx Bx]. destruct IH as (F1 & B1 & T1 & M1); [cbn in Hl; lia|intros; apply H; now right|].
    change (bsum (x :: l)) with (Bplus mode_NE x (bsum l)). set (n := length l) in * . change (length (x :: l)) with (S n) in * .
    assert (HI : 0 <= INR n <= 15). { split; [apply pos_INR|]. replace 15 with (INR 15) by (cbn; lra). apply le_INR. lia. }
    assert (FB : fbound (INR (S n))). { rewrite INR_IZR_INZ. apply fbZ. lia. }
    destruct (plus_in x (bsum l) 0 (INR (S n)) Fx F1 (fbZ 0 ltac:(lia)) FB) as [F2 B2]. { rewrite S_INR. lra. }
    split; [exact F2|]. split; [exact B2|]. split.
    + destruct (plus_ok x (bsum l) Fx F1) as [_ E]. { rewrite Rabs_pos_eq by lra. unfold big. apply Rle_trans with 16; [lra|]. apply IZR_le. lia. }
      rewrite E. pose proof (rnd_plus_rel x (bsum l)) as R. rewrite (Rabs_pos_eq (V x + V (bsum l))) in R by lra.
      apply Rabs_le_inv in R. change (tot (x :: l)) with (V x + tot l). rewrite S_INR.
      assert (T0 : 0 <= tot l). { pose proof (tot_ge l 0 (fun y Hy => proj1 (proj2 (H y (or_intror Hy))))). lra. }
      assert (U : u = / 16777216) by reflexivity. set (q := V (bsum l)) in * . set (t := tot l) in * . set (a := V x) in * . clearbody q t a.
      assert ((a + q) * (1 - u) <= rnd (a + q)) by lra.
      assert ((a + t * (1 - INR n * u)) * (1 - u) <= (a + q) * (1 - u)). { apply Rmult_le_compat_r; [rewrite U; lra|lra]. }
      assert ((a + t) * (1 - (INR n + 1) * u) <= (a + t * (1 - INR n * u)) * (1 - u)).
      { assert (0 <= a * INR n * u) by (rewrite U; apply Rmult_le_pos; [apply Rmult_le_pos; lra|lra]).
        assert (0 <= t * (INR n * u * u)) by (apply Rmult_le_pos; [lra|]; rewrite U; nra). nra. }
      lra.
    + intros (y & [<-|Hy] & Ey).
      * refine (proj1 (proj2 (plus_in x (bsum l) 1 17 Fx F1 (fbZ 1 ltac:(lia)) (fbZ 17 ltac:(lia)) _))). lra.
      * assert (1 <= V (bsum l)) by (apply M1; eauto).
        refine (proj1 (proj2 (plus_in x (bsum l) 1 17 Fx F1 (fbZ 1 ltac:(lia)) (fbZ 17 ltac:(lia)) _))). lra.
Qed.

(* ------------------------------------------------------------------ the maximum *)
Definition bmax (x y : B32) : B32 := if is_nan x then x else if is_nan y then y else if Bleb x y then y else x.
Definition bvmax (l : list B32) : B32 := match l with [] => b32_ofZ 0 | x :: r => fold_left bmax r x end.
Lemma bmax_ok x y : fin x -> fin y -> fin (bmax x y) /\ V x <= V (bmax x y) /\ V y <= V (bmax x y) /\ (bmax x y = x \/ bmax x y = y).
Proof.
  intros Hx Hy. unfold bmax. rewrite (fin_nan x Hx), (fin_nan y Hy). pose proof (leb_V x y Hx Hy) as L.
  destruct (Bleb x y) eqn:E.
  - assert (V x <= V y) by now apply L. repeat (split; [auto; lra|]). now right.
  - assert (~ V x <= V y) by (intros X; apply L in X; discriminate). repeat (split; [auto; lra|]). now left.
Qed.
Lemma bvmax_ok l : l <> [] -> (forall x, In x l -> fin x) -> fin (bvmax l) /\ (forall x, In x l -> V x <= V (bvmax l)) /\ In (bvmax l) l.
Proof.
  destruct l as [|x l]; [congruence|]. intros _. cbn [bvmax]. revert x. induction l as [|y l IH]; intros x H; cbn [fold_left].
  - split; [apply H; now left|]. split; [|now left]. intros z [<-|[]]. lra.
  - destruct (bmax_ok x y) as (F & A & B & C); try (apply H; cbn; auto; fail).
    destruct (IH (bmax x y)) as (F' & A' & C'). { intros z [<-|Hz]; [exact F|apply H; cbn; auto]. }
    split; [exact F'|]. split.
    + intros z [<-|[<-|Hz]].
      * eapply Rle_trans; [exact A|]. apply A'. now left.
      * eapply Rle_trans; [exact B|]. apply A'. now left.
      * apply A'. now right.
    + destruct C' as [C'|C']; [|cbn; auto]. rewrite <- C'. destruct C as [-> | ->]; cbn; auto.
Qed.
(** A difference that is not positive compares as such, even if it overflows. *)
Lemma minus_neg x y : fin x -> fin y -> V x <= V y -> Bleb (Bminus mode_NE x y) (b32_ofZ 0) = true.
Proof.
  intros Hx Hy H. pose proof (Bminus_correct 24 128 _ _ mode_NE x y Hx Hy) as C.
  change (round radix2 (SpecFloat.fexp 24 128) (round_mode mode_NE) (B2R x - B2R y)) with (rnd (V x - V y)) in C.
  destruct (ofZ_ok 0 ltac:(lia)) as [F0 V0].
  assert (N : rnd (V x - V y) <= 0) by (rewrite <- (rnd_fmt 0 fmt_0); apply rnd_le; lra).
  destruct (Rlt_bool_spec (Rabs (rnd (V x - V y))) (bpow radix2 128)) as [L|L].
  - destruct C as (A & B & _). apply leb_V; [exact B|exact F0|]. rewrite V0. change (V (Bminus mode_NE x y)) with (B2R (Bminus mode_NE x y)). rewrite A. exact N.
  - destruct C as [A B]. destruct (Bsign x) eqn:S.
    + assert (E : Bminus mode_NE x y = B754_infinity true) by (apply B2SF_inj; rewrite A; reflexivity). rewrite E. reflexivity.
    + exfalso. assert (0 <= V x). { clear -S. destruct x as [s|s| |s m e Hb]; unfold V; cbn in S |- * ; subst; try lra. apply Float_prop.F2R_ge_0. cbn. lia. }
      assert (V y <= 0). { clear -B. destruct y as [s|s| |s m e Hb]; unfold V; cbn in B |- * ; try lra. destruct s; [|discriminate]. apply Float_prop.F2R_le_0. cbn. lia. }
      assert (Z : V x - V y = 0) by lra. rewrite Z, (rnd_fmt 0 fmt_0), Rabs_R0 in L. pose proof (bpow_gt_0 radix2 128). lra.
Qed.
