(** Slopes, and the choice of the bin, in single precision. *)
From Coq Require Import ZArith Reals Lra Lia Psatz Sorted.
From Flocq Require Import Core BinarySingleNaN.
From Verif Require Import Prelude Num M_Flow Float32 Float32t Spec_FSpline P_Lists P_FSpline1 P_FSpline2 P_FSpline3.
Open Scope R_scope.

Lemma abs_le_big k r : (0 <= k <= 127)%Z -> Rabs r <= IZR (2 ^ k) -> Rabs r <= big.
Proof. intros H A. eapply Rle_trans; [exact A|]. unfold big. apply IZR_le, Z.pow_le_mono_r; lia. Qed.

Section BN.
Variables (pi : B32) (fe fl ft : B32 -> B32).
Hypothesis LIB : lib_ok fe fl.
Let BN := B32Num pi fe fl ft.
Lemma f0_ok : fin (@f0 BN) /\ V (@f0 BN) = 0. Proof. exact (ofZ_ok 0 ltac:(lia)). Qed.
Lemma f1_ok : fin (@f1 BN) /\ V (@f1 BN) = 1. Proof. exact (ofZ_ok 1 ltac:(lia)). Qed.
Lemma f2_ok : fin (@f2 BN) /\ V (@f2 BN) = 2. Proof. exact (ofZ_ok 2 ltac:(lia)). Qed.
Lemma f4_ok : fin (@f4 BN) /\ V (@f4 BN) = 4. Proof. exact (ofZ_ok 4 ltac:(lia)). Qed.
Lemma V_opp x : V (Bopp x) = - V x. Proof. apply B2R_Bopp. Qed.
Lemma fin_opp x : fin x -> fin (Bopp x). Proof. unfold fin. now rewrite is_finite_Bopp. Qed.
Lemma fmax_ok x y : fin x -> fin y -> fin (@fmax BN x y) /\ V (@fmax BN x y) = Rmax (V x) (V y).
Proof.
  intros Hx Hy. change (@fmax BN x y) with (bmax x y). destruct (bmax_ok x y Hx Hy) as (A & B & C & D). split; [exact A|].
  destruct D as [D|D]; rewrite D in * ; [rewrite Rmax_left|rewrite Rmax_right]; auto.
Qed.
Lemma fmin_ok x y : fin x -> fin y -> fin (@fmin BN x y) /\ V (@fmin BN x y) = Rmin (V x) (V y).
Proof.
  intros Hx Hy. unfold fmin. change (@fnan BN) with (@is_nan 24 128). rewrite (fin_nan x Hx), (fin_nan y Hy). change (@fle BN) with (@Bleb 24 128).
  pose proof (leb_V x y Hx Hy) as L. destruct (Bleb x y) eqn:E; (split; [assumption|]).
  - rewrite Rmin_left; [reflexivity|now apply L].
  - rewrite Rmin_right; [reflexivity|]. assert (~ V x <= V y) by (intros X; apply L in X; discriminate). lra.
Qed.
Lemma fclip_ok x : fin x -> fin (@fclip BN x f0 f1) /\ V (@fclip BN x f0 f1) = Rmin (Rmax (V x) 0) 1.
Proof.
  intros Hx. unfold fclip. destruct f0_ok as [F0 V0]. destruct f1_ok as [F1 V1]. destruct (fmax_ok x (@f0 BN) Hx F0) as [A B].
  destruct (fmin_ok _ (@f1 BN) A F1) as [C D]. split; [exact C|]. now rewrite D, B, V0, V1.
Qed.
Lemma clip01 r : 0 <= Rmin (Rmax r 0) 1 <= 1.
Proof. split; [apply Rmin_glb; [apply Rmax_r|lra]|apply Rmin_r]. Qed.

(* ------------------------------------------------------------------ slopes *)
Lemma softplus_ok x k : (0 <= k <= 100)%Z -> fin x -> Rabs (V x) <= IZR (2 ^ k) -> fin (@softplus BN x) /\ 0 <= V (@softplus BN x) <= IZR (2 ^ (k + 8)).
Proof.
  intros Hk Fx Bx. unfold softplus. destruct f0_ok as [F0 V0]. destruct f1_ok as [F1 V1].
  destruct (fmax_ok x (@f0 BN) Fx F0) as [A B]. rewrite V0 in B.
  assert (P : Bleb (Bopp (@fabs BN x)) (b32_ofZ 0) = true).
  { assert (FA : fin (@fabs BN x)) by (unfold fabs; destruct (_ <.? _); [apply fin_opp|]; auto).
    apply leb_V; [now apply fin_opp|exact F0|]. rewrite V_opp. change (b32_ofZ 0) with (@f0 BN). rewrite V0.
    unfold fabs. change (@flt BN) with (@Bltb 24 128). pose proof (ltb_V x (@f0 BN) Fx F0) as L. destruct (Bltb x (@f0 BN)) eqn:E.
    - change (V (@fneg BN x)) with (V (Bopp x)). rewrite V_opp. assert (V x < V (@f0 BN)) by now apply L. lra.
    - assert (~ V x < V (@f0 BN)) by (intros X; apply L in X; discriminate). lra. }
  destruct (lb_exp _ _ LIB _ P) as [FE BE]. set (e := fe (Bopp (@fabs BN x))) in * .
  destruct (plus_in (@f1 BN) e 1 2 F1 FE (fbZ 1 ltac:(lia)) (fbZ 2 ltac:(lia))) as [FS BS]. { rewrite V1. unfold val, V in * . lra. }
  destruct (lb_ln _ _ LIB (Bplus mode_NE (@f1 BN) e) FS) as [FL BL]. { change val with V. lra. }
  pose proof (lb_ln1 _ _ LIB (Bplus mode_NE (@f1 BN) e) FS (proj1 BS)) as BL0. change val with V in * .
  assert (MB : 0 <= Rmax (V x) 0 <= IZR (2 ^ k)). { split; [apply Rmax_r|]. apply Rmax_lub; [|apply IZR_le; lia]. eapply Rle_trans; [apply Rle_abs|exact Bx]. }
  refine (plus_in (@fmax BN x f0) (fl (Bplus mode_NE (@f1 BN) e)) 0 (IZR (2 ^ (k + 8))) A FL (fbZ 0 ltac:(lia)) (fbpow (k + 8) ltac:(lia)) _).
  rewrite B. rewrite (Rabs_pos_eq _ BL0) in BL. split; [lra|]. rewrite Z.pow_add_r by lia. rewrite mult_IZR. change (IZR (2 ^ 8)) with 256.
  assert (1 <= IZR (2 ^ k)) by (apply IZR_le; lia). lra.
Qed.
Definition slope_min_ok (s : B32) : Prop := isfin s /\ / 16384 <= val s <= 1 / 2.
Lemma slopes_ok ms us : slope_min_ok ms -> (forall x, In x us -> fin x /\ Rabs (V x) <= IZR (2 ^ 30)) ->
  forall s, In s (@normalize_knot_slopes BN us ms) -> fin s /\ / 16384 <= V s <= IZR (2 ^ 40).
Proof.
  intros [Fm Bm] H s Hs. unfold normalize_knot_slopes in Hs. apply in_map_iff in Hs as (x & <- & Hx). destruct (H x Hx) as [Fx Bx].
  destruct f1_ok as [F1 V1]. change val with V in * .
  destruct (minus_in (@f1 BN) ms (1 / 2) 1 F1 Fm) as [Fa Ba]; [exact (fbfrac 1 1 ltac:(lia) ltac:(lia))|exact (fbZ 1 ltac:(lia))|lra|].
  destruct (lb_exp1 _ _ LIB _ Fa Ba) as [Fb Bb]. change val with V in * .
  destruct (minus_in (fe (Bminus mode_NE (@f1 BN) ms)) (@f1 BN) (1 / 2) 2 Fb F1) as [Fc Bc]; [exact (fbfrac 1 1 ltac:(lia) ltac:(lia))|exact (fbZ 2 ltac:(lia))|lra|].
  destruct (lb_ln _ _ LIB _ Fc ltac:(change val with V; lra)) as [Fo Bo]. change val with V in * .
  change (@fln BN (@fsub BN (@fexp BN (@fsub BN f1 ms)) f1)) with (fl (Bminus mode_NE (fe (Bminus mode_NE (@f1 BN) ms)) (@f1 BN))).
  set (o := fl _) in * . change (@fadd BN x o) with (Bplus mode_NE x o).
  assert (BX : Rabs (V x + V o) <= IZR (2 ^ 31)). { eapply Rle_trans; [apply Rabs_triang|]. change (IZR (2 ^ 31)) with 2147483648. change (IZR (2 ^ 30)) with 1073741824 in Bx. lra. }
  apply Rabs_le_inv in BX.
  destruct (plus_in x o (- IZR (2 ^ 31)) (IZR (2 ^ 31)) Fx Fo (fbopp _ (fbpow 31 ltac:(lia))) (fbpow 31 ltac:(lia)) BX) as [Fy By].
  destruct (softplus_ok (Bplus mode_NE x o) 31 ltac:(lia) Fy ltac:(apply Rabs_le; exact By)) as [Fz Bz].
  destruct (plus_ok _ ms Fz Fm) as [G1 G2]. { rewrite Rabs_pos_eq by lra. change (31 + 8)%Z with 39%Z in Bz. change (IZR (2 ^ 39)) with 549755813888 in Bz. unfold big. apply Rle_trans with (IZR (2 ^ 41)); [change (IZR (2 ^ 41)) with 2199023255552; lra|apply IZR_le; lia]. }
  change (@fadd BN (@softplus BN (Bplus mode_NE x o)) ms) with (Bplus mode_NE (@softplus BN (Bplus mode_NE x o)) ms). split; [exact G1|]. rewrite G2. split.
  - apply Rle_trans with (V ms); [lra|]. rewrite <- (rnd_V ms) at 1. apply rnd_le. lra.
  - rewrite <- (rnd_fmt (IZR (2 ^ 40))) by (apply fmt_pow; lia). apply rnd_le. change (31 + 8)%Z with 39%Z in Bz. change (IZR (2 ^ 39)) with 549755813888 in Bz. change (IZR (2 ^ 40)) with 1099511627776. lra.
Qed.

(* ------------------------------------------------------------------ which bin *)
Definition onehot (sel : list bool) (i : nat) : Prop := (i < length sel)%nat /\ forall j, (j < length sel)%nat -> nth j sel false = (j =? i).
Lemma onehot_0 r : (forall b, In b r -> b = false) -> onehot (true :: r) 0.
Proof.
  intros H. split; [cbn; lia|]. intros [|j] Hj; [reflexivity|]. cbn [nth]. cbn in Hj. rewrite (H (nth j r false)); [reflexivity|]. apply nth_In. lia.
Qed.
Lemma onehot_S r i : onehot r i -> onehot (false :: r) (S i).
Proof. intros [A B]. split; [cbn; lia|]. intros [|j] Hj; [reflexivity|]. cbn [nth]. cbn in Hj. rewrite (B j) by lia. reflexivity. Qed.
Definition inside (x a b : B32) : bool := Bleb a x && Bltb x b.
Definition bins_of (pos : list B32) (x : B32) : list bool := map2 (fun a b => inside x a b) (removelast pos) (tl pos).
Lemma bins_cons a b l x : bins_of (a :: b :: l) x = inside x a b :: bins_of (b :: l) x.
Proof. reflexivity. Qed.
Lemma bins_len pos x : length (bins_of pos x) = (length pos - 1)%nat.
Proof. induction pos as [|a [|b l] IH]; try reflexivity. rewrite bins_cons. cbn [length] in * . rewrite IH. lia. Qed.
Lemma bins_below g l x : 0 < g -> fin x -> forall b, gapped g (b :: l) -> (forall y, In y (b :: l) -> fin y) -> V x < V b -> forall t, In t (bins_of (b :: l) x) -> t = false.
Proof.
  intros Hg Fx. induction l as [|c l IH]; intros b G Fl L t Ht; [destruct Ht|]. rewrite bins_cons in Ht. inversion G as [|? ? G1 H1]; subst. inversion H1; subst.
  assert (Fb : fin b) by (apply Fl; now left). destruct Ht as [<-|Ht].
  - unfold inside. destruct (Bleb b x) eqn:E; [|reflexivity]. apply (leb_V b x Fb Fx) in E. lra.
  - apply (IH c G1); auto; [intros; apply Fl; now right|lra].
Qed.
Lemma bins_onehot g pos x : 0 < g -> fin x -> gapped g pos -> (forall y, In y pos -> fin y) ->
  (forall t, In t (bins_of pos x) -> t = false) \/ exists i, onehot (bins_of pos x) i.
Proof.
  intros Hg Fx. induction pos as [|a [|b l] IH]; intros G Fl; [left; easy|left; easy|]. rewrite bins_cons. inversion G as [|? ? G1 H1]; subst.
  destruct (inside x a b) eqn:E.
  - right. exists 0%nat. apply onehot_0. unfold inside in E. apply andb_prop in E as [_ E].
    apply (bins_below g l x Hg Fx b G1); [intros; apply Fl; now right|]. apply ltb_V; auto. apply Fl. right. now left.
  - destruct (IH G1 (fun y Hy => Fl y (or_intror Hy))) as [A|(i & A)].
    + left. intros t [<-|Ht]; auto.
    + right. exists (S i). now apply onehot_S.
Qed.
Lemma mask_onehot g pos x : 0 < g -> fin x -> gapped g pos -> (forall y, In y pos -> fin y) -> (2 <= length pos)%nat ->
  exists i, onehot (@bin_mask BN pos x) i /\ length (@bin_mask BN pos x) = (length pos - 1)%nat.
Proof.
  intros Hg Fx G Fl Hl. change (@bin_mask BN pos x) with (if existsb (@Datatypes.id bool) (bins_of pos x) then bins_of pos x else match bins_of pos x with [] => [] | _ :: r => true :: map (fun _ => false) r end).
  pose proof (bins_len pos x) as L. destruct (existsb (@Datatypes.id bool) (bins_of pos x)) eqn:E.
  - destruct (bins_onehot g pos x Hg Fx G Fl) as [A|(i & A)]; [|eauto]. apply existsb_exists in E as (t & Ht & Et). rewrite (A t Ht) in Et. discriminate.
  - destruct (bins_of pos x) as [|t r]; [cbn in L; lia|]. exists 0%nat. split; [|cbn in * ; rewrite map_length; exact L].
    apply onehot_0. intros b Hb. apply in_map_iff in Hb as (? & <- & _). reflexivity.
Qed.
(** The product with the mask picks the entry of the bin. *)
Lemma pick_zero sel p : (forall b, In b sel -> b = false) -> (forall x, In x p -> fin x) -> fin (@pick BN sel p) /\ V (@pick BN sel p) = 0.
Proof.
  unfold pick. revert p. induction sel as [|b sel IH]; intros p H Fp; [exact f0_ok|]. destruct p as [|x p]; [exact f0_ok|].
  rewrite (H b (or_introl eq_refl)). cbn [map2 fsum fold_right b2f]. destruct (IH p (fun y Hy => H y (or_intror Hy)) (fun y Hy => Fp y (or_intror Hy))) as [A B].
  destruct f0_ok as [F0 V0]. destruct (mult_in (@f0 BN) x 0 0 F0 (Fp x (or_introl eq_refl)) (fbZ 0 ltac:(lia)) (fbZ 0 ltac:(lia))) as [C D]. { rewrite V0. lra. }
  destruct (plus_in (Bmult mode_NE (@f0 BN) x) _ 0 0 C A (fbZ 0 ltac:(lia)) (fbZ 0 ltac:(lia))) as [P Q]. { fold (@fsum BN) in * . change (fold_right (@fadd BN) (@f0 BN)) with (@fsum BN) in * . rewrite B. lra. }
  split; [exact P|]. apply Rle_antisym; [exact (proj2 Q)|exact (proj1 Q)].
Qed.
Lemma pick_one sel p i : onehot sel i -> length p = length sel -> (forall x, In x p -> fin x /\ Rabs (V x) <= big) ->
  fin (@pick BN sel p) /\ V (@pick BN sel p) = V (nth i p (@f0 BN)).
Proof.
  revert p i. induction sel as [|b sel IH]; intros p i [Hi H] L Fp; [cbn in Hi; lia|]. destruct p as [|x p]; [cbn in L; lia|].
  destruct (Fp x (or_introl eq_refl)) as [Fx Bx]. destruct f0_ok as [F0 V0]. destruct f1_ok as [F1 V1].
  change (@pick BN (b :: sel) (x :: p)) with (Bplus mode_NE (Bmult mode_NE (@b2f BN b) x) (@pick BN sel p)).
  pose proof (H 0%nat ltac:(cbn; lia)) as Hb. cbn in Hb. subst b. destruct i as [|i].
  - cbn [nth Nat.eqb b2f]. destruct (mult_ok (@f1 BN) x F1 Fx) as [A B]. { rewrite V1, Rmult_1_l. exact Bx. } rewrite V1, Rmult_1_l, rnd_V in B.
    destruct (pick_zero sel p) as [C D]. { intros b Hb. apply (In_nth _ _ false) in Hb as (j & Hj & <-). exact (H (S j) ltac:(cbn; lia)). } { intros; apply Fp; now right. }
    destruct (plus_ok _ _ A C) as [P Q]. { rewrite B, D, Rplus_0_r. exact Bx. } split; [exact P|]. rewrite Q, B, D, Rplus_0_r. apply rnd_V.
  - cbn [nth Nat.eqb b2f]. destruct (mult_in (@f0 BN) x 0 0 F0 Fx (fbZ 0 ltac:(lia)) (fbZ 0 ltac:(lia))) as [A B]. { rewrite V0. lra. }
    destruct (IH p i) as [C D]. { split; [cbn in Hi; lia|]. intros j Hj. exact (H (S j) ltac:(cbn; lia)). } { cbn in L. lia. } { intros; apply Fp; now right. }
    assert (N : Rabs (V (nth i p (@f0 BN))) <= big). { apply Fp. right. apply nth_In. cbn in L, Hi. lia. }
    assert (Z : V (Bmult mode_NE (@f0 BN) x) = 0) by lra.
    destruct (plus_ok _ _ A C) as [P Q]. { rewrite Z, D, Rplus_0_l. exact N. } split; [exact P|]. rewrite Q, Z, D, Rplus_0_l. apply rnd_V.
Qed.
End BN.
