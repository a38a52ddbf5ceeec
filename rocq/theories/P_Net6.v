(** Proof of C54_mlp_value. *)
From Coq Require Import Reals Psatz.
From Verif Require Import Prelude Num M_Core M_Kernels M_Flow M_Net P_Lists RNum Spec_Kernels Spec_Net P_Real1 P_Gauss P_Net P_Net2.
Open Scope R_scope.
Lemma chain_value (act : R -> R) (last : @linear RNum) : forall (hs : list (@linear RNum)) (shape : list nat) (x : list R) a,
  chain_shape shape (hs ++ [last]) -> nth_error shape 0 = Some a -> length x = a ->
  exists vs : list (list R), length vs = S (length hs) /\ nth 0 vs [] = x /\
  (forall i l, nth_error hs i = Some l -> length (nth (S i) vs []) = nth (S i) shape 0%nat /\
     forall r, (r < nth (S i) shape 0)%nat -> nth r (nth (S i) vs []) 0 =
     act (Rsum (nth i shape 0%nat) (fun c => ent (ln_w l) r c * nth c (nth i vs []) 0) + match ln_b l with Some v => nth r v 0 | None => 0 end)) /\
  forall r, (r < nth (S (length hs)) shape 0)%nat ->
    @nth R r (@linear_call RNum last (fold_left (fun h l => map act (@linear_call RNum l h)) hs x)) 0 =
    Rsum (nth (length hs) shape 0%nat) (fun c => ent (ln_w last) r c * nth c (nth (length hs) vs []) 0) + match ln_b last with Some v => nth r v 0 | None => 0 end.
Proof.
  induction hs as [|l hs IH]; intros shape x a Hc Ha Hx.
  - destruct shape as [|s1 [|s2 shape]]; cbn [app chain_shape] in Hc; try contradiction; destruct Hc as [Hs Hr].
    cbn in Ha. injection Ha as ->. exists [x]. split; [reflexivity|]. split; [reflexivity|]. split; [intros [|i] l H; discriminate|].
    intros r Hr'. cbn [length nth fold_left] in Hr' |- * . exact (linear_nth last a s2 x r Hs Hx Hr').
  - destruct shape as [|s1 [|s2 shape]]; cbn [app chain_shape] in Hc; try contradiction. destruct Hc as [Hs Hr].
    cbn in Ha. injection Ha as ->.
    set (y := map act (linear_call l x) : list R). assert (Ly : length y = s2) by (unfold y; rewrite map_length; exact (linear_len _ _ _ _ Hs)).
    destruct (IH (s2 :: shape) y s2 Hr eq_refl Ly) as (vs & Lv & V0 & Vi & Vl). exists (x :: vs). split; [cbn [length]; lia|]. split; [reflexivity|]. split.
    + intros [|i] l' Hl'.
      * cbn in Hl'. injection Hl' as <-. cbn [nth]. rewrite V0. split; [exact Ly|]. intros r Hr'. unfold y.
        assert (Lr : (r < length (linear_call l x))%nat) by (pose proof (linear_len _ _ l x Hs) as Q; rnorm; lia).
        etransitivity; [exact (mapR act (linear_call l x) r Lr)|]. f_equal. exact (linear_nth l a s2 x r Hs Hx Hr').
      * cbn in Hl'. exact (Vi i l' Hl').
    + intros r Hr'. cbn [length fold_left]. exact (Vl r Hr').
Qed.
Lemma mlp_value_proof : forall (G : @Rng RNum) li, linear_law li -> normal_shape ->
  forall (shape : list nat) k (scale : R) act bias m (x : list R), mlp_new li shape k scale act bias = Ok m ->
  nth_error shape 0 = Some (length x) ->
  exists vs : list (list R), length vs = S (length (ml_hidden m)) /\ nth 0 vs [] = x /\
  (forall i l, nth_error (ml_hidden m) i = Some l -> length (nth (S i) vs []) = nth (S i) shape 0%nat /\
     forall r, (r < nth (S i) shape 0)%nat -> nth r (nth (S i) vs []) 0 =
     act (Rsum (nth i shape 0%nat) (fun c => ent (ln_w l) r c * nth c (nth i vs []) 0) + match ln_b l with Some v => nth r v 0 | None => 0 end)) /\
  forall r, (r < nth (length shape - 1) shape 0)%nat ->
    @nth R r (mlp_call m x) 0 =
    Rsum (nth (length shape - 2) shape 0%nat) (fun c => ent (ln_w (ml_last m)) r c * nth c (nth (length (ml_hidden m)) vs []) 0)
    + match ln_b (ml_last m) with Some v => nth r v 0 | None => 0 end.
Proof.
  intros G li Hli Hno shape k scale act bias m x Hm Hx. destruct (mlp_new_spec li Hli Hno _ _ _ _ _ _ Hm) as (H2 & Ea & Hc & _).
  assert (L : length (ml_hidden m) = (length shape - 2)%nat).
  { clear -Hc H2. revert Hc H2. generalize (ml_last m). generalize (ml_hidden m). intros hs last. revert shape.
    induction hs as [|l hs IH]; intros shape Hc H2.
    - destruct shape as [|s1 [|s2 [|s3 shape]]]; cbn [app chain_shape] in Hc; try contradiction; try (destruct Hc; contradiction). reflexivity.
    - destruct shape as [|s1 [|s2 shape]]; cbn [app chain_shape] in Hc; try contradiction. destruct Hc as [_ Hc].
      destruct shape as [|s3 shape]; [destruct hs; cbn in Hc; contradiction|]. cbn [length] in * . rewrite (IH (s2 :: s3 :: shape) Hc); cbn; lia. }
  destruct (chain_value act (ml_last m) (ml_hidden m) shape x (length x) Hc Hx eq_refl) as (vs & V1 & V2 & V3 & V4).
  exists vs. split; [exact V1|]. split; [exact V2|]. split; [exact V3|]. intros r Hr. unfold mlp_call. rewrite Ea. rewrite L in V4 |- * .
  replace (S (length shape - 2)) with (length shape - 1)%nat in V4 by lia. now apply V4.
Qed.
