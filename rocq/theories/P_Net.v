(** Proofs of C54: networks, and the flows the constructors build. *)
From Coq Require Import Reals Psatz.
From Coquelicot Require Import Coquelicot.
From Verif Require Import Prelude Num M_Core M_Kernels M_Flow M_Net P_Lists RNum MxR Spec_Kernels Spec_Jac P_Jac Spec_Real Spec_Spline Spec_Flow P_Real1 P_Flow P_Flow3 P_Flow4 P_Flow5 P_Flow6 Spec_Net P_Gauss.

(* ------------------------------------------------------------------ shapes, for all numbers *)
Section Shape.
Context {N : Num} {G : Rng}.
Lemma linear_len a b l (x : vec) : linear_shape a b l -> length (linear_call l x) = b.
Proof.
  intros (L & _ & Hb). unfold linear_call. destruct (ln_b l) as [v|] eqn:E.
  - unfold vadd. rewrite map2_length, map_length, L. rewrite (Hb v eq_refl). apply Nat.min_id.
  - now rewrite map_length.
Qed.
(** Consecutive layers fit the shape list. *)
Fixpoint chain_shape (shape : list nat) (ls : list linear) : Prop :=
  match shape, ls with
  | a :: ((b :: _) as rest), l :: r => linear_shape a b l /\ chain_shape rest r
  | [_], [] => True
  | _, _ => False
  end.
Variable li : nat -> nat -> key -> bool -> linear.
Hypothesis Hli : linear_law li.
Hypothesis Hno : normal_shape.

Lemma hidden_cons scale bias a b c (r : list nat) k : fst (mlp_hidden li scale bias (a :: b :: c :: r) k) =
  mkLinear (map (map (fun x => x *. fsqrt (scale /. fofZ (Z.of_nat a)))%num) (reshape_rows b a (normal (split k 3 2) (b * a)))) (ln_b (li a b (split k 3 1) bias))
  :: fst (mlp_hidden li scale bias (b :: c :: r) (split k 3 0)).
Proof.
  change (mlp_hidden li scale bias (a :: b :: c :: r) k) with
   (let '(ls, kf) := mlp_hidden li scale bias (b :: c :: r) (split k 3 0) in
    (mkLinear (map (map (fun x => x *. fsqrt (scale /. fofZ (Z.of_nat a)))%num) (reshape_rows b a (normal (split k 3 2) (b * a)))) (ln_b (li a b (split k 3 1) bias)) :: ls, kf)).
  destruct (mlp_hidden li scale bias (b :: c :: r) (split k 3 0)) as [ls kf]. reflexivity.
Qed.
Lemma hidden_shape scale bias (shape : list nat) : forall k, match shape with
  | _ :: _ :: _ => forall l b a, nth_error shape (length shape - 2) = Some a -> nth_error shape (length shape - 1) = Some b -> linear_shape a b l ->
      chain_shape shape (fst (mlp_hidden li scale bias shape k) ++ [l])
  | _ => True end.
Proof.
  induction shape as [|a shape IH]; intros k; auto. destruct shape as [|b shape]; auto.
  intros l b' a' Ha Hb Hl. destruct shape as [|c shape].
  - cbn in Ha, Hb. injection Ha as <-. injection Hb as <-. cbn. auto.
  - specialize (IH (split k 3 0)). rewrite hidden_cons. cbn [app].
    match goal with |- chain_shape _ (?q :: ?w) => change (linear_shape a b q /\ chain_shape (b :: c :: shape) w) end.
    split.
    + repeat split; cbn [ln_w ln_b].
      * now rewrite map_length, reshape_rows_length.
      * intros row Hr. apply in_map_iff in Hr as (q & <- & Hq). rewrite map_length.
        unfold reshape_rows in Hq. apply in_map_iff in Hq as (i & <- & Hi). apply in_seq in Hi. rewrite slice_length, (Hno _ (b * a)%nat). assert (i * a + a <= b * a)%nat by nia. lia.
      * intros v Hv. destruct (Hli a b (split k 3 1) bias) as (_ & _ & H). auto.
    + refine (IH l b' a' _ _ Hl).
      * replace (length (a :: b :: c :: shape) - 2)%nat with (S (length shape)) in Ha by (cbn; lia). replace (length (b :: c :: shape) - 2)%nat with (length shape) by (cbn; lia). exact Ha.
      * replace (length (a :: b :: c :: shape) - 1)%nat with (S (S (length shape))) in Hb by (cbn; lia). replace (length (b :: c :: shape) - 1)%nat with (S (length shape)) by (cbn; lia). exact Hb.
Qed.
Lemma rev_two (shape : list nat) b a r : rev shape = b :: a :: r -> nth_error shape (length shape - 2) = Some a /\ nth_error shape (length shape - 1) = Some b /\ (2 <= length shape)%nat.
Proof.
  intros E. assert (S : shape = (rev r ++ [a; b])%list).
  { rewrite <- (rev_involutive shape), E. cbn [rev]. now rewrite <- app_assoc. }
  rewrite S, app_length. cbn [length]. replace (length (rev r) + 2 - 2)%nat with (length (rev r)) by lia. replace (length (rev r) + 2 - 1)%nat with (length (rev r) + 1)%nat by lia.
  rewrite !nth_error_app2 by lia. replace (length (rev r) - length (rev r))%nat with 0%nat by lia. replace (length (rev r) + 1 - length (rev r))%nat with 1%nat by lia. repeat split. lia.
Qed.
Lemma mlp_new_spec (shape : list nat) k scale act bias m : mlp_new li shape k scale act bias = Ok m ->
  (2 <= length shape)%nat /\ ml_act m = act /\ chain_shape shape (ml_hidden m ++ [ml_last m]) /\
  exists a b k', ml_last m = li a b k' bias /\ nth_error shape (length shape - 2) = Some a /\ nth_error shape (length shape - 1) = Some b.
Proof.
  unfold mlp_new. destruct (rev shape) as [|b [|a r]] eqn:E; try discriminate.
  destruct (rev_two _ _ _ _ E) as (H1 & H2 & H3).
  destruct (mlp_hidden li scale bias shape k) as [hs kf] eqn:Eh. intros Hm. injection Hm as <-. cbn [ml_act ml_hidden ml_last].
  split; [auto|split; [auto|split]].
  - pose proof (hidden_shape scale bias shape k) as H. destruct shape as [|s1 [|s2 shape]]; cbn in H3; try lia. rewrite Eh in H. apply (H _ b a); auto.
  - exists a, b, (split kf 2 1). auto.
Qed.
Lemma mlp_new_ok (shape : list nat) k scale act bias : (2 <= length shape)%nat -> exists m, mlp_new li shape k scale act bias = Ok m.
Proof.
  intros H. unfold mlp_new. destruct (rev shape) as [|b [|a r]] eqn:E.
  - apply (f_equal (@length _)) in E. rewrite rev_length in E. cbn in E. lia.
  - apply (f_equal (@length _)) in E. rewrite rev_length in E. cbn in E. lia.
  - destruct (mlp_hidden li scale bias shape k) as [hs kf]. eauto.
Qed.
Lemma mlp_new_short (shape : list nat) k scale act bias : (length shape < 2)%nat -> mlp_new li shape k scale act bias = Raise IndexError.
Proof.
  intros H. unfold mlp_new. destruct (rev shape) as [|b [|a r]] eqn:E; auto.
  apply (f_equal (@length _)) in E. rewrite rev_length in E. cbn in E. lia.
Qed.
Lemma chain_call_len (act : F -> F) (last : linear) : forall (hs : list linear) (shape : list nat) (x : vec) b, chain_shape shape (hs ++ [last]) ->
  nth_error shape (length shape - 1) = Some b ->
  length (linear_call last (fold_left (fun h l => map act (linear_call l h)) hs x)) = b.
Proof.
  induction hs as [|h hs IH]; intros shape x b Hc Hb.
  - destruct shape as [|s1 [|s2 [|s3 shape]]]; cbn [app chain_shape] in Hc; try contradiction; destruct Hc as [Hl Hr]; try contradiction.
    cbn in Hb. injection Hb as <-. exact (linear_len _ _ _ _ Hl).
  - destruct shape as [|s1 [|s2 shape]]; cbn [app chain_shape] in Hc; try contradiction. destruct Hc as [Hl Hr].
    cbn [fold_left]. apply (IH (s2 :: shape) _ b Hr). cbn [length] in * . replace (S (length shape) - 1)%nat with (length shape) by lia.
    replace (S (S (length shape)) - 1)%nat with (S (length shape)) in Hb by lia. exact Hb.
Qed.
Lemma mlp_call_len shape k scale act bias m (x : vec) b : mlp_new li shape k scale act bias = Ok m -> nth_error shape (length shape - 1) = Some b ->
  length (mlp_call m x) = b.
Proof.
  intros H Hb. destruct (mlp_new_spec _ _ _ _ _ _ H) as (_ & _ & Hc & _). unfold mlp_call. exact (chain_call_len _ _ _ _ _ _ Hc Hb).
Qed.
Lemma mlp_n_io shape k scale act bias m : mlp_new li shape k scale act bias = Ok m -> (forall s, In s shape -> (0 < s)%nat) ->
  Some (mlp_n_input m) = nth_error shape 0 /\ Some (mlp_n_output m) = nth_error shape (length shape - 1).
Proof.
  intros H Hp. destruct (mlp_new_spec _ _ _ _ _ _ H) as (H2 & _ & Hc & a & b & k' & El & Ha & Hb). split.
  - unfold mlp_n_input. assert (E : hd (ml_last m) (ml_hidden m) = hd (ml_last m) (ml_hidden m ++ [ml_last m])) by (destruct (ml_hidden m); reflexivity).
    rewrite E. destruct shape as [|s1 [|s2 shape]]; cbn in H2; try lia. destruct (ml_hidden m ++ [ml_last m])%list as [|l r] eqn:Eq; [destruct (ml_hidden m); discriminate|].
    destruct Hc as [(L1 & L2 & _) _]. cbn [hd nth_error]. f_equal. unfold in_features. specialize (Hp s2 (or_intror (or_introl eq_refl))).
    destruct (ln_w l) as [|row w]; [cbn in L1; lia|]. cbn [hd]. apply L2. now left.
  - unfold mlp_n_output, out_features. rewrite Hb. f_equal. rewrite El. apply Hli.
Qed.
End Shape.
