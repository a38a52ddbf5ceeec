(** C68: histograms: slots, and arrays with non-finite entries. *)
From Verif Require Import Prelude Num M_Core M_Strategies M_Files Spec Spec_Kernels P_Lists P_Core.
From Verif Require Spec_Files.
From Coq Require FinFun.
Import Spec_Files.
Open Scope nat_scope.

Lemma indices_valid sh ix : In ix (indices sh) <-> valid_index sh ix.
Proof.
  revert ix. induction sh as [|d sh IH]; intros ix; cbn [indices].
  - unfold valid_index. cbn. split; [intros [<-|[]]; split; [auto|lia]|]. intros [H _]. left. destruct ix; [auto|discriminate].
  - rewrite in_flat_map. split.
    + intros (i & Hi & H). apply in_map_iff in H as (r & <- & Hr). apply IH in Hr as [H1 H2]. apply in_seq in Hi.
      split; [cbn; now rewrite H1|]. intros [|k] Hk; cbn in *; [lia|]. apply H2. lia.
    + intros [H1 H2]. destruct ix as [|i r]; [discriminate|]. exists i. split; [apply in_seq; specialize (H2 0); cbn in H2; lia|].
      apply in_map, IH. split; [now injection H1|]. intros k Hk. apply (H2 (S k)). cbn. lia.
Qed.
Lemma indices_nodup sh : NoDup (indices sh).
Proof.
  induction sh as [|d sh IH]; cbn [indices]; [constructor; [auto|constructor]|].
  assert (H : forall l, NoDup l -> NoDup (flat_map (fun i : nat => map (cons i) (indices sh)) l)).
  { intros l. induction l as [|i l IHl]; cbn; intros ND; [constructor|]. inversion ND; subst. 
    assert (NI : forall r, In r (map (cons i) (indices sh)) -> ~ In r (flat_map (fun i0 : nat => map (cons i0) (indices sh)) l)).
    { intros r Hr Hr'. apply in_map_iff in Hr as (r1 & <- & _). apply in_flat_map in Hr' as (j & Hj & Hr'). apply in_map_iff in Hr' as (r2 & E & _). congruence. }
    revert NI. generalize (IHl H2). generalize (flat_map (fun i0 : nat => map (cons i0) (indices sh)) l). intros m Hm.
    assert (ND1 : NoDup (map (cons i) (indices sh))) by (apply FinFun.Injective_map_NoDup; [intros a b E; now injection E|exact IH]).
    induction ND1 as [|r m1 Hr ND1 IH1]; intros NI; [exact Hm|]. cbn. constructor; [|apply IH1; intros; apply NI; now right].
    intros Hin. apply in_app_or in Hin as [Hin|Hin]; [tauto|]. apply (NI r); [now left|exact Hin]. }
  apply H, seq_NoDup.
Qed.
Lemma indices_length sh : length (indices sh) = slots sh.
Proof.
  induction sh as [|d sh IH]; [reflexivity|]. cbn [indices]. unfold slots. cbn [fold_right]. fold (slots sh). rewrite <- IH. clear IH.
  assert (H : forall l : list nat, length (flat_map (fun i : nat => map (cons i) (indices sh)) l) = length l * length (indices sh)).
  { induction l as [|a l IH]; [auto|]. cbn. rewrite app_length, map_length, IH. reflexivity. }
  now rewrite H, seq_length.
Qed.

Section General.
Context {N : Num}.
Hypotheses (HL : NumLaws) (HI : inf_laws).
Lemma fmin_bad x y : (fnan x = true \/ x = fninf) \/ (fnan y = true \/ y = fninf) -> fnan (fmin x y) = true \/ fmin x y = fninf.
Proof.
  intros H. unfold fmin. destruct (fnan x) eqn:Ex; [auto|]. destruct (fnan y) eqn:Ey; [auto|].
  destruct (x <=.? y) eqn:E.
  - destruct H as [[H|H]|[H|H]]; try discriminate; auto. right. apply (il_below HI). now rewrite <- H.
  - pose proof (nl_le_total HL _ _ Ex Ey E) as E'. destruct H as [[H|H]|[H|H]]; try discriminate; auto. right. apply (il_below HI). now rewrite <- H.
Qed.
Lemma fmax_bad x y : (fnan x = true \/ x = fneg fninf) \/ (fnan y = true \/ y = fneg fninf) -> fnan (fmax x y) = true \/ fmax x y = fneg fninf.
Proof.
  intros H. unfold fmax. destruct (fnan x) eqn:Ex; [auto|]. destruct (fnan y) eqn:Ey; [auto|].
  destruct (x <=.? y) eqn:E.
  - destruct H as [[H|H]|[H|H]]; try discriminate; auto. right. apply (il_above HI). now rewrite <- H.
  - pose proof (nl_le_total HL _ _ Ex Ey E) as E'. destruct H as [[H|H]|[H|H]]; try discriminate; auto. right. apply (il_above HI). now rewrite <- H.
Qed.
Lemma amin_bad l x : (exists y, In y (x :: l) /\ (fnan y = true \/ y = fninf)) -> fnan (amin x l) = true \/ amin x l = fninf.
Proof.
  unfold amin. revert x. induction l as [|z l IH]; intros x (y & Hy & H); [destruct Hy as [<-|[]]; exact H|]. cbn [fold_left]. apply IH.
  destruct Hy as [->|[->|Hy]]; [exists (fmin y z)|exists (fmin x y)|exists y; split; [now right|exact H]]; (split; [now left|apply fmin_bad; auto]).
Qed.
Lemma amax_bad l x : (exists y, In y (x :: l) /\ (fnan y = true \/ y = fneg fninf)) -> fnan (amax x l) = true \/ amax x l = fneg fninf.
Proof.
  unfold amax. revert x. induction l as [|z l IH]; intros x (y & Hy & H); [destruct Hy as [<-|[]]; exact H|]. cbn [fold_left]. apply IH.
  destruct Hy as [->|[->|Hy]]; [exists (fmax y z)|exists (fmax x y)|exists y; split; [now right|exact H]]; (split; [now left|apply fmax_bad; auto]).
Qed.
Lemma not_finite x : fnan x = true \/ x = fninf \/ x = fneg fninf -> ffinite x = false.
Proof. intros H. destruct (ffinite x) eqn:E; [|reflexivity]. apply (nl_finite HL) in E as (E1 & E2 & E3). destruct H as [H|[H|H]]; congruence. Qed.
Lemma bad_edges l : (exists y, In y l /\ ffinite y = false) -> outer_edges l = Raise ValueError.
Proof.
  destruct l as [|x l]; intros (y & Hy & H); [destruct Hy|]. unfold outer_edges.
  assert (ffinite (amin x l) && ffinite (amax x l) = false) as ->; [|reflexivity]. apply andb_false_iff.
  destruct (il_kinds HI _ H) as [H'|[H'|H']].
  - left. apply not_finite. destruct (amin_bad l x) as [A|A]; eauto.
  - left. apply not_finite. destruct (amin_bad l x) as [A|A]; eauto.
  - right. apply not_finite. destruct (amax_bad l x) as [A|A]; eauto.
Qed.
Lemma bad_distribution trunc b n ix : valid_index (ashape (b_data b)) ix -> ffinite (aget (b_data b) ix) = false ->
  get_distribution trunc b n = Raise ValueError.
Proof.
  intros Hx Hf. unfold get_distribution. destruct (n =? 0); [reflexivity|]. rewrite bad_edges; [reflexivity|].
  exists (aget (b_data b) ix). split; [|exact Hf]. apply in_map. now apply indices_valid.
Qed.
End General.
Lemma no_bins {N : Num} trunc b : get_distribution trunc b 0 = Raise ValueError.
Proof. reflexivity. Qed.
Lemma no_slots {N : Num} trunc b n : 0 < n -> slots (ashape (b_data b)) = 0 ->
  exists e, get_distribution trunc b n = Ok (repeat 0 n, e).
Proof.
  intros Hn H. unfold get_distribution. destruct (Nat.eqb_spec n 0); [lia|].
  assert (flatten (b_data b) = []) as ->. { unfold flatten. rewrite <- indices_length in H. apply length_zero_iff_nil in H. now rewrite H. }
  eexists. cbn [outer_edges rbind map]. f_equal. f_equal. unfold bincount. cbn.
  assert (A : forall s, map (fun _ => 0) (seq s n) = repeat 0 n) by (clear; induction n; intros s; cbn; [auto|now rewrite IHn]). apply A.
Qed.
