(** Proofs about buffers and states (C01, C02, C03, C48, C50). *)
From Verif Require Import Prelude Num M_Core P_Lists Spec_Core.

Section Buffers.
Context {N : Num}.

(** Index shifted by [s] along axis [ax]. *)
Definition shift_ix (ax s : nat) (ix : list nat) : list nat := set_nth ax (nth ax ix 0 + s) ix.

Lemma in_shape_length sh ix : in_shape sh ix = true -> length ix = length sh.
Proof. revert ix; induction sh as [|d sh IH]; intros [|i ix] H; simpl in *; try discriminate; auto.
  apply andb_prop in H as [_ H]. f_equal; auto. Qed.

Lemma in_window_iff st sh ix :
  length st = length sh ->
  in_window st sh ix = true <-> exists jx, in_shape sh jx = true /\ ix = map2 Nat.add jx st.
Proof.
  revert sh ix; induction st as [|s st IH]; intros [|d sh] ix Hl; simpl in Hl; try discriminate.
  - destruct ix; simpl; split; intros H; try discriminate.
    + exists []. auto. + auto.
    + destruct H as [jx [H1 H2]]. destruct jx; discriminate.
  - destruct ix as [|i ix].
    + simpl. split; [discriminate|]. intros [jx [H1 H2]]. destruct jx; simpl in *; discriminate.
    + simpl. rewrite !andb_true_iff, Nat.leb_le, Nat.ltb_lt, (IH sh ix) by lia. split.
      * intros [[H1 H2] [jx [H3 H4]]]. exists (i - s :: jx). simpl.
        rewrite H3. rewrite (proj2 (Nat.ltb_lt _ _)) by lia. split; auto. f_equal; [lia|auto].
      * intros [[|j jx] [H1 H2]]; simpl in *; try discriminate.
        apply andb_prop in H1 as [H1 H3]. apply Nat.ltb_lt in H1. injection H2 as -> ->.
        split; [lia|]. exists jx; auto.
Qed.

Lemma map2_sub_add jx st : length jx = length st -> map2 Nat.sub (map2 Nat.add jx st) st = jx.
Proof. revert st; induction jx as [|j jx IH]; intros [|s st] H; simpl in *; try discriminate; auto.
  f_equal; [lia|]. apply IH; lia. Qed.

Lemma map2_add_starts_gen jx o ax s :
  map2 Nat.add jx (map (fun k => if k =? ax then s else 0) (seq o (length jx)))
  = if (o <=? ax) then shift_ix (ax - o) s jx else jx.
Proof.
  revert o; induction jx as [|j jx IH]; intros o; simpl.
  - destruct (o <=? ax); auto. unfold shift_ix. destruct (ax - o); reflexivity.
  - rewrite IH. destruct (Nat.eqb_spec o ax) as [->|Hn].
    + rewrite (proj2 (Nat.leb_gt _ _)) by lia. rewrite Nat.leb_refl, Nat.sub_diag. reflexivity.
    + destruct (Nat.leb_spec o ax).
      * rewrite (proj2 (Nat.leb_le _ _)) by lia.
        replace (ax - o) with (S (ax - S o)) by lia. unfold shift_ix. simpl. f_equal; lia.
      * rewrite (proj2 (Nat.leb_gt _ _)) by lia. f_equal; lia.
Qed.

Lemma map2_add_starts jx ax start shop shup :
  length jx = length shop ->
  map2 Nat.add jx (starts ax start shop shup)
  = shift_ix ax (norm_start start (nth ax shop 0) (nth ax shup 0)) jx.
Proof.
  intros H. unfold starts. rewrite <- H.
  rewrite (map_ext_in _ (fun k => if k =? ax then norm_start start (nth ax shop 0) (nth ax shup 0) else 0)).
  - rewrite map2_add_starts_gen. simpl. now rewrite Nat.sub_0_r.
  - intros k _. destruct (Nat.eqb_spec k ax) as [->|]; auto.
Qed.

Lemma fits_forallb shop shup :
  length shup = length shop ->
  (forallb (fun p => snd p <=? fst p) (combine shop shup) = true <->
   forall k, k < length shup -> nth k shup 0 <= nth k shop 0).
Proof.
  revert shup; induction shop as [|d shop IH]; intros [|e shup] H; simpl in *; try discriminate.
  - split; [intros _ k Hk; lia | auto].
  - rewrite andb_true_iff, Nat.leb_le, (IH shup) by lia. split.
    + intros [H1 H2] [|k] Hk; [lia|]. apply H2; lia.
    + intros Hk. split; [apply (Hk 0); lia|]. intros k Hk'. apply (Hk (S k)); lia.
Qed.

(** General description of a successful update. *)
Lemma update_buffer_ok b u start :
  fits_shape b u ->
  exists b', update_buffer b u start = Ok b' /\
    ashape (b_data b') = ashape (b_data b) /\ b_name b' = b_name b /\
    b_cursor b' = b_cursor b /\ b_cursor_dim b' = b_cursor_dim b /\
    let ax := b_cursor_dim b in
    let s := norm_start start (nth ax (ashape (b_data b)) 0) (nth ax (ashape u) 0) in
    (forall jx, in_shape (ashape u) jx = true -> aget (b_data b') (shift_ix ax s jx) = aget u jx) /\
    (forall ix, (forall jx, in_shape (ashape u) jx = true -> ix <> shift_ix ax s jx) ->
       aget (b_data b') ix = aget (b_data b) ix).
Proof.
  intros (Hax & Hlen & Hdim). unfold update_buffer, dus_in_dim.
  rewrite (proj2 (Nat.leb_gt _ _)) by lia. rewrite <- Hlen, Nat.eqb_refl. simpl negb.
  rewrite (proj2 (fits_forallb _ _ Hlen) Hdim). simpl negb. cbv iota. cbn [rbind].
  set (st := starts _ _ _ _).
  assert (Hst : length st = length (ashape u)).
  { unfold st, starts. rewrite map_length, seq_length. auto. }
  eexists; split; [reflexivity|]. cbn [b_data ashape b_name b_cursor b_cursor_dim aget].
  repeat split; auto.
  - intros jx Hj. pose proof (in_shape_length _ _ Hj) as Hjl.
    rewrite <- (map2_add_starts jx _ start (ashape (b_data b)) (ashape u)) by lia. fold st.
    rewrite (proj2 (in_window_iff st (ashape u) _ Hst)) by (exists jx; auto).
    now rewrite map2_sub_add by lia.
  - intros ix Hix. destruct (in_window st (ashape u) ix) eqn:E; auto.
    apply in_window_iff in E as [jx [Hj ->]]; auto. exfalso.
    pose proof (in_shape_length _ _ Hj) as Hjl.
    apply (Hix jx Hj). unfold st. apply map2_add_starts. lia.
Qed.

Lemma update_buffer_bad b u start : ~ fits_shape b u -> exists e, update_buffer b u start = Raise e.
Proof.
  intros H. unfold update_buffer, dus_in_dim.
  destruct (Nat.leb_spec (length (ashape (b_data b))) (b_cursor_dim b)) as [|Hax].
  { exists IndexError; reflexivity. }
  destruct (Nat.eqb_spec (length (ashape (b_data b))) (length (ashape u))) as [Hl|Hl]; simpl.
  2: { exists TypeError; reflexivity. }
  destruct (forallb _ _) eqn:E; simpl.
  2: { exists TypeError; reflexivity. }
  exfalso. apply H. split; [auto|]. split; [auto|].
  apply fits_forallb; auto.
Qed.

Lemma update_buffer_fits b u start b' : update_buffer b u start = Ok b' -> fits_shape b u.
Proof.
  intros H. unfold update_buffer, dus_in_dim in H.
  destruct (Nat.leb_spec (length (ashape (b_data b))) (b_cursor_dim b)) as [|Hax]; [discriminate|].
  destruct (Nat.eqb_spec (length (ashape (b_data b))) (length (ashape u))) as [Hl|Hl]; [|discriminate].
  simpl in H. destruct (forallb _ _) eqn:E; simpl in H; [|discriminate].
  split; [auto|]. split; [auto|]. apply fits_forallb; auto.
Qed.

Lemma norm_start_fit start d l : (0 <= start)%Z -> (start + Z.of_nat l <= Z.of_nat d)%Z ->
  norm_start start d l = Z.to_nat start.
Proof. intros. unfold norm_start. destruct (Z.ltb_spec start 0); lia. Qed.

Lemma norm_start_over start d l : l <= d -> (Z.of_nat d < start + Z.of_nat l)%Z -> (0 <= start)%Z ->
  norm_start start d l = d - l.
Proof. intros. unfold norm_start. destruct (Z.ltb_spec start 0); lia. Qed.
End Buffers.
