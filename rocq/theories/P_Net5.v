(** Proofs of C59: initial parameters of networks and the random streams they come from. *)
From Coq Require Import Lia List.
From Verif Require Import Prelude Num M_Core M_Kernels M_Strategies M_Flow M_Net P_Lists Spec_Kernels Spec_Keys Spec_NetKeys P_Keys P_Adam.
Local Open Scope nat_scope.

Section Params.
Context {N : Num} {G : Rng}.
Variable li : nat -> nat -> key -> bool -> linear.
Notation key_of k i := (iter i (fun q => split q 3 0) k).
Definition hidden_layer scale bias a b q : linear :=
  mkLinear (map (map (fun x => x *. fsqrt (scale /. fofZ (Z.of_nat a)))%num) (reshape_rows b a (normal (split q 3 2) (b * a)))) (ln_b (li a b (split q 3 1) bias)).
Lemma hidden_unfold scale bias a b c (r : list nat) k :
  mlp_hidden li scale bias (a :: b :: c :: r) k =
  (hidden_layer scale bias a b k :: fst (mlp_hidden li scale bias (b :: c :: r) (split k 3 0)), snd (mlp_hidden li scale bias (b :: c :: r) (split k 3 0))).
Proof.
  change (mlp_hidden li scale bias (a :: b :: c :: r) k) with
   (let '(ls, kf) := mlp_hidden li scale bias (b :: c :: r) (split k 3 0) in (hidden_layer scale bias a b k :: ls, kf)).
  destruct (mlp_hidden li scale bias (b :: c :: r) (split k 3 0)). reflexivity.
Qed.
Lemma hidden_params scale bias : forall shape k,
  length (fst (mlp_hidden li scale bias shape k)) = length shape - 2 /\
  snd (mlp_hidden li scale bias shape k) = key_of k (length shape - 2) /\
  forall i a b, S (S i) < length shape -> nth_error shape i = Some a -> nth_error shape (S i) = Some b ->
    nth_error (fst (mlp_hidden li scale bias shape k)) i = Some (hidden_layer scale bias a b (key_of k i)).
Proof.
  induction shape as [|a shape IH]; intros k; [cbn; repeat split; intros; lia|].
  destruct shape as [|b [|c shape]]; [cbn; repeat split; intros; lia..|].
  rewrite hidden_unfold. cbn [fst snd]. destruct (IH (split k 3 0)) as (L & K & H). split; [cbn [length] in * ; lia|]. split.
  - rewrite K. replace (length (a :: b :: c :: shape) - 2) with (S (length (b :: c :: shape) - 2)) by (cbn; lia). reflexivity.
  - intros [|i] a' b' Hi Ha Hb.
    + cbn in Ha, Hb |- * . injection Ha as <-. injection Hb as <-. reflexivity.
    + cbn [nth_error]. apply (H i); auto. cbn [length] in * . lia.
Qed.
Lemma new_params shape k scale act bias m : mlp_new li shape k scale act bias = Ok m ->
  exists a b, 2 <= length shape /\ nth_error shape (length shape - 2) = Some a /\ nth_error shape (length shape - 1) = Some b /\
  m = mkMlp (fst (mlp_hidden li scale bias shape k)) (li a b (split (key_of k (length shape - 2)) 2 1) bias) act.
Proof.
  unfold mlp_new. destruct (rev shape) as [|b [|a r]] eqn:E; try discriminate. intros Hm.
  assert (S : shape = (rev r ++ [a; b])%list). { rewrite <- (rev_involutive shape), E. cbn [rev]. now rewrite <- app_assoc. }
  destruct (hidden_params scale bias shape k) as (_ & K & _).
  destruct (mlp_hidden li scale bias shape k) as [hs kf]. cbn [fst snd] in * . injection Hm as <-. exists a, b.
  assert (L : length shape = length (rev r) + 2) by (rewrite S, app_length; cbn; lia). split; [lia|].
  rewrite <- K. replace (length shape - 2) with (length (rev r)) by lia. replace (length shape - 1) with (length (rev r) + 1) by lia.
  rewrite S. rewrite !nth_error_app2 by lia. replace (length (rev r) - length (rev r)) with 0 by lia. replace (length (rev r) + 1 - length (rev r)) with 1 by lia. auto.
Qed.
Lemma mlp_parameters_proof : normal_shape -> forall shape k scale act bias m, mlp_new li shape k scale act bias = Ok m ->
  length (ml_hidden m) = length shape - 2 /\
  (forall i a b, S (S i) < length shape -> nth_error shape i = Some a -> nth_error shape (S i) = Some b ->
   exists l, nth_error (ml_hidden m) i = Some l /\ ln_b l = ln_b (li a b (split (key_of k i) 3 1) bias) /\ length (ln_w l) = b /\
   forall r c, r < b -> c < a ->
     nth c (nth r (ln_w l) []) f0 = (nth (r * a + c) (normal (split (key_of k i) 3 2) (b * a)) f0 *. fsqrt (scale /. fofZ (Z.of_nat a)))%num) /\
  (forall a b, nth_error shape (length shape - 2) = Some a -> nth_error shape (length shape - 1) = Some b ->
   ml_last m = li a b (split (key_of k (length shape - 2)) 2 1) bias).
Proof.
  intros Hno shape k scale act bias m Hm. destruct (new_params _ _ _ _ _ _ Hm) as (a & b & L & Ha & Hb & ->). cbn [ml_hidden ml_last].
  destruct (hidden_params scale bias shape k) as (Lh & _ & Hh). split; auto. split.
  - intros i a' b' Hi Ha' Hb'. exists (hidden_layer scale bias a' b' (key_of k i)). split; [auto|]. cbn [hidden_layer ln_w ln_b]. split; auto.
    split; [now rewrite map_length, reshape_rows_length|]. intros r c Hr Hc.
    rewrite (nth_map' (map (fun x => x *. fsqrt (scale /. fofZ (Z.of_nat a')))%num) _ r [] []) by (rewrite reshape_rows_length; auto).
    assert (Lr : length (nth r (reshape_rows b' a' (normal (split (key_of k i) 3 2) (b' * a'))) []) = a').
    { unfold reshape_rows. rewrite nth_map_seq by auto. cbn [Nat.add]. rewrite slice_length, Hno. assert (r * a' + a' <= b' * a') by nia. lia. }
    rewrite (nth_map' (fun x => (x *. fsqrt (scale /. fofZ (Z.of_nat a')))%num) _ c f0 f0) by lia.
    f_equal. rewrite nth_reshape_rows by auto. apply nth_slice. lia.
  - intros a' b' Ha' Hb'. rewrite Ha in Ha'. rewrite Hb in Hb'. injection Ha' as <-. injection Hb' as <-. reflexivity.
Qed.
End Params.

Section Streams.
Context {N : Num}.
Lemma concat_map_app2 {A B} (f g : A -> B) l : forall x, In x (concat (map (fun i => [f i; g i]) l)) <-> exists i, In i l /\ (x = f i \/ x = g i).
Proof.
  intros x. induction l as [|a l IH]; cbn.
  - split; [intros []|intros (i & [] & _)].
  - rewrite IH. split.
    + intros [<-|[<-|(i & Hi & H)]]; eauto.
    + intros (i & [<-|Hi] & H); [destruct H; auto|right; right; eauto].
Qed.
Lemma stream_in h k p : In p (mlp_streams h k) <-> (exists i, i < h /\ (p = 1 :: repeat 0 i ++ k \/ p = 2 :: repeat 0 i ++ k)) \/ p = 1 :: repeat 0 h ++ k.
Proof.
  unfold mlp_streams. rewrite in_app_iff, concat_map_app2. split.
  - intros [(i & Hi & H)|[<-|[]]]; auto. left. exists i. apply in_seq in Hi. split; [lia|auto].
  - intros [(i & Hi & H)| ->]; [left; exists i; split; [apply in_seq; lia|auto]|right; now left].
Qed.
Lemma zeros_apart (a b i j : nat) (k : path) : a <> 0 -> i < j -> apart (a :: repeat 0 i ++ k) (b :: repeat 0 j ++ k).
Proof.
  intros Ha Hij. assert (E : repeat 0 j ++ k = (repeat 0 (j - i - 1) ++ 0 :: (repeat 0 i ++ k))%list).
  { replace j with ((j - i - 1) + S i) at 1 by lia. rewrite repeat_app, <- app_assoc. reflexivity. }
  apply (apart_below (a :: repeat 0 i ++ k) (0 :: repeat 0 i ++ k)); [now apply apart_siblings|apply below_refl|].
  exists (b :: repeat 0 (j - i - 1)). rewrite E. reflexivity.
Qed.
Lemma mlp_apart : forall h k a, all_apart (concat (map (fun i => [1 :: repeat 0 i ++ k; 2 :: repeat 0 i ++ k]) (seq a h)) ++ [1 :: repeat 0 (a + h) ++ k])%list.
Proof.
  induction h as [|h IH]; intros k a; cbn [seq map concat app].
  - rewrite Nat.add_0_r. constructor; [intros ? []|constructor].
  - specialize (IH k (S a)). replace (S a + h) with (a + S h) in IH by lia.
    assert (Q : forall c x, c <> 0 -> In x (concat (map (fun i => [1 :: repeat 0 i ++ k; 2 :: repeat 0 i ++ k]) (seq (S a) h)) ++ [1 :: repeat 0 (a + S h) ++ k])%list -> apart (c :: repeat 0 a ++ k) x).
    { intros c x Hc Hin. apply in_app_iff in Hin as [Hin|[<-|[]]].
      - apply concat_map_app2 in Hin as (i & Hi & [->| ->]); apply in_seq in Hi; apply zeros_apart; lia.
      - apply zeros_apart; lia. }
    constructor.
    + intros x [<-|Hin]; [now apply apart_siblings|now apply Q].
    + constructor; [|exact IH]. intros x Hin. now apply Q.
Qed.
Lemma mlp_streams_ok h k : all_apart (mlp_streams h k) /\ forall p, In p (mlp_streams h k) -> below k p.
Proof.
  split; [exact (mlp_apart h k 0)|]. intros p Hp. apply stream_in in Hp as [(i & _ & [->| ->])| ->]; apply below_cons_r, repeat0_below.
Qed.
Lemma concat_apart (f : nat -> list path) k : (forall i, all_apart (f i) /\ forall p, In p (f i) -> below (i :: k) p) -> forall L a,
  all_apart (concat (map f (seq a L))) /\ forall p, In p (concat (map f (seq a L))) -> exists i, a <= i /\ below (i :: k) p.
Proof.
  intros Hf. induction L as [|L IH]; intros a; cbn [seq map concat].
  - split; [constructor|intros p []].
  - destruct (IH (S a)) as [A B]. destruct (Hf a) as [A1 B1]. split.
    + apply all_apart_app; auto. intros p q Hp Hq. destruct (B q Hq) as (i & Hi & Hb).
      apply (apart_below (a :: k) (i :: k)); auto. apply apart_siblings. lia.
    + intros p Hp. apply in_app_iff in Hp as [Hp|Hp]; [exists a; auto|]. destruct (B p Hp) as (i & Hi & Hb). exists i. split; [lia|auto].
Qed.
Lemma streams_proof : (forall h k, all_apart (mlp_streams h k) /\ forall p, In p (mlp_streams h k) -> below k p) /\
  (forall L k, all_apart (realnvp_streams L k) /\ forall p, In p (realnvp_streams L k) -> below k p) /\
  (forall L h k, all_apart (rqs_streams L h k) /\ forall p, In p (rqs_streams L h k) -> below k p).
Proof.
  split; [exact mlp_streams_ok|split].
  - intros L k. destruct (concat_apart (fun i => mlp_streams 1 (1 :: i :: k) ++ mlp_streams 1 (2 :: i :: k))%list k) with (L := L) (a := 0) as [A B].
    + intros i. destruct (mlp_streams_ok 1 (1 :: i :: k)) as [A1 B1]. destruct (mlp_streams_ok 1 (2 :: i :: k)) as [A2 B2]. split.
      * apply all_apart_app; auto. intros p q Hp Hq. apply (apart_below (1 :: i :: k) (2 :: i :: k)); auto. now apply apart_siblings.
      * intros p Hp. apply in_app_iff in Hp as [Hp|Hp]; [apply B1 in Hp|apply B2 in Hp]; now apply below_cons' in Hp.
    + split; [exact A|]. intros p Hp. destruct (B p Hp) as (i & _ & Hb). now apply below_cons' in Hb.
  - intros L h k. destruct (concat_apart (fun i => mlp_streams h (i :: k)) k) with (L := L) (a := 0) as [A B].
    + intros i. apply mlp_streams_ok.
    + split; [exact A|]. intros p Hp. destruct (B p Hp) as (i & _ & Hb). now apply below_cons' in Hb.
Qed.
Variable li : tape -> nat -> nat -> path -> bool -> linear.
Hypothesis Hli : forall a b q bias, reads (below q) (fun t => li t a b q bias).
Lemma iter_path i : forall k : path, iter i (fun q => 0 :: q) k = repeat 0 i ++ k.
Proof. induction i as [|i IH]; intros k; [reflexivity|]. rewrite iter_succ_r, IH. reflexivity. Qed.
Lemma list_eq_error {A} (l1 l2 : list A) : (forall i, nth_error l1 i = nth_error l2 i) -> l1 = l2.
Proof.
  revert l2. induction l1 as [|a l1 IH]; intros [|b l2] H; auto; try (specialize (H 0); discriminate).
  pose proof (H 0) as H0. injection H0 as ->. f_equal. apply IH. intros i. exact (H (S i)).
Qed.
Lemma hidden_reads scale bias : forall (shape : list nat) (k : path) t t', same_draws (fun p => exists q, In q (mlp_streams (length shape - 2) k) /\ below q p) t t' ->
  @mlp_hidden N (tape_rng t) (li t) scale bias shape k = @mlp_hidden N (tape_rng t') (li t') scale bias shape k.
Proof.
  induction shape as [|a shape IH]; intros k t t' H; [reflexivity|]. destruct shape as [|b [|c shape]]; [reflexivity..|].
  pose proof (@hidden_unfold N (tape_rng t) (li t) scale bias a b c shape k) as E1.
  pose proof (@hidden_unfold N (tape_rng t') (li t') scale bias a b c shape k) as E2.
  etransitivity; [exact E1|]. etransitivity; [|symmetry; exact E2].
  assert (IH' : @mlp_hidden N (tape_rng t) (li t) scale bias (b :: c :: shape) (0 :: k) = @mlp_hidden N (tape_rng t') (li t') scale bias (b :: c :: shape) (0 :: k)).
  { apply IH. apply (same_weaken _ _ _ _ H). intros p (q & Hq & Hb). exists q. split; auto.
    replace (length (a :: b :: c :: shape) - 2) with (S (length (b :: c :: shape) - 2)) by (cbn; lia).
    apply stream_in. apply stream_in in Hq as [(i & Hi & Hq)| ->].
    - left. exists (S i). split; [lia|]. rewrite !repeat_snoc. exact Hq.
    - right. now rewrite repeat_snoc. }
  assert (H1 : li t a b (1 :: k) bias = li t' a b (1 :: k) bias).
  { apply (Hli a b (1 :: k) bias t t'). apply (same_weaken _ _ _ _ H). intros p Hp. exists (1 :: k). split; auto. apply stream_in. left. exists 0. cbn. split; [lia|auto]. }
  assert (H2 : t_normal t (2 :: k) = t_normal t' (2 :: k)).
  { apply (H (2 :: k)). exists (2 :: k). split; [|apply below_refl]. apply stream_in. left. exists 0. cbn. split; [lia|auto]. }
  assert (HL : @hidden_layer N (tape_rng t) (li t) scale bias a b k = @hidden_layer N (tape_rng t') (li t') scale bias a b k).
  { unfold hidden_layer. cbn [normal split tape_rng]. rewrite H1, H2. reflexivity. }
  exact (f_equal2 (fun l h => (l :: fst h, snd h)) HL IH').
Qed.
Lemma mlp_reads shape (k : path) scale act bias :
  reads (fun p => exists q, In q (mlp_streams (length shape - 2) k) /\ below q p) (fun t => @mlp_new N (tape_rng t) (li t) shape k scale act bias).
Proof.
  intros t t' H. unfold mlp_new. destruct (rev shape) as [|b [|a r]] eqn:E; auto.
  pose proof (hidden_reads scale bias shape k t t' H) as Eh.
  pose proof (proj1 (proj2 (@hidden_params N (tape_rng t') (li t') scale bias shape k))) as K.
  destruct (@mlp_hidden N (tape_rng t') (li t') scale bias shape k) as [hs kf].
  etransitivity; [exact (f_equal (fun h : list linear * path => let '(hs, kf) := h in Ok (mkMlp hs (li t a b (1 :: kf) bias) act)) Eh)|].
  cbn [snd] in K. apply (f_equal (fun l => Ok (mkMlp hs l act))). apply (Hli a b (1 :: kf) bias t t').
  apply (same_weaken _ _ _ _ H). intros p Hp. exists (1 :: kf). split; auto. apply stream_in. right. f_equal. etransitivity; [exact K|]. apply iter_path.
Qed.
Lemma flow_reads {A} (mk : tape -> nat -> path -> res A) (f : path -> list path) L (k : path) :
  (forall i q, reads (fun p => exists s, In s (f q) /\ below s p) (fun t => mk t i q)) ->
  reads (fun p => exists s, In s (concat (map (fun i => f (i :: k)) (seq 0 L))) /\ below s p) (fun t => @per_layer N (tape_rng t) A (mk t) L k).
Proof.
  intros Hm t t' H. unfold per_layer. apply rmapM_ext. intros i Hi. apply (Hm i (i :: k) t t'). apply (same_weaken _ _ _ _ H).
  intros p (s & Hs & Hb). exists s. split; auto. apply in_concat. exists (f (i :: k)). split; auto. apply in_map_iff. eauto.
Qed.
Lemma realnvp_reads n L h (k : path) :
  reads (fun p => exists q, In q (realnvp_streams L k) /\ below q p) (fun t => @realnvp_new N (tape_rng t) (li t) n L h k).
Proof.
  intros t t' H. unfold realnvp_new.
  pose proof (flow_reads (fun t => @realnvp_make_layer N (tape_rng t) (li t) n h) (fun q => mlp_streams 1 (1 :: q) ++ mlp_streams 1 (2 :: q))%list L k) as R.
  assert (E : @per_layer N (tape_rng t) layer (@realnvp_make_layer N (tape_rng t) (li t) n h) L k = @per_layer N (tape_rng t') layer (@realnvp_make_layer N (tape_rng t') (li t') n h) L k).
  { apply R; [|exact H]. intros i q t1 t2 H12. unfold realnvp_make_layer.
    pose proof (mlp_reads [n; h; n] (1 :: q) (f1 /. fofZ 10000)%num relu true t1 t2) as R1.
    pose proof (mlp_reads [n; h; n] (2 :: q) (f1 /. fofZ 10000)%num relu true t1 t2) as R2.
    cbn [length Nat.sub] in R1, R2. cbn beta in R1, R2.
    assert (S1 : same_draws (fun p => exists q0, In q0 (mlp_streams 1 (1 :: q)) /\ below q0 p) t1 t2).
    { apply (same_weaken _ _ _ _ H12). intros p (s & Hs & Hb). exists s. rewrite in_app_iff. auto. }
    assert (S2 : same_draws (fun p => exists q0, In q0 (mlp_streams 1 (2 :: q)) /\ below q0 p) t1 t2).
    { apply (same_weaken _ _ _ _ H12). intros p (s & Hs & Hb). exists s. rewrite in_app_iff. auto. }
    specialize (R1 S1). specialize (R2 S2).
    exact (f_equal2 (fun rs rt => rbind rs (fun s => rbind rt (fun tt => Ok (coupling_layer (mkCoupling (realnvp_mask n i) (mlp_affine (mlp_call s) (mlp_call tt) f1)))))) R1 R2). }
  exact (f_equal (fun r => rbind r (fun ls => Ok (mkFlow n ls (repeat f0 n) (repeat f1 n)))) E).
Qed.
Lemma rqs_reads n L bins hidden lo hi (k : path) :
  reads (fun p => exists q, In q (rqs_streams L (length hidden) k) /\ below q p) (fun t => @rqs_new N (tape_rng t) (li t) n L bins hidden lo hi k).
Proof.
  intros t t' H. unfold rqs_new.
  pose proof (flow_reads (fun t => @rqs_make_layer N (tape_rng t) (li t) n bins hidden lo hi) (fun q => mlp_streams (length hidden) q) L k) as R.
  assert (E : @per_layer N (tape_rng t) rqs_layer (@rqs_make_layer N (tape_rng t) (li t) n bins hidden lo hi) L k = @per_layer N (tape_rng t') rqs_layer (@rqs_make_layer N (tape_rng t') (li t') n bins hidden lo hi) L k).
  { apply R; [|exact H]. intros i q t1 t2 H12. unfold rqs_make_layer.
    pose proof (mlp_reads (n :: hidden ++ [n * (bins * 3 + 1)]) q (f1 /. fofZ 100)%num ftanh true t1 t2) as R1. cbn beta in R1.
    replace (length (n :: hidden ++ [n * (bins * 3 + 1)]) - 2) with (length hidden) in R1 by (cbn [length]; rewrite app_length; cbn; lia).
    specialize (R1 H12).
    exact (f_equal (fun rs => rbind rs (fun m => Ok (make_rqs_layer n i f0 f0 (rqspline_new (n * (bins * 3 + 1)) n lo hi (mlp_call m))))) R1). }
  exact (f_equal (fun r => rbind r (fun ls => Ok (mkFlow n (map rqs_model_layer ls) (repeat f0 n) (repeat f1 n)))) E).
Qed.
End Streams.
