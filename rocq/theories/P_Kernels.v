(** Lemmas about kernels and scans: shapes (for C08), recorded densities (C11), the accept/reject
    contract (C13), impossible proposals (C14), flow proposals (C22-C24). *)
From Verif Require Import Prelude Num M_Core M_Kernels M_Strategies Spec Spec_Core Spec_Steps
  Spec_Kernels P_Lists.

Section K.
Context {N : Num} {G : Rng}.

Lemma vadd_length u v : length (vadd u v) = Nat.min (length u) (length v).
Proof. apply map2_length. Qed.
Lemma vsub_length u v : length (vsub u v) = Nat.min (length u) (length v).
Proof. apply map2_length. Qed.
Lemma vmul_length u v : length (vmul u v) = Nat.min (length u) (length v).
Proof. apply map2_length. Qed.
Lemma vscale_length a v : length (vscale a v) = length v.
Proof. apply map_length. Qed.
Lemma vneg_length v : length (vneg v) = length v.
Proof. apply map_length. Qed.

Lemma nth_vadd u v i : i < length u -> i < length v -> nth i (vadd u v) f0 = nth i u f0 +. nth i v f0.
Proof. apply nth_map2. Qed.
Lemma nth_vsub u v i : i < length u -> i < length v -> nth i (vsub u v) f0 = nth i u f0 -. nth i v f0.
Proof. apply nth_map2. Qed.
Lemma nth_vmul u v i : i < length u -> i < length v -> nth i (vmul u v) f0 = nth i u f0 *. nth i v f0.
Proof. apply nth_map2. Qed.
Lemma nth_vscale a v i : i < length v -> nth i (vscale a v) f0 = a *. nth i v f0.
Proof. intros. unfold vscale. now rewrite (nth_map' _ v i f0). Qed.

(* ------------------------------------------------------------------ random walk *)
Lemma grw_move_spec ss z m : grw_move ss z = Ok m ->
  length m = length z /\ forall i, i < length z -> nth i m f0 = nth i z f0 *. step_of ss i.
Proof.
  unfold grw_move. destruct ss as [s|v|v]; intros H.
  - injection H as <-. rewrite map_length. split; auto. intros. now rewrite (nth_map' _ z i f0).
  - destruct (length v =? length z) eqn:E; [|discriminate]. apply Nat.eqb_eq in E. injection H as <-.
    split. { rewrite vmul_length. lia. } intros i Hi. rewrite nth_vmul by lia. reflexivity.
  - discriminate.
Qed.

Lemma grw_contract ss k x lp f d o :
  grw_kernel ss k x lp f d = Ok o ->
  exists y,
    (normal_shape -> length y = length x /\
     forall i, i < length x ->
       nth i y f0 = nth i x f0 +. nth i (normal (split k 2 0) (length x)) f0 *. step_of ss i) /\
    s_acc o = (fln (uniform (split k 2 1)) <.? (lp_val f y d -. lp)) /\
    (s_acc o = true -> s_pos o = y /\ s_lp o = lp_val f y d) /\
    (s_acc o = false -> s_pos o = x /\ s_lp o = lp).
Proof.
  unfold grw_kernel. intros H.
  destruct (grw_move ss (normal (split k 2 0) (length x))) as [mv|e] eqn:E; [|discriminate]. cbn [rbind] in H.
  injection H as <-. exists (vadd x mv). apply grw_move_spec in E as [E1 E2].
  split.
  { intros Hn. rewrite Hn in * . rewrite vadd_length. split; [lia|]. intros i Hi. rewrite nth_vadd by lia. rewrite E2 by lia. auto. }
  unfold s_acc, s_pos, s_lp, mh_accept; cbn [fst snd]. split; [reflexivity|].
  destruct (fln (uniform (split k 2 1)) <.? (lp_val f (vadd x mv) d -. lp)); split; intros; auto; discriminate.
Qed.

(** The random walk raises exactly on step sizes it cannot broadcast. *)
Lemma grw_ok ss k x lp f d : normal_shape ->
  (exists o, grw_kernel ss k x lp f d = Ok o) <->
  match ss with SScalar _ => True | SVec v => length v = length x | SDiag _ => False end.
Proof.
  intros Hn. unfold grw_kernel, grw_move. rewrite Hn. destruct ss as [s|v|v]; cbn [rbind].
  - split; eauto.
  - destruct (length v =? length x) eqn:E; cbn [rbind].
    + apply Nat.eqb_eq in E. split; eauto.
    + apply Nat.eqb_neq in E. split; [intros [o H]; discriminate|tauto].
  - split; [intros [o H]; discriminate|tauto].
Qed.

(* ------------------------------------------------------------------ MALA *)
Definition mala_ok_step (ss : stepsize) (n : nat) : Prop :=
  match ss with SScalar _ => True | SVec _ => False | SDiag v => length v = n end.

Lemma ss_dot_length ss v : mala_ok_step ss (length v) -> length (ss_dot ss v) = length v.
Proof. destruct ss; simpl; intros H; try tauto. - apply vscale_length. - rewrite vmul_length. lia. Qed.
Lemma ss_sq_ok ss n : mala_ok_step ss n -> mala_ok_step (ss_sq ss) n.
Proof. destruct ss; simpl; auto. rewrite vmul_length. lia. Qed.
Lemma nth_ss_dot ss v i : mala_ok_step ss (length v) -> i < length v ->
  nth i (ss_dot ss v) f0 = step_of ss i *. nth i v f0.
Proof. destruct ss; simpl; intros H Hi; try tauto. - now apply nth_vscale. - rewrite nth_vmul by lia. auto. Qed.
Lemma step_of_sq ss i n : mala_ok_step ss n -> i < n -> step_of (ss_sq ss) i = step_of ss i *. step_of ss i.
Proof. destruct ss; simpl; intros; auto; try tauto. rewrite nth_vmul by lia. auto. Qed.

Lemma mala_mean_spec ss x g : mala_ok_step ss (length x) -> length g = length x ->
  length (mala_mean ss x g) = length x /\
  forall i, i < length x ->
    nth i (mala_mean ss x g) f0 = nth i x f0 +. (step_of ss i *. step_of ss i *. nth i g f0) /. f2.
Proof.
  intros H Hg. unfold mala_mean.
  assert (L : length (ss_dot (ss_sq ss) g) = length x).
  { rewrite ss_dot_length; auto. rewrite Hg. now apply ss_sq_ok. }
  rewrite vadd_length, map_length, L. split; [lia|]. intros i Hi.
  rewrite nth_vadd by (rewrite ?map_length; lia). f_equal.
  rewrite (nth_map' _ _ i f0) by lia. rewrite nth_ss_dot; [|rewrite Hg; now apply ss_sq_ok|lia].
  rewrite (step_of_sq ss i (length x)); auto.
Qed.

Lemma mala_contract ss k x lp f d o :
  mala_kernel ss k x lp f d = Ok o ->
  exists y r,
    mala_ok_step ss (length x) /\
    (normal_shape -> grad_shape f d (length x) -> length y = length x /\
     forall i, i < length x ->
       nth i y f0 = (nth i x f0 +. (step_of ss i *. step_of ss i *. nth i (lp_grad f x d) f0) /. f2)
                    +. step_of ss i *. nth i (normal (split k 2 0) (length x)) f0) /\
    mala_ratio ss f d x y = Ok r /\
    s_acc o = (fln (uniform (split k 2 1)) <.? r) /\
    (s_acc o = true -> s_pos o = y /\ s_lp o = lp_val f y d) /\
    (s_acc o = false -> s_pos o = x /\ s_lp o = lp_val f x d).
Proof.
  unfold mala_kernel. intros H.
  assert (Hok : mala_ok_step ss (length x)).
  { destruct ss; simpl in *; auto; try discriminate. destruct (length v =? length x) eqn:E; simpl in H; [|discriminate].
    now apply Nat.eqb_eq in E. }
  assert (H' : (let proposal := mala_propose ss x (lp_grad f x d) (normal (split k 2 0) (length x)) in
    let* ratio := mala_ratio ss f d x proposal in
    let acc := mh_accept (split k 2 1) ratio in
    Ok (if acc then proposal else x, if acc then lp_val f proposal d else lp_val f x d, acc)) = Ok o).
  { destruct ss; simpl in Hok; try tauto; auto. rewrite Hok in H. rewrite Nat.eqb_refl in H. exact H. }
  clear H. cbv zeta in H'. set (y := mala_propose ss x (lp_grad f x d) (normal (split k 2 0) (length x))) in * .
  destruct (mala_ratio ss f d x y) as [r|e] eqn:E; [|discriminate]. cbn [rbind] in H'. injection H' as <-.
  exists y, r. split; [auto|]. split.
  { intros Hn Hg. destruct (mala_mean_spec ss x (lp_grad f x d) Hok (Hg x eq_refl)) as [L1 L2].
    assert (L3 : length (ss_dot ss (normal (split k 2 0) (length x))) = length x).
    { rewrite ss_dot_length; auto. now rewrite Hn. }
    unfold y, mala_propose. rewrite vadd_length, L1, L3. split; [lia|]. intros i Hi.
    rewrite nth_vadd by lia. rewrite L2 by auto. rewrite nth_ss_dot; rewrite ?Hn; auto. }
  split; [auto|]. unfold s_acc, s_pos, s_lp, mh_accept; cbn [fst snd]. split; [reflexivity|].
  destruct (fln (uniform (split k 2 1)) <.? r); split; intros; auto; discriminate.
Qed.

(** MALA raises exactly when the step size is a 1-D array or a matrix of another size. *)
Lemma mala_ok ss k x lp f d : normal_shape -> grad_shape f d (length x) ->
  (exists o, mala_kernel ss k x lp f d = Ok o) <-> mala_ok_step ss (length x).
Proof.
  intros Hn Hg. split.
  - intros [o H]. now apply mala_contract in H as (y & r & H & _).
  - intros Hok. unfold mala_kernel.
    set (y := mala_propose ss x (lp_grad f x d) (normal (split k 2 0) (length x))) in * .
    assert (Ly : length y = length x).
    { unfold y, mala_propose. rewrite vadd_length.
      destruct (mala_mean_spec ss x (lp_grad f x d) Hok (Hg x eq_refl)) as [-> _].
      rewrite ss_dot_length; rewrite ?Hn; auto. lia. }
    assert (exists r, mala_ratio ss f d x y = Ok r) as [r Hr].
    { unfold mala_ratio.
      assert (Q : forall a b, length b = length x -> exists r, mvn_logpdf a b (ss_sq ss) = Ok r).
      { intros a b Hb. unfold mvn_logpdf. destruct ss; simpl in *; try tauto; eauto.
        rewrite vmul_length, Hok, Nat.min_id, Hb, Nat.eqb_refl. eauto. }
      destruct (Q y (mala_mean ss x (lp_grad f x d))) as [a ->]. { now apply mala_mean_spec; auto. }
      destruct (Q x (mala_mean ss y (lp_grad f y d))) as [b ->].
      { rewrite <- Ly. apply mala_mean_spec; rewrite ?Ly; auto. }
      cbn [rbind]. eauto. }
    destruct ss; simpl in Hok; try tauto.
    + cbn [negb]. rewrite Hr. cbn [rbind]. eauto.
    + rewrite Hok, Nat.eqb_refl. cbn [negb]. rewrite Hr. cbn [rbind]. eauto.
Qed.

(* ------------------------------------------------------------------ HMC *)
Lemma hmc_contract h k x lp f d o :
  hmc_kernel h k x lp f d = Ok o ->
  exists m, h_cond h = CMat m /\
    let p := hmc_momentum h (normal (split k 2 0) (length x)) in
    let q' := fst (leapfrog h m f d (x, p)) in
    let p' := snd (leapfrog h m f d (x, p)) in
    s_acc o = (fln (uniform (split k 2 1)) <.?
               ((fneg lp +. kinetic p m) -. (fneg (lp_val f q' d) +. kinetic p' m))) /\
    (s_acc o = true -> s_pos o = q' /\ s_lp o = fneg (fneg (lp_val f q' d))) /\
    (s_acc o = false -> s_pos o = x /\ s_lp o = lp).
Proof.
  unfold hmc_kernel. intros H. destruct (h_cond h) as [c|m]; [discriminate|].
  destruct (square m (length x)); [|discriminate]. exists m. split; [reflexivity|]. cbv zeta.
  injection H as <-. unfold s_acc, s_pos, s_lp, mh_accept, hmc_ratio; cbn [fst snd].
  split; [reflexivity|].
  match goal with |- context [if ?b then _ else _] => destruct b end; split; intros; auto; discriminate.
Qed.

Lemma hmc_scalar_raises h c k x lp f d : h_cond h = CScalar c -> hmc_kernel h k x lp f d = Raise ValueError.
Proof. intros H. unfold hmc_kernel. now rewrite H. Qed.

Lemma kinetic_grad_length p m : length (kinetic_grad p m) = length p.
Proof. unfold kinetic_grad. now rewrite map_length, seq_length. Qed.

Lemma leapfrog_length h m f d n q p : grad_shape f d n -> length q = n -> length p = n ->
  length (fst (leapfrog h m f d (q, p))) = n /\ length (snd (leapfrog h m f d (q, p))) = n.
Proof.
  intros Hg. unfold leapfrog. generalize (leapfrog_coefs (h_leap h)) as cs.
  intros cs. revert q p; induction cs as [|c cs IH]; intros q p Hq Hp; simpl; auto.
  apply IH.
  - rewrite vadd_length, vscale_length, kinetic_grad_length. simpl. lia.
  - rewrite vsub_length, vscale_length, vneg_length, Hg; simpl; [lia|].
    rewrite vadd_length, vscale_length, kinetic_grad_length. lia.
Qed.

(* ------------------------------------------------------------------ shapes *)
(** A kernel whose outputs keep the dimension. *)
Definition kernel_shape (kern : skernel) (f : lpdf) (d : datad) (dim : nat) : Prop :=
  forall q x lp o, length x = dim -> kern q x lp f d = Ok o -> length (s_pos o) = dim.

Lemma grw_shape ss f d dim : normal_shape -> kernel_shape (grw_kernel ss) f d dim.
Proof.
  intros Hn q x lp o Hx H. destruct (grw_contract _ _ _ _ _ _ _ H) as (y & Hy & _ & A & B).
  destruct (s_acc o); [destruct (A eq_refl) as [-> _]|destruct (B eq_refl) as [-> _]]; auto.
  destruct (Hy Hn). congruence.
Qed.
Lemma mala_shape ss f d dim : normal_shape -> grad_shape f d dim -> kernel_shape (mala_kernel ss) f d dim.
Proof.
  intros Hn Hg q x lp o Hx H. destruct (mala_contract _ _ _ _ _ _ _ H) as (y & r & _ & Hy & _ & _ & A & B).
  destruct (s_acc o); [destruct (A eq_refl) as [-> _]|destruct (B eq_refl) as [-> _]]; auto.
  subst dim. now destruct (Hy Hn Hg).
Qed.
Lemma hmc_shape h f d dim : grad_shape f d dim -> length (h_chol h) = dim -> kernel_shape (hmc_kernel h) f d dim.
Proof.
  intros Hg Hc q x lp o Hx H. destruct (hmc_contract _ _ _ _ _ _ _ H) as (m & Hm & _ & A & B).
  destruct (s_acc o); [destruct (A eq_refl) as [-> _]|destruct (B eq_refl) as [-> _]]; auto.
  apply leapfrog_length; auto. unfold hmc_momentum. now rewrite map_length.
Qed.

Lemma serial_scan_length kern f d n : forall k x lp co, serial_scan kern f d n k x lp = Ok co -> length co = n.
Proof.
  induction n as [|n IH]; intros k x lp co H; simpl in H.
  - injection H as <-. auto.
  - destruct (kern (split k 2 1) x lp f d) as [[[x1 l1] a1]|e]; [|discriminate]. cbn [rbind] in H.
    destruct (serial_scan kern f d n (split k 2 0) x1 l1) as [rest|e] eqn:E; [|discriminate].
    cbn [rbind] in H. injection H as <-. simpl. f_equal. eauto.
Qed.

(** Invariants of a scan. *)
Lemma serial_scan_inv (P : vec -> F -> Prop) kern f d :
  (forall q x lp o, P x lp -> kern q x lp f d = Ok o -> P (s_pos o) (s_lp o)) ->
  forall n k x lp co, P x lp -> serial_scan kern f d n k x lp = Ok co ->
  forall o, In o co -> P (s_pos o) (s_lp o).
Proof.
  intros HP n. induction n as [|n IH]; intros k x lp co H0 H o Ho; simpl in H.
  - injection H as <-. destruct Ho.
  - destruct (kern (split k 2 1) x lp f d) as [[[x1 l1] a1]|e] eqn:E1; [|discriminate]. cbn [rbind] in H.
    destruct (serial_scan kern f d n (split k 2 0) x1 l1) as [rest|e] eqn:E; [|discriminate].
    cbn [rbind] in H. injection H as <-.
    assert (P x1 l1) by exact (HP _ _ _ _ H0 E1).
    destruct Ho as [<-|Ho]; auto. eapply IH; eauto.
Qed.

(** Each step of a scan is a kernel call from the previous step's output. *)
Definition prev {A} (a : A) (l : list A) (i : nat) : A := match i with O => a | S j => nth j l a end.
Lemma serial_scan_steps kern f d n : forall k x lp co,
  serial_scan kern f d n k x lp = Ok co ->
  forall i, i < n ->
    let '(xp, lpp, _) := prev (x, lp, false) co i in
    kern (scan_key k i) xp lpp f d = Ok (nth i co (x, lp, false)).
Proof.
  induction n as [|n IH]; intros k x lp co H i Hi; simpl in H; [lia|].
  destruct (kern (split k 2 1) x lp f d) as [[[x1 l1] a1]|e] eqn:E1; [|discriminate]. cbn [rbind] in H.
  destruct (serial_scan kern f d n (split k 2 0) x1 l1) as [rest|e] eqn:E; [|discriminate].
  cbn [rbind] in H. injection H as <-. pose proof (serial_scan_length _ _ _ _ _ _ _ _ E) as L.
  destruct i as [|i]; simpl prev; [exact E1|].
  assert (Hi' : i < n) by lia. specialize (IH _ _ _ _ E i Hi').
  assert (A : nth i rest (x, lp, false) = nth i rest (x1, l1, false)) by (apply nth_indep; lia).
  destruct i as [|i]; simpl prev in * .
  - cbn [nth]. rewrite <- A in IH. exact IH.
  - change (nth (S i) ((x1, l1, a1) :: rest) (x, lp, false)) with (nth i rest (x, lp, false)).
    assert (A2 : nth i rest (x, lp, false) = nth i rest (x1, l1, false)) by (apply nth_indep; lia).
    rewrite A2. destruct (nth i rest (x1, l1, false)) as [[xp lpp] ap]. 
    change (nth (S (S i)) ((x1, l1, a1) :: rest) (x, lp, false)) with (nth (S i) rest (x, lp, false)). rewrite A. exact IH.
Qed.

Context {NF : NFOps}.

Lemma as_density r f : density_of r f -> as_lpdf r = Some f.
Proof. intros [(l & -> & ->)|(t & -> & ->)]; reflexivity. Qed.

Lemma samp_serial_shape kf lpr f d n dim :
  density_of lpr f -> kernel_shape kf f d dim ->
  sampler_shape (samp_serial (RSer kf) lpr d) n dim (fun x => length x = dim).
Proof.
  intros Hf HS q x co Hx H. unfold samp_serial in H. rewrite (as_density _ _ Hf) in H.
  split. { eapply serial_scan_length; eauto. }
  intros o Ho.
  assert (L : length (s_pos o) = dim).
  { eapply (serial_scan_inv (fun x _ => length x = dim)); [|exact Hx|exact H|exact Ho]. intros; eapply HS; eauto. }
  auto.
Qed.

(* ------------------------------------------------------------------ flow proposals *)
Lemma flow_batches_length m k nb ns : length (flow_batches m k nb ns) = nb.
Proof. revert k; induction nb as [|nb IH]; intros k; simpl; auto. Qed.

Lemma flow_batches_Forall m k nb ns dim : samples_shape m dim ->
  Forall (fun r => length r = ns /\ Forall (fun x => length x = dim) r) (flow_batches m k nb ns).
Proof.
  intros HS. revert k; induction nb as [|nb IH]; intros k; simpl; constructor; auto.
  destruct (HS (split k 2 1) ns) as [L1 L2]. split; auto. apply Forall_forall. auto.
Qed.

Lemma concat_length_uniform {A} (ls : list (list A)) n : Forall (fun r => length r = n) ls -> length (concat ls) = length ls * n.
Proof. induction 1; simpl; auto. rewrite app_length. lia. Qed.

Lemma flow_batches_nth m k nb ns i : i < nb ->
  nth i (flow_batches m k nb ns) [] = m_sample m (scan_key k i) ns.
Proof.
  revert k i; induction nb as [|nb IH]; intros k i Hi; [lia|]. destruct i; simpl; auto. rewrite IH by lia. reflexivity.
Qed.

Lemma flow_plan bs n : 0 < bs < n -> let nb := cdiv n bs in let ns := cdiv n nb in
  0 < ns <= bs /\ n <= nb * ns.
Proof.
  intros H nb ns. assert (0 < nb) by (apply cdiv_pos; lia). 
  assert (n <= nb * bs) by (apply cdiv_mul_ge; lia).
  assert (0 < ns) by (apply cdiv_pos; lia).
  assert (ns <= bs) by (apply cdiv_le; lia).
  split; [lia|]. unfold ns. rewrite Nat.mul_comm. apply cdiv_mul_ge. auto.
Qed.


(** What sample_flow returns: the draws, in order, of consecutive model.sample calls, none of
    them larger than the batch size. *)
Lemma sample_flow_spec p k n dim props nfs :
  samples_shape (nfp_model p) dim ->
  sample_flow p k n = Ok (props, nfs) ->
  length props = n /\ nfs = map (m_logp (nfp_model p)) props /\
  (forall x, In x props -> length x = dim) /\
  exists (calls : list (key * nat)),
    (forall q s, In (q, s) calls -> s <= nfp_bs p) /\
    props = firstn n (concat (map (fun c => m_sample (nfp_model p) (fst c) (snd c)) calls)) /\
    n <= list_sum (map snd calls) /\
    (n <= nfp_bs p -> calls = [(k, n)]) /\
    (nfp_bs p < n -> forall i, i < length calls -> fst (nth i calls (k, 0)) = scan_key k i).
Proof.
  intros HS H. unfold sample_flow in H. destruct (nfp_bs p <? n) eqn:E.
  - apply Nat.ltb_lt in E. destruct (nfp_bs p =? 0) eqn:E0; [discriminate|]. apply Nat.eqb_neq in E0.
    set (nb := cdiv n (nfp_bs p)) in * . set (ns := cdiv n nb) in * .
    destruct (flow_plan (nfp_bs p) n ltac:(lia)) as [HN HM]. fold nb in HN, HM. fold ns in HN, HM.
    injection H as <- <-.
    pose proof (flow_batches_Forall (nfp_model p) k nb ns dim HS) as FB.
    assert (LC : length (concat (flow_batches (nfp_model p) k nb ns)) = nb * ns).
    { rewrite (concat_length_uniform _ ns), flow_batches_length; auto. eapply Forall_impl; [|exact FB]. simpl; tauto. }
    split. { rewrite firstn_length, LC. lia. }
    split. { rewrite <- firstn_map. f_equal. symmetry. apply concat_map. }
    split.
    { intros x Hx. rewrite <- (firstn_skipn n (concat (flow_batches (nfp_model p) k nb ns))) in FB || idtac.
      assert (Hin : In x (concat (flow_batches (nfp_model p) k nb ns))).
      { rewrite <- (firstn_skipn n). apply in_or_app. now left. }
      apply in_concat in Hin as (r & Hr & Hxr). rewrite Forall_forall in FB. destruct (FB r Hr) as [_ F2].
      rewrite Forall_forall in F2. auto. }
    exists (map (fun i => (scan_key k i, ns)) (seq 0 nb)).
    split. { intros q s Hin. apply in_map_iff in Hin as (i & Hi & _). injection Hi as _ <-. lia. }
    split.
    { f_equal. f_equal. apply (list_eq_nth []). { rewrite !map_length, seq_length. apply flow_batches_length. }
      intros i Hi. rewrite flow_batches_length in Hi. rewrite flow_batches_nth by auto.
      rewrite map_map. now rewrite (nth_map_seq (fun x => m_sample (nfp_model p) (fst (scan_key k x, ns)) (snd (scan_key k x, ns)))) by auto. }
    split.
    { rewrite map_map. simpl. assert (Q : forall l : list nat, list_sum (map (fun _ => ns) l) = length l * ns) by (induction l; simpl; auto). rewrite Q, seq_length. auto. }
    split; [lia|]. intros _ i Hi. rewrite map_length, seq_length in Hi.
    rewrite (nth_map_seq (fun i => (scan_key k i, ns))) by auto. reflexivity.
  - apply Nat.ltb_ge in E. injection H as <- <-. destruct (HS k n) as [L1 L2].
    split; [auto|]. split; [auto|]. split; [auto|]. exists [(k, n)].
    split. { intros q s [Hq|[]]. injection Hq as _ <-. auto. }
    split. { simpl. rewrite app_nil_r. symmetry. apply firstn_all2. lia. }
    split. { simpl. lia. }
    split; [auto|lia].
Qed.

Lemma sample_flow_ok p k n : 0 < nfp_bs p \/ n = 0 -> exists o, sample_flow p k n = Ok o.
Proof.
  intros H. unfold sample_flow. destruct (nfp_bs p <? n) eqn:E; eauto.
  destruct (nfp_bs p =? 0) eqn:E0; eauto. apply Nat.ltb_lt in E. apply Nat.eqb_eq in E0. lia.
Qed.

Lemma batched_logpdf_spec bs n f props : 0 < bs -> length props = n ->
  batched_logpdf bs n f props = map f props.
Proof.
  intros Hb Hn. unfold batched_logpdf. destruct (bs <? n) eqn:E; auto. apply Nat.ltb_lt in E.
  rewrite Hn. set (nb := cdiv n bs). assert (0 < nb) by (apply cdiv_pos; lia).
  assert (H1 : (nb - 1) * bs < n). { apply cdiv_lt; fold nb; lia. }
  rewrite <- concat_map, concat_reshape_rows by (rewrite firstn_length; lia).
  rewrite (firstn_all2 (n := n - (nb - 1) * bs)) by (rewrite skipn_length; lia).
  rewrite <- map_app, firstn_skipn. reflexivity.
Qed.

(** The scan over proposals. *)
Lemma nfp_scan_length props : forall k x lp nf, length (nfp_scan k x lp nf props) = length props.
Proof. induction props as [|[[y ly] ny] r IH]; intros; simpl; auto. Qed.

Lemma nfp_scan_steps (lq : vec -> F) (props : list vec) (lps : list F) :
  length lps = length props -> forall k x lp i, i < length props ->
  let out := nfp_scan k x lp (lq x) (combine (combine props lps) (map lq props)) in
  let xp := s_pos (prev (x, lp, false) out i) in
  let lpp := s_lp (prev (x, lp, false) out i) in
  let y := nth i props [] in
  let o := nth i out (x, lp, false) in
  s_acc o = (fln (uniform (scan_key k i)) <.? ((nth i lps f0 -. lpp) -. (lq y -. lq xp))) /\
  (s_acc o = true -> s_pos o = y /\ s_lp o = nth i lps f0) /\
  (s_acc o = false -> s_pos o = xp /\ s_lp o = lpp).
Proof.
  revert lps. induction props as [|y0 props IH]; intros [|l0 lps] HL k x lp i Hi; simpl in HL, Hi; try lia.
  cbv zeta. destruct i as [|i].
  - simpl. unfold s_acc, s_pos, s_lp, mh_accept, nfp_ratio, scan_key; cbn [fst snd iter].
    split; [reflexivity|].
    match goal with |- context [if ?b then _ else _] => destruct b end; split; intros; auto; discriminate.
  - simpl combine. simpl map. simpl nfp_scan.
    set (acc := mh_accept (split k 2 1) (nfp_ratio l0 lp (lq y0) (lq x))).
    set (x1 := if acc then y0 else x). set (l1 := if acc then l0 else lp).
    replace (if acc then lq y0 else lq x) with (lq x1) by (unfold x1; destruct acc; auto).
    set (rest := nfp_scan (split k 2 0) x1 l1 (lq x1) (combine (combine props lps) (map lq props))).
    assert (Hi' : i < length props) by lia.
    specialize (IH lps ltac:(lia) (split k 2 0) x1 l1 i Hi'). cbv zeta in IH. fold rest in IH.
    assert (LR : length rest = length props).
    { unfold rest. rewrite nfp_scan_length, !combine_length, map_length. lia. }
    assert (P : s_pos (prev (x, lp, false) ((x1, l1, acc) :: rest) (S i)) = s_pos (prev (x1, l1, false) rest i) /\
                s_lp (prev (x, lp, false) ((x1, l1, acc) :: rest) (S i)) = s_lp (prev (x1, l1, false) rest i)).
    { destruct i; simpl; auto. rewrite (nth_indep rest (x, lp, false) (x1, l1, false)) by lia. auto. }
    destruct P as [-> ->].
    change (nth (S i) ((x1, l1, acc) :: rest) (x, lp, false)) with (nth i rest (x, lp, false)).
    rewrite (nth_indep rest (x, lp, false) (x1, l1, false)) by lia.
    change (nth (S i) (y0 :: props) []) with (nth i props []).
    change (nth (S i) (l0 :: lps) f0) with (nth i lps f0). exact IH.
Qed.

(** nfp_kernel in terms of its proposals. *)
Lemma nfp_kernel_spec p k x lp f d n co dim :
  samples_shape (nfp_model p) dim -> 0 < nfp_bs p ->
  dget d "n_steps" = Some (DInt (Z.of_nat n)) ->
  nfp_kernel p k x lp f d = Ok co ->
  exists props,
    sample_flow p (split k 2 1) n = Ok (props, map (m_logp (nfp_model p)) props) /\
    length props = n /\ length co = n /\ (forall y, In y props -> length y = dim) /\
    forall i, i < n ->
      let xp := s_pos (prev (x, lp, false) co i) in
      let lpp := s_lp (prev (x, lp, false) co i) in
      let y := nth i props [] in
      let o := nth i co (x, lp, false) in
      s_acc o = (fln (uniform (scan_key (split k 2 0) i)) <.?
                 ((lp_val f y d -. lpp) -. (m_logp (nfp_model p) y -. m_logp (nfp_model p) xp))) /\
      (s_acc o = true -> s_pos o = y /\ s_lp o = lp_val f y d) /\
      (s_acc o = false -> s_pos o = xp /\ s_lp o = lpp).
Proof.
  intros HS Hb Hd H. unfold nfp_kernel in H. rewrite Hd, Nat2Z.id in H.
  destruct (sample_flow p (split k 2 1) n) as [[props nfs]|e] eqn:E; [|discriminate]. cbn [rbind] in H.
  destruct (sample_flow_spec _ _ _ _ _ _ HS E) as (L & -> & HD & _).
  rewrite batched_logpdf_spec in H by auto.
  injection H as <-. exists props. split; [auto|]. split; [auto|].
  split. { rewrite nfp_scan_length, !combine_length, !map_length. lia. } split; [auto|].
  intros i Hi.
  pose proof (nfp_scan_steps (m_logp (nfp_model p)) props (map (fun x => lp_val f x d) props)
    ltac:(apply map_length) (split k 2 0) x lp i ltac:(lia)) as Q. cbv zeta in Q.
  rewrite (nth_map' (fun x => lp_val f x d) props i [] f0) in Q by lia. exact Q.
Qed.

Lemma nfp_inv (P : vec -> F -> Prop) p k x lp f d n co dim :
  samples_shape (nfp_model p) dim -> 0 < nfp_bs p ->
  dget d "n_steps" = Some (DInt (Z.of_nat n)) ->
  nfp_kernel p k x lp f d = Ok co -> P x lp ->
  (forall y ratio, length y = dim -> (exists xp lpp, P xp lpp /\
     ratio = ((lp_val f y d -. lpp) -. (m_logp (nfp_model p) y -. m_logp (nfp_model p) xp))) ->
     (exists u, (u <.? ratio) = true) -> P y (lp_val f y d)) ->
  forall o, In o co -> P (s_pos o) (s_lp o).
Proof.
  intros HS Hb Hd H H0 HP o Ho.
  destruct (nfp_kernel_spec _ _ _ _ _ _ _ _ _ HS Hb Hd H) as (props & _ & L1 & L2 & HD & HO).
  assert (Q : forall i, i < n -> P (s_pos (nth i co (x, lp, false))) (s_lp (nth i co (x, lp, false)))).
  { induction i as [|i IH]; intros Hi.
    - destruct (HO 0 Hi) as (A & B & C). simpl prev in * . destruct (s_acc (nth 0 co (x, lp, false))).
      + destruct (B eq_refl) as [-> ->]. eapply HP; [apply HD, nth_In; lia| |eauto]. exists x, lp. auto.
      + destruct (C eq_refl) as [-> ->]. auto.
    - specialize (IH ltac:(lia)). destruct (HO (S i) Hi) as (A & B & C). simpl prev in * .
      destruct (s_acc (nth (S i) co (x, lp, false))).
      + destruct (B eq_refl) as [-> ->]. eapply HP; [apply HD, nth_In; lia| |eauto]. eauto.
      + destruct (C eq_refl) as [-> ->]. auto. }
  destruct (In_nth _ _ (x, lp, false) Ho) as (i & Hi & <-). apply Q. lia.
Qed.

Lemma with_n_steps_get d n : dget (with_n_steps d n) "n_steps" = Some (DInt (Z.of_nat n)).
Proof. apply dget_dset_eq. Qed.

Lemma samp_group_shape p lpr f d n dim :
  density_of lpr f -> samples_shape (nfp_model p) dim -> 0 < nfp_bs p ->
  sampler_shape (samp_group (RNFP p) lpr d) n dim (fun x => length x = dim).
Proof.
  intros Hf HS Hb q x co Hx H. unfold samp_group in H. rewrite (as_density _ _ Hf) in H. unfold group_sample in H.
  destruct (nfp_kernel_spec _ _ _ _ _ _ _ _ _ HS Hb (with_n_steps_get d n) H) as (props & _ & _ & L & _ & _).
  split; [auto|]. intros o Ho. 
  assert (length (s_pos o) = dim).
  { eapply (nfp_inv (fun x _ => length x = dim)); eauto using with_n_steps_get. }
  auto.
Qed.

(* ------------------------------------------------------------------ C11 *)
Definition keeps_density (kern : skernel) (f : lpdf) (d : datad) : Prop :=
  forall q x lp o, lp = lp_val f x d -> kern q x lp f d = Ok o -> s_lp o = lp_val f (s_pos o) d.

Lemma grw_keeps ss f d : keeps_density (grw_kernel ss) f d.
Proof.
  intros q x lp o Hl H. destruct (grw_contract _ _ _ _ _ _ _ H) as (y & _ & _ & A & B).
  destruct (s_acc o); [destruct (A eq_refl) as [-> ->]|destruct (B eq_refl) as [-> ->]]; auto.
Qed.
Lemma mala_keeps ss f d : keeps_density (mala_kernel ss) f d.
Proof.
  intros q x lp o Hl H. destruct (mala_contract _ _ _ _ _ _ _ H) as (y & r & _ & _ & _ & _ & A & B).
  destruct (s_acc o); [destruct (A eq_refl) as [-> ->]|destruct (B eq_refl) as [-> ->]]; auto.
Qed.
Lemma hmc_keeps h f d : (forall v : F, fneg (fneg v) = v) -> keeps_density (hmc_kernel h) f d.
Proof.
  intros NL q x lp o Hl H. destruct (hmc_contract _ _ _ _ _ _ _ H) as (m & _ & _ & A & B).
  destruct (s_acc o); [destruct (A eq_refl) as [-> ->]|destruct (B eq_refl) as [-> ->]]; auto.
Qed.

Lemma serial_density kern f d n k x co :
  keeps_density kern f d -> serial_sample kern f d n k x = Ok co ->
  forall o, In o co -> s_lp o = lp_val f (s_pos o) d.
Proof.
  intros HK H o Ho. unfold serial_sample in H.
  eapply (serial_scan_inv (fun x lp => lp = lp_val f x d)); eauto.
Qed.

Lemma group_density p f d n k x co dim :
  samples_shape (nfp_model p) dim -> 0 < nfp_bs p -> ignores_n_steps f ->
  group_sample p f d n k x = Ok co ->
  forall o, In o co -> s_lp o = lp_val f (s_pos o) d.
Proof.
  intros HS Hb Hi H o Ho. unfold group_sample in H.
  eapply (nfp_inv (fun x lp => lp = lp_val f x d)) with (4 := H); eauto using with_n_steps_get.
Qed.

(* ------------------------------------------------------------------ C14 *)
Hypothesis NL : NumLaws.

Lemma not_lt_nan u v : fnan v = true -> (u <.? v) = false.
Proof. intros H. destruct (u <.? v) eqn:E; auto. apply (nl_lt_nan NL) in E as [_ E]. congruence. Qed.

Definition bad (v : F) : Prop := v = fninf \/ fnan v = true.
Lemma bad_lt u v : bad v -> (u <.? v) = false.
Proof. intros [->|H]; [apply (nl_lt_ninf NL)|now apply not_lt_nan]. Qed.
Lemma bad_sub v z : bad v -> bad (v -. z).
Proof. intros [->|H]; [destruct (nl_ninf_sub NL z); [left|right]; auto|right; apply (nl_nan_sub NL); auto]. Qed.
Lemma bad_add v z : bad v -> bad (v +. z).
Proof. intros [->|H]; [destruct (nl_ninf_add NL z); [left|right]; auto|right; apply (nl_nan_add NL); auto]. Qed.
Lemma impossible_bad v : impossible v <-> bad v.
Proof. unfold impossible, bad. tauto. Qed.

Lemma grw_possible ss k x lp f d o :
  grw_kernel ss k x lp f d = Ok o -> s_acc o = true -> ~ impossible (lp_val f (s_pos o) d).
Proof.
  intros H HA Hi. destruct (grw_contract _ _ _ _ _ _ _ H) as (y & _ & E & A & _).
  destruct (A HA) as [Ep _]. rewrite Ep in Hi. rewrite HA in E. symmetry in E.
  apply impossible_bad in Hi. rewrite bad_lt in E; [discriminate|]. now apply bad_sub.
Qed.

Lemma nfp_possible f (d : datad) (y : vec) u lp z :
  (u <.? ((lp_val f y d -. lp) -. z)) = true -> ~ impossible (lp_val f y d).
Proof. intros E Hi. apply impossible_bad in Hi. rewrite bad_lt in E; [discriminate|]. now apply bad_sub, bad_sub. Qed.

Lemma mala_possible ss k x lp f d o :
  mala_kernel ss k x lp f d = Ok o -> s_acc o = true -> ~ impossible (lp_val f (s_pos o) d).
Proof.
  intros H HA Hi. destruct (mala_contract _ _ _ _ _ _ _ H) as (y & r & _ & _ & Er & E & A & _).
  destruct (A HA) as [Ep _]. rewrite Ep in Hi. rewrite HA in E. symmetry in E.
  apply impossible_bad in Hi. rewrite bad_lt in E; [discriminate|].
  unfold mala_ratio in Er.
  destruct (mvn_logpdf y _ _) as [a|]; [|discriminate]. destruct (mvn_logpdf x _ _) as [b|]; [|discriminate].
  cbn [rbind] in Er. injection Er as <-. now apply bad_add, bad_sub, bad_sub.
Qed.

Lemma fsum_nan l : (exists v, In v l /\ fnan v = true) -> fnan (fsum l) = true.
Proof.
  intros (v & Hv & Hn). induction l as [|a l IH]; [destruct Hv|]. simpl. apply (nl_nan_add NL).
  destruct Hv as [->|Hv]; auto.
Qed.
Lemma vdot_self_nan v i : i < length v -> fnan (nth i v f0) = true -> fnan (vdot v v) = true.
Proof.
  intros Hi Hn. apply fsum_nan. exists (nth i (vmul v v) f0).
  split; [apply nth_In; rewrite vmul_length; lia|]. rewrite nth_vmul by auto. apply (nl_nan_mul NL). auto.
Qed.
Lemma mvn_nan x mean cov v i : mvn_logpdf x mean cov = Ok v -> length x = length mean -> i < length mean ->
  fnan (nth i mean f0) = true -> fnan v = true.
Proof.
  intros H HL Hi Hn.
  assert (Hy : fnan (nth i (vsub x mean) f0) = true) by (rewrite nth_vsub by lia; apply (nl_nan_sub NL); auto).
  assert (Hly : i < length (vsub x mean)) by (rewrite vsub_length; lia).
  unfold mvn_logpdf in H. destruct cov as [c|w|w]; [|discriminate|].
  - injection H as <-. apply (nl_nan_sub NL). left. apply (nl_nan_div NL). left. apply (nl_nan_mul NL). right.
    eapply vdot_self_nan; eauto.
  - destruct (length w =? length mean) eqn:E; [|discriminate]. apply Nat.eqb_eq in E. injection H as <-.
    apply (nl_nan_sub NL). left. apply (nl_nan_sub NL). left. apply (nl_nan_mul NL). right.
    apply (vdot_self_nan _ i).
    + rewrite map2_length, map_length. lia.
    + rewrite (nth_map2 _ _ _ i f0 f0) by (rewrite ?map_length; lia). apply (nl_nan_div NL). auto.
Qed.

(** A proposal at which the gradient has a NaN is rejected by MALA. *)
Lemma mala_gradient_nan ss k x lp f d o i :
  normal_shape -> grad_shape f d (length x) ->
  mala_kernel ss k x lp f d = Ok o -> s_acc o = true -> i < length x ->
  fnan (nth i (lp_grad f (s_pos o) d) f0) = false /\ fnan (nth i (lp_grad f x d) f0) = false.
Proof.
  intros Hns Hg H HA Hi. destruct (mala_contract _ _ _ _ _ _ _ H) as (y & r & Hok & Hy & Er & E & A & _).
  destruct (A HA) as [Ep _]. rewrite Ep. rewrite HA in E. symmetry in E. destruct (Hy Hns Hg) as [Ly _].
  unfold mala_ratio in Er.
  destruct (mvn_logpdf y _ _) as [a|] eqn:Ea; [|discriminate]. destruct (mvn_logpdf x _ _) as [b|] eqn:Eb; [|discriminate].
  cbn [rbind] in Er. injection Er as <-.
  assert (M : forall z, length z = length x -> fnan (nth i (lp_grad f z d) f0) = true ->
     fnan (nth i (mala_mean ss z (lp_grad f z d)) f0) = true).
  { intros z Hz Hn. destruct (mala_mean_spec ss z (lp_grad f z d)) as [_ Q].
    - now rewrite Hz.
    - rewrite Hg; auto.
    - rewrite Q by now rewrite Hz. apply (nl_nan_add NL). right. apply (nl_nan_div NL). left. apply (nl_nan_mul NL). auto. }
  split.
  - destruct (fnan (nth i (lp_grad f y d) f0)) eqn:En; auto. exfalso. apply M in En; auto.
    destruct (mala_mean_spec ss y (lp_grad f y d)) as [Lm _]; [rewrite Ly; auto|rewrite Hg; auto|].
    pose proof (mvn_nan _ _ _ _ i Eb ltac:(congruence) ltac:(lia) En) as Hb.
    rewrite not_lt_nan in E; [discriminate|]. apply (nl_nan_add NL). auto.
  - destruct (fnan (nth i (lp_grad f x d) f0)) eqn:En; auto. exfalso. apply M in En; auto.
    destruct (mala_mean_spec ss x (lp_grad f x d)) as [Lm _]; [auto|apply Hg; auto|].
    pose proof (mvn_nan _ _ _ _ i Ea ltac:(congruence) ltac:(lia) En) as Hb.
    rewrite not_lt_nan in E; [discriminate|]. apply (nl_nan_add NL). left. apply (nl_nan_sub NL). auto.
Qed.

Lemma hmc_possible h k x lp f d o :
  hmc_kernel h k x lp f d = Ok o -> s_acc o = true -> ~ impossible (lp_val f (s_pos o) d).
Proof.
  intros H HA Hi. destruct (hmc_contract _ _ _ _ _ _ _ H) as (m & _ & E & A & _).
  destruct (A HA) as [Ep _]. rewrite Ep in Hi. rewrite HA in E. symmetry in E. cbv zeta in Hi.
  destruct Hi as [Hi|Hi].
  - rewrite not_lt_nan in E; [discriminate|]. apply (nl_nan_sub NL). right. apply (nl_nan_add NL). left.
    rewrite (nl_nan_neg NL). auto.
  - rewrite Hi in E. rewrite bad_lt in E; [discriminate|].
    match goal with |- bad (?a -. (_ +. ?b)) => destruct (nl_pinf_add NL b) as [->|Q] end.
    + match goal with |- bad (?a -. _) => destruct (nl_sub_pinf NL a) as [->|Q] end; [left; auto|right; auto].
    + right. apply (nl_nan_sub NL). auto.
Qed.

(** HMC rejects whenever either total energy is NaN. *)
Lemma hmc_energy_nan h k x lp f d o m :
  hmc_kernel h k x lp f d = Ok o -> s_acc o = true -> h_cond h = CMat m ->
  let p := hmc_momentum h (normal (split k 2 0) (length x)) in
  let z := leapfrog h m f d (x, p) in
  fnan (fneg lp +. kinetic p m) = false /\ fnan (fneg (lp_val f (fst z) d) +. kinetic (snd z) m) = false.
Proof.
  intros H HA Hm. destruct (hmc_contract _ _ _ _ _ _ _ H) as (m' & Hm' & E & _). assert (m' = m) by congruence. subst m'.
  cbv zeta. rewrite HA in E. symmetry in E. apply (nl_lt_nan NL) in E as [_ E].
  split; match goal with |- ?a = false => destruct a eqn:Q; auto end; rewrite (nl_nan_sub NL) in E by auto; discriminate.
Qed.

(** Kernels that never accept impossible proposals. *)
Definition never_impossible (kern : skernel) (f : lpdf) (d : datad) : Prop :=
  forall q x lp o, kern q x lp f d = Ok o -> s_acc o = true -> ~ impossible (lp_val f (s_pos o) d).

Lemma serial_possible kern f d n k x co :
  keeps_density kern f d -> never_impossible kern f d ->
  (forall q x lp o, kern q x lp f d = Ok o -> s_acc o = false -> s_pos o = x) ->
  ~ impossible (lp_val f x d) -> serial_sample kern f d n k x = Ok co ->
  forall o, In o co -> ~ impossible (s_lp o) /\ s_lp o = lp_val f (s_pos o) d.
Proof.
  intros HK HN HR H0 H o Ho. unfold serial_sample in H.
  apply (serial_scan_inv (fun x lp => ~ impossible lp /\ lp = lp_val f x d) kern f d) with (3 := H); auto.
  intros q z lp o' (Hz & Hl) Ho'. pose proof (HK _ _ _ _ Hl Ho') as Hd. split; auto. rewrite Hd.
  destruct (s_acc o') eqn:Ea.
  - eapply HN; eauto.
  - rewrite (HR _ _ _ _ Ho' Ea). congruence.
Qed.

Lemma group_possible p f d n k x co dim :
  samples_shape (nfp_model p) dim -> 0 < nfp_bs p ->
  ~ impossible (lp_val f x d) -> group_sample p f d n k x = Ok co ->
  forall o, In o co -> ~ impossible (s_lp o).
Proof.
  intros HS Hb H0 H o Ho. unfold group_sample in H.
  eapply (nfp_inv (fun _ lp => ~ impossible lp)); eauto using with_n_steps_get.
  intros y ratio _ (xp & lpp & _ & ->) (u & Hu). eapply nfp_possible; eauto.
Qed.
End K.
