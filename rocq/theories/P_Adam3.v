(** The strategy, and training. *)
From Coq Require Import Reals Psatz.
From Coquelicot Require Import Coquelicot.
From Verif Require Import Prelude Num M_Core M_Kernels M_Strategies M_PT M_Flow M_Net M_Model M_Tree P_Lists RNum Spec_Kernels Spec_PT Spec_Net Spec_Tree P_Real1 P_Decay P_PT P_PT2 P_PT3 P_PT5 P_Adam
  P_Tree1 P_Tree2 P_Tree3 P_Tree7 P_Tree8 M_Adam Spec_Adam P_Adam1 P_Adam2.
Open Scope R_scope.

Lemma clip_in (x lo hi : R) : lo <= hi -> lo <= @fclip RNum x lo hi <= hi.
Proof. intros H. rewrite fclip_R. unfold Rmin, Rmax. destruct (Rle_dec x lo); destruct (Rle_dec _ hi); lra. Qed.
Lemma clip_near (p u lo hi r : R) : lo <= p <= hi -> Rabs u <= r -> Rabs (@fclip RNum (p + u) lo hi - p) <= r.
Proof.
  intros H Hu. rewrite fclip_R. unfold Rmin, Rmax. apply Rabs_le. apply Rabs_le_between in Hu.
  destruct (Rle_dec (p + u) lo); destruct (Rle_dec _ hi); lra.
Qed.
Section Strat.
Context {G : @Rng RNum} {NF : @NFOps RNum G}.
Variables (f : @lpdf RNum) (lr noise : R) (bounds : @arr RNum) (d : @datad RNum) (n : nat).
Hypothesis GS : grad_shape f d n.
Notation A ns := (@adam_optimization RNum f ns lr noise bounds).
Lemma path_near ns k (x : list R) path j : @ascent_path RNum G (A ns) d k x path -> length x = n -> (j < n)%nat -> coord_in_box bounds j x ->
  forall i, (i <= ns)%nat -> length (nth i path []) = n /\ coord_in_box bounds j (nth i path []) /\
    Rabs (nth j (nth i path []) 0 - nth j x 0) <= INR i * (Rabs lr * reach (9 / 10)).
Proof.
  intros (Lp & P0 & st & S0 & Hs) Hx Hj Bx.
  assert (K : forall i, (i <= ns)%nat -> aframe (9 / 10) (st i) /\ length (nth i path []) = n /\ coord_in_box bounds j (nth i path []) /\
    Rabs (nth j (nth i path []) 0 - nth j x 0) <= INR i * (Rabs lr * reach (9 / 10))).
  { induction i as [|i IH]; intros Hi.
    - rewrite P0, S0. split; [apply init_frame|]. split; [exact Hx|]. split; [exact Bx|]. rewrite Rminus_eq_0, Rabs_R0. cbn [INR]. lra.
    - destruct (IH ltac:(lia)) as (F1 & L1 & B1 & D1). destruct (Hs i ltac:(cbn [ad_n_steps adam_optimization]; lia)) as (upd & Eu & Lu & Hv). cbn [ad_update adam_optimization ad_logpdf ad_noise ad_bounds] in Eu, Lu, Hv.
      match type of Eu with adam_update lr ?g _ _ = _ => set (gg := g) in Eu end.
      assert (Lg : length gg = n) by (exact (eq_trans (map_length _ _) (GS _ L1))).
      destruct (adam_update_frame lr gg (nth i path []) (st i) F1) as (F2 & L2 & U2). rewrite Eu in F2, L2, U2. cbn [fst snd] in F2, L2, U2.
      assert (Lm : Nat.min (length (nth i path [])) (length upd) = n) by (exact (eq_trans (f_equal2 Nat.min L1 (eq_trans L2 Lg)) (Nat.min_id n))).
      rewrite Lm in Lu, Hv. pose proof (Hv j Hj) as E. split; [exact F2|]. split; [exact Lu|].
      pose proof (clip_near (nth j (nth i path []) 0) (nth j upd 0) (bound bounds j 0) (bound bounds j 1) _ B1 (U2 j)) as N1.
      split.
      + unfold coord_in_box in * . pose proof (clip_in (nth j (nth i path []) 0 + nth j upd 0) _ _ (Rle_trans _ _ _ (proj1 B1) (proj2 B1))) as C.
        refine (eq_ind_r (fun v : R => bound bounds j 0 <= v <= bound bounds j 1) C E).
      + refine (rabs_eq _ (@fclip RNum (nth j (nth i path []) 0 + nth j upd 0) (bound bounds j 0) (bound bounds j 1) - nth j x 0) _ (f_equal (fun v : R => v - nth j x 0) E) _).
        rewrite S_INR. set (c := @fclip RNum _ _ _) in * . set (p := nth j (nth i path []) 0) in * . set (q := nth j x 0) in * . set (rr := Rabs lr * reach (9 / 10)) in * .
        replace (c - q) with ((c - p) + (p - q)) by ring. pose proof (Rabs_triang (c - p) (p - q)). lra. }
  intros i Hi. exact (proj2 (K i Hi)).
Qed.
Lemma adam_reach_proof ns k (xs : list (list R)) w k' ys w' : (forall x, In x xs -> length x = n) ->
  @adam_strategy RNum G _ (A ns) k xs d w = (Ok (k', ys), w') ->
  forall c j, (c < length xs)%nat -> (j < n)%nat -> coord_in_box bounds j (nth c xs []) ->
  coord_in_box bounds j (nth c ys []) /\ Rabs (nth j (nth c ys []) 0 - nth j (nth c xs []) 0) <= INR ns * (Rabs lr * reach (9 / 10)).
Proof.
  intros HX H c j Hc Hj B. destruct (C43_run_proof _ _ _ _ _ _ _ _ H) as (_ & _ & _ & P). destruct (P c Hc) as (path & AP & E).
  assert (Lx : length (nth c xs []) = n) by (apply HX, nth_In, Hc).
  destruct (path_near ns _ _ _ j AP Lx Hj B ns (Nat.le_refl ns)) as (_ & B2 & D2). cbn [ad_n_steps adam_optimization] in E.
  pose proof (eq_sym E) as E'. clear E. revert B2 D2. rewrite E'. auto.
Qed.
(** One step. *)
Lemma adam_one_proof k (xs : list (list R)) w k' ys w' : (forall x, In x xs -> length x = n) ->
  @adam_strategy RNum G _ (A 1) k xs d w = (Ok (k', ys), w') ->
  forall c j, (c < length xs)%nat -> (j < n)%nat ->
  let x := nth c xs [] in let s := nth j (lp_grad f x d) 0 * (1 + normal0 (split (split (split k 2 1) (length xs) c) 2 1) * noise) in
  nth j (nth c ys []) 0 = Rmin (Rmax (nth j x 0 + lr * (s / (Rabs s + 1 / 100000000))) (bound bounds j 0)) (bound bounds j 1).
Proof.
  intros HX H c j Hc Hj x s. destruct (C43_run_proof _ _ _ _ _ _ _ _ H) as (_ & _ & _ & P). destruct (P c Hc) as (path & (Lp & P0 & st & S0 & Hs) & E).
  assert (Lx : length x = n) by (apply HX, nth_In, Hc). cbn [ad_n_steps adam_optimization] in E, Hs.
  destruct (Hs 0%nat ltac:(lia)) as (upd & Eu & Lu & Hv). rewrite S0, P0 in Eu. rewrite P0 in Lu, Hv. cbn [ad_init ad_update adam_optimization ad_logpdf ad_noise ad_bounds iter] in Eu, Lu, Hv.
  fold x in Eu, Lu, Hv. match type of Eu with adam_update lr ?g _ _ = _ => set (gg := g) in Eu end.
  assert (Lg : length gg = n) by (exact (eq_trans (map_length _ _) (GS x Lx))).
  assert (Lgj : (j < length gg)%nat) by exact (eq_ind_r (fun m => (j < m)%nat) Hj Lg).
  pose proof (eq_trans (f_equal (fun o => @nth R j (fst o) 0) (eq_sym Eu)) (adam_first lr gg x j Lgj)) as U. cbn [fst] in U.
  assert (Lupd : length upd = n). { pose proof (proj1 (proj2 (adam_update_frame lr gg x (adamw_init x) (init_frame _ x)))) as L. exact (eq_trans (f_equal (fun o => length (fst o)) (eq_sym Eu)) (eq_trans L Lg)). }
  assert (Lm : Nat.min (length x) (length upd) = n) by (exact (eq_trans (f_equal2 Nat.min Lx Lupd) (Nat.min_id n))). pose proof (Hv j (eq_ind_r (fun m => (j < m)%nat) Hj Lm)) as V.
  rewrite E. refine (eq_trans V _). rewrite fclip_R.
  assert (Gj : nth j gg 0 = - s).
  { unfold gg. etransitivity; [exact (nth_map' (fun v : R => (@fmul RNum (fneg v) _)) (lp_grad f x d) j 0 0 (eq_ind_r (fun m => (j < m)%nat) Hj (GS x Lx)))|].
    unfold s. match goal with |- @eq _ ?u ?v => change (@eq R u v) end. cbn. ring. }
  assert (Al : forall a u v : R, v = - s -> u = - lr * (v / (Rabs v + 1 / 100000000)) -> a + u = a + lr * (s / (Rabs s + 1 / 100000000))).
  { intros a u v -> ->. rewrite Rabs_Ropp. unfold Rdiv. ring. }
  exact (f_equal (fun v => Rmin (Rmax v (bound bounds j 0)) (bound bounds j 1)) (Al (nth j x 0) _ _ Gj U)).
Qed.
End Strat.
(** A noise factor below 0 sends the first step downhill. *)
Lemma first_sign (lr x g c lo hi : R) : 0 < lr -> c < 0 -> g <> 0 -> lo <= x - lr -> x + lr <= hi ->
  (Rmin (Rmax (x + lr * (g * c / (Rabs (g * c) + 1 / 100000000))) lo) hi - x) * g < 0.
Proof.
  intros L C Gn H1 H2. set (s := g * c). set (q := s / (Rabs s + 1 / 100000000)).
  assert (P : 0 < Rabs s + 1 / 100000000) by (pose proof (Rabs_pos s); lra).
  assert (Q : Rabs q <= 1).
  { unfold q, Rdiv. rewrite Rabs_mult, (Rabs_right (/ _)) by (left; apply Rinv_0_lt_compat; exact P). apply (Rmult_le_reg_r (Rabs s + 1 / 100000000)); [exact P|].
    rewrite Rmult_assoc, Rinv_l by lra. lra. }
  apply Rabs_le_between in Q. rewrite Rmax_left by nra. rewrite Rmin_left by nra.
  replace ((x + lr * q - x) * g) with (lr * (/ (Rabs s + 1 / 100000000)) * (g * g * c)) by (unfold q, s; field; fold s; lra).
  assert (0 < g * g) by nra. assert (0 < lr * / (Rabs s + 1 / 100000000)) by (apply Rmult_lt_0_compat; [exact L|now apply Rinv_0_lt_compat]).
  assert (W : g * g * c < 0) by nra. pose proof (Rmult_lt_compat_l _ _ _ H0 W) as W2. rewrite Rmult_0_r in W2. exact W2.
Qed.
