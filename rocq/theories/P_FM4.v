(** Proofs for C52: the backward integration is the plain one together with the integral of the
    divergence; fields depending on time. *)
From Coq Require Import Reals Psatz.
From Coquelicot Require Import Coquelicot.
From Verif Require Import Prelude Num M_Core M_Kernels M_Strategies M_Flow M_Net M_FM P_Lists RNum MxR Spec_Jac P_Jac Spec_Real Spec_Flow P_Real1 P_Flow P_Flow4 Spec_FM P_FM.
Open Scope R_scope.

(* ------------------------------------------------------------------ appended scalar component *)
Section Couple.
Variables (tab : @tableau RNum) (n : nat) (f : R -> list R -> list R) (g : R -> list R -> R) (dir : R).
Hypothesis Hf : forall t x, length x = n -> length (f t x) = n.
Let fg (t : R) (y : list R) : list R := f t (firstn n y) ++ [g t (firstn n y)].
Lemma firstn_app1 (x : list R) (s : R) : length x = n -> firstn n (x ++ [s]) = x.
Proof. intros H. clear -H. subst n. rewrite firstn_app, Nat.sub_diag, firstn_O, app_nil_r. apply firstn_all. Qed.
Lemma lincomb_app (a : list R) (ks : list (list R)) (gs : list R) : length gs = length ks -> (forall k, In k ks -> length k = n) ->
  @lincomb RNum (S n) a (map2 (fun k s => k ++ [s]) ks gs) = @lincomb RNum n a ks ++ [@fsum RNum (map2 Rmult a gs)].
Proof.
  intros Lg Hk. unfold lincomb. rewrite seq_S, map_app. f_equal.
  - apply map_ext_in. intros j Hj. apply in_seq in Hj. f_equal. revert gs Lg a. induction ks as [|k ks IH]; intros [|s gs] Lg [|x a]; try discriminate; auto.
    cbn [map2]. f_equal; [|apply IH; auto; intros; apply Hk; now right]. rewrite app_nth1; [reflexivity|]. rewrite Hk by now left. lia.
  - cbn [map]. f_equal. f_equal. revert gs Lg a. induction ks as [|k ks IH]; intros [|s gs] Lg [|x a]; try discriminate; auto.
    cbn [map2]. f_equal; [|apply IH; auto; intros; apply Hk; now right]. rewrite app_nth2 by (rewrite Hk by (now left); cbn; lia).
    rewrite Hk by now left. rewrite Nat.add_0_l, Nat.sub_diag. reflexivity.
Qed.
Lemma vadd_app1 (x u : list R) (s v : R) : length u = length x -> @vadd RNum (x ++ [s]) (u ++ [v]) = @vadd RNum x u ++ [s + v].
Proof.
  revert u. induction x as [|a x IH]; intros [|b u] L; try discriminate; [reflexivity|].
  change (@vadd RNum ((a :: x) ++ [s]) ((b :: u) ++ [v])) with ((a + b) :: @vadd RNum (x ++ [s]) (u ++ [v])). rewrite IH by (cbn in L; lia). reflexivity.
Qed.
Lemma vscale_app1 (c : R) (u : list R) (v : R) : @vscale RNum c (u ++ [v]) = @vscale RNum c u ++ [c * v].
Proof. unfold vscale. now rewrite map_app. Qed.
Lemma lincomb_len k (a : list R) ks : length (@lincomb RNum k a ks) = k.
Proof. unfold lincomb. now rewrite map_length, seq_length. Qed.
Lemma stages_couple (t h : R) (x : list R) (s : R) : length x = n ->
  exists gs, length gs = length (@rk_stages RNum tab f dir t h x) /\
    (forall k, In k (@rk_stages RNum tab f dir t h x) -> length k = n) /\
    @rk_stages RNum tab fg dir t h (x ++ [s]) = map2 (fun k v => k ++ [v]) (@rk_stages RNum tab f dir t h x) gs /\
    ((forall t x, length x = n -> g t x = g 0 x) -> True) /\
    (forall tau, (forall t x, length x = n -> g t x = tau) -> gs = repeat tau (length gs)).
Proof.
  intros Lx. unfold rk_stages.
  assert (H : forall sts ks gs, length gs = length ks -> (forall k, In k ks -> length k = n) -> (forall tau, (forall t x, length x = n -> g t x = tau) -> gs = repeat tau (length gs)) ->
    let ks' := fold_left (fun ks st => ks ++ [f (dir *. (t +. fst st *. h)) (vadd x (vscale (dir *. h) (lincomb (length x) (snd st) ks)))]) sts ks in
    exists gs', length gs' = length ks' /\ (forall k, In k ks' -> length k = n) /\
    fold_left (fun ks st => ks ++ [fg (dir *. (t +. fst st *. h)) (vadd (x ++ [s]) (vscale (dir *. h) (lincomb (length (x ++ [s])) (snd st) ks)))]) sts (map2 (fun k v => k ++ [v]) ks gs)
      = map2 (fun k v => k ++ [v]) ks' gs' /\
    (forall tau, (forall t x, length x = n -> g t x = tau) -> gs' = repeat tau (length gs'))).
  { induction sts as [|st sts IH]; intros ks gs Lg Hk Ht; cbn [fold_left]; cbv zeta.
    - exists gs. auto.
    - set (z := @vadd RNum x (vscale (dir *. h) (lincomb (length x) (snd st) ks))).
      assert (Lz : length z = n) by (unfold z; rlen; rewrite lincomb_len; rnorm; lia).
      destruct (IH (ks ++ [f (dir *. (t +. fst st *. h)) z]) (gs ++ [g (dir *. (t +. fst st *. h)) z])) as (gs' & H1 & H2 & H3 & H4).
      + rewrite !app_length. rnorm. cbn [length]. lia.
      + intros k Hin. apply in_app_or in Hin as [Hin|[<-|[]]]; auto.
      + intros tau Htau. rewrite app_length, repeat_app. cbn. rewrite (Htau _ _ Lz). f_equal. auto.
      + exists gs'. split; [exact H1|]. split; [exact H2|]. split; [|exact H4].
        rewrite <- H3. f_equal. clear - Lg Hk Lx Lz Hf.
        assert (E : forall u v : list (list R), forall a b : list R, forall c d : R, length u = length a -> map2 (fun k v => k ++ [v]) u a ++ [b ++ [c]] = map2 (fun k v => k ++ [v]) (u ++ [b]) (a ++ [c])).
        { intros u _ a b c _. revert a. induction u as [|k u IHu]; intros [|v a] L; try discriminate; [reflexivity|]. cbn. now rewrite IHu by (cbn in L; lia). }
        etransitivity; [|apply (E ks []); auto]. f_equal. f_equal.
        assert (Ez : @vadd RNum (x ++ [s]) (vscale (dir *. h) (lincomb (length (x ++ [s])) (snd st) (map2 (fun k v => k ++ [v]) ks gs))) = z ++ [s + dir * h * @fsum RNum (map2 Rmult (snd st) gs)]).
        { assert (Lx1 : length (x ++ [s]) = S n) by (rewrite app_length; cbn [length]; lia).
          pose proof (lincomb_app (snd st) ks gs Lg Hk) as P.
          transitivity (@vadd RNum (x ++ [s]) (@vscale RNum (dir * h) (@lincomb RNum n (snd st) ks ++ [@fsum RNum (map2 Rmult (snd st) gs)]))).
          { apply f_equal, f_equal. etransitivity; [|exact P]. rnorm. rewrite Lx1. reflexivity. }
          rewrite vscale_app1. etransitivity; [apply vadd_app1|].
          - rlen. rewrite lincomb_len. rnorm. lia.
          - unfold z. rnorm. rewrite Lx. reflexivity. }
        unfold fg. rnorm. rewrite Ez. rewrite firstn_app1 by auto. reflexivity. }
  destruct (H (tb_stages tab) [] [] eq_refl ltac:(intros k []) ltac:(reflexivity)) as (gs & H1 & H2 & H3 & H4).
  exists gs. repeat split; auto.
Qed.
Lemma rk_step_couple (t h : R) (x : list R) (s : R) : length x = n ->
  exists v, @rk_step RNum tab fg dir t h (x ++ [s]) = @rk_step RNum tab f dir t h x ++ [s + v] /\
    length (@rk_step RNum tab f dir t h x) = n /\
    forall tau, consistent tab -> (forall t x, length x = n -> g t x = tau) -> v = dir * h * tau.
Proof.
  intros Lx. destruct (stages_couple t h x s Lx) as (gs & H1 & H2 & H3 & _ & H4).
  assert (Ll : length (@rk_step RNum tab f dir t h x) = n) by (unfold rk_step; rlen; rewrite lincomb_len; rnorm; lia).
  unfold rk_step at 1. rnorm. rewrite H3. replace (length (x ++ [s])) with (S n) by (rewrite app_length; cbn; lia).
  rewrite (lincomb_app (tb_weights tab) _ gs H1 H2), vscale_app1, vadd_app1.
  2:{ rlen. rewrite lincomb_len. lia. }
  eexists. split; [unfold rk_step; rnorm; rewrite Lx; reflexivity|]. split; [exact Ll|].
  intros tau [C1 C2] Ht. rewrite (H4 tau Ht). change (@fmul RNum) with Rmult. f_equal.
  assert (Lg : length gs = length (tb_weights tab)).
  { rewrite C1, H1. unfold rk_stages. clear. 
    assert (E : forall sts ks, length (fold_left (fun ks st => ks ++ [f (dir *. (t +. fst st *. h)) (vadd x (vscale (dir *. h) (lincomb (length x) (snd st) ks)))]) sts ks) = (length ks + length sts)%nat).
    { induction sts as [|st sts IH]; intros ks; cbn [fold_left length]; [lia|]. rewrite IH, app_length. cbn. lia. }
    exact (E _ []). }
  rewrite Lg. transitivity (Rsum (length (tb_weights tab)) (fun i => nth i (tb_weights tab) 0) * tau); [|rnorm; rewrite C2; change (1 * tau = tau); ring].
  clear. rewrite <- fsumR. generalize (tb_weights tab). rnorm. intros w. induction w as [|a w IH].
  - cbn. change (0 = 0 * tau). ring.
  - set (r := @fsum RNum (map2 Rmult w (repeat tau (length w)))) in * . change (a * tau + r = (a + @fsum RNum w) * tau). rewrite IH. ring.
Qed.
Lemma rk_loop_couple (t1 dt : R) : forall fuel t x s, length x = n ->
  match @rk_loop RNum fuel tab f dir t t1 dt x with
  | Ok x' => length x' = n /\ exists v, @rk_loop RNum fuel tab fg dir t t1 dt (x ++ [s]) = Ok (x' ++ [s + v]) /\
      forall tau, consistent tab -> t <= t1 -> (forall t x, length x = n -> g t x = tau) -> v = dir * (t1 - t) * tau
  | Raise e => @rk_loop RNum fuel tab fg dir t t1 dt (x ++ [s]) = Raise e
  end.
Proof.
  induction fuel as [|fuel IH]; intros t x s Lx; cbn [rk_loop]; change (@flt RNum t t1) with (Rltb t t1).
  - destruct (Rlt_dec t t1); [rewrite Rltb_true by auto; reflexivity|]. rewrite Rltb_false by lra.
    split; auto. exists 0. split; [now rewrite Rplus_0_r|]. intros tau _ Ht _. replace t1 with t by lra. ring.
  - destruct (Rlt_dec t t1).
    2:{ rewrite Rltb_false by lra. split; auto. exists 0. split; [now rewrite Rplus_0_r|]. intros tau _ Ht _. replace t1 with t by lra. ring. }
    rewrite Rltb_true by auto. cbv zeta. change (@F RNum) with R in * .
    set (tn := if (t1 -. f1 /. fofZ 1000000) <.? (t +. dt) then t1 else t +. dt).
    assert (Htn : tn <= t1).
    { unfold tn. change (@flt RNum (t1 -. f1 /. fofZ 1000000) (t +. dt)) with (Rltb (t1 - 1 / 1000000) (t + dt)).
      destruct (Rlt_dec (t1 - 1 / 1000000) (t + dt)); [rewrite Rltb_true by auto; lra|]. rewrite Rltb_false by lra. change (t +. dt) with (t + dt). lra. }
    change (@fsub RNum tn t) with (tn - t). clearbody tn.
    destruct (rk_step_couple t (tn - t) x s Lx) as (v & E & Ll & Hv). rewrite E.
    specialize (IH tn (@rk_step RNum tab f dir t (tn - t) x) (s + v) Ll).
    change (@F RNum) with R in * .
    destruct (@rk_loop RNum fuel tab f dir tn t1 dt (rk_step tab f dir t (tn - t) x)) as [x'|e]; [|exact IH].
    destruct IH as (L' & v' & E' & Hv'). split; [exact L'|]. exists (v + v'). split.
    + rewrite E'. rewrite Rplus_assoc. reflexivity.
    + intros tau C Ht Hg. rewrite (Hv tau C Hg), (Hv' tau C Htn Hg). ring.
Qed.
End Couple.

Section Div.
Variables (n : nat) (m : @fmodel RNum).
Hypothesis Hg : good_fm n m.
Lemma back_splits (dt : R) (x : list R) : length x = n ->
  match @diffeqsolve RNum (sv_method (fm_solver m)) (fm_field (sv_net (fm_solver m))) 1 0 (- dt) x with
  | Ok x0 => length x0 = n /\ exists l, solver_back (fm_solver m) dt x = Ok (x0, l) /\ forall tau, divergence n m tau -> l = - tau
  | Raise e => solver_back (fm_solver m) dt x = Raise e
  end.
Proof.
  intros Lx. pose proof (gf_net _ _ Hg) as [Gi Go Gl Gj].
  assert (Hf : forall t (x : list R), length x = n -> length (fm_field (sv_net (fm_solver m)) t x) = n).
  { intros t y Ly. unfold fm_field. apply Gl. rewrite app_length. cbn. rnorm. lia. }
  pose proof (rk_loop_couple (sv_method (fm_solver m)) n (fm_field (sv_net (fm_solver m))) (fm_trace (sv_net (fm_solver m))) (- (1)) Hf (- (1) * 0) (- (1) * - dt) max_steps (- (1) * 1) x 0 Lx) as H.
  assert (E1 : @diffeqsolve RNum (sv_method (fm_solver m)) (fm_field (sv_net (fm_solver m))) 1 0 (- dt) x =
     @rk_loop RNum max_steps (sv_method (fm_solver m)) (fm_field (sv_net (fm_solver m))) (- (1)) (- (1) * 1) (- (1) * 0) (- (1) * - dt) x).
  { unfold diffeqsolve. change (@flt RNum 1 0) with (Rltb 1 0). rewrite Rltb_false by lra. reflexivity. }
  assert (E2 : solver_back (fm_solver m) dt x =
     rbind (@rk_loop RNum max_steps (sv_method (fm_solver m)) (fun t y => fm_field (sv_net (fm_solver m)) t (firstn n y) ++ [fm_trace (sv_net (fm_solver m)) t (firstn n y)]) (- (1)) (- (1) * 1) (- (1) * 0) (- (1) * - dt) (x ++ [0]))
       (fun y => Ok (firstn n y, nth n y 0))).
  { unfold solver_back, diffeqsolve. change (@flt RNum f1 f0) with (Rltb 1 0). rewrite Rltb_false by lra. rnorm. rewrite Lx. reflexivity. }
  rewrite E1, E2. clear E1 E2.
  destruct (@rk_loop RNum max_steps (sv_method (fm_solver m)) (fm_field (sv_net (fm_solver m))) (- (1)) (- (1) * 1) (- (1) * 0) (- (1) * - dt) x) as [x0|e].
  - destruct H as (L0 & v & E & Hv). split; [exact L0|]. exists v. split.
    + match goal with |- rbind ?r ?k = _ => transitivity (rbind (Ok (x0 ++ [0 + v])) k); [apply (f_equal (fun rr => rbind rr k)); exact E|] end.
      cbn [rbind]. rewrite firstn_app1 by auto. rewrite Rplus_0_l. apply f_equal, f_equal2; [reflexivity|]. rewrite app_nth2 by (rnorm; lia).
      rnorm. rewrite L0, Nat.sub_diag. reflexivity.
    + intros tau Ht. change (@F RNum) with R in * . rewrite (Hv tau (gf_method _ _ Hg)); [ring|lra|].
      intros t y Ly. unfold fm_trace. rewrite Gi, Go. replace (Nat.min n (S n - 1)) with n by lia.
      rewrite fsumR. rewrite map_length, seq_length.
      assert (Lv : length (y ++ [t]) = S n) by (rewrite app_length; cbn; rnorm; lia).
      pose (J := fun i j => @nth R j (nth i (nt_jac (sv_net (fm_solver m)) (y ++ [t])) []) 0).
      transitivity (Rsum n (fun i => J i i)).
      { apply Rsum_ext. intros i Hi. exact (nth_map_seq (fun i => nth i (nth i (nt_jac (sv_net (fm_solver m)) (y ++ [t])) []) f0) n i 0 Hi). }
      apply (Ht y t J Ly).
      pose proof (Gj _ Lv) as Hj. fold J in Hj.
      assert (Ha : is_jac n (S n) (fun z => z ++ [t]) y (fun i j => if (i <? n)%nat then mid i j else 0)).
      { intros i Hi. destruct (i <? n)%nat eqn:Ei.
        - apply Nat.ltb_lt in Ei. apply (is_dif_ext n (fun z => nth i z 0)); auto.
          + intros z Hz. rewrite app_nth1 by lia. reflexivity.
          + now apply is_dif_proj.
        - apply Nat.ltb_ge in Ei. assert (i = n) by lia. subst i. apply (is_dif_ext n (fun _ => t)); auto.
          + intros z Hz. rewrite app_nth2 by lia. rewrite Hz, Nat.sub_diag. reflexivity.
          + apply is_dif_const. }
      pose proof (is_jac_chain n (S n) n (fun z => z ++ [t]) (nt_call (sv_net (fm_solver m))) y _ J Ha) as Hch.
      intros i Hi. eapply is_dif_gext; [|apply Hch; [intros z Hz; rewrite app_length; cbn [length]; lia|exact Hj|exact Hi]].
      intros j Hj1. unfold mmul. rewrite (Rsum_single (S n) _ j) by (try lia; intros k Hk Hkj; destruct (k <? n)%nat; unfold mid; rewrite ?(proj2 (Nat.eqb_neq k j) Hkj); ring).
      rewrite (proj2 (Nat.ltb_lt j n) Hj1). unfold mid. rewrite Nat.eqb_refl. ring.
  - match goal with |- rbind ?r ?k = _ => transitivity (rbind (Raise e : res (list R)) k); [apply (f_equal (fun rr => rbind rr k)); exact H|] end.
    reflexivity.
Qed.
End Div.

(* ------------------------------------------------------------------ fields that depend on time only *)
Section TimeField.
Variables (tab : @tableau RNum) (n : nat) (field : R -> list R -> list R) (a b : list R) (dir : R).
Hypothesis La : length a = n.
Hypothesis Lb : length b = n.
Hypothesis Hfield : forall t x, length x = n -> field t x = @vadd RNum a (@vscale RNum t b).
Hypothesis H2 : second_order tab.
Hypothesis Hdir : dir * dir = 1.
Lemma stages_time (t h : R) (y : list R) : length y = n ->
  @rk_stages RNum tab field dir t h y = map (fun st => @vadd RNum a (@vscale RNum (dir * (t + fst st * h)) b)) (tb_stages tab).
Proof.
  intros Ly. unfold rk_stages.
  assert (H : forall sts ks, fold_left (fun ks st => ks ++ [field (dir *. (t +. fst st *. h)) (vadd y (vscale (dir *. h) (lincomb (length y) (snd st) ks)))]) sts ks
     = ks ++ map (fun st => @vadd RNum a (@vscale RNum (dir * (t + fst st * h)) b)) sts).
  { induction sts as [|st sts IH]; intros ks; cbn [fold_left map]; [now rewrite app_nil_r|].
    rewrite IH. rewrite Hfield. { rewrite <- app_assoc. reflexivity. }
    rlen. rewrite lincomb_len. rnorm. lia. }
  exact (H _ []).
Qed.
Lemma fsum_map2_nth (w : list R) (ks : list (list R)) j : length w = length ks ->
  @fsum RNum (map2 (fun ai k => ai * nth j k 0) w ks) = Rsum (length w) (fun i => nth i w 0 * nth j (nth i ks []) 0).
Proof.
  intros L. rewrite fsumR. rewrite map2_length, <- L, Nat.min_id. apply Rsum_ext. intros i Hi.
  exact (nth_map2 (fun (ai : R) (k : list R) => ai * nth j k 0) w ks i 0 [] 0 Hi ltac:(lia)).
Qed.
Lemma step_time (t h : R) (y : list R) : length y = n ->
  length (@rk_step RNum tab field dir t h y) = n /\
  forall j, (j < n)%nat -> @nth R j (@rk_step RNum tab field dir t h y) 0 = nth j y 0 + dir * h * nth j a 0 + (h * t + h * h / 2) * nth j b 0.
Proof.
  intros Ly. destruct H2 as [[C1 C2] C3]. unfold rk_step. rewrite (stages_time t h y Ly).
  split. { rlen. rewrite lincomb_len. rnorm. lia. }
  intros j Hj. rewrite vaddR, vscaleR by (rlen; rewrite ?lincomb_len; rnorm; lia).
  assert (E : @nth R j (@lincomb RNum (length y) (tb_weights tab) (map (fun st => @vadd RNum a (@vscale RNum (dir * (t + fst st * h)) b)) (tb_stages tab))) 0
     = nth j a 0 + dir * (t + h / 2) * nth j b 0).
  { unfold lincomb. etransitivity. { apply (nth_map_seq (fun j => @fsum RNum (map2 (fun ai k => ai *. nth j k f0) (tb_weights tab) (map (fun st => @vadd RNum a (@vscale RNum (dir * (t + fst st * h)) b)) (tb_stages tab))))). rnorm. lia. }
    etransitivity. { apply fsum_map2_nth. rewrite map_length. exact C1. }
    transitivity (Rsum (length (tb_weights tab)) (fun i => (nth j a 0 + dir * t * nth j b 0) * nth i (tb_weights tab) 0 + (dir * h * nth j b 0) * (nth i (tb_weights tab) 0 * fst (nth i (tb_stages tab) (0, []))))).
    - apply Rsum_ext. intros i Hi.
      rewrite (nth_map' (fun st => @vadd RNum a (@vscale RNum (dir * (t + fst st * h)) b)) _ i (0, []) []) by exact (eq_ind _ (fun k => (i < k)%nat) Hi _ C1).
      rewrite vaddR, vscaleR by (rlen; lia). rnorm. ring.
    - rewrite Rsum_plus, !Rsum_scal. rnorm. rewrite C2, C3. field. }
  rnorm. rewrite E. generalize (@nth R j y 0) (@nth R j a 0) (@nth R j b 0). intros u v w.
  match goal with |- ?l = ?r => change (@eq R l r) end.
  transitivity (u + dir * h * v + (dir * dir) * (h * t + h * h / 2) * w); [change (u + dir * h * (v + dir * (t + h / 2) * w) = u + dir * h * v + dir * dir * (h * t + h * h / 2) * w); field|rewrite Hdir; ring].
Qed.
Lemma loop_time (t1 dt : R) : 0 < dt -> forall fuel t y, length y = n -> t <= t1 -> t1 - t <= INR fuel * dt ->
  exists y', @rk_loop RNum fuel tab field dir t t1 dt y = Ok y' /\ length y' = n /\
  forall j, (j < n)%nat -> @nth R j y' 0 = nth j y 0 + dir * (t1 - t) * nth j a 0 + (t1 * t1 - t * t) / 2 * nth j b 0.
Proof.
  intros Hdt. induction fuel as [|fuel IH]; intros t y Ly Ht Hfuel; cbn [rk_loop]; change (@flt RNum t t1) with (Rltb t t1).
  - simpl INR in Hfuel. rewrite Rltb_false by lra. exists y. split; auto. split; auto. intros j Hj. replace t with t1 by lra. rnorm. match goal with |- ?l = ?r => change (@eq R l r) end. change (@F RNum) with R in * . field.
  - destruct (Rlt_dec t t1) as [Hlt|Hge].
    2:{ rewrite Rltb_false by lra. exists y. split; auto. split; auto. intros j Hj. replace t with t1 by lra. rnorm. match goal with |- ?l = ?r => change (@eq R l r) end. change (@F RNum) with R in * . field. }
    rewrite Rltb_true by auto. cbv zeta. change (@F RNum) with R in * . set (tn := if (t1 -. f1 /. fofZ 1000000) <.? (t +. dt) then t1 else t +. dt).
    assert (Htn : tn <= t1 /\ t1 - tn <= INR fuel * dt).
    { unfold tn. rewrite S_INR in Hfuel. change (@flt RNum (t1 -. f1 /. fofZ 1000000) (t +. dt)) with (Rltb (t1 - 1 / 1000000) (t + dt)).
      assert (0 <= INR fuel * dt) by (apply Rmult_le_pos; [apply pos_INR|lra]).
      destruct (Rlt_dec (t1 - 1 / 1000000) (t + dt)) as [H1|H1]; [rewrite Rltb_true by auto; lra|].
      rewrite Rltb_false by lra. change (t +. dt) with (t + dt). lra. }
    change (@fsub RNum tn t) with (tn - t). clearbody tn.
    destruct (step_time t (tn - t) y Ly) as [L1 N1].
    destruct (IH tn (@rk_step RNum tab field dir t (tn - t) y) L1 (proj1 Htn) (proj2 Htn)) as (y' & E & L' & N').
    exists y'. split; [exact E|]. split; [exact L'|]. intros j Hj. rewrite N', N1 by auto. rnorm. match goal with |- ?l = ?r => change (@eq R l r) end. change (@F RNum) with R in * . field.
Qed.
End TimeField.

Section TimeModel.
Variables (n : nat) (m : @fmodel RNum) (a b : list R).
Hypothesis Hg : good_fm n m.
Hypothesis Ht : time_field n m a b.
Hypothesis H2 : second_order (sv_method (fm_solver m)).
Lemma time_drift_len : length (@vadd RNum a (@vscale RNum (1 / 2) b)) = n.
Proof. destruct Ht as (La & Lb & _). rlen. rnorm. lia. Qed.
Lemma time_carry (dt : R) (z : list R) : 1 / 4096 <= dt -> length z = n ->
  solver_carry (fm_solver m) dt z = Ok (@vadd RNum z (@vadd RNum a (@vscale RNum (1 / 2) b))).
Proof.
  intros Hdt Lz. destruct Ht as (La & Lb & Hf). unfold solver_carry, diffeqsolve. change (@flt RNum f0 f1) with (Rltb 0 1). rewrite Rltb_true by lra.
  destruct (loop_time (sv_method (fm_solver m)) n (fm_field (sv_net (fm_solver m))) a b 1 La Lb (fun t x Hx => Hf x t Hx) H2 ltac:(ring) (1 * 1) (1 * dt) ltac:(lra) max_steps (1 * 0) z Lz ltac:(lra)) as (y & E & L & Nn).
  { rewrite max_steps_R. lra. }
  etransitivity; [exact E|]. f_equal. apply (list_eq_nth (0 : R)); rnorm; [rlen; lia|].
  intros i Hi. rewrite Nn by lia. rewrite !vaddR, vscaleR by (rlen; lia). rnorm. match goal with |- ?l = ?r => change (@eq R l r) end. change (@F RNum) with R in * . field.
Qed.
Lemma time_back (dt : R) (x : list R) : 1 / 4096 <= dt -> length x = n ->
  solver_back (fm_solver m) dt x = Ok (@vsub RNum x (@vadd RNum a (@vscale RNum (1 / 2) b)), 0).
Proof.
  intros Hdt Lx. pose proof Ht as (La & Lb & Hf). pose proof (back_splits n m Hg dt x Lx) as B.
  destruct (loop_time (sv_method (fm_solver m)) n (fm_field (sv_net (fm_solver m))) a b (- (1)) La Lb (fun t x Hx => Hf x t Hx) H2 ltac:(ring) (- (1) * 0) (- (1) * - dt) ltac:(lra) max_steps (- (1) * 1) x Lx ltac:(lra)) as (y & E & L & Nn).
  { rewrite max_steps_R. lra. }
  assert (E' : @diffeqsolve RNum (sv_method (fm_solver m)) (fm_field (sv_net (fm_solver m))) 1 0 (- dt) x = Ok (@vsub RNum x (@vadd RNum a (@vscale RNum (1 / 2) b)))).
  { unfold diffeqsolve. change (@flt RNum 1 0) with (Rltb 1 0). rewrite Rltb_false by lra. etransitivity; [exact E|]. f_equal.
    apply (list_eq_nth (0 : R)); rnorm; [rlen; lia|].
    intros i Hi. rewrite Nn by lia. rewrite vsubR, !vaddR, vscaleR by (rlen; lia). rnorm. match goal with |- ?l = ?r => change (@eq R l r) end. change (@F RNum) with R in * . field. }
  rewrite E' in B. destruct B as (_ & l & B & Hl). rewrite B. rewrite (Hl 0). { now rewrite Ropp_0. }
  intros z t J Lz HJ. apply Rsum_0. intros i Hi.
  apply (is_dif_partial_val n (fun y => nth i (nt_call (sv_net (fm_solver m)) (y ++ [t])) 0) z (J i) i 0); auto.
  apply is_derive_ext with (fun _ : R => @nth R i (@vadd RNum a (@vscale RNum t b)) 0).
  - intros s. rewrite Hf; [reflexivity|]. now rewrite set_nth_length.
  - auto_derive; auto.
Qed.
Lemma time_shifts : shifts n m (@vadd RNum a (@vscale RNum (1 / 2) b)).
Proof. split; [apply time_drift_len|]. split; intros; [now apply time_carry|now apply time_back]. Qed.
End TimeModel.

Lemma dopri5_second : second_order (@dopri5 RNum).
Proof.
  split; [exact dopri5_consistent|]. cbn [dopri5 tb_weights tb_stages length Rsum nth fst]. unfold frac, f0, f1. cbn [fofZ RNum fdiv]. field.
Qed.
(** Quadrature conditions and row sums. *)
Lemma dopri5_order :
  (forall q, (q <= 4)%nat -> Rsum 7 (fun i => nth i (tb_weights (@dopri5 RNum)) 0 * fst (nth i (tb_stages (@dopri5 RNum)) (0, [])) ^ q) = 1 / INR (S q)) /\
  (forall i, (i < 7)%nat -> length (snd (nth i (tb_stages (@dopri5 RNum)) (0, []))) = i /\
     Rsum i (fun j => nth j (snd (nth i (tb_stages (@dopri5 RNum)) (0, []))) 0) = fst (nth i (tb_stages (@dopri5 RNum)) (0, []))).
Proof.
  split.
  - intros q Hq. do 5 (destruct q as [|q]; [cbn [dopri5 tb_weights tb_stages length Rsum nth fst]; unfold frac, f0, f1; cbn [fofZ RNum fdiv INR pow]; field|]). lia.
  - intros i Hi. do 7 (destruct i as [|i]; [cbn [dopri5 tb_weights tb_stages length Rsum nth fst snd]; unfold frac, f0, f1; cbn [fofZ RNum fdiv INR pow]; split; [reflexivity|try reflexivity; field]|]). lia.
Qed.
