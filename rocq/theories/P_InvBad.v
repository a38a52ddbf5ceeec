(** Two parallel-tempering calls of the production phase: an explicit case where the target is lost. *)
From Coq Require Import Reals Lra Lia Classical.
From Verif Require Import Prelude Num M_Core M_Kernels M_Strategies M_PT M_Bundle P_Lists Spec_Kernels P_Kernels Spec_Train Spec_PT P_PT P_PT2 P_PT3 P_PT4 P_PT5 Spec_Bundle Spec_Prog P_Bundle2 P_Bundle6 P_Prog4
  RNum Spec_Real Spec_HMC Spec_Inv P_Real1 P_Inv1 P_Inv2 P_Inv3 P_Inv4 P_Inv7 P_InvEx Spec_InvPT P_InvPT P_InvPT2 P_InvPTEx.
Open Scope R_scope.

(** Draws -1 and 1, and uniform numbers 1/8, 3/8, 3/4. *)
Definition Z2 : list (list R) := [[-1]; [1]].
Definition z2leaf : list (R * ktree) := [(1/2, Lf (-1) 0); (1/2, Lf 1 0)].
Lemma z2_norm : total z2leaf fst = 1. Proof. cbn. field. Qed.
Definition u3leaf : list (R * ktree) := [(1/4, Lf 0 (1/8)); (1/4, Lf 0 (3/8)); (1/2, Lf 0 (3/4))].
Lemma u3_norm : total u3leaf fst = 1. Proof. cbn. field. Qed.
Definition Ez : expect ktree := wexp z2leaf z2_norm.
Definition E3 : expect ktree := wexp u3leaf u3_norm.
Lemma std_sym : std_density 1 [-1] = std_density 1 [1].
Proof. unfold std_density. cbn [Rprod nth]. f_equal. unfold normal_pdf. f_equal. f_equal. field. Qed.
Lemma z2_gauss : @gaussian_on TRng Z2 1 Ez.
Proof.
  split; [unfold Z2; repeat constructor; cbn; intros H; repeat (destruct H as [H|H]; [injection H; lra|]); auto|]. split.
  - intros z [<-|[<-|[]]]; reflexivity.
  - exists (/ (2 * std_density 1 [1])). pose proof (std_pos [1]). split; [apply Rinv_0_lt_compat; lra|]. intros h. unfold Ez. rewrite wexp_ex.
    unfold z2leaf, Z2, total, fold_right. cbn [fst snd]. rewrite std_sym. cbn [normal TRng lastv repeat]. field. lra.
Qed.
Lemma ln34' : - ln 2 <= ln (3/4). Proof. exact half_low. Qed.
Lemma ln18 : ln (1/8) = - (3 * ln 2).
Proof. replace (1/8) with (/ (2 * 2 * 2)) by field. rewrite ln_Rinv, !ln_mult by lra. ring. Qed.
Lemma ln38 : - (2 * ln 2) < ln (3/8) < - ln 2.
Proof. pose proof ln14. split; [rewrite <- ln14; apply ln_increasing; lra|]. replace (- ln 2) with (ln (/2)) by (rewrite ln_Rinv; lra). apply ln_increasing; lra. Qed.
Lemma t3 r : @test_prob TRng E3 r = (if Rltb (ln (1/8)) r then 1/4 else 0) + (if Rltb (ln (3/8)) r then 1/4 else 0) + (if Rltb (ln (3/4)) r then 1/2 else 0).
Proof. unfold test_prob, E3. rewrite wexp_ex. unfold u3leaf, total, fold_right. cbn [fst snd uniform TRng lastu]. destruct (Rltb _ _), (Rltb _ _), (Rltb _ _); lra. Qed.
Lemma t3_up r : 0 <= r -> @test_prob TRng E3 r = 1.
Proof. intros H. rewrite t3. pose proof ln34. pose proof ln18. pose proof ln38. pose proof ln2_pos. rewrite !(proj2 (flt_R _ _)) by lra. lra. Qed.
Lemma t3_half : @test_prob TRng E3 (- ln 2) = 1/2.
Proof. rewrite t3. pose proof ln34'. pose proof ln18. pose proof ln38. pose proof ln2_pos. rewrite !(proj2 (flt_R _ _)) by lra. rewrite (proj2 (flt_R_false _ _)) by lra. lra. Qed.
Lemma t3_quarter : @test_prob TRng E3 (- (2 * ln 2)) = 1/4.
Proof. rewrite t3. pose proof ln34'. pose proof ln18. pose proof ln38. pose proof ln2_pos. rewrite (proj2 (flt_R (ln (1/8)) _)) by lra. rewrite !(proj2 (flt_R_false _ _)) by lra. lra. Qed.
Lemma t3_low r : r <= - (3 * ln 2) -> @test_prob TRng E3 r = 0.
Proof. intros H. rewrite t3. pose proof ln34'. pose proof ln18. pose proof ln38. pose proof ln2_pos. rewrite !(proj2 (flt_R_false _ _)) by lra. lra. Qed.
Lemma t3_ok r : 0 <= r \/ r = - ln 2 \/ r = - (2 * ln 2) -> @test_prob TRng E3 r = Rmin 1 (exp r).
Proof.
  pose proof ln2_pos as L2. intros [H|[-> | ->]].
  - rewrite t3_up by exact H. rewrite Rmin_left; [reflexivity|]. rewrite <- exp_0. destruct H as [H| <-]; [apply Rlt_le, exp_increasing, H|apply Rle_refl].
  - rewrite t3_half, exp_mln2, Rmin_right by lra. lra.
  - rewrite t3_quarter. replace (- (2 * ln 2)) with (- ln 2 + - ln 2) by ring. rewrite exp_plus, exp_mln2, Rmin_right by lra. lra.
Qed.

(** Likelihood 1 at 0 and 4 at 1 (2^-8 elsewhere); flat prior; temperatures 1 and 2. *)
Definition cv (v : R) : R := if Req_EM_T v 1 then 2 * ln 2 else if Req_EM_T v 0 then 0 else - (8 * ln 2).
Definition cf : @lpdf RNum := @mkLpdf RNum (fun x _ => cv (nth 0 x 0)) (fun _ _ => [0]).
Definition flat : @lpdf RNum := @mkLpdf RNum (fun _ _ => 0) (fun _ _ => [0]).
Lemma cv0 : cv 0 = 0. Proof. unfold cv. repeat destruct (Req_EM_T _ _); lra. Qed.
Lemma cv1 : cv 1 = 2 * ln 2. Proof. unfold cv. repeat destruct (Req_EM_T _ _); lra. Qed.
Lemma cvn v : v <> 0 -> v <> 1 -> cv v = - (8 * ln 2). Proof. intros. unfold cv. repeat destruct (Req_EM_T _ _); lra. Qed.
Definition bcfg0 : @config RNum TRng TNF := @mkConfig RNum TRng TNF (Lf 0 0) 1 1 cf 2 2 0 2 1 one 1 1 1 1 1 1 1 (fun _ => tt) tt (fun _ => tt).
Definition bpc : @pt_config RNum TRng TNF := @mkPtConfig RNum TRng TNF bcfg0 2 2 1 flat.
Definition btm : @tempered RNum := pt_tempered bpc.
Definition X2 : list (list R) := [[0]; [1]].
Lemma x2_states : states X2 1.
Proof.
  split.
  - unfold X2. repeat constructor; cbn; intros H; repeat (destruct H as [H|H]; [injection H; lra|]); auto.
  - intros x [<-|[<-|[]]]; reflexivity.
Qed.
Definition gT (T : R) (v : R) : R := (1 / T) * cv v + 0.
Definition tl_T (T : R) := @tempered_lpdf RNum btm T.
Lemma b_grad T : @grad_shape RNum (tl_T T) [] 1. Proof. intros x _. reflexivity. Qed.
Lemma b_prop T a b : @l_prop (tl_T T) [] one [a] [b] = [a + b].
Proof. unfold l_prop, one, mala_propose, mala_mean. cbn. f_equal. unfold Num.f2. cbn. unfold Num.f1. cbn. match goal with |- context [?u / T] => generalize (u / T) end. intros c. field. Qed.
Lemma b_M T k x z : length x = 1%nat -> length z = 1%nat -> metropolis (@mala_run TRng one k (tl_T T) [] x z) x (@l_prop (tl_T T) [] one x z) (gT T (nth 0 x 0)) (gT T (nth 0 (@l_prop (tl_T T) [] one x z) 0)) (@l_rr (tl_T T) [] one x z).
Proof. intros Hx Hz. apply (@l_facts TRng 1 (tl_T T) [] one I (b_grad T) k x z Hx Hz). Qed.
Lemma b_rr T a b : @l_rr (tl_T T) [] one [a] [b] = gT T (a + b) - gT T a.
Proof.
  unfold l_rr. rewrite b_prop. unfold mala_ratio, mvn_logpdf, one. cbn [ss_sq rbind].
  change (lp_val (tl_T T) [a + b] []) with (gT T (a + b)). change (lp_val (tl_T T) [a] []) with (gT T a).
  generalize (gT T (a + b)) (gT T a). intros u v.
  cbn. unfold Num.f2, Num.f1. cbn. try (match goal with |- context [?u / T] => generalize (u / T) end; intros c). field.
Qed.

Definition stepl : list (R * ktree) := prodw z2leaf u3leaf.
Lemma step_norm : total stepl fst = 1. Proof. exact (prodw_norm _ _ z2_norm u3_norm). Qed.
Definition onel : list (R * ktree) := [(1, Lf 0 0)].
Lemma one_norm : total onel fst = 1. Proof. cbn. ring. Qed.
Definition walkl : list (R * ktree) := prodw onel stepl.
Lemma walk_norm : total walkl fst = 1. Proof. exact (prodw_norm _ _ one_norm step_norm). Qed.
Definition swapl : list (R * ktree) := prodw onel u3leaf.
Lemma swap_norm : total swapl fst = 1. Proof. exact (prodw_norm _ _ one_norm u3_norm). Qed.
Definition keyl : list (R * ktree) := prodw (prodw (prodw onel swapl) (prodw walkl walkl)) onel.
Lemma key_norm : total keyl fst = 1.
Proof. exact (prodw_norm _ _ (prodw_norm _ _ (prodw_norm _ _ one_norm swap_norm) (prodw_norm _ _ walk_norm walk_norm)) one_norm). Qed.
Definition Ebad : expect ktree := wexp keyl key_norm.
Definition Ewalk : expect ktree := wexp walkl walk_norm.
Definition Eswap : expect ktree := wexp swapl swap_norm.
Definition Emoves : expect ktree := wexp _ (prodw_norm _ _ walk_norm walk_norm).
Definition Esweep : expect ktree := wexp _ (prodw_norm _ _ one_norm swap_norm).
Definition Erest : expect ktree := wexp _ (prodw_norm _ _ (prodw_norm _ _ one_norm swap_norm) (prodw_norm _ _ walk_norm walk_norm)).
Lemma s_bad : @splits2 TRng Ebad Erest (wexp onel one_norm). Proof. apply prodw_splits. Qed.
Lemma s_rest : @splits2 TRng Erest Esweep Emoves. Proof. apply prodw_splits. Qed.
Lemma s_moves : @splits2 TRng Emoves Ewalk Ewalk. Proof. apply prodw_splits. Qed.
Lemma s_sweep : @splits2 TRng Esweep (wexp onel one_norm) Eswap. Proof. apply prodw_splits. Qed.
Lemma s_walk : @splits2 TRng Ewalk (wexp onel one_norm) (wexp stepl step_norm). Proof. apply prodw_splits. Qed.
Lemma s_step : @splits2 TRng (wexp stepl step_norm) Ez E3. Proof. apply prodw_splits. Qed.
Lemma s_swap : @splits2 TRng Eswap (wexp onel one_norm) E3. Proof. apply prodw_splits. Qed.

(** The ratios. *)
Lemma b_cases T a b : T = 1 \/ T = 2 -> In [a] X2 -> In [b] Z2 ->
  (In [a + b] X2 /\ In [- b] Z2 /\ @test_prob TRng E3 (gT T (a + b) - gT T a) = Rmin 1 (exp (gT T (a + b) - gT T a))) \/
  (~ In [a + b] X2 /\ @test_prob TRng E3 (gT T (a + b) - gT T a) = 0).
Proof.
  pose proof ln2_pos as L2. intros HT Ha Hb.
  assert (A : (a = 0 \/ a = 1) /\ (b = -1 \/ b = 1)).
  { split; [destruct Ha as [H1|[H1|[]]]|destruct Hb as [H1|[H1|[]]]]; injection H1; lra. }
  assert (I0 : In [0] X2) by (left; reflexivity). assert (I1 : In [1] X2) by (right; left; reflexivity).
  assert (N1 : In [-1] Z2) by (left; reflexivity). assert (N2 : In [1] Z2) by (right; left; reflexivity).
  assert (OUT : forall v, v <> 0 -> v <> 1 -> ~ In [v] X2) by (intros v V0 V1 [H|[H|[]]]; injection H; lra).
  unfold gT. destruct A as [[-> | ->] [-> | ->]].
  - right. replace (0 + -1) with (-1) by ring. split; [apply OUT; lra|]. apply t3_low. rewrite cv0, cvn by lra. destruct HT as [-> | ->]; lra.
  - left. replace (0 + 1) with 1 by ring. replace (- (1)) with (-1) by ring. split; [exact I1|]. split; [exact N1|]. apply t3_ok. left. rewrite cv0, cv1. destruct HT as [-> | ->]; lra.
  - left. replace (1 + -1) with 0 by ring. replace (- (-1)) with 1 by ring. split; [exact I0|]. split; [exact N2|]. apply t3_ok. right. rewrite cv0, cv1. destruct HT as [-> | ->]; [right|left]; lra.
  - right. replace (1 + 1) with 2 by ring. split; [apply OUT; lra|]. apply t3_low. rewrite cv1, cvn by lra. destruct HT as [-> | ->]; lra.
Qed.
Lemma x2_single x : In x X2 -> exists a, x = [a]. Proof. intros [<-|[<-|[]]]; eauto. Qed.
Lemma z2_single x : In x Z2 -> exists a, x = [a]. Proof. intros [<-|[<-|[]]]; eauto. Qed.
Lemma b_walker T : T = 1 \/ T = 2 -> @walker_source TRng X2 1 (tl_T T) [] (mala_kernel one) 1 Ewalk.
Proof.
  intros HT. eexists. split; [exact (@ik_langevin TRng X2 1 (tl_T T) [] one I one_ne (b_grad T))|].
  exists (wexp onel one_norm), (wexp stepl step_norm). split; [exact s_walk|]. split; [|exact I].
  exists Ez, E3, Z2. split; [exact s_step|]. split; [exact z2_gauss|].
  intros k x z y Hx Hz P. destruct (x2_single x Hx) as [a ->], (z2_single z Hz) as [b ->].
  pose proof (b_M T k [a] [b] eq_refl eq_refl) as Mx. apply (metropolis_proposes _ _ _ _ _ _ y Mx) in P. subst y. rewrite b_prop in Mx |- * . rewrite b_rr in Mx.
  destruct (b_cases T a b HT Hx Hz) as [(A & B & C)|[A B]]; [left|right].
  - split; [exact A|]. split.
    + intros q Aq. rewrite (accept_unique _ _ _ Aq (metropolis_accept _ _ _ _ _ _ Mx)). rewrite <- C. apply ex_ext. intros k'. rewrite (Mx (uniform k')). destruct (Rltb _ _); reflexivity.
    + exists [- b]. split; [exact B|]. intros k' y P. pose proof (b_M T k' [a] [b] eq_refl eq_refl) as M1. apply (metropolis_proposes _ _ _ _ _ _ y M1) in P. subst y. rewrite b_prop.
      apply (metropolis_proposes _ _ _ _ _ _ [a] (b_M T k' [a + b] [- b] eq_refl eq_refl)). rewrite b_prop. f_equal. ring.
  - split; [exact A|]. unfold never_accepts. rewrite <- B. apply ex_ext. intros k'. rewrite (Mx (uniform k')). destruct (Rltb _ _); reflexivity.
Qed.
Lemma b_swaps : @key_chain TRng (@swap_tests TRng X2 [1; 2] (l_pdf (t_base btm)) []) 1 Eswap.
Proof.
  pose proof ln2_pos as L2. exists (wexp onel one_norm), E3. split; [exact s_swap|]. split; [|exact I]. intros xs i Hx Hi. cbv zeta. cbn [length] in Hi. assert (i = 0%nat) by lia. subst i.
  apply ens_in in Hx as [L Hx]. cbn [length] in L. destruct xs as [|x0 [|x1 [|]]]; try discriminate L.
  set (r := @swap_log_ratio RNum _ _ _ _).
  assert (Er : r = - (1/2) * (cv (nth 0 x0 0) - cv (nth 0 x1 0))).
  { unfold r, swap_log_ratio. cbn. unfold Num.f1. cbn. field. }
  clearbody r. assert (B : forall x, In x X2 -> cv (nth 0 x 0) = 0 \/ cv (nth 0 x 0) = 2 * ln 2).
  { intros x [<-|[<-|[]]]; cbn [nth]; rewrite ?cv0, ?cv1; lra. }
  apply t3_ok. destruct (B x0 (Hx x0 ltac:(now left))) as [B0|B0], (B x1 (Hx x1 ltac:(right; now left))) as [B1|B1]; rewrite B0, B1 in Er; lra.
Qed.
Lemma b_source : @tempering_source TRng 1 0 X2 1 btm [] (mala_kernel one) 1 [1; 2] Ebad.
Proof.
  exists Erest, Esweep, Emoves, Emoves, [Ewalk; Ewalk], Eswap, Eswap.
  split; [exact (split_l _ _ _ s_bad)|]. split; [exact s_rest|]. split; [apply split1|]. split; [exact (all2 _ _ _ s_moves)|].
  split; [repeat constructor; apply b_walker; auto|]. split; [exact (split_r _ _ _ s_sweep)|]. split; [apply split1|exact b_swaps].
Qed.
Definition tp (T a b : R) : R := @test_prob TRng E3 (gT T (a + b) - gT T a).
Lemma b_mv T a (g : list R -> R) : ex Ewalk (fun k => g (@mv TRng btm [] (mala_kernel one) 1 T k [a])) =
  1/2 * (g [a] + tp T a (-1) * (g [a + -1] - g [a])) + 1/2 * (g [a] + tp T a 1 * (g [a + 1] - g [a])).
Proof.
  set (st := fun (z u : R) => if Rltb (ln u) (gT T (a + z) - gT T a) then g [a + z] else g [a]).
  transitivity (ex Ewalk (fun k => (fun k1 => st (lastv (tsplit k1 2 0)) (lastu (tsplit k1 2 1))) (tsplit k 2 1))).
  { apply ex_ext. intros k. unfold mv, individual_step. cbn [serial_scan].
    change (@tempered_log_pdf RNum btm T [a] []) with (lpx (tl_T T) [] [a]). change (@tempered_lpdf RNum btm T) with (tl_T T).
    pose proof (@langevin_KR TRng 1 (tl_T T) [] one (@split RNum TRng k 2 1) k [a] eq_refl) as KR. pose proof (b_M T k [a] (@normal RNum TRng (split (@split RNum TRng k 2 1) 2 0) 1) eq_refl eq_refl (uniform (split (@split RNum TRng k 2 1) 2 1))) as Mx.
    unfold l_run in KR. rewrite Mx in KR. cbn [normal TRng repeat] in KR. rewrite b_prop, b_rr in KR. rewrite KR. unfold st.
    change (@uniform RNum TRng (split (@split RNum TRng k 2 1) 2 1)) with (lastu (tsplit (tsplit k 2 1) 2 1)). change (@split RNum TRng (@split RNum TRng k 2 1) 2 0) with (tsplit (tsplit k 2 1) 2 0).
    destruct (Rltb _ _); reflexivity. }
  refine (eq_trans (split_r _ _ _ s_walk (fun k1 => st (lastv (tsplit k1 2 0)) (lastu (tsplit k1 2 1)))) _).
  refine (eq_trans (proj1 (s_step (fun x y => st (lastv x) (lastu y)))) _).
  assert (Q : forall z, ex E3 (fun y => st z (lastu y)) = g [a] + tp T a z * (g [a + z] - g [a])).
  { intros z. rewrite (ex_ext _ E3 _ (fun y => g [a] + (g [a + z] - g [a]) * (if Rltb (ln (@uniform RNum TRng y)) (gT T (a + z) - gT T a) then 1 else 0))).
    - rewrite ex_affine. unfold tp, test_prob. apply f_equal. apply Rmult_comm.
    - intros y. unfold st. change (@uniform RNum TRng y) with (lastu y). destruct (Rltb _ _); ring. }
  rewrite (ex_ext _ Ez _ (fun x => g [a] + tp T a (lastv x) * (g [a + lastv x] - g [a]))) by (intros; apply Q).
  unfold Ez. rewrite wexp_ex. unfold z2leaf, total, fold_right. cbn [fst snd lastv]. ring.
Qed.
Lemma tp0n T : T = 1 \/ T = 2 -> tp T 0 (-1) = 0.
Proof. pose proof ln2_pos as L2. intros HT. unfold tp. apply t3_low. unfold gT. rewrite cv0, cvn by lra. destruct HT as [-> | ->]; lra. Qed.
Lemma tp0p T : T = 1 \/ T = 2 -> tp T 0 1 = 1.
Proof. pose proof ln2_pos as L2. intros HT. unfold tp. apply t3_up. unfold gT. replace (0 + 1) with 1 by ring. rewrite cv0, cv1 by lra. destruct HT as [-> | ->]; lra. Qed.
Lemma tp1p T : T = 1 \/ T = 2 -> tp T 1 1 = 0.
Proof. pose proof ln2_pos as L2. intros HT. unfold tp. apply t3_low. unfold gT. rewrite cv1, cvn by lra. destruct HT as [-> | ->]; lra. Qed.
Lemma tp1n1 : tp 1 1 (-1) = 1/4.
Proof. unfold tp, gT. replace (1 + -1) with 0 by ring. rewrite cv0, cv1. replace (1 / 1 * 0 + 0 - (1 / 1 * (2 * ln 2) + 0)) with (- (2 * ln 2)) by field. exact t3_quarter. Qed.
Lemma tp1n2 : tp 2 1 (-1) = 1/2.
Proof. unfold tp, gT. replace (1 + -1) with 0 by ring. rewrite cv0, cv1. replace (1 / 2 * 0 + 0 - (1 / 2 * (2 * ln 2) + 0)) with (- ln 2) by field. exact t3_half. Qed.
Notation bmv T k x := (@mv TRng btm [] (mala_kernel one) 1 T k x).
Lemma mv0 T g : T = 1 \/ T = 2 -> ex Ewalk (fun k => g (bmv T k [0])) = 1/2 * g [0] + 1/2 * g [1].
Proof. intros HT. rewrite b_mv, tp0n, tp0p by exact HT. replace (0 + 1) with 1 by ring. lra. Qed.
Lemma mv1 g : ex Ewalk (fun k => g (bmv 1 k [1])) = 1/8 * g [0] + 7/8 * g [1].
Proof. rewrite b_mv, tp1n1, tp1p by auto. replace (1 + -1) with 0 by ring. lra. Qed.
Lemma mv2 g : ex Ewalk (fun k => g (bmv 2 k [1])) = 1/4 * g [0] + 3/4 * g [1].
Proof. rewrite b_mv, tp1n2, tp1p by auto. replace (1 + -1) with 0 by ring. lra. Qed.

(** Exchange of two walkers. *)
Lemma sw e (h : list (list R) -> R) : In e (ensembles X2 2) ->
  ex Eswap (fun k => h (fst (fst (@exchange RNum TRng btm [] [1; 2] k e)))) = stepE btm [] [1; 2] 0 h e.
Proof.
  intros He. pose proof (proj1 (proj1 (ens_in _ _ _) He)) as L. unfold exchange. assert (L2 : (@length (list (@F RNum)) e - 1 = 1)%nat) by (change (@length (list (@F RNum)) e) with (@length (list R) e); lia).
  rewrite L2. exact (exch_expect btm [] X2 [1; 2] 1 0 h e Eswap He ltac:(cbn; lia) b_swaps).
Qed.
Lemma rat a b : ratioR btm [] [1; 2] [[a]; [b]] 0 = - (1/2) * (cv a - cv b).
Proof. unfold ratioR. cbn. unfold lpR. cbn. field. Qed.
Definition pacc (a b : R) : R := Rmin 1 (exp (- (1/2) * (cv a - cv b))).
Lemma stepE_is a b h : stepE btm [] [1; 2] 0 h [[a]; [b]] = pacc a b * h [[b]; [a]] + (1 - pacc a b) * h [[a]; [b]].
Proof. unfold stepE. rewrite rat. reflexivity. Qed.
Lemma pacc_eq a : pacc a a = 1. Proof. unfold pacc. replace (- (1/2) * (cv a - cv a)) with 0 by ring. rewrite exp_0. apply Rmin_left. lra. Qed.
Lemma pacc01 : pacc 0 1 = 1.
Proof. pose proof ln2_pos. unfold pacc. rewrite cv0, cv1. apply Rmin_left. assert (Q : exp 0 < exp (- (1 / 2) * (0 - 2 * ln 2))) by (apply exp_increasing; lra). rewrite exp_0 in Q. lra. Qed.
Lemma pacc10 : pacc 1 0 = 1/2.
Proof. unfold pacc. rewrite cv0, cv1. replace (- (1/2) * (2 * ln 2 - 0)) with (- ln 2) by field. rewrite exp_mln2, Rmin_right by lra. lra. Qed.

(** The law of the returned position of a call. *)
Definition ce (k : ktree) (e : list (list R)) : list (list R) := @call_end TRng btm [] (mala_kernel one) 1 [1; 2] 1 0 k e.
Definition G2 (h : list R -> R) (x y : list R) : R := ex Eswap (fun k => h (hd [] (fst (fst (@exchange RNum TRng btm [] [1; 2] k [x; y]))))).
Lemma ce_expect h a b : ex Ebad (fun k => h (hd [] (ce k [[a]; [b]]))) = ex Ewalk (fun k1 => ex Ewalk (fun k2 => G2 h (bmv 1 k1 [a]) (bmv 2 k2 [b]))).
Proof.
  refine (eq_trans (call_expect btm [] (mala_kernel one) 1 [1; 2] 1 0 Ebad (fun e => h (hd [] e)) [[a]; [b]] Erest Esweep Emoves Emoves [Ewalk; Ewalk] Eswap Eswap
    (split_l _ _ _ s_bad) s_rest (split1 _) (all2 _ _ _ s_moves) (split_r _ _ _ s_sweep) (split1 _) eq_refl) _). reflexivity.
Qed.
Lemma in2 a b : In [a] X2 -> In [b] X2 -> In [[a]; [b]] (ensembles X2 2).
Proof. intros A B. apply ens_in. split; [reflexivity|]. intros x [<-|[<-|[]]]; assumption. Qed.
Lemma G2_is h a b : In [a] X2 -> In [b] X2 -> G2 h [a] [b] = pacc a b * h [b] + (1 - pacc a b) * h [a].
Proof. intros A B. refine (eq_trans (sw [[a]; [b]] (fun e => h (hd [] e)) (in2 a b A B)) _). rewrite stepE_is. reflexivity. Qed.
Lemma i0 : In [0] X2. Proof. left. reflexivity. Qed.
Lemma i1 : In [1] X2. Proof. right. left. reflexivity. Qed.
Lemma g00 h : G2 h [0] [0] = h [0]. Proof. rewrite G2_is, pacc_eq by exact i0. ring. Qed.
Lemma g11 h : G2 h [1] [1] = h [1]. Proof. rewrite G2_is, pacc_eq by exact i1. ring. Qed.
Lemma g01 h : G2 h [0] [1] = h [1]. Proof. rewrite G2_is, pacc01 by (exact i0 || exact i1). ring. Qed.
Lemma g10 h : G2 h [1] [0] = 1/2 * h [0] + 1/2 * h [1]. Proof. rewrite G2_is, pacc10 by (exact i0 || exact i1). lra. Qed.
Definition q0 (h : list R -> R) (p q : R) : R := (* p, q: probabilities that the moved walkers are at 0 *)
  q * ((1 + p) / 2 * h [0] + (1 - p) / 2 * h [1]) + (1 - q) * h [1].
Lemma c00 h : ex Ebad (fun k => h (hd [] (ce k [[0]; [0]]))) = q0 h (1/2) (1/2).
Proof. rewrite ce_expect. rewrite (mv0 1 (fun x => ex Ewalk (fun k2 => G2 h x (bmv 2 k2 [0])))) by auto. rewrite !(mv0 2 (G2 h _)) by auto. rewrite g00, g01, g10, g11. unfold q0. lra. Qed.
Lemma c01 h : ex Ebad (fun k => h (hd [] (ce k [[0]; [1]]))) = q0 h (1/2) (1/4).
Proof. rewrite ce_expect. rewrite (mv0 1 (fun x => ex Ewalk (fun k2 => G2 h x (bmv 2 k2 [1])))) by auto. rewrite !(mv2 (G2 h _)) by auto. rewrite g00, g01, g10, g11. unfold q0. lra. Qed.
Lemma c10 h : ex Ebad (fun k => h (hd [] (ce k [[1]; [0]]))) = q0 h (1/8) (1/2).
Proof. rewrite ce_expect. rewrite (mv1 (fun x => ex Ewalk (fun k2 => G2 h x (bmv 2 k2 [0])))). rewrite !(mv0 2 (G2 h _)) by auto. rewrite g00, g01, g10, g11. unfold q0. lra. Qed.
Lemma c11 h : ex Ebad (fun k => h (hd [] (ce k [[1]; [1]]))) = q0 h (1/8) (1/4).
Proof. rewrite ce_expect. rewrite (mv1 (fun x => ex Ewalk (fun k2 => G2 h x (bmv 2 k2 [1])))). rewrite !(mv2 (G2 h _)) by auto. rewrite g00, g01, g10, g11. unfold q0. lra. Qed.
Definition law (e : list (list R)) (h : list R -> R) : R := ex Ebad (fun k => h (hd [] (ce k e))).
Lemma dens T a : density (tl_T T) [] [a] = exp (gT T a). Proof. reflexivity. Qed.
Lemma e10 : exp (gT 1 0) = 1. Proof. unfold gT. rewrite cv0. replace (1 / 1 * 0 + 0) with 0 by field. apply exp_0. Qed.
Lemma e20 : exp (gT 2 0) = 1. Proof. unfold gT. rewrite cv0. replace (1 / 2 * 0 + 0) with 0 by field. apply exp_0. Qed.
Lemma e11 : exp (gT 1 1) = 4. Proof. unfold gT. rewrite cv1. replace (1 / 1 * (2 * ln 2) + 0) with (ln 2 + ln 2) by field. rewrite exp_plus, exp_ln by lra. ring. Qed.
Lemma e21 : exp (gT 2 1) = 2. Proof. unfold gT. rewrite cv1. replace (1 / 2 * (2 * ln 2) + 0) with (ln 2) by field. rewrite exp_ln by lra. ring. Qed.
Lemma under h : expected_under (ensembles X2 2) (ensemble_density btm [] [1; 2]) h = h [[0]; [0]] + 2 * h [[0]; [1]] + 4 * h [[1]; [0]] + 8 * h [[1]; [1]].
Proof.
  unfold expected_under. rewrite (total_ext _ _ (fun e => wprod btm [] [1; 2] e * h e)).
  - unfold ensembles, X2, flat_map, map, app, total, fold_right, wprod. fold (tl_T 1). fold (tl_T 2). rewrite !dens, e10, e20, e11, e21. ring.
  - intros e He. rewrite wprod_density by (apply (proj1 (proj1 (ens_in _ _ _) He))). reflexivity.
Qed.
Definition at0 (x : list R) : R := if Req_EM_T (nth 0 x 0) 0 then 1 else 0.
Lemma at00 : at0 [0] = 1. Proof. unfold at0. cbn. destruct (Req_EM_T 0 0); lra. Qed.
Lemma at01 : at0 [1] = 0. Proof. unfold at0. cbn. destruct (Req_EM_T 1 0); lra. Qed.
Lemma once : expected_under (ensembles X2 2) (ensemble_density btm [] [1; 2]) (fun e => law e at0) = 3.
Proof. rewrite under. unfold law. rewrite c00, c01, c10, c11. unfold q0. rewrite at00, at01. lra. Qed.
Lemma l00 h : law [[0]; [0]] h = q0 h (1/2) (1/2). Proof. exact (c00 h). Qed.
Lemma l01 h : law [[0]; [1]] h = q0 h (1/2) (1/4). Proof. exact (c01 h). Qed.
Lemma l10 h : law [[1]; [0]] h = q0 h (1/8) (1/2). Proof. exact (c10 h). Qed.
Lemma l11 h : law [[1]; [1]] h = q0 h (1/8) (1/4). Proof. exact (c11 h). Qed.
Lemma twice : expected_under (ensembles X2 2) (ensemble_density btm [] [1; 2]) (fun e => law e (fun x => law [x; nth 1 e []] at0)) = 387 / 128.
Proof. rewrite under. cbn [nth]. rewrite l00, l01, l10, l11. unfold q0 at 1 2 3 4. rewrite !l00, !l01, !l10, !l11. unfold q0. rewrite at00, at01. lra. Qed.

(** The bundle's memory in production with the walkers [e]. *)
Definition btb : @buffer RNum := mkBuffer "temperatures" (@stack1 RNum [1; 2]) 0 0.
Definition bw (e : list (list R)) : @world RNum TRng TNF := bworld bcfg0 (pt_rx bpc) (pt_hx (ppb e, btb)) tt tt false zpb zpb zb tt 0 0.
Lemma b_counts : counts_ok bcfg0. Proof. constructor; try (cbn; lia). Qed.
Lemma x2_len x : In x X2 -> length x = 1%nat. Proof. intros [<-|[<-|[]]]; reflexivity. Qed.
Lemma b_setup e : pt_setup (bw e) (pt_strat bpc) (mala_kernel one) btm L_tpos (ppb e) L_temp btb false.
Proof. constructor; try reflexivity; try (split; reflexivity). exists L_state, (phase_state false), (SBool false). repeat split; reflexivity. Qed.
Lemma b_run (e : list (list R)) k (x : list R) : length (nth 1 e []) = 1%nat -> length x = 1%nat ->
  exists k', @parallel_tempering RNum TRng TNF (pt_strat bpc) k [x] [] (bw e) = (Ok (k', [hd [] (ce k [x; nth 1 e []])]), bw e) /\
    length (hd [] (ce k [x; nth 1 e []])) = 1%nat.
Proof.
  intros L1 L0.
  destruct (pt_go bpc [] (fun x _ => eq_refl) (fun x _ => eq_refl) t_normal b_counts ltac:(cbn; lia) false (ppb e, btb) tt tt zpb zpb zb tt 0 0 k [x]) as (k' & xs' & w' & Q).
  { split; [reflexivity|]. intros y [<-|[]]. exact L0. }
  { unfold ppb. destruct (nth 1 e []) as [|v [|]]; try discriminate L1. repeat split. }
  change (bworld bcfg0 (pt_rx bpc) (pt_hx (ppb e, btb)) tt tt false zpb zpb zb tt 0 0) with (bw e) in Q.
  assert (GS : forall f : @lpdf RNum, (f = l_pdf (t_base btm) \/ f = t_prior btm) -> @grad_shape RNum f [] 1) by (intros f [-> | ->] y _; reflexivity).
  assert (EB : ensemble_before (ppb e) [x] 0 = [x; nth 1 e []]).
  { unfold ppb. destruct (nth 1 e []) as [|v [|]]; try discriminate L1. reflexivity. }
  destruct (call_after btm [] X2 1 (mala_kernel one) [1; 2] (pt_strat bpc) 1 0 t_normal (GS _ (or_introl eq_refl)) (GS _ (or_intror eq_refl)) ltac:(cbn; lia) ltac:(lia)
    Ebad [x; nth 1 e []] k [x] (bw e) L_tpos (ppb e) L_temp btb false (k', xs') w' b_source (b_setup e) eq_refl eq_refl ltac:(intros y [<-|[]]; exact L0) EB Q) as [A _].
  assert (RO : run_order [("parallel_tempering"%string, @parallel_tempering RNum TRng TNF (pt_strat bpc))] ["parallel_tempering"%string] k [x] [] (bw e) = (Ok (k', xs'), w')).
  { cbn [run_order]. change (dget [("parallel_tempering"%string, @parallel_tempering RNum TRng TNF (pt_strat bpc))] "parallel_tempering"%string) with (Some (@parallel_tempering RNum TRng TNF (pt_strat bpc))). cbv iota. erewrite P_PT5.mbind_eq; [|exact Q]. reflexivity. }
  destruct (pt_pre bpc [] (fun x _ => eq_refl) (fun x _ => eq_refl) t_normal ltac:(cbn; lia) [("parallel_tempering"%string, parallel_tempering (pt_strat bpc))] false (ppb e, btb) tt tt zpb zpb zb tt 0 0 k [x] k' xs' w' eq_refl) as (e' & TE & [Lx Dx] & Hw).
  { split; [reflexivity|]. intros y [<-|[]]. exact L0. } { exact RO. }
  exists k'. assert (EE : e' = (ppb e, btb)) by (destruct TE as (after & accs & _ & _ & _ & _ & _ & TE); exact TE). subst e'.
  subst w'. destruct xs' as [|y [|]]; try discriminate Lx. cbn [snd nth] in A. subst y. split; [exact Q|]. exact (Dx _ (or_introl eq_refl)).
Qed.
Lemma b_in_state : @chain_in_state TRng TNF (pt_strat bpc) (mala_kernel one) btm [] L_tpos L_temp false [1; 2] 1 1 0 X2 bw (fun e => [nth 0 e []]).
Proof.
  intros e He. apply ens_in in He as [L Hx]. cbn [length] in L. destruct e as [|x0 [|x1 [|]]]; try discriminate L.
  pose proof (x2_len x0 (Hx x0 ltac:(now left))) as L0. pose proof (x2_len x1 (Hx x1 ltac:(right; now left))) as L1.
  cbn [nth]. split; [reflexivity|]. split; [intros x [<-|[]]; exact L0|]. split.
  - exists (ppb [x0; x1]), btb. split; [apply b_setup|]. split; [reflexivity|]. unfold ppb. destruct x1 as [|v [|]]; try discriminate L1. reflexivity.
  - intros k. destruct (b_run [x0; x1] k x0 L1 L0) as (k' & Q & _). eexists _, _. exact Q.
Qed.
Lemma e_len e : In e (ensembles X2 2) -> length (nth 0 e []) = 1%nat /\ length (nth 1 e []) = 1%nat /\ e = [nth 0 e []; nth 1 e []].
Proof.
  intros He. apply ens_in in He as [L Hx]. destruct e as [|x0 [|x1 [|]]]; try discriminate L. cbn [nth].
  split; [apply x2_len, Hx; now left|]. split; [apply x2_len, Hx; right; now left|reflexivity].
Qed.
Notation bcall k x e := (@parallel_tempering RNum TRng TNF (pt_strat bpc) k x [] (bw e)).
Lemma b_once h : expected_under (ensembles X2 2) (ensemble_density btm [] [1; 2]) (fun e => ex Ebad (fun k => h (returned_row (bcall k [nth 0 e []] e) 0))) =
  expected_under (ensembles X2 2) (ensemble_density btm [] [1; 2]) (fun e => law e h).
Proof.
  unfold expected_under. apply total_ext. intros e He. f_equal. apply ex_ext. intros k. destruct (e_len e He) as (A & B & C).
  destruct (b_run e k (nth 0 e []) B A) as (k' & Q & _). rewrite <- C in Q. exact (f_equal (fun r => h (returned_row r 0)) Q).
Qed.
Lemma b_twice h : expected_under (ensembles X2 2) (ensemble_density btm [] [1; 2]) (fun e => ex Ebad (fun k => ex Ebad (fun k2 =>
    h (returned_row (call_again (pt_strat bpc) [] k2 (bcall k [nth 0 e []] e)) 0)))) =
  expected_under (ensembles X2 2) (ensemble_density btm [] [1; 2]) (fun e => law e (fun x => law [x; nth 1 e []] h)).
Proof.
  unfold expected_under. apply total_ext. intros e He. f_equal. apply ex_ext. intros k. destruct (e_len e He) as (A & B & C).
  destruct (b_run e k (nth 0 e []) B A) as (k' & Q & D). rewrite <- C in Q, D. refine (eq_trans (f_equal (fun r => ex Ebad (fun k2 => h (returned_row (call_again (pt_strat bpc) [] k2 r) 0))) Q) _). cbn [call_again]. apply ex_ext. intros k2.
  destruct (b_run e k2 _ B D) as (k3 & Q3 & _). exact (f_equal (fun r => h (returned_row r 0)) Q3).
Qed.
