(** A concrete ideal source for parallel tempering with the bundle's own call. *)
From Coq Require Import Reals Lra Lia Classical.
From Verif Require Import Prelude Num M_Core M_Kernels M_Strategies M_PT M_Bundle P_Lists Spec_Kernels P_Kernels Spec_Train Spec_PT Spec_Bundle Spec_Prog P_Bundle2 P_Bundle6 P_Prog4
  RNum Spec_Real Spec_HMC Spec_Inv P_Real1 P_Inv1 P_Inv2 P_Inv3 P_Inv4 P_Inv7 P_InvEx Spec_InvPT P_InvPT P_InvPT2.
Open Scope R_scope.

(** Likelihood: weight sqrt(e) at 1 and 1 elsewhere; prior exp(-(x-1)^2). *)
Definition bv (v : R) : R := if Req_EM_T v 1 then 1/2 else 0.
Definition bf : @lpdf RNum := @mkLpdf RNum (fun x _ => bv (nth 0 x 0)) (fun _ _ => [0]).
Definition prf : @lpdf RNum := @mkLpdf RNum (fun x _ => - ((nth 0 x 0 - 1) * (nth 0 x 0 - 1))) (fun x _ => [2 - 2 * nth 0 x 0]).
Definition pcfg0 : @config RNum TRng TNF := @mkConfig RNum TRng TNF (Lf 0 0) 1 1 bf 2 2 0 2 1 one 1 1 1 1 1 1 1 (fun _ => tt) tt (fun _ => tt).
Definition ppc : @pt_config RNum TRng TNF := @mkPtConfig RNum TRng TNF pcfg0 2 4 3 prf.
Definition ptm : @tempered RNum := pt_tempered ppc.
Definition fT (T : R) (v : R) : R := (1 / T) * bv v + - ((v - 1) * (v - 1)).
Lemma fT_val T x : lp_val (tempered_lpdf ptm T) x [] = fT T (nth 0 x 0). Proof. reflexivity. Qed.
Lemma bv1 : bv 1 = 1/2. Proof. unfold bv. destruct (Req_EM_T 1 1); lra. Qed.
Lemma bvn v : v <> 1 -> bv v = 0. Proof. intros. unfold bv. destruct (Req_EM_T v 1); lra. Qed.
Lemma pt_grad T : @grad_shape RNum (tempered_lpdf ptm T) [] 1. Proof. intros x _. reflexivity. Qed.
Lemma ptl_prop T a b : @l_prop (tempered_lpdf ptm T) [] one [a] [b] = [1 + b].
Proof. unfold l_prop, one, mala_propose, mala_mean. cbn. f_equal. unfold Num.f2. cbn. unfold Num.f1. cbn. match goal with |- context [?u / T] => generalize (u / T) end. intros c. field. Qed.
Lemma ptl_M T k x z : In x Xs -> In z Zs -> metropolis (@mala_run TRng one k (tempered_lpdf ptm T) [] x z) x (@l_prop (tempered_lpdf ptm T) [] one x z) (fT T (nth 0 x 0)) (fT T (nth 0 (@l_prop (tempered_lpdf ptm T) [] one x z) 0)) (@l_rr (tempered_lpdf ptm T) [] one x z).
Proof. intros Hx Hz. apply (@l_facts TRng 1 (tempered_lpdf ptm T) [] one I (pt_grad T) k x z (x_len x Hx) (z_len z Hz)). Qed.
Lemma ptl_rr T a b : @l_rr (tempered_lpdf ptm T) [] one [a] [b] = (fT T (1 + b) + b * b / 2) - (fT T a + (a - 1) * (a - 1) / 2).
Proof.
  unfold l_rr. rewrite ptl_prop. unfold mala_ratio, mvn_logpdf, one. cbn [ss_sq rbind].
  change (lp_val (tempered_lpdf ptm T) [1 + b] []) with (fT T (1 + b)). change (lp_val (tempered_lpdf ptm T) [a] []) with (fT T a).
  generalize (fT T (1 + b)) (fT T a). intros u v.
  cbn. unfold Num.f2, Num.f1. cbn. try (match goal with |- context [?u / T] => generalize (u / T) end; intros c). field.
Qed.
Lemma small_ok r : 3/8 <= r <= 1 -> @test_prob TRng (Eu (exp (- r))) (- r) = Rmin 1 (exp (- r)).
Proof.
  intros [H1 H2]. pose proof e12. rewrite test_mid.
  - rewrite Rmin_right; [reflexivity|]. assert (Q : exp (- r) < exp 0) by (apply exp_increasing; lra). rewrite exp_0 in Q. lra.
  - rewrite ln14. split; [lra|]. replace (3/4) with (/ (4/3)) by field. rewrite ln_Rinv by lra. apply Ropp_le_contravar. rewrite <- (ln_exp r). destruct (Rle_lt_dec (exp r) (4/3)).
    + pose proof (exp_ineq1 r ltac:(lra)). lra.
    + apply Rlt_le, ln_increasing; lra.
Qed.
Lemma pt_rr T a b : 1 <= T -> In [a] Xs -> In [b] Zs -> let r := (fT T (1 + b) + b * b / 2) - (fT T a + (a - 1) * (a - 1) / 2) in
  In [1 + b] Xs /\ In [a - 1] Zs /\ @test_prob TRng (Eu (exp (- (1/2 + 1 / T * (1/2))))) r = Rmin 1 (exp r).
Proof.
  intros HT Ha Hb r. unfold r.
  assert (IT : 0 < 1 / T <= 1). { unfold Rdiv. rewrite Rmult_1_l. split; [apply Rinv_0_lt_compat; lra|]. rewrite <- Rinv_1. apply Rinv_le_contravar; lra. }
  assert (A : (a = 0 \/ a = 1 \/ a = 2) /\ (b = -1 \/ b = 0 \/ b = 1)).
  { split; [destruct Ha as [H1|[H1|[H1|[]]]]|destruct Hb as [H1|[H1|[H1|[]]]]]; injection H1; lra. }
  assert (TA : fT T a + (a - 1) * (a - 1) / 2 = -1/2 \/ fT T a + (a - 1) * (a - 1) / 2 = 1 / T * (1/2)).
  { unfold fT. destruct A as [[-> |[-> | ->]] _]; [left|right|left]; rewrite ?bv1, ?bvn by lra; lra. }
  assert (TB : fT T (1 + b) + b * b / 2 = -1/2 \/ fT T (1 + b) + b * b / 2 = 1 / T * (1/2)).
  { unfold fT. destruct A as [_ [-> |[-> | ->]]]; [left; replace (1 + -1) with 0 by ring|right; replace (1 + 0) with 1 by ring|left; replace (1 + 1) with 2 by ring]; rewrite ?bv1, ?bvn by lra; lra. }
  split; [|split].
  - destruct A as [_ [-> |[-> | ->]]]; [replace (1 + -1) with 0 by ring; exact in0|replace (1 + 0) with 1 by ring; exact in1|replace (1 + 1) with 2 by ring; exact in2].
  - destruct A as [[-> |[-> | ->]] _]; [replace (0 - 1) with (-1) by ring; exact zn|replace (1 - 1) with 0 by ring; exact z0|replace (2 - 1) with 1 by ring; exact z1].
  - destruct TA as [-> | ->], TB as [-> | ->].
    + apply up_ok. lra.
    + apply up_ok. lra.
    + replace (-1 / 2 - 1 / T * (1 / 2)) with (- (1/2 + 1 / T * (1/2))) by lra. apply small_ok. lra.
    + apply up_ok. lra.
Qed.
Lemma pt_walker T : 1 <= T -> has (@walker_source TRng Xs 1 (tempered_lpdf ptm T) [] (mala_kernel one) 3).
Proof.
  intros HT. assert (H : has (@step_source TRng Xs 1 (fun k x z => @mala_run TRng one k (tempered_lpdf ptm T) [] x z) (@back TRng (fun k x z => @mala_run TRng one k (tempered_lpdf ptm T) [] x z)))).
  { apply (step_has (fT T) _ (@l_prop (tempered_lpdf ptm T) [] one) (@l_rr (tempered_lpdf ptm T) [] one) (ptl_M T) (exp (- (1/2 + 1 / T * (1/2))))).
    intros x z Hx Hz. destruct (xs_single x Hx) as [a ->], (zs_single z Hz) as [b ->]. left.
    destruct (pt_rr T a b HT Hx Hz) as (A & B & C). rewrite ptl_rr, ptl_prop. split; [exact A|]. split; [exact C|]. exists [a - 1]. split; [exact B|].
    apply (back_of (fT T) _ _ _ (ptl_M T)); auto; rewrite ptl_prop; [exact A|]. rewrite ptl_prop. f_equal. ring. }
  destruct (has_chain _ 3 H) as (l & Hl & K). exists l, Hl. eexists. split; [|exact K]. exact (@ik_langevin TRng Xs 1 (tempered_lpdf ptm T) [] one I one_ne (pt_grad T)).
Qed.
Lemma pt_swaps : has (@swap_tests TRng Xs [1; 4] (l_pdf (t_base ptm)) []).
Proof.
  exists (uleaf (exp (- (3/8)))), (uleaf_norm (exp (- (3/8)))). fold (Eu (exp (- (3/8)))). intros xs i Hx Hi. cbv zeta. cbn [length] in Hi. assert (i = 0%nat) by lia. subst i.
  apply ens_in in Hx as [L Hx]. cbn [length] in L. destruct xs as [|x0 [|x1 [|]]]; try discriminate L.
  set (r := @swap_log_ratio RNum _ _ _ _).
  assert (Er : r = - (3/4) * (bv (nth 0 x0 0) - bv (nth 0 x1 0))).
  { unfold r, swap_log_ratio. cbn. unfold Num.f1. cbn. field. }
  clearbody r. assert (B : forall x, In x Xs -> bv (nth 0 x 0) = 0 \/ bv (nth 0 x 0) = 1/2).
  { intros x [<-|[<-|[<-|[]]]]; cbn [nth]; rewrite ?bv1, ?bvn by lra; lra. }
  destruct (B x0 (Hx x0 ltac:(now left))) as [B0|B0], (B x1 (Hx x1 ltac:(right; now left))) as [B1|B1]; rewrite B0, B1 in Er.
  - apply up_ok. lra.
  - apply up_ok. lra.
  - replace r with (- (3/8)) by lra. apply small_ok. lra.
  - apply up_ok. lra.
Qed.
Lemma split1 (E : expect ktree) : @split_has TRng E 1 0 E.
Proof. intros h. apply ex_ext. intros k. f_equal. unfold split. destruct k; reflexivity. Qed.
Lemma split_l E E0 E1 : @splits2 TRng E E0 E1 -> @split_has TRng E 2 0 E0.
Proof. intros S h. destruct (S (fun a _ => h a)) as [A B]. refine (eq_trans A _). apply ex_ext. intros k. apply ex_const. Qed.
Lemma split_r E E0 E1 : @splits2 TRng E E0 E1 -> @split_has TRng E 2 1 E1.
Proof. intros S h. destruct (S (fun _ b => h b)) as [A B]. exact (eq_trans A (ex_const _ E0 _)). Qed.
Lemma all2 E E0 E1 : @splits2 TRng E E0 E1 -> @splits_all TRng E [E0; E1].
Proof. intros S h. destruct (S (fun a b => h [a; b])) as [A B]. exact A. Qed.
Lemma pt_has : has (@tempering_source TRng 1 0 Xs 1 ptm [] (mala_kernel one) 3 [1; 4]).
Proof.
  refine (has_split (fun E1 => exists E2 Es Ec Ws Ex Exc, @splits2 TRng E1 E2 Es /\ @split_has TRng Es 1 0 Ec /\ @splits_all TRng Ec Ws /\
    Forall2 (fun W T => @walker_source TRng Xs 1 (tempered_lpdf ptm T) [] (mala_kernel one) 3 W) Ws [1; 4] /\
    @split_has TRng E2 2 1 Ex /\ @split_has TRng Ex 1 0 Exc /\ @key_chain TRng (@swap_tests TRng Xs [1; 4] (l_pdf (t_base ptm)) []) 1 Exc) (fun _ => True) _ _ _ has_one).
  - intros E E0 E1 S (E2 & Es & Ec & Ws & Ex & Exc & A) _. exists E0, E2, Es, Ec, Ws, Ex, Exc. split; [exact (split_l _ _ _ S)|exact A].
  - refine (has_split (fun E2 => exists Ex, @split_has TRng E2 2 1 Ex /\ @key_chain TRng (@swap_tests TRng Xs [1; 4] (l_pdf (t_base ptm)) []) 1 Ex)
      (fun Es => exists W1 W2, @splits2 TRng Es W1 W2 /\ @walker_source TRng Xs 1 (tempered_lpdf ptm 1) [] (mala_kernel one) 3 W1 /\ @walker_source TRng Xs 1 (tempered_lpdf ptm 4) [] (mala_kernel one) 3 W2) _ _ _ _).
    + intros E E0 E1 S (Ex & A & B) (W1 & W2 & C & D1 & D2). exists E0, E1, E1, [W1; W2], Ex, Ex.
      split; [exact S|]. split; [apply split1|]. split; [exact (all2 _ _ _ C)|]. split; [repeat constructor; assumption|]. split; [exact A|]. split; [apply split1|exact B].
    + refine (has_split _ _ _ _ has_one (has_chain _ 1 pt_swaps)). intros E E0 E1 S _ B. exists E1. split; [exact (split_r _ _ _ S)|exact B].
    + refine (has_split _ _ _ _ (pt_walker 1 ltac:(lra)) (pt_walker 4 ltac:(lra))). intros E E0 E1 S A B. exists E0, E1. auto.
Qed.

(** The bundle's memory with the walkers [e]. *)
Definition zb : @buffer RNum := mkBuffer "" (@stack1 RNum []) 0 0.
Definition zpb : pbufs := mkPB zb zb zb zb.
Definition ptb : @buffer RNum := mkBuffer "temperatures" (@stack1 RNum [1; 4]) 0 0.
Definition ppb (e : list (list R)) : @buffer RNum := mkBuffer "tempered_positions" (@stack3 RNum [[nth 1 e []]]) 0 2.
Definition pw_of (training : bool) (e : list (list R)) : @world RNum TRng TNF :=
  bworld pcfg0 (pt_rx ppc) (pt_hx (ppb e, ptb)) tt tt training zpb zpb zb tt 0 0.
Lemma p_counts : counts_ok pcfg0. Proof. constructor; try (cbn; lia). Qed.
Lemma pt_in_state training : @chain_in_state TRng TNF (pt_strat ppc) (mala_kernel one) ptm [] L_tpos L_temp training [1; 4] 1 1 0 Xs (pw_of training) (fun e => [nth 0 e []]).
Proof.
  intros e He. apply ens_in in He as [L Hx]. cbn [length] in L. destruct e as [|x0 [|x1 [|]]]; try discriminate L.
  pose proof (x_len x0 (Hx x0 ltac:(now left))) as L0. pose proof (x_len x1 (Hx x1 ltac:(right; now left))) as L1.
  cbn [nth]. split; [reflexivity|]. split; [intros x [<-|[]]; exact L0|]. split.
  - exists (ppb [x0; x1]), ptb. split; [|split].
    + constructor; try reflexivity; try (split; reflexivity). exists L_state, (phase_state training), (SBool training). repeat split; destruct training; reflexivity.
    + reflexivity.
    + destruct x1 as [|v [|]]; try discriminate L1. reflexivity.
  - intros k. destruct (pt_go ppc [] (fun x _ => eq_refl) (fun x _ => eq_refl) t_normal p_counts ltac:(cbn; lia) training (ppb [x0; x1], ptb) tt tt zpb zpb zb tt 0 0 k [x0]) as (k' & xs' & w' & Q).
    + split; [reflexivity|]. intros x [<-|[]]. exact L0.
    + destruct x1 as [|v [|]]; try discriminate L1. repeat split.
    + exists (k', xs'), w'. exact Q.
Qed.
