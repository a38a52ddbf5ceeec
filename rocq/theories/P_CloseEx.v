(** A concrete flow and targets for C93. *)
From Coq Require Import Reals Psatz.
From Verif Require Import Prelude Num M_Core M_Kernels M_Strategies P_Lists RNum MxR Spec_Kernels Spec_Steps P_Kernels P_Steps Spec_Real P_Real1 P_Real3 Spec_Close P_Close.
Open Scope R_scope.
(** A flow with density exp(-x^2/2) (up to a constant it does not know) on one-dimensional positions, and a random source
    whose uniform numbers are 1/2 or 1/4 depending on the key. *)
Definition CRng : @Rng RNum := @mkRng RNum nat (fun k _ i => (2 * k + i)%nat) (fun _ n => repeat 0 n) (fun _ => 0)
  (fun k => if Nat.even k then 1/2 else 1/4) (fun _ n => seq 0 n) (fun _ n m => repeat 0%nat m).
Definition CNF : @NFOps RNum CRng := @mkNFOps RNum CRng unit unit unit
  (fun _ x => - (hd 0 x) ^ 2 / 2) (fun _ k n => map (fun i => [INR (k + i)]) (seq 0 n)) (fun _ _ _ _ => (0, tt, tt)) (fun _ _ => tt).
Definition c_exact : @lpdf RNum := @mkLpdf RNum (fun x _ => - (hd 0 x) ^ 2 / 2 + 5) (fun x _ => map Ropp x).
Definition c_close : @lpdf RNum := @mkLpdf RNum (fun x _ => - (hd 0 x) ^ 2 / 2 + sin (hd 0 x) / 8) (fun x _ => map (fun v => - v + cos v / 8) x).
Definition c_heavy : @lpdf RNum := @mkLpdf RNum (fun x _ => - (hd 0 x) ^ 2 / 4) (fun x _ => map (fun v => - v / 2) x).
Lemma c_shape : @samples_shape RNum CRng CNF tt 1.
Proof.
  intros k n. cbn [m_sample CNF]. rewrite map_length, seq_length. split; [reflexivity|]. intros x Hx. apply in_map_iff in Hx as (i & <- & _). reflexivity.
Qed.
Lemma c_exact_near : @near_target CRng CNF 1 tt c_exact [] 5 0.
Proof. intros x _. unfold log_weight, c_exact. cbn [lp_val m_logp CNF]. replace (_ - _ - 5) with 0 by ring. rewrite Rabs_R0. lra. Qed.
Lemma c_close_near : @near_target CRng CNF 1 tt c_close [] 0 (1 / 8).
Proof.
  intros x _. unfold log_weight, c_close. cbn [lp_val m_logp CNF]. pose proof (SIN_bound (hd 0 x)) as S0. 
  match goal with |- Rabs ?a <= _ => replace a with (sin (hd 0 x) / 8) by ring end. unfold Rabs. destruct (Rcase_abs _); lra.
Qed.
Lemma c_uniform : forall k, 0 < @uniform RNum CRng k < 1.
Proof. intros k. cbn [uniform CRng]. destruct (Nat.even k); lra. Qed.
Lemma c_heavy_stuck n k props lps : @sample_flow RNum CRng CNF (@mkNfp RNum CRng CNF tt 100) k n = Ok (props, lps) -> (k + n <= 4)%nat ->
  forall y, In y props -> @log_weight CRng CNF tt c_heavy [] y <= @log_weight CRng CNF tt c_heavy [] [10] - 2.
Proof.
  intros H Hk y Hy. unfold sample_flow in H. cbn [nfp_bs nfp_model] in H. replace (100 <? n)%nat with false in H by (symmetry; apply Nat.ltb_ge; lia).
  injection H as <- _. cbn [m_sample CNF] in Hy. apply in_map_iff in Hy as (i & <- & Hi). apply in_seq in Hi. unfold log_weight, c_heavy. cbn [lp_val m_logp CNF hd].
  assert (B : 0 <= INR (k + i) <= 4). { split; [apply pos_INR|]. replace 4 with (INR 4) by (cbn; ring). apply le_INR. lia. }
  set (v := INR (k + i)) in * . nra.
Qed.
