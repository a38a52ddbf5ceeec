(** Concrete instances for C19-C21. *)
From Coq Require Import Reals Psatz.
From Coquelicot Require Import Coquelicot.
From Verif Require Import Prelude Num M_Core M_Kernels Spec_Steps Spec_Kernels P_Lists P_Kernels RNum MxR Spec_Jac P_Jac Spec_Real P_Real1 P_Real2 P_Real3 Spec_HMC P_Leapfrog P_HMC.

Definition hdiag : @hmc RNum := @mkHmc RNum (@CMat RNum [[4; 0]; [0; 1]]) (1/10) 3 [[1/2; 0]; [0; 1]].
Definition hfull : @hmc RNum := @mkHmc RNum (@CMat RNum [[2; -1]; [-1; 1]]) (1/10) 3 [[1; 0]; [1; 1]].

Ltac two i := destruct i as [|[|i]]; [| |lia].
Lemma sq2 a b c e : square_mat [[a; b]; [c; e]] 2.
Proof. split; [reflexivity|]. intros r [<-|[<-|[]]]; reflexivity. Qed.
Lemma hdiag_ok_proof : square_mat [[4; 0]; [0; 1]] 2 /\ square_mat (h_chol hdiag) 2 /\
  factors_inverse (h_chol hdiag) [[4; 0]; [0; 1]] 2 /\ diagonal_mat [[4; 0]; [0; 1]] 2 /\ grad_shape rlp [] 2.
Proof.
  repeat split; try reflexivity.
  1,2: intros r [<-|[<-|[]]]; reflexivity.
  - intros i j Hi Hj. two i; two j; cbn; lra.
  - intros i j Hi Hj Hij. two i; two j; cbn; lra || congruence.
  - intros x Hx. cbn. rewrite map_length. exact Hx.
Qed.
Lemma hfull_ok_proof : square_mat [[2; -1]; [-1; 1]] 2 /\ square_mat (h_chol hfull) 2 /\
  factors_inverse (h_chol hfull) [[2; -1]; [-1; 1]] 2 /\ symmetric_mat [[2; -1]; [-1; 1]] 2 /\ ~ diagonal_mat [[2; -1]; [-1; 1]] 2.
Proof.
  repeat split; try reflexivity.
  1,2: intros r [<-|[<-|[]]]; reflexivity.
  - intros i j Hi Hj. two i; two j; cbn; lra.
  - intros i j Hi Hj. two i; two j; cbn; lra.
  - intros H. specialize (H 0%nat 1%nat ltac:(lia) ltac:(lia) ltac:(lia)). cbn in H. lra.
Qed.
(** The target of [rlp] has a differentiable gradient. *)
Lemma rlp_hess_proof q : length q = 2%nat -> is_jac 2 2 (fun q' => lp_grad rlp q' []) q (fun i j => -1 * mid i j).
Proof.
  intros Hq i Hi. eapply is_dif_ext; [exact Hq| |apply is_dif_scal, is_dif_proj; exact Hi].
  intros y Hy. cbn. rewrite mapR by lia. ring.
Qed.
