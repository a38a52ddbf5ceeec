(** C88: the origin of the parameters is visible to a trained spline flow. *)
From Coq Require Import Reals Psatz.
From Verif Require Import Prelude Num M_Core M_Kernels M_Strategies M_PT M_Bundle M_Flow M_Net M_Model M_Tree M_Spline RNum Spec_Kernels Spec_Prog Spec_Real Spec_FM Spec_Units Spec_USpline Spec_UShift P_Tree2 P_UShift.
Open Scope nat_scope.

(** C88, the other half: measured from another origin (x' = x + b) the data of a training call lead to a different flow.  Whatever
    the batches, after T >= 1 optimiser steps the coordinate the flow sees is off by (1 - r) b_i / sqrt(r v_i), r the product of the
    T decay factors and v_i the variance of the data, hence different whenever b_i <> 0. *)
Theorem C88_origin_refuted : forall (G : @Rng RNum) li chol grad (a : @args RNum G) lv0 (b : nat -> R) data data' batches batches' (x x' : list R) i,
  let n := a_n_dims a in let fl := rqs_flow (a_layers a) (a_bins a) (a_hidden a) in
  (forall lv xs j, j < n + n * n -> @nth R j (grad lv xs) 0%R = 0%R) ->
  rqs_tree li n (a_layers a) (a_bins a) (a_hidden a) (fofZ (-10)) (fofZ 10) (split (a_key a) 2 1) = Ok lv0 -> (0 < a_lr a < 10000)%R ->
  Forall2 (in_units n (fun _ => 1%R) b) data data' -> data <> [] -> length batches' = length batches -> batches <> [] ->
  in_units n (fun _ => 1%R) b x x' -> i < n ->
  let v := var_of (length data) (fun k => @nth R i (nth k data []) 0%R) in let r := ((1 - a_lr a * (1 / 10000)) ^ length batches)%R in
  (0 < v)%R -> (0 < r < 1)%R /\
  @nth R i (whiten (fl (spline_trained chol grad a lv0 data' batches')) x') 0%R =
    (@nth R i (whiten (fl (spline_trained chol grad a lv0 data batches)) x) 0 + (1 - r) * b i / sqrt (v * r))%R.
Proof. intros G li chol grad a lv0 b data data' bs bs' x x' i n fl HZ H0. exact (shift_whiten' li chol grad a lv0 HZ H0 b data data' bs bs' x x' i). Qed.

(** One parameter, two data points, origin moved by 3, one step with learning rate 1/10. *)
Definition sh_args (G : @Rng RNum) (k : key) (f : @lpdf RNum) : @args RNum G :=
  mkArgs k 2 1 f 4 2 1 1 3 (@SScalar RNum (1/2)%R) 0 [4] 5 2 (1/10)%R 10 20 1 1 5 10.
Example C88_case_origin (G : @Rng RNum) (k : key) (f : @lpdf RNum) li chol : exists lv0,
  let a := sh_args G k f in let fl := rqs_flow (a_layers a) (a_bins a) (a_hidden a) in let grad := fun (_ : list (@leaf RNum)) (_ : list (list R)) => @nil R in
  rqs_tree li 1 (a_layers a) (a_bins a) (a_hidden a) (fofZ (-10)) (fofZ 10) (split (a_key a) 2 1) = Ok lv0 /\
  (@nth R 0 (whiten (fl (spline_trained chol grad a lv0 [[4]; [6]]%R [[[4]]%R])) [5%R]) 0 >
   @nth R 0 (whiten (fl (spline_trained chol grad a lv0 [[1]; [3]]%R [[[1]]%R])) [2%R]) 0)%R.
Proof.
  destruct (rqs_tree_ok li 1 2 5 [4] (fofZ (-10)) (fofZ 10) (split k 2 1)) as [lv0 E]. exists lv0. cbv zeta. split; [exact E|].
  assert (U : forall p q : R, (q = p + 3)%R -> in_units 1 (fun _ => 1%R) (fun _ => 3%R) [p] [q]).
  { intros p q ->. split; [reflexivity|]. split; [reflexivity|]. intros [|i] Hi; [cbn; ring|lia]. }
  pose proof (C88_origin_refuted G li chol (fun _ _ => []) (sh_args G k f) lv0 (fun _ => 3%R) [[1]; [3]]%R [[4]; [6]]%R [[[1]]%R] [[[4]]%R] [2%R] [5%R] 0) as H.
  cbv zeta in H.
  assert (V : var_of 2 (fun k0 => @nth R 0 (nth k0 [[1]; [3]]%R []) 0%R) = 2%R).
  { unfold var_of, mean_of. cbn. field. }
  destruct H as [Hr ->].
  - intros lv xs [|j] _; reflexivity.
  - exact E.
  - cbn. lra.
  - constructor; [apply U; ring|]. constructor; [apply U; ring|constructor].
  - discriminate.
  - reflexivity.
  - discriminate.
  - apply U. ring.
  - cbn. lia.
  - change (length [[1]; [3]]%R) with 2. change (0 < var_of 2 (fun k0 => @nth R 0 (nth k0 [[1]; [3]]%R []) 0%R))%R. rewrite V. lra.
  - change (length [[1]; [3]]%R) with 2. change (var_of _ _) with (var_of 2 (fun k0 => @nth R 0 (nth k0 [[1]; [3]]%R []) 0%R)). rewrite V.
    set (r := ((1 - a_lr (sh_args G k f) * (1 / 10000)) ^ length [[[1%R]]])%R) in * .
    assert (S : (0 < (1 - r) * 3 / sqrt (2 * r))%R). { apply Rmult_lt_0_compat; [lra|]. apply Rinv_0_lt_compat, sqrt_lt_R0. lra. }
    set (w := whiten _ _). lra.
Qed.

Print Assumptions C88_origin_refuted.
