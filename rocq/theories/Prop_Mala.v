(** C74: MALA with a matrix as step size, in exact real arithmetic. *)
From Coq Require Import Reals Psatz.
From Verif Require Import Prelude Num M_Core M_Kernels M_Net M_Mala RNum MxR Spec_Kernels Spec_Real Spec_Net Spec_TreeR Spec_Mala P_Real3 P_Tree14 P_Mala.
Open Scope R_scope.

(** Diagonal matrices (nonzero entries): the kernel of C13-C17 with that diagonal, call for call. *)
Theorem C74_diagonal : forall (G : @Rng RNum) chol, chol_law chol -> forall v k f d (x z : list R) u,
  length v = length x -> length z = length x -> @grad_shape RNum f d (length x) -> (forall i, (i < length x)%nat -> nth i v 0 <> 0) ->
  mat_mala_run chol (diagonal_matrix v) k f d x z u = @mala_run G (SDiag v) k f d x z u.
Proof. exact @mat_diagonal. Qed.

(** What every call does: the proposal is x plus half the squared-entries matrix applied to the gradient, plus
    the matrix applied to the noise; a call returns either the proposal or x, with the log-density there. *)
Theorem C74_outcome : forall (G : @Rng RNum) chol dt k f d (x z : list R) n, Spec_Net.square n dt ->
  length x = n -> length z = n -> @grad_shape RNum f d n ->
  exists (y : list R) r, length y = n /\
  (forall i, (i < n)%nat -> nth i y 0 = nth i x 0 + Rsum n (fun j => ent dt i j ^ 2 * nth j (lp_grad f x d) 0) / 2 + Rsum n (fun j => ent dt i j * nth j z 0)) /\
  proposes (@mat_mala_run G chol dt k f d x z) y /\ accept_prob (@mat_mala_run G chol dt k f d x z) (Rmin 1 (exp r)) /\
  forall u, @mat_mala_run G chol dt k f d x z u = Ok (y, lp_val f y d, true) \/ @mat_mala_run G chol dt k f d x z u = Ok (x, lp_val f x d, false).
Proof. exact @mat_outcome. Qed.
(** The acceptance probability: a Metropolis-Hastings rule for proposals with mean mu and covariance the matrix of
    squared entries (u and w solve the two linear systems of that matrix). *)
Theorem C74_acceptance : forall (G : @Rng RNum) chol, chol_law chol -> forall n dt k f d (x y z u w : list R),
  Spec_Net.square n dt -> squares_factor n dt -> @grad_shape RNum f d n ->
  length x = n -> length z = n -> length u = n -> length w = n -> proposes (@mat_mala_run G chol dt k f d x z) y ->
  let mu (p : list R) i := nth i p 0 + Rsum n (fun j => ent dt i j ^ 2 * nth j (lp_grad f p d) 0) / 2 in
  (forall i, (i < n)%nat -> Rsum n (fun j => ent dt i j ^ 2 * nth j u 0) = nth i y 0 - mu x i) ->
  (forall i, (i < n)%nat -> Rsum n (fun j => ent dt i j ^ 2 * nth j w 0) = nth i x 0 - mu y i) ->
  accept_prob (@mat_mala_run G chol dt k f d x z)
   (Rmin 1 (exp (lp_val f y d - lp_val f x d + / 2 * Rsum n (fun i => (nth i y 0 - mu x i) * nth i u 0)
                                             - / 2 * Rsum n (fun i => (nth i x 0 - mu y i) * nth i w 0)))).
Proof. exact @mat_acceptance. Qed.
Theorem C74_wrong_shape : forall (N : Num) (G : Rng) chol dt k f d (x : list F) lp,
  M_Kernels.square dt (length x) = false -> mat_mala_kernel chol dt k x lp f d = Raise TypeError.
Proof. exact @mat_wrong_shape. Qed.

(** The acceptance ratio takes the squared entries for the covariance of the noise: right only for diagonal
    matrices. *)
Theorem C74_covariance : forall n dt,
  (forall i j, (i < n)%nat -> (j < n)%nat -> ent dt i j ^ 2 = noise_cov n dt i j) <-> is_diagonal n dt.
Proof. exact covariance_iff. Qed.

(** For every other matrix detailed balance fails: there are a gradient c and a displacement such that any target
    with gradient c at x and at y = x + displacement, log-linear between the two, is not in balance. *)
Theorem C74_full_matrix_refuted : forall (G : @Rng RNum) chol, chol_law chol -> forall n dt,
  Spec_Net.square n dt -> invertible n dt -> squares_factor n dt -> ~ is_diagonal n dt ->
  exists c delta : list R, length c = n /\ length delta = n /\
  forall k f d (x y z z' : list R) a b q q', length x = n -> length z = n -> length z' = n ->
  y = @vadd RNum x delta -> lp_grad f x d = c -> lp_grad f y d = c ->
  lp_val f y d = lp_val f x d + Rsum n (fun i => nth i c 0 * nth i delta 0) ->
  proposes (@mat_mala_run G chol dt k f d x z) y -> proposes (@mat_mala_run G chol dt k f d y z') x ->
  accept_prob (@mat_mala_run G chol dt k f d x z) a -> accept_prob (@mat_mala_run G chol dt k f d y z') b ->
  noise_density n dt z q -> noise_density n dt z' q' ->
  a = 1 /\ b = 1 /\ exp (lp_val f x d) * q * a <> exp (lp_val f y d) * q' * b.
Proof. intros G chol Hc n dt. exact (mat_refuted chol n dt Hc). Qed.
(** Every point can be proposed from every point, by one noise vector. *)
Theorem C74_all_pairs : forall (G : @Rng RNum) chol n dt k f d (x y : list R), Spec_Net.square n dt -> invertible n dt ->
  length x = n -> length y = n -> @grad_shape RNum f d n ->
  exists z, length z = n /\ proposes (@mat_mala_run G chol dt k f d x z) y /\
    forall z', length z' = n -> proposes (@mat_mala_run G chol dt k f d x z') y -> z' = z.
Proof. exact @mat_all_pairs. Qed.
(** So on some log-linear target it fails from every point: the two moves are both accepted with probability one,
    but their densities do not balance. *)
Theorem C74_balance_fails : forall (G : @Rng RNum) chol n dt k, chol_law chol ->
  Spec_Net.square n dt -> invertible n dt -> squares_factor n dt -> ~ is_diagonal n dt ->
  exists (c : list R), length c = n /\ forall (x : list R) d, length x = n -> exists (y z z' : list R) q q',
  let f := @mkLpdf RNum (fun x _ => Rsum n (fun i => nth i c 0 * @nth R i x 0)) (fun _ _ => c) in
  proposes (@mat_mala_run G chol dt k f d x z) y /\ proposes (@mat_mala_run G chol dt k f d y z') x /\
  accept_prob (@mat_mala_run G chol dt k f d x z) 1 /\ accept_prob (@mat_mala_run G chol dt k f d y z') 1 /\
  noise_density n dt z q /\ noise_density n dt z' q' /\
  exp (lp_val f x d) * q * 1 <> exp (lp_val f y d) * q' * 1.
Proof. exact @mat_balance_fails. Qed.

(** A 2 x 2 matrix that meets the hypotheses; both rows of the covariance differ from the squared entries. *)
Definition ex_dt : list (list R) := [[1; 1/2]; [1/2; 1]].
Example C74_hypotheses : Spec_Net.square 2 ex_dt /\ invertible 2 ex_dt /\ squares_factor 2 ex_dt /\ ~ is_diagonal 2 ex_dt /\
  ent ex_dt 0 1 ^ 2 = 1/4 /\ noise_cov 2 ex_dt 0 1 = 1.
Proof.
  split; [split; [reflexivity|intros r [<-|[<-|[]]]; reflexivity]|].
  split; [exists (fun i j => if (i =? j)%nat then 4/3 else -2/3); intros [|[|i]] [|[|j]] Hi Hj; try lia; unfold mmul, mid, ent; cbn; field|].
  split.
  - exists [[1; 0]; [1/4; sqrt 15 / 4]]. assert (Hs : 0 < sqrt 15) by (apply sqrt_lt_R0; lra). pose proof (sqrt_sqrt 15 ltac:(lra)) as Hq. split; [split; [|split]|].
    + split; [reflexivity|intros r [<-|[<-|[]]]; reflexivity].
    + intros i j H. destruct i as [|i]; [destruct j as [|[|j]]; try lia; reflexivity|lia].
    + intros [|[|i]] Hi; try lia; unfold ent; cbn; lra.
    + intros [|[|i]] [|[|j]] Hi Hj; try lia; unfold ent; cbn; try field. nra.
  - split; [intros H; specialize (H 0%nat 1%nat ltac:(lia) ltac:(lia) ltac:(lia)); unfold ent in H; cbn in H; lra|]. split; unfold noise_cov, ent; cbn; field.
Qed.
(** The theorems apply to it. *)
Example C74_case : exists chol, chol_law chol /\ exists c : list R, length c = 2%nat /\ forall (x : list R) d, length x = 2%nat -> exists (y z z' : list R) q q',
  let f := @mkLpdf RNum (fun x _ => Rsum 2 (fun i => nth i c 0 * @nth R i x 0)) (fun _ _ => c) in
  proposes (@mat_mala_run RRng chol ex_dt true f d x z) y /\ proposes (@mat_mala_run RRng chol ex_dt true f d y z') x /\
  accept_prob (@mat_mala_run RRng chol ex_dt true f d x z) 1 /\ accept_prob (@mat_mala_run RRng chol ex_dt true f d y z') 1 /\
  noise_density 2 ex_dt z q /\ noise_density 2 ex_dt z' q' /\ exp (lp_val f x d) * q * 1 <> exp (lp_val f y d) * q' * 1.
Proof.
  destruct chol_exists as [chol Hc]. exists chol. split; [exact Hc|]. destruct C74_hypotheses as (H1 & H2 & H3 & H4 & _).
  exact (C74_balance_fails RRng chol 2 ex_dt true Hc H1 H2 H3 H4).
Qed.
(** A diagonal matrix: the same call as with the diagonal step size. *)
Example C74_diagonal_case : exists chol, forall u, @mat_mala_run RRng chol [[2; 0]; [0; 3]] true (@mkLpdf RNum (fun _ _ => 0) (fun _ _ => [1; 1])) [] [5; 7] [1; -1] u
  = @mala_run RRng (SDiag [2; 3]) true (@mkLpdf RNum (fun _ _ => 0) (fun _ _ => [1; 1])) [] [5; 7] [1; -1] u.
Proof.
  destruct chol_exists as [chol Hc]. exists chol. intros u. apply (C74_diagonal RRng chol Hc [2; 3]); try reflexivity.
  - intros x _. reflexivity.
  - intros [|[|i]] Hi; cbn in * ; try lia; lra.
Qed.
(** A matrix with the wrong number of rows is refused. *)
Example C74_wrong_shape_case : @mat_mala_kernel RNum RRng (fun m => m) [[2; 0]] true [5; 7] 0 (@mkLpdf RNum (fun _ _ => 0) (fun _ _ => [1; 1])) [] = Raise TypeError.
Proof. apply C74_wrong_shape. reflexivity. Qed.
Print Assumptions C74_diagonal.
Print Assumptions C74_outcome.
Print Assumptions C74_acceptance.
Print Assumptions C74_wrong_shape.
Print Assumptions C74_covariance.
Print Assumptions C74_full_matrix_refuted.
Print Assumptions C74_all_pairs.
Print Assumptions C74_balance_fails.
