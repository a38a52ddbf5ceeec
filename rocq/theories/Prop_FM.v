(** Properties C51, C52, C56 and C57: flow matching and the data statistics. *)
From Coq Require Import Reals Psatz.
From Coquelicot Require Import Coquelicot.
From Verif Require Import Prelude Num M_Core M_Kernels M_Strategies M_Flow M_Net M_FM RNum MxR Spec_Jac P_Jac Spec_Real Spec_Kernels Spec_Flow Spec_Train Spec_FM P_FM P_FM2 P_FM3 P_FM4 P_FM5 Toy.
Open Scope R_scope.

(* ==================================================================================== *)
(** C51.  The path starts at x0, ends at x1 and its reported velocity is its time derivative. *)
Theorem C51_endpoints : forall x0 x1 : list R, length x0 = length x1 ->
  fst (path_sample (@cond_ot RNum) x0 x1 0) = x0 /\ fst (path_sample (@cond_ot RNum) x0 x1 1) = x1.
Proof. exact path_ends. Qed.
Theorem C51_velocity : forall (x0 x1 : list R) (t : R) i, length x0 = length x1 -> (i < length x0)%nat ->
  is_derive (fun s : R => @nth R i (fst (path_sample (@cond_ot RNum) x0 x1 s)) 0) t (@nth R i (snd (path_sample (@cond_ot RNum) x0 x1 t)) 0).
Proof. exact path_velocity. Qed.
(** In between it is the straight line. *)
Theorem C51_line : forall (x0 x1 : list R) (t : R) i, length x0 = length x1 -> (i < length x0)%nat ->
  @nth R i (fst (path_sample (@cond_ot RNum) x0 x1 t)) 0 = line x0 x1 t i /\
  @nth R i (snd (path_sample (@cond_ot RNum) x0 x1 t)) 0 = nth i x1 0 - nth i x0 0.
Proof. exact path_nth. Qed.

(* ==================================================================================== *)
(** C52.  log_prob returns one number in an array of shape (1,): the log-density of the standard normal
    at the whitened point itself, plus the integrated divergence, minus sum log std (the whitening
    Jacobian). *)
Theorem C52_value : forall n (m : @fmodel RNum), good_fm n m -> forall x : list R, length x = n ->
  fm_log_prob m x = match solver_back (fm_solver m) (1 / 10) (fm_whiten m x) with
    | Ok (x0, l) => Ok [ln (std_density n (fm_whiten m x)) + l - Rsum n (fun i => ln (sd m i))]
    | Raise e => Raise e end.
Proof. exact fm_log_prob_value. Qed.
(** It is the value of the change-of-variables formula, with the density of the point x0 the solver
    reaches at t = 0, only where x0 is as far from the origin as the whitened point. *)
Theorem C52_right_iff : forall n (m : @fmodel RNum), good_fm n m -> forall (x x0 : list R) (l : R), length x = n ->
  solver_back (fm_solver m) (1 / 10) (fm_whiten m x) = Ok (x0, l) ->
  (fm_log_prob m x = Ok [ln (std_density n x0) + l - Rsum n (fun i => ln (sd m i))] <->
   sq_norm n x0 = sq_norm n (fm_whiten m x)).
Proof. exact fm_right_iff. Qed.
(** x0 is where the field alone leads from t = 1 to t = 0 (the divergence does not influence it), and for a
    field whose divergence is tau everywhere, l = - tau. *)
Theorem C52_backward : forall n (m : @fmodel RNum), good_fm n m -> forall (dt : R) (x : list R), length x = n ->
  match diffeqsolve (sv_method (fm_solver m)) (fm_field (sv_net (fm_solver m))) 1 0 (- dt) x with
  | Ok x0 => length x0 = n /\ exists l, solver_back (fm_solver m) dt x = Ok (x0, l) /\ forall tau, divergence n m tau -> l = - tau
  | Raise e => solver_back (fm_solver m) dt x = Raise e
  end.
Proof. exact back_splits. Qed.
(** Fields c that are constant, and fields a + t b that depend on time only, shift all points by their
    integral over [0, 1]: c, or a + b/2 (for methods of order 2 or more). *)
Theorem C52_constant_fields : forall n (m : @fmodel RNum), good_fm n m -> forall c, constant_field n m c -> shifts n m c.
Proof. exact const_shifts. Qed.
Theorem C52_time_fields : forall n (m : @fmodel RNum) a b, good_fm n m -> time_field n m a b -> second_order (sv_method (fm_solver m)) ->
  shifts n m (vadd a (vscale (1 / 2) b)).
Proof. exact time_shifts. Qed.
(** Then sample returns noise shifted by c and un-whitened, an invertible map with inverse
    [noise_of m c] (x |-> whitened x - c) ... *)
Theorem C52_shift_samples : forall (G : @Rng RNum) n (m : @fmodel RNum), good_fm n m -> forall c, shifts n m c ->
  forall k (s : nat) (dt : R), 1 / 4096 <= dt -> length (normal (split k 2 1) (s * n)) = (s * n)%nat ->
  exists xs, fm_sample m k s dt = Ok xs /\ length xs = s /\
    forall j, (j < s)%nat -> exists z : list R, z = firstn n (skipn (j * n) (normal (split k 2 1) (s * n))) /\ length z = n /\
      nth j xs [] = fm_unwhiten m (vadd z c) /\ noise_of m c (nth j xs []) = z.
Proof. exact @const_sample. Qed.
Theorem C52_shift_inverse : forall n (m : @fmodel RNum), good_fm n m -> forall c, shifts n m c ->
  (forall z, length z = n -> noise_of m c (fm_unwhiten m (vadd z c)) = z) /\
  (forall x, length x = n -> fm_unwhiten m (vadd (noise_of m c x) c) = x).
Proof. intros n m H c Hc. exact (conj (noise_sample n m H c Hc) (sample_noise n m H c Hc)). Qed.
(** ... so the density of samples at x is [d] below; log_prob equals ln d only on a hyperplane. *)
Theorem C52_shift_right_iff : forall n (m : @fmodel RNum), good_fm n m -> forall c, shifts n m c ->
  forall (x : list R) (d v : R), length x = n -> density_through n (noise_of m c) (std_density n) x d -> fm_log_prob m x = Ok [v] -> 0 < d /\
  (v = ln d <-> Rsum n (fun i => nth i c 0 * (2 * @nth R i (fm_whiten m x) 0 - nth i c 0)) = 0).
Proof. exact const_right_iff. Qed.
(** Every shift but 0 has points where log_prob is not the log-density of the samples. *)
Theorem C52_not_the_sample_density_refuted : forall n (m : @fmodel RNum), good_fm n m -> forall c, shifts n m c ->
  (exists i, (i < n)%nat /\ nth i c 0 <> 0) -> exists x d v, length x = n /\ 0 < d /\
  density_through n (noise_of m c) (std_density n) x d /\ fm_log_prob m x = Ok [v] /\ v <> ln d.
Proof. exact const_wrong. Qed.
(** Whitening and un-whitening are inverse to each other. *)
Theorem C52_whitening : forall n (m : @fmodel RNum), good_fm n m -> forall x : list R, length x = n ->
  fm_whiten m (fm_unwhiten m x) = x /\ fm_unwhiten m (fm_whiten m x) = x.
Proof. intros n m H x Hx. exact (conj (fmw_u n m H x Hx) (fmu_w n m H x Hx)). Qed.
(** A model built without data statistics does not rescale: its samples and log-densities are those of its solver. *)
Theorem C52_fresh_model : forall (G : @Rng RNum) (s : @solver RNum) (sch : @scheduler RNum), let m := fm_new s sch in
  let d := (nt_in (sv_net s) - 1)%nat in
  (forall x : list R, length x = d -> fm_whiten m x = x /\ fm_unwhiten m x = x /\ fm_log_prob m x = solver_log_prob s x (1 / 10)) /\
  (forall k n dt ys, solver_sample s (split k 2 1) n dt = Ok ys -> (forall y : list R, In y ys -> length y = d) -> fm_sample m k n dt = Ok ys).
Proof.
  intros G s sch m d. split; [intros x Hx; split; [|split]|intros k n dt ys H1 H2]; [now apply new_whiten|now apply new_unwhiten|now apply new_log_prob|now apply new_sample].
Qed.
(** Dopri5, the default method: consistent, row sums equal nodes, and exact quadrature of degree 4. *)
Theorem C52_dopri5 : second_order (@dopri5 RNum) /\
  (forall q, (q <= 4)%nat -> Rsum 7 (fun i => nth i (tb_weights (@dopri5 RNum)) 0 * fst (nth i (tb_stages (@dopri5 RNum)) (0, [])) ^ q) = 1 / INR (S q)) /\
  (forall i, (i < 7)%nat -> length (snd (nth i (tb_stages (@dopri5 RNum)) (0, []))) = i /\
     Rsum i (fun j => nth j (snd (nth i (tb_stages (@dopri5 RNum)) (0, []))) 0) = fst (nth i (tb_stages (@dopri5 RNum)) (0, []))).
Proof. exact (conj dopri5_second dopri5_order). Qed.

(* ==================================================================================== *)
(** C56.  Training of the flow-matching model: each example is used at most once per epoch, in full
    batches, and is the point of the straight path between its noise vector and its whitened sample. *)
Theorem C56_full_batches : forall (N : Num) (G : Rng) (gtx optst : Type) upd (m : fmodel) k (tx : gtx) (st : optst) x0s x1s ts bs,
  permutation_law -> (0 < bs <= length x0s)%nat ->
  exists batches ix vs s',
    fm_train_epoch upd m k tx st x0s x1s ts bs = Ok (last vs f0, s') /\
    fm_updates upd tx (m, st) batches vs s' /\
    length batches = (length x0s / bs)%nat /\ (forall b, In b batches -> length b = bs) /\
    concat batches = map (fm_example m x0s x1s ts) ix /\ NoDup ix /\
    (forall i, In i ix -> (i < length x0s)%nat) /\ length ix = (length x0s - length x0s mod bs)%nat.
Proof. exact @fm_batches_proof. Qed.
Theorem C56_small_data : forall (N : Num) (G : Rng) (gtx optst : Type) upd (m : fmodel) k (tx : gtx) (st : optst) x0s x1s ts bs,
  (length x0s < bs)%nat ->
  fm_train_epoch upd m k tx st x0s x1s ts bs =
  let b := map (fm_example m x0s x1s ts) (seq 0 (length x0s)) in Ok (fm_loss m b, upd m b tx st).
Proof. exact @fm_small_proof. Qed.
Theorem C56_examples : forall n (m : @fmodel RNum) (x0s x1s : list (list R)) (ts : list R) i x t dx, good_fm n m -> fm_sched m = cond_ot ->
  length (nth i x0s []) = n -> length (nth i x1s []) = n -> fm_example m x0s x1s ts i = (x, t, dx) ->
  t = nth i ts 0 /\ length x = n /\ length dx = n /\
  forall j, (j < n)%nat ->
    let y := (nth j (nth i x1s []) 0 - nth j (fm_mean m) 0) / sd m j in
    nth j x 0 = (1 - t) * nth j (nth i x0s []) 0 + t * y /\ nth j dx 0 = y - nth j (nth i x0s []) 0.
Proof. exact fm_example_line. Qed.
(** The loss is the mean squared difference between the field and the velocities. *)
Theorem C56_loss : forall n (m : @fmodel RNum) (batch : list (list R * R * list R)), good_fm n m ->
  (forall x t dx, In (x, t, dx) batch -> length x = n /\ length dx = n) ->
  fm_loss m batch = Rsum (length batch) (fun b => Rsum n (fun j =>
     let '(x, t, dx) := nth b batch ([], 0, []) in (nth j (nt_call (sv_net (fm_solver m)) (x ++ [t])) 0 - nth j dx 0) ^ 2))
     / (INR (length batch) * INR n).
Proof. exact fm_loss_value. Qed.
(** train returns the state right after the first best epoch; epochs start from the model with the
    statistics of the samples. *)
Theorem C56_best_epoch : forall (N : Num) (G : Rng) (gtx optst : Type) upd (m : fmodel) k x0s x1s ts (tx : gtx) (st : optst) n bs kf s' losses, NumLaws ->
  fm_train upd m k x0s x1s ts tx st n bs = Ok (kf, s', losses) ->
  exists hist, length hist = n /\ fm_epochs upd tx x0s x1s ts bs k (fm_set_stats m x1s, st) hist /\
    losses = map fst hist /\ kf = iter n (fun q => split q 2 0) k /\
    ((exists i v, first_best (fofZ 1000000000) losses i /\ nth_error hist i = Some (v, s') /\ fnan v = false) \/
     ((forall u, In u losses -> (u <.? fofZ 1000000000)%num = false) /\ s' = (m, st))).
Proof. exact @fm_best_proof. Qed.
Theorem C56_succeeds : forall (N : Num) (G : Rng) (gtx optst : Type) upd (m : fmodel) k x0s x1s ts (tx : gtx) (st : optst) n bs,
  (exists o, fm_train upd m k x0s x1s ts tx st n bs = Ok o) <-> (bs <> 0%nat \/ n = 0%nat).
Proof. exact @fm_total_proof. Qed.

(* ==================================================================================== *)
(** C57.  The statistics a flow takes from its training data.  With at least two examples and no constant
    column, all variances are positive, and whitened examples have mean 0 and variance 1 in every
    coordinate ... *)
Theorem C57_positive : forall d (data : list (list R)) ls mu0 v0, (2 <= length data)%nat ->
  (forall j, (j < d)%nat -> exists i i', (i < length data)%nat /\ (i' < length data)%nat /\ nth j (nth i data []) 0 <> nth j (nth i' data []) 0) ->
  good_stats (set_stats (mkFlow d ls mu0 v0) data).
Proof. exact set_stats_good. Qed.
Theorem C57_whitened : forall d (data : list (list R)) ls mu0 v0, (forall r, In r data -> length r = d) -> (2 <= length data)%nat ->
  (forall j, (j < d)%nat -> exists i i', (i < length data)%nat /\ (i' < length data)%nat /\ nth j (nth i data []) 0 <> nth j (nth i' data []) 0) ->
  let m := set_stats (mkFlow d ls mu0 v0) data in
  forall j, (j < d)%nat ->
  mean_of (length data) (fun i => @nth R j (whiten m (nth i data [])) 0) = 0 /\
  var_of (length data) (fun i => @nth R j (whiten m (nth i data [])) 0) = 1.
Proof. exact whitened_data. Qed.
(** The flow-matching model takes the same statistics from the data before its first epoch (see
    C56_best_epoch) and keeps solver and schedule. *)
Theorem C57_flow_matching : forall d (m : @fmodel RNum) (data : list (list R)),
  nt_in (sv_net (fm_solver m)) = S d -> (* the network reads a point of dimension d and the time *)
  (forall r, In r data -> length r = d) -> (2 <= length data)%nat ->
  (forall j, (j < d)%nat -> exists i i', (i < length data)%nat /\ (i' < length data)%nat /\ nth j (nth i data []) 0 <> nth j (nth i' data []) 0) ->
  let m' := fm_set_stats m data in
  fm_solver m' = fm_solver m /\ fm_sched m' = fm_sched m /\
  length (fm_mean m') = d /\ length (fm_var m') = d /\
  forall j, (j < d)%nat ->
  0 < @nth R j (fm_var m') 0 /\
  mean_of (length data) (fun i => @nth R j (fm_whiten m' (nth i data [])) 0) = 0 /\
  var_of (length data) (fun i => @nth R j (fm_whiten m' (nth i data [])) 0) = 1.
Proof. exact fm_stats_proof. Qed.
(** ... but a constant column gets variance 0 and whitening divides by it. *)
Theorem C57_constant_column : forall d (data : list (list R)) j, (2 <= length data)%nat -> (j < d)%nat ->
  (forall i i', (i < length data)%nat -> (i' < length data)%nat -> nth j (nth i data []) 0 = nth j (nth i' data []) 0) ->
  @nth R j (diag (@data_cov RNum d data)) 0 = 0.
Proof. exact constant_column. Qed.

(* ==================================================================================== *)
(** Concrete cases. *)
Definition shift_net (c : R) : @fnet RNum := mkFnet (2 : nat) (1 : nat) (fun _ => [c]) (fun _ => [[0; 0]]).
Definition shift_model (c : R) : @fmodel RNum := mkFM (mkSolver (shift_net c) dopri5) cond_ot [3] [4].
Example C52_shift_good : forall c, good_fm 1 (shift_model c) /\ constant_field 1 (shift_model c) [c].
Proof.
  intros c. split; [|split; reflexivity]. constructor; try reflexivity.
  - constructor; try reflexivity. intros v _ i Hi. destruct i; [|lia]. cbn [shift_model fm_solver sv_net shift_net nt_call nt_jac nth].
    apply (is_dif_gext 2 _ v (fun _ => 0)); [|apply is_dif_const]. intros [|[|j]] Hj; [reflexivity|reflexivity|lia].
  - exact dopri5_consistent.
  - intros [|i] Hi; [cbn; lra|lia].
Qed.
(** With c = 1, mean 3 and variance 4: log_prob of the model is wrong somewhere. *)
Example C52_shift_wrong : exists x d v, length x = 1%nat /\ 0 < d /\ density_through 1 (noise_of (shift_model 1) [1]) (std_density 1) x d /\
  fm_log_prob (shift_model 1) x = Ok [v] /\ v <> ln d.
Proof.
  destruct (C52_shift_good 1) as [H1 H2]. apply (C52_not_the_sample_density_refuted 1 _ H1 [1] (C52_constant_fields _ _ H1 _ H2)). exists 0%nat. split; [lia|]. cbn. lra.
Qed.
(** A field that depends on time: 1 + 2 t, whose samples are noise + 2. *)
Definition time_model : @fmodel RNum :=
  mkFM (mkSolver (@mkFnet RNum (2 : nat) (1 : nat) (fun v => [1 + nth 1 v 0 * 2]) (fun _ => [[0; 2]])) dopri5) cond_ot [3] [4].
Example C52_time_good : good_fm 1 time_model /\ time_field 1 time_model [1] [2] /\ shifts 1 time_model [1 + 1 / 2 * 2].
Proof.
  assert (Hg : good_fm 1 time_model).
  { constructor; try reflexivity.
    - constructor; try reflexivity. intros v Hv i Hi. destruct i; [|lia]. cbn [time_model fm_solver sv_net nt_call nt_jac nth].
      apply (is_dif_gext 2 _ v (fun j => 0 + 2 * mid 1 j)); [intros [|[|j]] Hj; unfold mid; cbn; [ring|ring|lia]|].
      apply is_dif_ext with (fun y => 1 + 2 * nth 1 y 0); [exact Hv|intros y Hy; change (@F RNum) with R; generalize (@nth R 1 y 0); intros u; change (1 + 2 * u = 1 + u * 2); ring|].
      apply is_dif_plus; [apply is_dif_const|apply is_dif_scal, is_dif_proj; lia].
    - exact dopri5_consistent.
    - intros [|i] Hi; [cbn; lra|lia]. }
  assert (Ht : time_field 1 time_model [1] [2]).
  { split; [reflexivity|]. split; [reflexivity|]. intros [|x [|y z]] t Hx; try discriminate. reflexivity. }
  exact (conj Hg (conj Ht (C52_time_fields 1 time_model [1] [2] Hg Ht (proj1 C52_dopri5)))).
Qed.
(** Two columns that vary. *)
Example C57_case : (forall r, In r [[1; 2]; [3; 5]; [4; 5]] -> length r = 2%nat) /\ good_stats (set_stats (mkFlow 2 [] [] []) [[1; 2]; [3; 5]; [4; 5]]).
Proof.
  split; [intros r [<-|[<-|[<-|[]]]]; reflexivity|]. apply C57_positive; [cbn; lia|].
  intros [|[|j]] Hj; [exists 0%nat, 1%nat|exists 0%nat, 1%nat|lia]; repeat split; try (cbn; lia); cbn; lra.
Qed.
Example C57_fm_case : nt_in (sv_net (fm_solver time_model)) = 2%nat /\ forall j, (j < 1)%nat ->
  0 < @nth R j (fm_var (fm_set_stats time_model [[1]; [4]])) 0.
Proof.
  split; [reflexivity|]. refine (fun j Hj => proj1 (proj2 (proj2 (proj2 (proj2 (C57_flow_matching 1 time_model [[1]; [4]] eq_refl _ _ _)))) j Hj)).
  - intros r [<-|[<-|[]]]; reflexivity.
  - cbn; lia.
  - intros [|i] Hi; [|lia]. exists 0%nat, 1%nat. cbn. repeat split; try lia. lra.
Qed.
Definition zupd (m : @fmodel ZNum) (b : list (list Z * Z * list Z)) (tx st : Z) : @fmodel ZNum * Z := (m, (st + tx + Z.of_nat (length b))%Z).
Definition zfm : @fmodel ZNum := @mkFM ZNum (mkSolver (@mkFnet ZNum 2 1 (fun v : list Z => [nth 0 v 0%Z]) (fun _ => [])) dopri5) cond_ot [0%Z] [1%Z].
(** Five examples in batches of 2: two updates on four examples. *)
Example C56_run : rmap (fun o => snd (snd o))
  (@fm_train_epoch ZNum ZRng Z Z zupd zfm [] 10%Z 0%Z [[1]; [2]; [3]; [4]; [5]]%Z [[1]; [2]; [3]; [4]; [5]]%Z [0; 1; 0; 1; 0]%Z 2) = Ok 24%Z.
Proof. vm_compute. reflexivity. Qed.

Print Assumptions C51_endpoints.
Print Assumptions C51_velocity.
Print Assumptions C51_line.
Print Assumptions C52_value.
Print Assumptions C52_right_iff.
Print Assumptions C52_backward.
Print Assumptions C52_constant_fields.
Print Assumptions C52_time_fields.
Print Assumptions C52_shift_samples.
Print Assumptions C52_shift_inverse.
Print Assumptions C52_shift_right_iff.
Print Assumptions C52_not_the_sample_density_refuted.
Print Assumptions C52_whitening. Print Assumptions C52_fresh_model.
Print Assumptions C52_dopri5.
Print Assumptions C56_full_batches.
Print Assumptions C56_small_data.
Print Assumptions C56_examples.
Print Assumptions C56_loss.
Print Assumptions C56_best_epoch.
Print Assumptions C56_succeeds.
Print Assumptions C57_positive.
Print Assumptions C57_whitened.
Print Assumptions C57_constant_column.
Print Assumptions C57_flow_matching.
