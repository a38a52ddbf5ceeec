(** Model of the proposal kernels: GaussianRandomWalk, MALA, HMC, NFProposal. *)
From Verif Require Import Prelude Num M_Core.

Section Kernels.
Context {N : Num} {G : Rng}.

(** Step sizes accepted by the kernels: a scalar, a 1-D array, a 2-D diagonal matrix
    (given by its diagonal).  Full matrices: M_Mala. *)
Inductive stepsize := SScalar (s : F) | SVec (v : vec) | SDiag (v : vec).

(** Metropolis test shared by all kernels: [log_uniform < ratio] with
    [log_uniform = jnp.log(jax.random.uniform(key))] (Gaussian_random_walk.py 56-57,
    MALA.py 83-84, HMC.py 144-146, NF_proposal.py 103-104). *)
Definition mh_accept (k : key) (ratio : F) : bool := fln (uniform k) <.? ratio.

(** A one-step kernel (resource/kernel/base.py 17-27): key, position, log_prob, logpdf, data to
    new position, new log_prob, do_accept. *)
Definition skernel := key -> vec -> F -> lpdf -> datad -> res (vec * F * bool).

(* ------------------------------------------------------------------------------------ *)
(** ** Gaussian random walk (resource/kernel/Gaussian_random_walk.py) *)

(** Gaussian_random_walk.py 49-51: normal(key1, shape) * step_size, with numpy broadcasting
    of a 1-D step size.  Broadcasting against a matrix or another length yields a position of
    another shape, on which jax.lax.scan raises TypeError. *)
Definition grw_move (ss : stepsize) (z : vec) : res vec :=
  match ss with
  | SScalar s => Ok (map (fun x => x *. s) z)
  | SVec v => if length v =? length z then Ok (vmul z v) else Raise TypeError
  | SDiag _ => Raise TypeError
  end.

(** Gaussian_random_walk.py 25-61: kernel. *)
Definition grw_kernel (ss : stepsize) : skernel := fun k pos lp f d =>
  let key1 := split k 2 0 in
  let key2 := split k 2 1 in
  let* move := grw_move ss (normal key1 (length pos)) in
  let proposal := vadd pos move in
  let plp := lp_val f proposal d in
  let acc := mh_accept key2 (plp -. lp) in
  Ok (if acc then proposal else pos, if acc then plp else lp, acc).

(* ------------------------------------------------------------------------------------ *)
(** ** MALA (resource/kernel/MALA.py) *)

(** jnp.dot(dt, v) (MALA.py 60-62): scaling for a scalar, matrix-vector product for a
    diagonal matrix. *)
Definition ss_dot (ss : stepsize) (v : vec) : vec :=
  match ss with
  | SScalar s => vscale s v
  | SVec w => [vdot w v]
  | SDiag w => vmul w v
  end.

(** dt * dt (MALA.py 58, 69), elementwise. *)
Definition ss_sq (ss : stepsize) : stepsize :=
  match ss with
  | SScalar s => SScalar (s *. s)
  | SVec v => SVec (vmul v v)
  | SDiag v => SDiag (vmul v v)
  end.

(** position + jnp.dot(dt2, grad) / 2 (MALA.py 60, 77, 80). *)
Definition mala_mean (ss : stepsize) (x g : vec) : vec :=
  vadd x (map (fun y => y /. f2) (ss_dot (ss_sq ss) g)).

(** jax.scipy.stats.multivariate_normal.logpdf(x, mean, cov) for a 1-D mean (MALA.py 76-81):
    scalar cov, or diagonal matrix cov (via its Cholesky factor, the diagonal of square
    roots); a 1-D cov is rejected with ValueError. *)
Definition mvn_logpdf (x mean : vec) (cov : stepsize) : res F :=
  let n := length mean in
  match cov with
  | SScalar c =>
      let y := vsub x mean in
      Ok (((fneg f1 /. f2) *. vdot y y) /. c
          -. (fofZ (Z.of_nat n) /. f2) *. (fln (f2 *. fpi) +. fln c))
  | SVec _ => Raise ValueError
  | SDiag v =>
      if length v =? n then
        let l := map fsqrt v in
        let y := map2 fdiv (vsub x mean) l in
        Ok ((fneg f1 /. f2) *. vdot y y
            -. (fofZ (Z.of_nat n) /. f2) *. fln (f2 *. fpi)
            -. fsum (map fln l))
      else Raise ValueError
  end.

(** MALA.py 49-64, 71-73: the scanned body; only [proposal[0]] is used, the second iteration
    supplies logprob[1] and d_logprob[1] at proposal[0].  Both iterations draw with key1; the
    second proposal is not used. *)
Definition mala_propose (ss : stepsize) (x g z : vec) : vec :=
  vadd (mala_mean ss x g) (ss_dot ss z).

(** MALA.py 75-81: the log acceptance ratio. *)
Definition mala_ratio (ss : stepsize) (f : lpdf) (d : datad) (x y : vec) : res F :=
  let lx := lp_val f x d in
  let ly := lp_val f y d in
  let gx := lp_grad f x d in
  let gy := lp_grad f y d in
  let* a := mvn_logpdf y (mala_mean ss x gx) (ss_sq ss) in
  let* b := mvn_logpdf x (mala_mean ss y gy) (ss_sq ss) in
  Ok (((ly -. lx) -. a) +. b).

(** MALA.py 26-89: kernel.  The input log_prob is not read.  A 1-D step size makes the scan
    body change the position's shape or multivariate_normal.logpdf raise: ValueError. *)
Definition mala_kernel (ss : stepsize) : skernel := fun k pos lp f d =>
  let key1 := split k 2 0 in
  let key2 := split k 2 1 in
  match ss with
  | SVec _ => Raise ValueError
  | _ =>
    if match ss with SDiag v => negb (length v =? length pos) | _ => false end
    then Raise TypeError
    else
    let proposal := mala_propose ss pos (lp_grad f pos d) (normal key1 (length pos)) in
    let* ratio := mala_ratio ss f d pos proposal in
    let acc := mh_accept key2 ratio in
    Ok (if acc then proposal else pos,
        if acc then lp_val f proposal d else lp_val f pos d, acc)
  end.

(* ------------------------------------------------------------------------------------ *)
(** ** HMC (resource/kernel/HMC.py) *)

(** HMC.py 38-44: the condition matrix is a scalar (the default 1) or a matrix. *)
Inductive cmatrix := CScalar (c : F) | CMat (m : list vec).

(** HMC.py 21-23, 38-50.  [h_chol] is the value of jnp.linalg.cholesky(jnp.linalg.inv(M)),
    an external routine. *)
Record hmc := mkHmc { h_cond : cmatrix; h_step : F; h_leap : nat; h_chol : list vec }.

(** HMC.py 47-50: coefs = ones((n_leapfrog + 2, 2)), first row [0, .5], last row [1, .5]. *)
Definition leapfrog_coefs (n : nat) : list (F * F) :=
  (f0, fhalf) :: repeat (f1, f1) n ++ [(f1, fhalf)].

(** HMC.py 118-121: 0.5 * (p**2 * metric).sum(); the vector p**2 broadcasts over the rows of
    the matrix. *)
Definition kinetic (p : vec) (m : list vec) : F :=
  fhalf *. fsum (map (fun row => fsum (vmul (map fsq p) row)) m).

(** j-th column of a matrix. *)
Definition column (m : list vec) (j : nat) : vec := map (fun row => nth j row f0) m.

(** jax.grad(kinetic)(p, metric) (HMC.py 73-75): the j-th component is p_j * sum_i m_ij.
    (Closed form; proved in the exact-real instance to be the gradient of [kinetic].) *)
Definition kinetic_grad (p : vec) (m : list vec) : vec :=
  map (fun j => nth j p f0 *. fsum (column m j)) (seq 0 (length p)).

(** HMC.py 71-80: leapfrog_kernel, one row of coefficients.  The gradient of the potential is
    minus the gradient of logpdf (HMC.py 115-116). *)
Definition leapfrog_one (h : hmc) (m : list vec) (f : lpdf) (d : datad)
  (c : F * F) (qp : vec * vec) : vec * vec :=
  let q' := vadd (fst qp) (vscale (h_step h *. fst c) (kinetic_grad (snd qp) m)) in
  let p' := vsub (snd qp) (vscale (h_step h *. snd c) (vneg (lp_grad f q' d))) in
  (q', p').

(** HMC.py 82-96: leapfrog_step, scan over the n_leapfrog + 2 rows. *)
Definition leapfrog (h : hmc) (m : list vec) (f : lpdf) (d : datad) (qp : vec * vec)
  : vec * vec :=
  fold_left (fun s c => leapfrog_one h m f d c s) (leapfrog_coefs (h_leap h)) qp.

(** HMC.py 133-136: momentum = dot(normal(key1), cholesky(inv(M)).T).  The first assignment of
    momentum (130-132) is overwritten and not modelled. *)
Definition hmc_momentum (h : hmc) (z : vec) : vec :=
  map (fun row => vdot z row) (h_chol h).

Definition square (m : list vec) (n : nat) : bool :=
  (length m =? n) && forallb (fun r => length r =? n) m.

(** HMC.py 137-143: log acceptance ratio H - proposed_ham. *)
Definition hmc_ratio (h : hmc) (m : list vec) (f : lpdf) (d : datad)
  (lp : F) (p : vec) (qp' : vec * vec) : F :=
  let H := fneg lp +. kinetic p m in
  let PE := fneg (lp_val f (fst qp') d) in
  let ham := PE +. kinetic (snd qp') m in
  H -. ham.

(** HMC.py 98-151: kernel.  A scalar condition matrix makes jnp.linalg.inv raise ValueError. *)
Definition hmc_kernel (h : hmc) : skernel := fun k pos lp f d =>
  let key1 := split k 2 0 in
  let key2 := split k 2 1 in
  match h_cond h with
  | CScalar _ => Raise ValueError
  | CMat m =>
    if square m (length pos) then
      let p := hmc_momentum h (normal key1 (length pos)) in
      let qp' := leapfrog h m f d (pos, p) in
      let acc := mh_accept key2 (hmc_ratio h m f d lp p qp') in
      Ok (if acc then fst qp' else pos,
          if acc then fneg (fneg (lp_val f (fst qp') d)) else lp, acc)
    else Raise TypeError
  end.

End Kernels.

(* ------------------------------------------------------------------------------------ *)
(** * Normalizing-flow models as seen by kernels and strategies *)

(** The interface of NFModel (nf_model/base.py) used by NFProposal, TrainModel and the
    optimiser: log_prob, sample, n_features, one optimisation step, and setting the data
    mean/covariance.  [mdl], [optst] and [gtx] are the types of models, optimiser states and
    gradient transformations. *)
Class NFOps {N : Num} {G : Rng} := mkNFOps {
  mdl : Type;
  optst : Type;
  gtx : Type;
  m_logp : mdl -> vec -> F;                       (* base.py 55: log_prob *)
  m_sample : mdl -> key -> nat -> list vec;       (* base.py 59: sample *)
  m_step : mdl -> list vec -> gtx -> optst -> F * mdl * optst;  (* base.py 103-125 *)
  m_stats : mdl -> list vec -> mdl                (* base.py 187-188 *)
}.

Section NFP.
Context {N : Num} {G : Rng} {NF : NFOps}.

(** NF_proposal.py 15-25. *)
Record nfp := mkNfp { nfp_model : mdl; nfp_bs : nat }.

(** NF_proposal.py 141-159: the scan over n_batch batches of n_sample draws, concatenated
    (reshape(-1, n_features)).  Each batch splits the carried key. *)
Fixpoint flow_batches (m : mdl) (k : key) (nb ns : nat) : list (list vec) :=
  match nb with
  | O => []
  | S nb' => m_sample m (split k 2 1) ns :: flow_batches m (split k 2 0) nb' ns
  end.

(** NF_proposal.py 130-172: sample_flow.  log_prob is evaluated batch by batch on the batch just
    drawn (150-152) and both results are cut to n_steps (160-163). *)
Definition sample_flow (p : nfp) (k : key) (n_steps : nat) : res (list vec * list F) :=
  if nfp_bs p <? n_steps then
    if nfp_bs p =? 0 then Raise ZeroDivisionError
    else
      let n_batch := cdiv n_steps (nfp_bs p) in
      let n_sample := cdiv n_steps n_batch in
      let batches := flow_batches (nfp_model p) k n_batch n_sample in
      let lps := map (map (m_logp (nfp_model p))) batches in
      Ok (firstn n_steps (concat batches), firstn n_steps (concat lps))
  else
    let props := m_sample (nfp_model p) k n_steps in
    Ok (props, map (m_logp (nfp_model p)) props).

(** NF_proposal.py 50-89: target log-densities of the proposals, in batches of n_batch_size
    plus a remainder. *)
Definition batched_logpdf (bs n_steps : nat) (f : vec -> F) (props : list vec) : list F :=
  if bs <? n_steps then
    let n_batch := cdiv (length props) bs in
    let full := reshape_rows (n_batch - 1) bs (firstn ((n_batch - 1) * bs) props) in
    concat (map (map f) full)
      ++ map f (firstn (n_steps - (n_batch - 1) * bs) (skipn ((n_batch - 1) * bs) props))
  else map f props.

(** NF_proposal.py 100-102: log acceptance ratio of one independence step. *)
Definition nfp_ratio (lp_new lp_old nf_new nf_old : F) : F :=
  (lp_new -. lp_old) -. (nf_new -. nf_old).

(** NF_proposal.py 91-115, 117-126: the scan over proposals. *)
Fixpoint nfp_scan (k : key) (pos : vec) (lp lpnf : F) (props : list (vec * F * F))
  : list (vec * F * bool) :=
  match props with
  | [] => []
  | (y, ly, nfy) :: rest =>
      let acc := mh_accept (split k 2 1) (nfp_ratio ly lp nfy lpnf) in
      let pos' := if acc then y else pos in
      let lp' := if acc then ly else lp in
      let lpnf' := if acc then nfy else lpnf in
      (pos', lp', acc) :: nfp_scan (split k 2 0) pos' lp' lpnf' rest
  end.

(** NF_proposal.py 27-128: kernel.  data["n_steps"] must be present (KeyError). *)
Definition nfp_kernel (p : nfp) (k : key) (pos : vec) (lp : F) (f : lpdf) (d : datad)
  : res (list (vec * F * bool)) :=
  match dget d "n_steps" with
  | Some (DInt z) =>
      let n_steps := Z.to_nat z in
      let k' := split k 2 0 in
      let subkey := split k 2 1 in
      let nf0 := m_logp (nfp_model p) pos in
      let* (props, nfs) := sample_flow p subkey n_steps in
      let lps := batched_logpdf (nfp_bs p) n_steps (fun x => lp_val f x d) props in
      Ok (nfp_scan k' pos lp nf0 (combine (combine props lps) nfs))
  | Some _ => Raise TypeError
  | None => Raise KeyError
  end.
End NFP.
