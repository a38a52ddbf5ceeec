(** MALA with a full matrix as step size (resource/kernel/MALA.py); M_Kernels has scalars and diagonal matrices. *)
From Verif Require Import Prelude Num M_Core M_Kernels M_Net.

Section MatMala.
Context {N : Num} {G : Rng}.
(** jnp.linalg.cholesky, called by multivariate_normal.logpdf for a 2-D covariance. *)
Variable chol : list vec -> list vec.

(** jnp.dot(m, v) (MALA.py 60-63). *)
Definition mat_dot (m : list vec) (v : vec) : vec := map (fun row => vdot row v) m.
(** dt * dt (MALA.py 58, 69): entry by entry, not the matrix product. *)
Definition mat_sq (m : list vec) : list vec := map (fun row => vmul row row) m.
(** position + jnp.dot(dt2, grad) / 2 (MALA.py 60, 77, 80). *)
Definition mat_mala_mean (dt : list vec) (x g : vec) : vec :=
  vadd x (map (fun y => y /. f2) (mat_dot (mat_sq dt) g)).
(** MALA.py 60-63, 71-73: the proposal. *)
Definition mat_mala_propose (dt : list vec) (x g z : vec) : vec := vadd (mat_mala_mean dt x g) (mat_dot dt z).
(** MALA.py 75-81: the log acceptance ratio; both densities have covariance dt2. *)
Definition mat_mala_ratio (dt : list vec) (f : lpdf) (d : datad) (x y : vec) : F :=
  ((lp_val f y d -. lp_val f x d)
   -. gaussian_logp (mat_mala_mean dt x (lp_grad f x d)) (chol (mat_sq dt)) y)
  +. gaussian_logp (mat_mala_mean dt y (lp_grad f y d)) (chol (mat_sq dt)) x.
(** MALA.py 26-89: kernel.  A matrix that is not n x n makes jnp.dot, the scan or multivariate_normal.logpdf raise
    (TypeError or ValueError; here TypeError). *)
Definition mat_mala_kernel (dt : list vec) : skernel := fun k pos lp f d =>
  let key1 := split k 2 0 in
  let key2 := split k 2 1 in
  if square dt (length pos) then
    let proposal := mat_mala_propose dt pos (lp_grad f pos d) (normal key1 (length pos)) in
    let acc := mh_accept key2 (mat_mala_ratio dt f d pos proposal) in
    Ok (if acc then proposal else pos, if acc then lp_val f proposal d else lp_val f pos d, acc)
  else Raise TypeError.
End MatMala.
