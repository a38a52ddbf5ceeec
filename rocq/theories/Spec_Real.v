(** Specification vocabulary for the properties about exact-real arithmetic: Gaussian densities,
    acceptance probabilities, and controlled random draws. *)
From Coq Require Import Reals.
From Coquelicot Require Import Coquelicot.
From Verif Require Import Prelude Num M_Core M_Kernels Spec_Kernels RNum.

(** Density of N(mu, s^2) at y (s <> 0). *)
Definition normal_pdf (mu s y : R) : R := exp (- (y - mu) ^ 2 / (2 * s ^ 2)) / (Rabs s * sqrt (2 * PI)).
(** Density of independent coordinates N(mu_i, s_i^2) at y in dimension n. *)
Definition gauss_density (n : nat) (mu s : nat -> R) (y : list R) : R :=
  Rprod n (fun i => normal_pdf (mu i) (s i) (nth i y 0)).
(** Density of a standard normal vector. *)
Definition std_density (n : nat) (z : list R) : R := Rprod n (fun i => normal_pdf 0 1 (nth i z 0)).

(** The random source [G] in which the next Gaussian vector is [z] and the next uniform is [u],
    so that a kernel's outcome becomes a function of its draws. *)
Definition with_draws (G : Rng) (z : list R) (u : R) : Rng :=
  @mkRng RNum (@key _ G) (@split _ G) (fun _ _ => z) (@normal0 _ G) (fun _ => u)
         (@permutation _ G) (@choice _ G).

(** Outcomes of a kernel as a function of the uniform draw u. *)
Definition outcome := R -> res (list R * R * bool).
Definition flag_of (r : res (list R * R * bool)) : R :=
  match r with Ok (_, _, true) => 1 | _ => 0 end.
(** [p] is the probability, over u uniform in [0,1], that the kernel accepts. *)
Definition accept_prob (run : outcome) (p : R) : Prop := is_RInt (fun u => flag_of (run u)) 0 1 p.
(** [y] is the point the kernel proposes: the position it returns when it accepts. *)
Definition proposes (run : outcome) (y : list R) : Prop :=
  exists u l, 0 < u < 1 /\ run u = Ok (y, l, true).

(** Value of a test function on an outcome. *)
Definition test (h : list R * R * bool -> R) (r : res (list R * R * bool)) : R :=
  match r with Ok o => h o | Raise _ => 0 end.

Section Runs.
Context {G : @Rng RNum}.
(** One call of each kernel from position x, as a function of its Gaussian draw z and uniform u. *)
Definition grw_run (ss : stepsize) (k : key) (f : lpdf) (d : datad) (x z : list R) : outcome :=
  fun u => @grw_kernel RNum (with_draws G z u) ss k x (lp_val f x d) f d.
Definition mala_run (ss : stepsize) (k : key) (f : lpdf) (d : datad) (x z : list R) : outcome :=
  fun u => @mala_kernel RNum (with_draws G z u) ss k x (lp_val f x d) f d.
Definition hmc_run (h : hmc) (k : key) (f : lpdf) (d : datad) (x z : list R) : outcome :=
  fun u => @hmc_kernel RNum (with_draws G z u) h k x (lp_val f x d) f d.

(** Step sizes the random walk accepts in dimension n. *)
Definition ok_grw (ss : stepsize) (n : nat) : Prop :=
  match ss with SScalar _ => True | SVec v => length v = n | SDiag _ => False end.

(** Mean of the Langevin proposal from x, coordinate i. *)
Definition mala_mu (ss : stepsize) (f : lpdf) (d : datad) (x : list R) (i : nat) : R :=
  nth i x 0 + step_of ss i ^ 2 * nth i (lp_grad f x d) 0 / 2.

End Runs.

(** Flow model operations over the controlled random source. *)
Definition NF_with {G : @Rng RNum} (NF : @NFOps RNum G) z u : @NFOps RNum (with_draws G z u) :=
  @mkNFOps RNum (with_draws G z u) (@mdl _ _ NF) (@optst _ _ NF) (@gtx _ _ NF) (@m_logp _ _ NF)
    (@m_sample _ _ NF) (@m_step _ _ NF) (@m_stats _ _ NF).

Section FlowRun.
Context {G : @Rng RNum} {NF : @NFOps RNum G}.
(** A one-step flow-kernel call as a function of the uniform draw. *)
Definition flow_run (p : @nfp RNum G NF) (k : key) (f : lpdf) (d : datad) (x : list R) : outcome :=
  fun u => match @nfp_kernel RNum (with_draws G [] u) (NF_with NF [] u)
                   (@mkNfp RNum (with_draws G [] u) (NF_with NF [] u) (nfp_model p) (nfp_bs p))
                   k x (lp_val f x d) f (dset d "n_steps" (DInt 1)) with
           | Ok (o :: _) => Ok o | Ok [] => Raise OtherError | Raise e => Raise e end.

End FlowRun.
