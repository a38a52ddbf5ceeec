(** Model of the flow-matching model (resource/model/flowmatching/base.py) with the fixed-step
    Runge-Kutta integration diffrax performs for it. *)
From Verif Require Import Prelude Num M_Core M_Kernels M_Strategies M_Flow M_Net.

Section FM.
Context {N : Num} {G : Rng}.

(* ------------------------------------------------------------------------------------ *)
(** * diffrax.diffeqsolve with an explicit Runge-Kutta method and the default (constant) step size

    External code; modelled because flowmatching/base.py 11 and 20 select it (Dopri5).  The state, a
    pytree in diffrax, is flattened into one vector.  Dense output, adaptive step sizes and the error
    estimate of Dopri5 are not used by flowMC and not modelled. *)

(** Butcher tableau: for every stage its node and its row, and the weights of the solution. *)
Record tableau := mkTableau { tb_stages : list (F * list F); tb_weights : list F }.

(** sum_i a_i k_i for vectors k_i of length n. *)
Definition lincomb (n : nat) (a : list F) (ks : list vec) : vec :=
  map (fun j => fsum (map2 (fun ai k => ai *. nth j k f0) a ks)) (seq 0 n).

(** Stages of one step of size h at time t in direction dir (1 or -1): the vector field is evaluated
    at time dir * (t + c h) and increments are multiplied by dir * h. *)
Definition rk_stages (tab : tableau) (field : F -> vec -> vec) (dir t h : F) (y : vec) : list vec :=
  fold_left (fun ks st => ks ++ [field (dir *. (t +. fst st *. h))
                                  (vadd y (vscale (dir *. h) (lincomb (length y) (snd st) ks)))])
            (tb_stages tab) [].
Definition rk_step (tab : tableau) (field : F -> vec -> vec) (dir t h : F) (y : vec) : vec :=
  vadd y (vscale (dir *. h) (lincomb (length y) (tb_weights tab) (rk_stages tab field dir t h y))).

(** Steps of size dt from t until t1; a step that would end within the tolerance (1e-6 in single
    precision) of t1 or beyond ends at t1.  More than [fuel] steps is an error (throw=True). *)
Fixpoint rk_loop (fuel : nat) (tab : tableau) (field : F -> vec -> vec) (dir t t1 dt : F) (y : vec)
  : res vec :=
  if t <.? t1 then
    match fuel with
    | O => Raise OtherError
    | S fuel' =>
        let tn := t +. dt in
        let tn := if (t1 -. f1 /. fofZ 1000000) <.? tn then t1 else tn in
        rk_loop fuel' tab field dir tn t1 dt (rk_step tab field dir t (tn -. t) y)
    end
  else Ok y.

(** max_steps = 4096 (diffrax's default).  Time is multiplied by the direction of integration. *)
Definition max_steps : nat := Z.to_nat 4096.
Definition diffeqsolve (tab : tableau) (field : F -> vec -> vec) (t0 t1 dt0 : F) (y0 : vec) : res vec :=
  let dir := if t0 <.? t1 then f1 else fneg f1 in
  rk_loop max_steps tab field dir (dir *. t0) (dir *. t1) (dir *. dt0) y0.

Definition frac (p q : Z) : F := fofZ p /. fofZ q.
(** diffrax.Dopri5: nodes, rows and fifth-order weights. *)
Definition dopri5 : tableau := mkTableau
  [ (f0, []);
    (frac 1 5, [frac 1 5]);
    (frac 3 10, [frac 3 40; frac 9 40]);
    (frac 4 5, [frac 44 45; frac (-56) 15; frac 32 9]);
    (frac 8 9, [frac 19372 6561; frac (-25360) 2187; frac 64448 6561; frac (-212) 729]);
    (f1, [frac 9017 3168; frac (-355) 33; frac 46732 5247; frac 49 176; frac (-5103) 18656]);
    (f1, [frac 35 384; f0; frac 500 1113; frac 125 192; frac (-2187) 6784; frac 11 84]) ]
  [frac 35 384; f0; frac 500 1113; frac 125 192; frac (-2187) 6784; frac 11 84; f0].

(* ------------------------------------------------------------------------------------ *)
(** * Solver (flowmatching/base.py 15-98) *)

(** A network from nt_in to nt_out numbers with its Jacobian (jax.jacrev): rows of partial
    derivatives. *)
Record fnet := mkFnet { nt_in : nat; nt_out : nat; nt_call : vec -> vec; nt_jac : vec -> list vec }.
Record solver := mkSolver { sv_net : fnet; sv_method : tableau }.

(** base.py 31-37: the field, the network at (x, t). *)
Definition fm_field (nt : fnet) (t : F) (x : vec) : vec := nt_call nt (x ++ [t]).

(** base.py 24-56: noise of shape (n_samples, n_input - 1) carried from t = 0 to t = 1. *)
Definition solver_carry (sv : solver) (dt : F) (z : vec) : res vec :=
  diffeqsolve (sv_method sv) (fm_field (sv_net sv)) f0 f1 dt z.
Definition solver_sample (sv : solver) (k : key) (n : nat) (dt : F) : res (list vec) :=
  let d := nt_in (sv_net sv) - 1 in
  rmapM (solver_carry sv dt) (reshape_rows n d (normal k (n * d))).

(** base.py 63-75: the field of the backward system, the network's value and the trace of the first
    n_input - 1 columns of its Jacobian; the state is x followed by the log-density term. *)
Definition fm_trace (nt : fnet) (t : F) (x : vec) : F :=
  fsum (map (fun i => nth i (nth i (nt_jac nt (x ++ [t])) []) f0)
            (seq 0 (Nat.min (nt_out nt) (nt_in nt - 1)))).
Definition fm_back_field (nt : fnet) (n : nat) (t : F) (y : vec) : vec :=
  nt_call nt (firstn n y ++ [t]) ++ [fm_trace nt t (firstn n y)].
(** base.py 76-90: from t = 1 back to t = 0, starting at (x1, 0.0). *)
Definition solver_back (sv : solver) (dt : F) (x1 : vec) : res (vec * F) :=
  let n := length x1 in
  let* y := diffeqsolve (sv_method sv) (fm_back_field (sv_net sv) n) f1 f0 (fneg dt) (x1 ++ [f0]) in
  Ok (firstn n y, nth n y f0).
(** base.py 58-98: log_prob.  sol.ys has a leading axis of length 1, so the result is an array of
    shape (1,).  The density is evaluated at x1, not at x0 (base.py 92-93). *)
Definition solver_log_prob (sv : solver) (x1 : vec) (dt : F) : res vec :=
  let o := nt_out (sv_net sv) in
  let* (x0, log_p) := solver_back sv dt x1 in
  let* lp := mvn_logpdf x1 (vscale (fofZ (Z.of_nat o)) (repeat f0 o)) (SDiag (repeat f1 o)) in
  Ok [lp +. log_p].

(* ------------------------------------------------------------------------------------ *)
(** * Scheduler and Path (flowmatching/base.py 101-129) *)

(** base.py 101-114: (alpha, d_alpha, sigma, d_sigma) at time t. *)
Definition scheduler := F -> F * F * F * F.
Definition cond_ot : scheduler := fun t => (t, f1, f1 -. t, fneg f1).
(** base.py 124-129. *)
Definition path_sample (sch : scheduler) (x0 x1 : vec) (t : F) : vec * vec :=
  let '(alpha, d_alpha, sigma, d_sigma) := sch t in
  (vadd (vscale sigma x0) (vscale alpha x1), vadd (vscale d_sigma x0) (vscale d_alpha x1)).

(* ------------------------------------------------------------------------------------ *)
(** * FlowMatchingModel (flowmatching/base.py 132-323) *)

(** base.py 134-169; the covariance is used through its diagonal [fm_var] only. *)
Record fmodel := mkFM { fm_solver : solver; fm_sched : scheduler; fm_mean : vec; fm_var : vec }.
Definition fm_features (m : fmodel) : nat := nt_in (sv_net (fm_solver m)) - 1.
Definition fm_std (m : fmodel) : vec := map fsqrt (fm_var m).
Definition fm_whiten (m : fmodel) (x : vec) : vec := map2 fdiv (vsub x (fm_mean m)) (fm_std m).
Definition fm_unwhiten (m : fmodel) (z : vec) : vec := vadd (vmul z (fm_std m)) (fm_mean m).
(** base.py 151-169 with the default statistics: zeros and the identity. *)
Definition fm_new (s : solver) (sch : scheduler) : fmodel :=
  mkFM s sch (repeat f0 (nt_in (sv_net s) - 1)) (repeat f1 (nt_in (sv_net s) - 1)).

(** base.py 171-178. *)
Definition fm_sample (m : fmodel) (k : key) (n : nat) (dt : F) : res (list vec) :=
  let* ys := solver_sample (fm_solver m) (split k 2 1) n dt in
  Ok (map (fm_unwhiten m) ys).

(** base.py 180-184; the solver is called with its default dt = 1e-1. *)
Definition fm_log_prob (m : fmodel) (x : vec) : res vec :=
  let* v := solver_log_prob (fm_solver m) (fm_whiten m x) (frac 1 10) in
  Ok (map (fun a => a +. fneg (fsum (map fln (fm_std m)))) v).

(** base.py 192-202: loss_fn; mean over all entries of the batch. *)
Definition fm_loss (m : fmodel) (batch : list (vec * F * vec)) : F :=
  fmean (concat (map (fun b => let '(x, t, dx) := b in
                        map fsq (vsub (nt_call (sv_net (fm_solver m)) (x ++ [t])) dx)) batch)).

(** One example of the data triple (noise x0, sample x1, time t), whitened and put on the path
    (base.py 243-249, 254-255). *)
Definition fm_example (m : fmodel) (x0s x1s : list vec) (ts : vec) (i : nat) : vec * F * vec :=
  let '(x, dx) := path_sample (fm_sched m) (nth i x0s []) (fm_whiten m (nth i x1s [])) (nth i ts f0) in
  (x, nth i ts f0, dx).

(** Gradient and optimiser are external: the new model and optimiser state after a step. *)
Context {gtx optst : Type}.
Variable fm_update : fmodel -> list (vec * F * vec) -> gtx -> optst -> fmodel * optst.

(** base.py 204-217: train_step reports the loss of the model before the update. *)
Definition fm_train_step (m : fmodel) (b : list (vec * F * vec)) (tx : gtx) (st : optst)
  : F * (fmodel * optst) := (fm_loss m b, fm_update m b tx st).

(** base.py 242-252: the loop over batches. *)
Fixpoint fm_epoch_loop (m : fmodel) (tx : gtx) (st : optst) (value : F)
  (batches : list (list (vec * F * vec))) : F * (fmodel * optst) :=
  match batches with
  | [] => (value, (m, st))
  | b :: r => let '(v, (m', st')) := fm_train_step m b tx st in fm_epoch_loop m' tx st' v r
  end.

(** base.py 235-249: the batches of an epoch; whitening uses the model at the start of the epoch. *)
Definition fm_batches (m : fmodel) (k : key) (x0s x1s : list vec) (ts : vec) (bs : nat)
  : list (list (vec * F * vec)) :=
  let n := length x0s in
  let steps := n / bs in
  map (map (fm_example m x0s x1s ts)) (reshape_rows steps bs (firstn (steps * bs) (permutation k n))).

(** base.py 219-257: train_epoch. *)
Definition fm_train_epoch (m : fmodel) (k : key) (tx : gtx) (st : optst) (x0s x1s : list vec) (ts : vec)
  (bs : nat) : res (F * (fmodel * optst)) :=
  if bs =? 0 then Raise ZeroDivisionError
  else
    let steps := length x0s / bs in
    if 0 <? steps then Ok (fm_epoch_loop m tx st big_loss (fm_batches m k x0s x1s ts bs))
    else Ok (fm_train_step m (map (fm_example m x0s x1s ts) (seq 0 (length x0s))) tx st).

(** base.py 297-298: mean and covariance of data[1]. *)
Definition fm_set_stats (m : fmodel) (x1s : list vec) : fmodel :=
  mkFM (fm_solver m) (fm_sched m) (data_mean (fm_features m) x1s)
       (diag (data_cov (fm_features m) x1s)).

(** base.py 259-320: train; best_model starts as the model before the statistics are set. *)
Definition fm_train (m : fmodel) (k : key) (x0s x1s : list vec) (ts : vec) (tx : gtx) (st : optst)
  (num_epochs bs : nat) : res (key * (fmodel * optst) * list F) :=
  best_epoch_loop (fun k' ms => fm_train_epoch (fst ms) k' tx (snd ms) x0s x1s ts bs)
    num_epochs k (fm_set_stats m x1s, st) (m, st) big_loss.
End FM.
