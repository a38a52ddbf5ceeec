(** Model of the multilayer perceptron and the base distributions (resource/model/common.py), of
    the optimiser (resource/optimizer.py) and of the constructors of RealNVP and
    MaskedCouplingRQSpline. *)
From Verif Require Import Prelude Num M_Core M_Kernels M_Flow.

Section Net.
Context {N : Num} {G : Rng}.

(* ------------------------------------------------------------------------------------ *)
(** * MLP (common.py 68-124) *)

(** eqx.nn.Linear: weight of shape (out, in) and optional bias; weight @ x + bias. *)
Record linear := mkLinear { ln_w : list vec; ln_b : option vec }.
Definition linear_call (l : linear) (x : vec) : vec :=
  let y := map (fun row => vdot row x) (ln_w l) in
  match ln_b l with Some b => vadd y b | None => y end.

(** common.py 82, 92-107: layers = [linear, activation, ..., linear, activation, linear]. *)
Record mlp := mkMlp { ml_hidden : list linear; ml_last : linear; ml_act : F -> F }.

(** common.py 109-112: __call__. *)
Definition mlp_call (m : mlp) (x : vec) : vec :=
  linear_call (ml_last m)
    (fold_left (fun h l => map (ml_act m) (linear_call l h)) (ml_hidden m) x).

(** jax.nn.relu, jax.nn.tanh. *)
Definition relu (x : F) : F := fmax x f0.

(** eqx.nn.Linear(n_in, n_out, key=k, use_bias=b) is external. *)
Variable linear_init : nat -> nat -> key -> bool -> linear.

(** common.py 93-103: hidden layers; weight = normal(subkey2, (out, in)) * sqrt(scale / in) replaces
    the default weight, the bias stays.  Returns the layers and the carried key. *)
Fixpoint mlp_hidden (scale : F) (bias : bool) (shape : list nat) (k : key) : list linear * key :=
  match shape with
  | a :: ((b :: _ :: _) as rest) =>
      let l := linear_init a b (split k 3 1) bias in
      let w := reshape_rows b a (normal (split k 3 2) (b * a)) in
      let s := fsqrt (scale /. fofZ (Z.of_nat a)) in
      let '(ls, kf) := mlp_hidden scale bias rest (split k 3 0) in
      (mkLinear (map (map (fun x => x *. s)) w) (ln_b l) :: ls, kf)
  | _ => ([], k)
  end.

(** common.py 84-107: constructor; shapes with fewer than two entries raise IndexError (106). *)
Definition mlp_new (shape : list nat) (k : key) (scale : F) (act : F -> F) (bias : bool) : res mlp :=
  match rev shape with
  | b :: a :: _ =>
      let '(hs, kf) := mlp_hidden scale bias shape k in
      Ok (mkMlp hs (linear_init a b (split kf 2 1) bias) act)
  | _ => Raise IndexError
  end.

(* ------------------------------------------------------------------------------------ *)
(** * Constructors of the two flows *)

(** jax.random.split(key, n_layers) and vmap over (i, key): one layer per i. *)
Definition per_layer {A} (mk : nat -> key -> res A) (n : nat) (k : key) : res (list A) :=
  rmapM (fun i => mk i (split k n i)) (seq 0 n).

(** realNVP.py 162-169: make_layer (key, scale_subkey, shift_subkey = split(key, 3)); MLP defaults
    are scale 1e-4, relu, bias. *)
Definition realnvp_make_layer (n n_hidden i : nat) (k : key) : res layer :=
  let* s := mlp_new [n; n_hidden; n] (split k 3 1) (f1 /. fofZ 10000) relu true in
  let* t := mlp_new [n; n_hidden; n] (split k 3 2) (f1 /. fofZ 10000) relu true in
  Ok (coupling_layer (mkCoupling (realnvp_mask n i) (mlp_affine (mlp_call s) (mlp_call t) f1))).
(** realNVP.py 136-172, with the default base distribution and data statistics. *)
Definition realnvp_new (n n_layers n_hidden : nat) (k : key) : res flow :=
  let* ls := per_layer (realnvp_make_layer n n_hidden) n_layers k in
  Ok (mkFlow n ls (repeat f0 n) (repeat f1 n)).

(** rqSpline.py 294-308: RQSpline(mlp, lo, hi) with its default minimal bin size and slope. *)
Definition rqspline_new (n_out n_in : nat) (lo hi : F) (cond : vec -> vec) : rqspline :=
  mkRQ lo hi (num_bins_of n_out n_in) (f1 /. fofZ 10000) (f1 /. fofZ 10000) cond.
(** rqSpline.py 427-440: make_layer. *)
Definition rqs_make_layer (n num_bins : nat) (hidden : list nat) (lo hi : F) (i : nat) (k : key)
  : res rqs_layer :=
  let n_out := n * (num_bins * 3 + 1) in
  let* m := mlp_new (n :: hidden ++ [n_out]) k (f1 /. fofZ 100) ftanh true in
  Ok (make_rqs_layer n i f0 f0 (rqspline_new n_out n lo hi (mlp_call m))).
(** rqSpline.py 392-443, with the default base distribution and data statistics. *)
Definition rqs_new (n n_layers num_bins : nat) (hidden : list nat) (lo hi : F) (k : key) : res flow :=
  let* ls := per_layer (rqs_make_layer n num_bins hidden lo hi) n_layers k in
  Ok (mkFlow n (map rqs_model_layer ls) (repeat f0 n) (repeat f1 n)).

(* ------------------------------------------------------------------------------------ *)
(** * Distributions (common.py 44-65, 243-317) *)

(** A distribution as the flows use it: log_prob and sample. *)
Record dist := mkDist { ds_logp : vec -> F; ds_sample : key -> nat -> list vec }.

(** solve_triangular(L, y, lower=True): forward substitution, row by row. *)
Fixpoint forward_subst (l : list vec) (y acc : vec) : vec :=
  match l, y with
  | row :: l', b :: y' =>
      let z := (b -. fsum (map2 fmul row acc)) /. nth (length acc) row f0 in
      forward_subst l' y' (acc ++ [z])
  | _, _ => acc
  end.

(** common.py 285-286: multivariate_normal.logpdf(x, mean, cov) for a matrix cov with Cholesky factor
    [l] = cholesky(cov) (external): with y = L^-1 (x - mean),
    -1/2 y.y - n/2 log(2 pi) - sum log(diag L). *)
Definition gaussian_logp (mean : vec) (l : list vec) (x : vec) : F :=
  let y := forward_subst l (vsub x mean) [] in
  (fneg f1 /. f2) *. vdot y y
  -. (fofZ (Z.of_nat (length mean)) /. f2) *. fln (f2 *. fpi)
  -. fsum (map (fun i => fln (nth i (nth i l []) f0)) (seq 0 (length mean))).

(** common.py 288-293: jax.random.multivariate_normal: mean + L z for rows z of a standard normal
    array of shape (n_samples, n). *)
Definition gaussian_of_noise (mean : vec) (l : list vec) (z : vec) : vec :=
  vadd mean (map (fun row => vdot row z) l).
Definition gaussian_sample (mean : vec) (l : list vec) (k : key) (n : nat) : list vec :=
  map (gaussian_of_noise mean l) (reshape_rows n (length mean) (normal k (n * length mean))).
Definition gaussian (mean : vec) (l : list vec) : dist :=
  mkDist (gaussian_logp mean l) (gaussian_sample mean l).

(** common.py 296-302: Composable; partitions is a dict of index ranges in insertion order. *)
Record composable := mkComp { cm_dists : list dist; cm_parts : list (string * (nat * nat)) }.

(** common.py 304-308: sum of the log-densities of the slices x[a:b]; zip stops at the shorter list.
    (Negative indices are not modelled.) *)
Definition composable_logp (c : composable) (x : vec) : F :=
  fold_left (fun acc dp => acc +. ds_logp (fst dp) (slice (fst (snd (snd dp))) (snd (snd (snd dp))) x))
    (combine (cm_dists c) (cm_parts c)) f0.

(** common.py 310-317: sample returns a dict from partition names to arrays of samples. *)
Fixpoint composable_sample_loop (dps : list (dist * (string * (nat * nat)))) (k : key) (n : nat)
  (out : dict (list vec)) : dict (list vec) :=
  match dps with
  | [] => out
  | (d, (nm, _)) :: r => composable_sample_loop r (split k 2 0) n (dset out nm (ds_sample d (split k 2 1) n))
  end.
Definition composable_sample (c : composable) (k : key) (n : nat) : dict (list vec) :=
  composable_sample_loop (combine (cm_dists c) (cm_parts c)) k n [].

(* ------------------------------------------------------------------------------------ *)
(** * Optimizer (optimizer.py 13-23): clip_by_global_norm(1.0) then adamw(lr, b1 = momentum) with
      optax defaults b2 = 0.999, eps = 1e-8, weight_decay = 1e-4.

    All floating-point leaves of the model are flattened into one vector; leaves under stop_gradient
    get zero gradients but are leaves (masks of RealNVP, data statistics, base distribution). *)
Record adamw := mkAdamw { aw_lr : F; aw_b1 : F; aw_b2 : F; aw_eps : F; aw_decay : F }.
(** optimizer.py 13-22: the optimiser a bundle builds for (learning_rate, momentum). *)
Definition optimizer_new (lr momentum : F) : adamw :=
  mkAdamw lr momentum (fofZ 999 /. fofZ 1000) (f1 /. fofZ 100000000) (f1 /. fofZ 10000).
Record adamw_state := mkAws { as_count : nat; as_mu : vec; as_nu : vec }.
Definition adamw_init (p : vec) : adamw_state :=
  mkAws 0 (map (fun _ => f0) p) (map (fun _ => f0) p).

Fixpoint fpow (x : F) (n : nat) : F := match n with O => f1 | S m => x *. fpow x m end.

(** optax.clip_by_global_norm(1.0). *)
Definition clip_norm (g : vec) : vec :=
  let nrm := fsqrt (fsum (map fsq g)) in
  if nrm <.? f1 then g else map (fun x => (x /. nrm) *. f1) g.

(** One coordinate of adamw: gradient, parameter, (mu, nu) and count of this step. *)
Definition adamw_coord (a : adamw) (count : nat) (g p mu nu : F) : F * F * F :=
  let mu' := (f1 -. aw_b1 a) *. g +. aw_b1 a *. mu in
  let nu' := (f1 -. aw_b2 a) *. fsq g +. aw_b2 a *. nu in
  let mh := mu' /. (f1 -. fpow (aw_b1 a) count) in
  let nh := nu' /. (f1 -. fpow (aw_b2 a) count) in
  let u := mh /. (fsqrt nh +. aw_eps a) in
  (p +. fneg (aw_lr a) *. (u +. aw_decay a *. p), mu', nu').

(** nf_model/base.py 122-125: optim.update(grads, state, model) and apply_updates. *)
Definition adamw_step (a : adamw) (g p : vec) (s : adamw_state) : vec * adamw_state :=
  let c := S (as_count s) in
  let o := map (fun i => adamw_coord a c (nth i (clip_norm g) f0) (nth i p f0) (nth i (as_mu s) f0)
                            (nth i (as_nu s) f0)) (seq 0 (length p)) in
  (map (fun x => fst (fst x)) o, mkAws c (map (fun x => snd (fst x)) o) (map snd o)).

(** Several training steps with gradient vectors [gs]. *)
Definition adamw_steps (a : adamw) (gs : list vec) (p : vec) (s : adamw_state) : vec * adamw_state :=
  fold_left (fun ps g => adamw_step a g (fst ps) (snd ps)) gs (p, s).

(* ------------------------------------------------------------------------------------ *)
(** * Data statistics (nf_model/base.py 187-188, flowmatching/base.py 297-298) *)

(** common.py 114-120: n_input and n_output are properties of the first and the last linear layer; the
    widths of their weights. *)
Definition in_features (l : linear) : nat := length (hd [] (ln_w l)).
Definition out_features (l : linear) : nat := length (ln_w l).
Definition mlp_n_input (m : mlp) : nat := in_features (hd (ml_last m) (ml_hidden m)).
Definition mlp_n_output (m : mlp) : nat := out_features (ml_last m).

(** jnp.mean(data, axis=0) and jnp.cov(data.T) (divisor n - 1), for data of width d. *)
Definition data_mean (d : nat) (data : list vec) : vec :=
  map (fun j => fmean (column data j)) (seq 0 d).
Definition data_cov (d : nat) (data : list vec) : list vec :=
  let mu := data_mean d data in
  map (fun i => map (fun j =>
     fsum (map (fun r => (nth i r f0 -. nth i mu f0) *. (nth j r f0 -. nth j mu f0)) data)
     /. fofZ (Z.of_nat (length data) - 1)) (seq 0 d)) (seq 0 d).
Definition diag (m : list vec) : vec := map (fun i => nth i (nth i m []) f0) (seq 0 (length m)).
(** The flow with statistics computed from the data. *)
Definition set_stats (m : flow) (data : list vec) : flow :=
  mkFlow (fl_n m) (fl_layers m) (data_mean (fl_n m) data) (diag (data_cov (fl_n m) data)).
End Net.
