(** Model of the normalizing flows: coupling layers (resource/model/common.py), RealNVP
    (nf_model/realNVP.py), rational-quadratic splines (nf_model/rqSpline.py). *)
From Verif Require Import Prelude Num M_Core M_Kernels.

Section Flow.
Context {N : Num}.

(* ------------------------------------------------------------------------------------ *)
(** * Bijections and coupling layers (common.py) *)

(** common.py 10-41: a bijection maps (x, condition) to (y, log_det); log_det is per
    coordinate so that the coupling layer can mask it (common.py 191-192). *)
Record bij := mkBij { bj_fwd : vec -> vec -> vec * vec; bj_inv : vec -> vec -> vec * vec }.

(** common.py 139-148: mask (0: transformed, 1: passed through) and inner bijector. *)
Record coupling := mkCoupling { cp_mask : vec; cp_bij : bij }.

(** (1 - mask) * y + mask * x and ((1 - mask) * log_det).sum() (common.py 156-157, 166-167). *)
Definition mask_mix (m y x : vec) : vec :=
  vadd (vmul (map (fun a => f1 -. a) m) y) (vmul m x).
Definition mask_logdet (m ld : vec) : F := fsum (vmul (map (fun a => f1 -. a) m) ld).

(** common.py 150-158: MaskedCouplingLayer.forward; the argument [condition] is not used. *)
Definition coupling_fwd (c : coupling) (x : vec) : vec * F :=
  let '(y, ld) := bj_fwd (cp_bij c) x (vmul x (cp_mask c)) in
  (mask_mix (cp_mask c) y x, mask_logdet (cp_mask c) ld).

(** common.py 160-168: MaskedCouplingLayer.inverse. *)
Definition coupling_inv (c : coupling) (x : vec) : vec * F :=
  let '(y, ld) := bj_inv (cp_bij c) x (vmul x (cp_mask c)) in
  (mask_mix (cp_mask c) y x, mask_logdet (cp_mask c) ld).

(** common.py 171-208: MLPAffine; the two networks are arbitrary functions. *)
Definition mlp_affine (scale_net shift_net : vec -> vec) (dt : F) : bij :=
  {| bj_fwd := fun x c =>
       let scale := map (fun s => ftanh s *. dt) (scale_net c) in
       let shift := map (fun s => s *. dt) (shift_net c) in
       (vmul (vadd x shift) (map fexp scale), scale);
     bj_inv := fun x c =>
       let scale := map (fun s => ftanh s *. dt) (scale_net c) in
       let shift := map (fun s => s *. dt) (shift_net c) in
       (vsub (vmul x (map (fun s => fexp (fneg s)) scale)) shift, vneg scale) |}.

(** common.py 211-240: ScalarAffine; the scalar log_det broadcasts over coordinates in the
    coupling layer, here repeated. *)
Definition scalar_affine (scale shift : F) : bij :=
  {| bj_fwd := fun x _ => (map (fun a => (a +. shift) *. fexp scale) x,
                           repeat scale (length x));
     bj_inv := fun x _ => (map (fun a => a *. fexp (fneg scale) -. shift) x,
                           repeat (fneg scale) (length x)) |}.

(* ------------------------------------------------------------------------------------ *)
(** * AffineCoupling (realNVP.py 18-99) *)

Record affine_coupling := mkAC {
  ac_mask : vec; ac_scale : vec -> vec; ac_translate : vec -> vec; ac_dt : F }.

Definition inv_mask (m : vec) : vec := map (fun a => f1 -. a) m.

(** realNVP.py 73-75, 94-96. *)
Definition ac_s (a : affine_coupling) (x : vec) : vec :=
  map (fun s => ftanh s *. ac_dt a)
      (vmul (ac_mask a) (ac_scale a (vmul x (inv_mask (ac_mask a))))).
Definition ac_t (a : affine_coupling) (x : vec) : vec :=
  map (fun t => t *. ac_dt a)
      (vmul (ac_mask a) (ac_translate a (vmul x (inv_mask (ac_mask a))))).

(** realNVP.py 63-82. *)
Definition ac_fwd (a : affine_coupling) (x : vec) : vec * F :=
  (vmul (vadd x (ac_t a x)) (map fexp (ac_s a x)), fsum (ac_s a x)).
(** realNVP.py 84-99. *)
Definition ac_inv (a : affine_coupling) (x : vec) : vec * F :=
  (vsub (vmul x (map (fun s => fexp (fneg s)) (ac_s a x))) (ac_t a x), fneg (fsum (ac_s a x))).

(* ------------------------------------------------------------------------------------ *)
(** * Flows as sequences of layers *)

(** A layer with forward and inverse passes. *)
Record layer := mkLayer { ly_fwd : vec -> vec * F; ly_inv : vec -> vec * F }.

Definition coupling_layer (c : coupling) : layer := mkLayer (coupling_fwd c) (coupling_inv c).

(** realNVP.py 183-190, rqSpline.py 459-468: scan over layers accumulating log_det. *)
Definition flow_fwd (ls : list layer) (x : vec) : vec * F :=
  fold_left (fun s l => let '(y, d) := ly_fwd l (fst s) in (y, snd s +. d)) ls (x, f0).
(** realNVP.py 201-208, rqSpline.py 479-488: the same with reverse=True. *)
Definition flow_inv (ls : list layer) (x : vec) : vec * F :=
  fold_left (fun s l => let '(y, d) := ly_inv l (fst s) in (y, snd s +. d)) (rev ls) (x, f0).

(** multivariate_normal.logpdf(y, zeros(n), eye(n)). *)
Definition std_normal_logpdf (n : nat) (y : vec) : F :=
  match mvn_logpdf y (repeat f0 n) (SDiag (repeat f1 n)) with Ok v => v | Raise _ => f0 end.

(* ------------------------------------------------------------------------------------ *)
(** * RealNVP (realNVP.py 102-228) *)

(** Number of leading masked-out coordinates and masks of layer i (realNVP.py 164-166):
    ones with the first int(n/2) entries 0, complemented for even i. *)
Definition realnvp_mask (n i : nat) : vec :=
  let m := map (fun j => if j <? n / 2 then f0 else f1) (seq 0 n) in
  if i mod 2 =? 0 then map (fun a => f1 -. a) m else m.

(** realNVP.py 162-172: layers; layer i has networks [nets i] and dt = 1. *)
Definition realnvp_layers (n : nat) (nets : list ((vec -> vec) * (vec -> vec)))
  : list coupling :=
  map (fun inet => mkCoupling (realnvp_mask n (fst inet))
                     (mlp_affine (fst (snd inet)) (snd (snd inet)) f1))
      (combine (seq 0 (length nets)) nets).

(** A normalizing flow model: layers and whitening statistics (mean and diagonal of the
    covariance; data_cov is only used through its diagonal). *)
Record flow := mkFlow {
  fl_n : nat; fl_layers : list layer; fl_mean : vec; fl_var : vec }.

Definition fl_std (m : flow) : vec := map fsqrt (fl_var m).

(** (x - data_mean) / sqrt(diag(data_cov)) (realNVP.py 218, rqSpline.py 501). *)
Definition whiten (m : flow) (x : vec) : vec := map2 fdiv (vsub x (fl_mean m)) (fl_std m).
(** samples * sqrt(diag(data_cov)) + data_mean (realNVP.py 213, rqSpline.py 495). *)
Definition unwhiten (m : flow) (x : vec) : vec := vadd (vmul x (fl_std m)) (fl_mean m).

(** realNVP.py 216-223: log_prob always uses the standard normal. *)
Definition realnvp_log_prob (m : flow) (x : vec) : F :=
  let '(y, ld) := flow_fwd (fl_layers m) (whiten m x) in
  ld +. std_normal_logpdf (fl_n m) y.

(** rqSpline.py 498-504: log_prob uses base_dist.log_prob. *)
Definition rqs_log_prob (base_logp : vec -> F) (m : flow) (x : vec) : F :=
  let '(y, ld) := flow_fwd (fl_layers m) (whiten m x) in
  ld +. base_logp y.

(** realNVP.py 210-214 and rqSpline.py 490-496: latent draws of the base distribution pushed
    through inverse and un-whitened. *)
Definition flow_sample (m : flow) (zs : list vec) : list vec :=
  map (fun z => unwhiten m (fst (flow_inv (fl_layers m) z))) zs.

(* ------------------------------------------------------------------------------------ *)
(** * Rational-quadratic spline (rqSpline.py 20-239) *)

(** jax.nn.softmax (rqSpline.py 26): exponentials of differences to the maximum. *)
Definition vmax (l : list F) : F :=
  match l with [] => f0 | x :: r => fold_left fmax r x end.
Definition softmax (l : list F) : list F :=
  let e := map (fun x => fexp (x -. vmax l)) l in
  map (fun x => x /. fsum e) e.

(** rqSpline.py 20-27. *)
Definition normalize_bin_sizes (u : list F) (total minsz : F) : list F :=
  map (fun s => s *. (total -. fofZ (Z.of_nat (length u)) *. minsz) +. minsz) (softmax u).

(** |x| *)
Definition fabs (x : F) : F := if x <.? f0 then fneg x else x.
(** jax.nn.softplus(x) = logaddexp(x, 0) = max(x, 0) + log1p(exp(-|x|)). *)
Definition softplus (x : F) : F := fmax x f0 +. fln (f1 +. fexp (fneg (fabs x))).

(** rqSpline.py 30-39. *)
Definition normalize_knot_slopes (u : list F) (minslope : F) : list F :=
  let offset := fln (fexp (f1 -. minslope) -. f1) in
  map (fun x => softplus (x +. offset) +. minslope) u.

(** rqSpline.py 65-72 (and 181-188): one-hot mask of the bin containing x, first bin if
    none. *)
Definition bin_mask (pos : list F) (x : F) : list bool :=
  let bins := map2 (fun a b => (a <=.? x) && (x <.? b)) (removelast pos) (tl pos) in
  if existsb id bins then bins
  else match bins with [] => [] | _ :: r => true :: map (fun _ => false) r end.

(** rqSpline.py 74-76: dot product of a parameter with the mask, left and right ends. *)
Definition pick (sel : list bool) (p : list F) : F := fsum (map2 (fun b v => b2f b *. v) sel p).
Definition pick_left (sel : list bool) (p : list F) : F := pick sel (removelast p).
Definition pick_right (sel : list bool) (p : list F) : F := pick sel (tl p).

(** The bin's parameters (rqSpline.py 78-84, 195-201). *)
Record binp := mkBinp { bx0 : F; bx1 : F; by0 : F; by1 : F; bd0 : F; bd1 : F }.
Definition bin_params (sel : list bool) (xp yp sl : list F) : binp :=
  mkBinp (pick_left sel xp) (pick_right sel xp) (pick_left sel yp) (pick_right sel yp)
         (pick_left sel sl) (pick_right sel sl).

(** rqSpline.py 82-117: value and log-derivative inside a bin. *)
Definition rq_bin_fwd (b : binp) (x : F) : F * F :=
  let width := bx1 b -. bx0 b in
  let height := by1 b -. by0 b in
  let slope := height /. width in
  let z := fclip ((x -. bx0 b) /. width) f0 f1 in
  let sq_z := z *. z in
  let z1mz := z -. sq_z in
  let sq_1mz := fsq (f1 -. z) in
  let st := bd1 b +. bd0 b -. f2 *. slope in
  let num := height *. (slope *. sq_z +. bd0 b *. z1mz) in
  let den := slope +. st *. z1mz in
  let y := by0 b +. num /. den in
  let ld := f2 *. fln slope
            +. fln (bd1 b *. sq_z +. f2 *. slope *. z1mz +. bd0 b *. sq_1mz)
            -. f2 *. fln den in
  (y, ld).

(** x_pos[-1] etc. *)
Definition flast (l : list F) : F := last l f0.
Definition fhd (l : list F) : F := hd f0 l.

(** rqSpline.py 43-128: the forward spline on a scalar. *)
Definition rqs_fwd (xp yp sl : list F) (x : F) : F * F :=
  let below := x <=.? fhd xp in
  let above := flast xp <=.? x in
  let '(y, ld) := rq_bin_fwd (bin_params (bin_mask xp x) xp yp sl) x in
  let y := if below then (x -. fhd xp) *. fhd sl +. fhd yp else y in
  let y := if above then (x -. flast xp) *. flast sl +. flast yp else y in
  let ld := if below then fln (fhd sl) else ld in
  let ld := if above then fln (flast sl) else ld in
  (y, ld).

(** jnp.finfo(float32).tiny *)
Definition ftiny : F := f1 /. fofZ (2 ^ 126)%Z.

(** rqSpline.py 131-155: _safe_quadratic_root. *)
Definition safe_quadratic_root (a b c : F) : F :=
  let sd := b *. b -. f4 *. a *. c in
  let ss := fsqrt (fmax sd ftiny) in
  let ss := if f0 <.? sd then ss else f0 in
  let num := if f0 <=.? b then f2 *. c else fneg b +. ss in
  let den := if f0 <=.? b then fneg b -. ss else f2 *. a in
  num /. den.

(** rqSpline.py 199-228: inverse inside a bin. *)
Definition rq_bin_inv (bp : binp) (y : F) : F * F :=
  let width := bx1 bp -. bx0 bp in
  let height := by1 bp -. by0 bp in
  let slope := height /. width in
  let w := fclip ((y -. by0 bp) /. height) f0 f1 in
  let st := bd1 bp +. bd0 bp -. f2 *. slope in
  let c := fneg slope *. w in
  let b := bd0 bp -. st *. w in
  let a := slope -. b in
  let z := fclip (safe_quadratic_root a b c) f0 f1 in
  let x := width *. z +. bx0 bp in
  let sq_z := z *. z in
  let z1mz := z -. sq_z in
  let sq_1mz := fsq (f1 -. z) in
  let den := slope +. st *. z1mz in
  let ld := fneg f2 *. fln slope
            -. fln (bd1 bp *. sq_z +. f2 *. slope *. z1mz +. bd0 bp *. sq_1mz)
            +. f2 *. fln den in
  (x, ld).

(** rqSpline.py 159-239: the inverse spline on a scalar. *)
Definition rqs_inv (xp yp sl : list F) (y : F) : F * F :=
  let below := y <=.? fhd yp in
  let above := flast yp <=.? y in
  let '(x, ld) := rq_bin_inv (bin_params (bin_mask yp y) xp yp sl) y in
  let x := if below then (y -. fhd yp) /. fhd sl +. fhd xp else x in
  let x := if above then (y -. flast yp) /. flast sl +. flast xp else x in
  let ld := if below then fneg (fln (fhd sl)) else ld in
  let ld := if above then fneg (fln (flast sl)) else ld in
  (x, ld).

(* ------------------------------------------------------------------------------------ *)
(** * RQSpline bijection (rqSpline.py 242-361) *)

(** rqSpline.py 294-308. *)
Record rqspline := mkRQ {
  rq_min : F; rq_max : F; rq_bins : nat; rq_min_bin : F; rq_min_slope : F;
  rq_cond : vec -> vec }.

(** rqSpline.py 306: int(n_output / n_input - 1) // 3. *)
Definition num_bins_of (n_output n_input : nat) : nat := (n_output / n_input - 1) / 3.

(** jnp.cumsum *)
Fixpoint cumsum_from (a : F) (l : list F) : list F :=
  match l with [] => [] | x :: r => (a +. x) :: cumsum_from (a +. x) r end.
Definition cumsum (l : list F) : list F :=
  match l with [] => [] | x :: r => x :: cumsum_from x r end.

(** rqSpline.py 320-333: knot positions of one coordinate from unnormalised bin sizes. *)
Definition knot_positions (q : rqspline) (u : list F) : list F :=
  let sizes := normalize_bin_sizes u (rq_max q -. rq_min q) (rq_min_bin q) in
  rq_min q :: map (fun s => rq_min q +. s) (cumsum (removelast sizes)) ++ [rq_max q].

(** rqSpline.py 315-338: get_params for one coordinate, from its row of 3*num_bins+1 numbers. *)
Definition row_params (q : rqspline) (row : list F) : list F * list F * list F :=
  let nb := rq_bins q in
  (knot_positions q (firstn nb row),
   knot_positions q (slice nb (2 * nb) row),
   normalize_knot_slopes (skipn (2 * nb) row) (rq_min_slope q)).

(** rqSpline.py 315: conditioner(x).reshape(-1, 3*num_bins+1); one row per coordinate. *)
Definition get_params (q : rqspline) (n : nat) (c : vec) : list (list F * list F * list F) :=
  map (row_params q) (reshape_rows n (rq_bins q * 3 + 1) (rq_cond q c)).

(** rqSpline.py 347-361: vmapped over coordinates. *)
Definition rqspline_bij (q : rqspline) : bij :=
  let run (f : list F -> list F -> list F -> F -> F * F) (x c : vec) :=
    let outs := map2 (fun p xi => let '(xp, yp, sl) := p in f xp yp sl xi)
                     (get_params q (length x) c) x in
    (map fst outs, map snd outs) in
  {| bj_fwd := run rqs_fwd; bj_inv := run rqs_inv |}.

(* ------------------------------------------------------------------------------------ *)
(** * MaskedCouplingRQSpline (rqSpline.py 364-507) *)

(** rqSpline.py 434: (arange(n) + i) % 2 as booleans. *)
Definition rqs_mask (n i : nat) : vec := map (fun j => b2f ((j + i) mod 2 =? 1)) (seq 0 n).

(** rqSpline.py 427-440: one layer is [ScalarAffine with mask zeros; RQSpline with mask].
    The scalar affine parameters are initialised to 0 but are trainable arrays. *)
Record rqs_layer := mkRqsLayer { rl_affine : coupling; rl_spline : coupling }.
Definition make_rqs_layer (n i : nat) (scale shift : F) (q : rqspline) : rqs_layer :=
  mkRqsLayer (mkCoupling (repeat f0 n) (scalar_affine scale shift))
             (mkCoupling (rqs_mask n i) (rqspline_bij q)).

(** rqSpline.py 459-465 and 479-485: forward applies layers[0] then layers[1]; inverse applies
    layers[0].inverse and then layers[1].inverse, in the same order.  Simplification: the code adds the two
    log-determinants to the running total one after the other, (log_det + d1) + d2; here their sum d1 + d2 is added
    to it (the same number in exact arithmetic, which is where statements about log_prob values are made). *)
Definition rqs_model_layer (l : rqs_layer) : layer :=
  {| ly_fwd := fun x => let '(x1, d1) := coupling_fwd (rl_affine l) x in
                        let '(x2, d2) := coupling_fwd (rl_spline l) x1 in (x2, d1 +. d2);
     ly_inv := fun x => let '(x1, d1) := coupling_inv (rl_affine l) x in
                        let '(x2, d2) := coupling_inv (rl_spline l) x1 in (x2, d1 +. d2) |}.

(** rqSpline.py 442-443: n_layers layers; layer i has scalar parameters and spline [ps i]. *)
Definition rqs_layers (n : nat) (ps : list (F * F * rqspline)) : list rqs_layer :=
  map (fun ip => let '(i, (scale, shift, q)) := ip in make_rqs_layer n i scale shift q)
      (combine (seq 0 (length ps)) ps).

(** What the inverse would be with the inner order reversed (specification only, used to state
    what is missing; not code of the repository). *)
Definition rqs_layer_true_inv (l : rqs_layer) (x : vec) : vec * F :=
  let '(x1, d1) := coupling_inv (rl_spline l) x in
  let '(x2, d2) := coupling_inv (rl_affine l) x1 in (x2, d1 +. d2).
End Flow.
