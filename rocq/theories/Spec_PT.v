(** Specification vocabulary about parallel tempering and box-constrained optimisation. *)
From Coq Require Import Reals Permutation.
From Coquelicot Require Import Coquelicot.
From Verif Require Import Prelude Num M_Core M_Kernels M_Strategies M_PT Spec_Kernels Spec_Train RNum.
Close Scope R_scope.

(** [l'] is [l] with entries i and i+1 exchanged. *)
Definition exchanged {A} (i : nat) (l l' : list A) : Prop :=
  length l' = length l /\ i + 1 < length l /\
  nth_error l' i = nth_error l (i + 1) /\ nth_error l' (i + 1) = nth_error l i /\
  forall j, j <> i -> j <> i + 1 -> nth_error l' j = nth_error l j.

Section Sweep.
Context {N : Num} {G : Rng} {NF : NFOps}.

(** The log acceptance ratio of exchanging walkers i and i+1 of an ensemble, from the
    temperatures and the log-density of the walkers. *)
Definition swap_log_ratio (temps : list F) (lp : vec -> F) (ens : list vec) (i : nat) : F :=
  (f1 /. nth (i + 1) temps f0 -. f1 /. nth i temps f0)
  *. (lp (nth i ens []) -. lp (nth (i + 1) ens [])).

(** [ens] lists the ensembles of a sweep: from [xs] to [ys] in length xs - 1 decisions; decision i
    is about walkers i and i+1 and is taken by the Metropolis test with its own key. *)
Definition sweep_of (temps : list F) (lp : vec -> F) (k : key) (xs ys : list vec) (accs : list bool)
  (ens : list (list vec)) : Prop :=
  length accs = length xs - 1 /\ length ens = S (length accs) /\
  nth 0 ens [] = xs /\ nth (length accs) ens [] = ys /\
  forall i, i < length accs ->
    nth i accs false = (fln (uniform (scan_key k i)) <.? swap_log_ratio temps lp (nth i ens []) i) /\
    if nth i accs false then exchanged i (nth i ens []) (nth (i + 1) ens [])
    else nth (i + 1) ens [] = nth i ens [].

(** Successive adaptations of the temperatures to a list of exchange outcomes. *)
Definition adaptations (temps : list F) (hist : list (list (list bool))) : list F :=
  fold_left adapt_temperature hist temps.

(** The objects and settings a parallel-tempering call uses. *)
Record pt_setup (w : world) (pt : ptemp) (kern : skernel) (t : tempered)
  (pl : loc) (pb : buffer) (tl : loc) (tb : buffer) (training : bool) : Prop := mkPtSetup {
  ps_kernel : dget (rdict w) (pt_kernel pt) = Some (RSer kern);
  ps_logpdf : dget (rdict w) (pt_logpdf pt) = Some (RTemp t);
  ps_pos : buffer_named w (pt_pos_buf pt) pl pb;
  ps_temp : buffer_named w (pt_temp_buf pt) tl tb;
  ps_state : exists sl st v, dget (rdict w) (pt_state pt) = Some (RObj sl) /\
     hget sl w = Some (OState st) /\ dget (s_data st) "training" = Some v /\ truthy v = training }.

(** The walkers of chain c before a call: the cold one, then the stored ones. *)
Definition ensemble_before (pb : buffer) (xs : pos_t) (c : nat) : list vec :=
  nth c xs [] :: map (brow pb (nth 2 (ashape (b_data pb)) 0) c) (seq 0 (nth 1 (ashape (b_data pb)) 0)).

(** Walker j of a chain moves by n_steps kernel steps on the density tempered by temps[j]. *)
Definition moved (n : nat) (kern : skernel) (t : tempered) (d : datad) (temp : F) (k : key)
  (x y : vec) : Prop :=
  exists tr, serial_scan kern (tempered_lpdf t temp) d n k x (tempered_log_pdf t temp x d) = Ok tr /\
    y = last (map (fun o => fst (fst o)) tr) x.

(** The temperatures a call reads. *)
Definition temps_of (tb : buffer) : list F :=
  map (fun j => aget (b_data tb) [j]) (seq 0 (nth 0 (ashape (b_data tb)) 0)).
(** What happens to chain c: every walker moves at its own temperature, then one exchange sweep
    inside the chain; the cold walker is returned.  Each walker's move and each chain's sweep has
    its own key. *)
Definition chain_update (pt : ptemp) (kern : skernel) (t : tempered) (d : datad) (pb tb : buffer)
  (k : key) (xs : pos_t) (c : nat) (after : list vec) (accs : list bool) (cold : vec) : Prop :=
  let temps := temps_of tb in let k1 := split k 2 0 in
  length (ensemble_before pb xs c) = length temps /\ length after = length temps /\
  exists stepped ens, length stepped = length temps /\
    (forall j, j < length temps ->
       moved (pt_n_steps pt) kern t d (nth j temps f0)
         (split (split (split k1 2 1) (length xs) c) (length temps) j)
         (nth j (ensemble_before pb xs c) []) (nth j stepped [])) /\
    sweep_of temps (fun x => lp_val (l_pdf (t_base t)) x d)
      (split (split (split k1 2 0) 2 1) (length xs) c) stepped after accs ens /\
    cold = nth 0 after [].
(** On the tempered densities, the kernel moves D-dimensional positions to D-dimensional ones. *)
Definition keeps_dim (kern : skernel) (t : tempered) (d : datad) (dim : nat) : Prop :=
  forall temp k x lp o, length x = dim -> kern k x lp (tempered_lpdf t temp) d = Ok o ->
    length (fst (fst o)) = dim.

(** The lower (side 0) and upper (side 1) bound of coordinate j: row j of the table, or its only row. *)
Definition bound (b : arr) (j side : nat) : F :=
  aget b [if nth 0 (ashape b) 0 =? 1 then 0 else j; side].
(** Component [j] of [v] is between the bounds, or is NaN. *)
Definition in_box (b : arr) (v : vec) : Prop :=
  forall j x, nth_error v j = Some x -> fnan x = true \/
    ((bound b j 0 <=.? x) = true /\ (x <=.? bound b j 1) = true).
(** Bounds are ordered (and not NaN). *)
Definition ordered_bounds (b : arr) (n_dim : nat) : Prop :=
  forall j, j < n_dim -> (bound b j 0 <=.? bound b j 1) = true.

(** [path] is an optimisation run of strategy [a] from [x] with key [k]: step i moves along the update that
    the solver makes of minus the gradient of the log-density, times 1 + noise level * (a standard normal),
    and then clips every coordinate to its bounds.  The solver state starts from [x] and is carried along. *)
Definition ascent_path (a : adam) (d : datad) (k : key) (x : vec) (path : list vec) : Prop :=
  length path = S (ad_n_steps a) /\ nth 0 path [] = x /\
  exists st : nat -> ad_st a, st 0 = ad_init a x /\
  forall i, i < ad_n_steps a ->
    let p := nth i path [] in
    let z := normal0 (split (iter i (fun q => split q 2 0) k) 2 1) in
    let g := map (fun v => fneg v *. (f1 +. z *. ad_noise a)) (lp_grad (ad_logpdf a) p d) in
    exists upd, ad_update a g (st i) p = (upd, st (S i)) /\
    length (nth (S i) path []) = Nat.min (length p) (length upd) /\
    forall j, j < Nat.min (length p) (length upd) ->
      nth j (nth (S i) path []) f0 = fclip (nth j p f0 +. nth j upd f0) (bound (ad_bounds a) j 0) (bound (ad_bounds a) j 1).
End Sweep.

(** The random source read from a tape: the key is the list of the uniform draws still to be
    used, one per decision of a scan. *)
Definition tape : @Rng RNum := @mkRng RNum (list R)
  (fun k _ i => match i with O => tl k | _ => k end)
  (fun _ n => repeat 0%R n) (fun _ => 0%R) (fun k => hd 0%R k)
  (fun _ n => seq 0 n) (fun _ n c => repeat 0 c).

(** [v] is the expectation of [f] over n independent uniforms in [0,1]. *)
Fixpoint is_expect (n : nat) (f : list R -> R) (v : R) : Prop :=
  match n with
  | O => v = f []
  | S n' => exists g, (forall u, is_expect n' (fun us => f (u :: us)) (g u)) /\ is_RInt g 0 1 v
  end.

(** Unnormalised density of an ensemble: the product of the tempered densities. *)
Definition ensemble_density (t : tempered) (d : datad) (temps : list R) (xs : list (list R)) : R :=
  Rprod (length xs) (fun i => exp (tempered_log_pdf t (nth i temps 0%R) (nth i xs []) d)).

(** Probability, over the uniform draw, that the decision about walkers i and i+1 is positive. *)
Definition swap_prob (temps : list R) (t : tempered) (d : datad) (xs : list (list R)) (i : nat) (p : R) : Prop :=
  is_RInt (fun u => if hd false (snd (@exchange_scan RNum tape temps 1 i [u] xs
                                       (map (fun x => tempered_call t x d) xs)))
                    then 1%R else 0%R) 0 1 p.

Definition Rsum_list {A} (f : A -> R) (l : list A) : R := fold_right (fun a s => (f a + s)%R) 0%R l.

(** Fraction of the chains whose exchange number j was accepted. *)
Definition accept_fraction (accs : list (list bool)) (j : nat) : R :=
  (INR (length (filter (fun a => nth j a false) accs)) / INR (length accs))%R.
(** A ladder whose entries below the last are strictly increasing, and all are positive. *)
Definition interior_ladder (temps : list R) : Prop :=
  (forall i, i + 2 < length temps -> (nth i temps 0 < nth (i + 1) temps 0)%R) /\
  (forall i, i < length temps -> (0 < nth i temps 0)%R).
Definition strictly_sorted (temps : list R) : Prop :=
  forall i, i + 1 < length temps -> (nth i temps 0 < nth (i + 1) temps 0)%R.

(** Uniform draws lie strictly between 0 and 1 (jax draws in [0, 1); a draw of exactly 0 gives
    log 0 = -inf, which accepts as well). *)
Definition uniform_law (G : @Rng RNum) : Prop := forall k, (0 < @uniform RNum G k < 1)%R.
