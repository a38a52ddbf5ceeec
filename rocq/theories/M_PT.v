(** Model of ParallelTempering (strategy/parallel_tempering.py) and AdamOptimization
    (strategy/optimization.py). *)
From Verif Require Import Prelude Num M_Core M_Kernels M_Strategies.

Section PT.
Context {N : Num} {G : Rng} {NF : NFOps}.

(** parallel_tempering.py 25-45. *)
Record ptemp := mkPtemp {
  pt_n_steps : nat; pt_logpdf : string; pt_kernel : string;
  pt_pos_buf : string; pt_temp_buf : string; pt_state : string }.

(** parallel_tempering.py 135-203, 205-248: n_steps kernel steps on the tempered density at
    temperature [temp]; returns the final carry's position and log_prob and the flags. *)
Definition individual_step (n : nat) (kern : skernel) (t : tempered) (d : datad)
  (k : key) (x : vec) (temp : F) : res (vec * F * list bool) :=
  let lp := tempered_log_pdf t temp x d in
  let* tr := serial_scan kern (tempered_lpdf t temp) d n k x lp in
  let '(xf, lpf) := match last_opt tr with
                    | Some (x', lp', _) => (x', lp') | None => (x, lp) end in
  Ok (xf, lpf, map snd tr).

(** parallel_tempering.py 250-289: all temperatures of one chain; vmap rejects different
    numbers of positions and temperatures (ValueError). *)
Definition ensemble_step (n : nat) (kern : skernel) (t : tempered) (d : datad)
  (temps : list F) (k : key) (xs : list vec) : res (list vec) :=
  if length xs =? length temps then
    rmapM (fun kxt => rmap (fun o => fst (fst o))
                        (individual_step n kern t d (fst (fst kxt)) (snd (fst kxt)) (snd kxt)))
      (combine (combine (split_keys k (length xs)) xs) temps)
  else Raise ValueError.

(** flip of the two entries at i and i+1 (parallel_tempering.py 324-335, 336-345). *)
Fixpoint swap_at {A} (i : nat) (l : list A) : list A :=
  match i, l with
  | O, a :: b :: r => b :: a :: r
  | S i', a :: r => a :: swap_at i' r
  | _, _ => l
  end.

(** parallel_tempering.py 319-321. *)
Definition exchange_ratio (temps lps : list F) (i : nat) : F :=
  (f1 /. nth (i + 1) temps f0 -. f1 /. nth i temps f0) *. (nth i lps f0 -. nth (i + 1) lps f0).

(** parallel_tempering.py 291-356: the scanned body, [n] iterations from index [i]. *)
Fixpoint exchange_scan (temps : list F) (n i : nat) (k : key) (xs : list vec) (lps : list F)
  : list vec * list F * list bool :=
  match n with
  | O => (xs, lps, [])
  | S n' =>
      let acc := mh_accept (split k 2 1) (exchange_ratio temps lps i) in
      let xs' := if acc then swap_at i xs else xs in
      let lps' := if acc then swap_at i lps else lps in
      let '(xf, lf, accs) := exchange_scan temps n' (i + 1) (split k 2 0) xs' lps' in
      (xf, lf, acc :: accs)
  end.

(** parallel_tempering.py 358-398: one sweep over adjacent pairs; log_probs are the untempered
    log-densities logpdf(x, data). *)
Definition exchange (t : tempered) (d : datad) (temps : list F) (k : key) (xs : list vec)
  : list vec * list F * list bool :=
  exchange_scan temps (length xs - 1) 0 k xs (map (fun x => tempered_call t x d) xs).

(** parallel_tempering.py 423: mean over chains of the flags, per adjacent pair. *)
Definition acceptance_rate (n_pairs : nat) (accs : list (list bool)) : list F :=
  map (fun j => fmean (map (fun a => b2f (nth j a false)) accs)) (seq 0 n_pairs).

(** parallel_tempering.py 424-426. *)
Definition damping (n_chains : nat) (rate : list F) : list F :=
  map (fun j => (fofZ 100 /. fofZ (Z.of_nat n_chains)) *. (nth j rate f0 -. nth (j + 1) rate f0))
      (seq 0 (length rate - 1)).

(** parallel_tempering.py 427-433: the loop over interior temperatures. *)
Definition adapt_loop (temps damp : list F) : list F :=
  fold_left (fun new i =>
      set_nth i (nth (i - 1) new f0
                 +. (nth i temps f0 -. nth (i - 1) temps f0) *. fexp (nth (i - 1) damp f0)) new)
    (seq 1 (length temps - 2)) temps.

(** parallel_tempering.py 400-436. *)
Definition adapt_temperature (temps : list F) (accs : list (list bool)) : list F :=
  adapt_loop temps (damping (length accs) (acceptance_rate (length temps - 1) accs)).

(** parallel_tempering.py 47-133: __call__. *)
Definition parallel_tempering (pt : ptemp) : strategy := fun k xs d =>
  let k1 := split k 2 0 in
  do! kr <- res_get (pt_kernel pt);
  do! _ <- (match kr with RSer _ | RNFP _ => mret tt | _ => mraise AssertionError end);
  do! tr <- res_get (pt_logpdf pt);
  do! t <- (match tr with RTemp t => mret t | _ => mraise AssertionError end);
  do! (tpl, tpb) <- get_buffer (pt_pos_buf pt);
  do! (tml, tmb) <- get_buffer (pt_temp_buf pt);
  do! (_, st) <- get_state (pt_state pt);
  (* a flow kernel cannot be scanned as a one-step kernel *)
  do! kern <- (match kr with RSer kf => mret kf | _ => mraise TypeError end);
  (* concatenation needs a (n_chains, *, n_dim) array *)
  do! _ <- (match ashape (b_data tpb) with
            | [c; _; dd] => if (c =? length xs) && (dd =? length (nth 0 xs []))
                            then mret tt else mraise TypeError
            | _ => mraise TypeError end);
  let init := map2 cons xs (unstack3 (b_data tpb)) in
  let temps := unstack1 (b_data tmb) in
  let k2 := split k1 2 0 in
  let sub := split_keys (split k1 2 1) (length xs) in
  do! stepped <- mlift (rmapM (fun kx => ensemble_step (pt_n_steps pt) kern t d temps
                                           (fst kx) (snd kx)) (combine sub init));
  let k3 := split k2 2 0 in
  let sub' := split_keys (split k2 2 1) (length xs) in
  let ex := map (fun kx => exchange t d temps (fst kx) (snd kx)) (combine sub' stepped) in
  let positions := map (fun o => fst (fst o)) ex in
  let accs := map snd ex in
  do! training <- (match dget (s_data st) "training" with
                   | Some v => mret (truthy v) | None => mraise KeyError end);
  do! _ <- (if training then
              do! _ <- buf_update tpl (stack3 (map (@tl vec) positions)) 0;
              buf_update tml (stack1 (adapt_temperature temps accs)) 0
            else mret tt);
  mret (k3, map (fun ws => hd [] ws) positions).

(* ------------------------------------------------------------------------------------ *)
(** * AdamOptimization (strategy/optimization.py) *)

(** optimization.py 30-34, 47-51, 61-63.  The optax solver is abstract: its state type, init
    and update are arbitrary. *)
Record adam := mkAdam {
  ad_logpdf : lpdf; ad_n_steps : nat; ad_noise : F; ad_bounds : arr;
  ad_st : Type; ad_init : vec -> ad_st; ad_update : vec -> ad_st -> vec -> vec * ad_st }.

(** optimization.py 39-63: constructor validation of bounds. *)
Definition adam_new (a : adam) : res adam :=
  match ashape (ad_bounds a) with
  | [_; 2] => Ok a
  | _ => Raise ValueError
  end.

(** Lower / upper bound of coordinate j; a single row is broadcast. *)
Definition bnd (b : arr) (j side : nat) : F :=
  match ashape b with
  | 1 :: _ => aget b [0; side]
  | _ => aget b [j; side]
  end.

(** optax.projections.projection_box: clip to the box (optimization.py 131-133). *)
Definition project (b : arr) (v : vec) : vec :=
  map (fun jx => fclip (snd jx) (bnd b (fst jx) 0) (bnd b (fst jx) 1))
      (combine (seq 0 (length v)) v).

(** optimization.py 122-134: one step on (key, params, opt_state); [obj] is the objective with
    its gradient. *)
Definition adam_step (a : adam) (obj : lpdf) (d : datad)
  (s : key * vec * ad_st a) : key * vec * ad_st a :=
  let '(k, params, st) := s in
  let g := map (fun x => x *. (f1 +. normal0 (split k 2 1) *. ad_noise a)) (lp_grad obj params d) in
  let '(upd, st') := ad_update a g st params in
  (split k 2 0, project (ad_bounds a) (vadd params upd), st').

(** optimization.py 136-148. *)
Definition single_optimize (a : adam) (obj : lpdf) (d : datad) (k : key) (x : vec) : vec :=
  snd (fst (iter (ad_n_steps a) (adam_step a obj d) (k, x, ad_init a x))).

(** optimization.py 85-164: optimize; returns key, positions, final log-probabilities. *)
Definition adam_optimize (a : adam) (obj : lpdf) (k : key) (xs : pos_t) (d : datad)
  : res (key * pos_t * list F) :=
  let n_dim := length (nth 0 xs []) in
  let b0 := nth 0 (ashape (ad_bounds a)) 0 in
  if (b0 =? 1) || (b0 =? n_dim) then
    let keys := split_keys (split k 2 1) (length xs) in
    let ys := map (fun kx => single_optimize a obj d (fst kx) (snd kx)) (combine keys xs) in
    Ok (split k 2 0, ys, map (fun y => lp_val (ad_logpdf a) y d) ys)
  else Raise ValueError.

(** optimization.py 65-83: __call__ with objective -logpdf. *)
Definition neg_lpdf (f : lpdf) : lpdf :=
  mkLpdf (fun x d => fneg (lp_val f x d)) (fun x d => vneg (lp_grad f x d)).
Definition adam_strategy (a : adam) : strategy := fun k xs d =>
  do! (k', ys, _) <- mlift (adam_optimize a (neg_lpdf (ad_logpdf a)) k xs d);
  mret (k', ys).
End PT.
