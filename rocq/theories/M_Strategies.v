(** Model of the object world (heap + resource dictionary), of the strategies TakeSerialSteps,
    TakeGroupSteps, TrainModel, UpdateState, Lambda, and of Sampler. *)
From Verif Require Import Prelude Num M_Core M_Kernels.

(** Positions of all chains: (n_chains, n_dim). *)
Notation pos_t := (list vec).

Section Strategies.
Context {N : Num} {G : Rng} {NF : NFOps}.

(* ------------------------------------------------------------------------------------ *)
(** * World *)

(** Mutable Python objects live in a heap; a location is an object identity. *)
Definition loc := nat.

(** optimizer.py 6-8: optim (fixed) and optim_state. *)
Record optimizer := mkOptimizer { o_tx : gtx; o_state : optst }.

(** Mutable objects: buffers, states, optimizers, and a stepper's current_position
    (take_steps.py 20, 41). *)
Inductive obj :=
| OBuf (b : buffer) | OState (s : state) | OOpt (o : optimizer) | OCursor (z : Z).

(** Entries of the resource dictionary.  Mutable resources are references; the others are
    immutable values (equinox modules, LogPDF objects). *)
Inductive resource :=
| RObj (l : loc)
| RLog (f : logpdf_res)
| RTemp (t : tempered)
| RSer (k : skernel)        (* GaussianRandomWalk, MALA, HMC or any one-step kernel *)
| RNFP (p : nfp)
| RModel (m : mdl).

Record world := mkWorld { heap : list obj; rdict : dict resource }.

Definition hget (l : loc) (w : world) : option obj := nth_error (heap w) l.
Definition hset (l : loc) (o : obj) (w : world) : world :=
  {| heap := set_nth l o (heap w); rdict := rdict w |}.


(** strategy/base.py 20-31: a strategy maps key, resources, position, data to key,
    resources, position.  Resources are threaded as the world. *)
Definition strategy := key -> pos_t -> datad -> M world (key * pos_t).

(* -- look-ups used by the strategies' assertions -------------------------------------- *)

(** resources[name]: KeyError when missing. *)
Definition res_get (name : string) : M world resource :=
  fun w => match dget (rdict w) name with
           | Some r => (Ok r, w) | None => (Raise KeyError, w) end.

(** assert isinstance(resources[name], State) *)
Definition get_state (name : string) : M world (loc * state) :=
  do! r <- res_get name;
  fun w => match r with
           | RObj l => match hget l w with
                       | Some (OState s) => (Ok (l, s), w)
                       | _ => (Raise AssertionError, w) end
           | _ => (Raise AssertionError, w) end.

(** assert isinstance(resources[name], Buffer) *)
Definition get_buffer (name : string) : M world (loc * buffer) :=
  do! r <- res_get name;
  fun w => match r with
           | RObj l => match hget l w with
                       | Some (OBuf b) => (Ok (l, b), w)
                       | _ => (Raise AssertionError, w) end
           | _ => (Raise AssertionError, w) end.

(** assert isinstance(resources[name], Optimizer) *)
Definition get_optimizer (name : string) : M world (loc * optimizer) :=
  do! r <- res_get name;
  fun w => match r with
           | RObj l => match hget l w with
                       | Some (OOpt o) => (Ok (l, o), w)
                       | _ => (Raise AssertionError, w) end
           | _ => (Raise AssertionError, w) end.

(** assert isinstance(state.data[key], str) *)
Definition state_str (s : state) (k : string) : res string :=
  match dget (s_data s) k with
  | Some (SStr x) => Ok x
  | Some _ => Raise AssertionError
  | None => Raise KeyError
  end.

(** resources[name] = r *)
Definition res_set (name : string) (r : resource) : M world unit :=
  fun w => (Ok tt, {| heap := heap w; rdict := dset (rdict w) name r |}).

Definition heap_set (l : loc) (o : obj) : M world unit := fun w => (Ok tt, hset l o w).

(** buffer.update_buffer(updates, start) on the object at [l] (re-reads the object, so that
    two names bound to the same buffer behave like Python aliases). *)
Definition buf_update (l : loc) (updates : arr) (start : Z) : M world unit :=
  fun w => match hget l w with
           | Some (OBuf b) => match update_buffer b updates start with
                              | Ok b' => (Ok tt, hset l (OBuf b') w)
                              | Raise e => (Raise e, w) end
           | _ => (Raise OtherError, w) end.

Definition get_cursor (l : loc) : M world Z :=
  fun w => match hget l w with Some (OCursor z) => (Ok z, w) | _ => (Raise OtherError, w) end.

(* ------------------------------------------------------------------------------------ *)
(** * TakeSteps (strategy/take_steps.py) *)

(** take_steps.py 14-44.  [ts_cur] is the location of current_position. *)
Record takesteps := mkTakeSteps {
  ts_logpdf : string; ts_kernel : string; ts_state : string;
  ts_pos_key : string; ts_lp_key : string; ts_acc_key : string;   (* buffer_names[0..2] *)
  ts_n_steps : nat; ts_thinning : nat; ts_batch : nat; ts_cur : loc }.

(** take_steps.py 156-162 and 175-179: scan of the kernel body, [n] steps. *)
Fixpoint serial_scan (kern : skernel) (f : lpdf) (d : datad) (n : nat)
  (k : key) (pos : vec) (lp : F) : res (list (vec * F * bool)) :=
  match n with
  | O => Ok []
  | S n' =>
      let* o := kern (split k 2 1) pos lp f d in
      let '(pos', lp', acc) := o in
      let* rest := serial_scan kern f d n' (split k 2 0) pos' lp' in
      Ok ((pos', lp', acc) :: rest)
  end.

(** take_steps.py 164-180: TakeSerialSteps.sample for one chain. *)
Definition serial_sample (kern : skernel) (f : lpdf) (d : datad) (n_steps : nat)
  (k : key) (x0 : vec) : res (list (vec * F * bool)) :=
  serial_scan kern f d n_steps k x0 (lp_val f x0 d).

(** {**data, "n_steps": n} (take_steps.py 204). *)
Definition with_n_steps (d : datad) (n : nat) : datad := dset d "n_steps" (DInt (Z.of_nat n)).

(** take_steps.py 191-206: TakeGroupSteps.sample for one chain. *)
Definition group_sample (p : nfp) (f : lpdf) (d : datad) (n_steps : nat)
  (k : key) (x0 : vec) : res (list (vec * F * bool)) :=
  nfp_kernel p k x0 (lp_val f x0 d) f (with_n_steps d n_steps).

(** A logpdf resource used as a callable: LogPDF, or TemperedPDF (whose __call__ is the
    untempered log-density, logPDF.py 101-102).  Other resources are not callable on
    (position, data). *)
Definition as_lpdf (r : resource) : option lpdf :=
  match r with
  | RLog l => Some (l_pdf l)
  | RTemp t => Some (l_pdf (t_base t))
  | _ => None
  end.

(** jax.vmap of a chain sampler over (keys, positions). *)
Definition vmap_chains (samp : key -> vec -> res (list (vec * F * bool)))
  (keys : list key) (xs : pos_t) : res (list (list (vec * F * bool))) :=
  rmapM (fun kx => samp (fst kx) (snd kx)) (combine keys xs).

(** take_steps.py 105-132: vmap over all chains, or over consecutive slices of
    chain_batch_size chains, concatenated. *)
Definition run_chains (samp : key -> vec -> res (list (vec * F * bool)))
  (cb : nat) (keys : list key) (xs : pos_t) : res (list (list (vec * F * bool))) :=
  let n := length xs in
  if (1 <? cb) && (cb <? n) then
    rmap (@concat _)
      (rmapM (fun i => vmap_chains samp (slice i (Nat.min (i + cb) n) keys)
                                        (slice i (Nat.min (i + cb) n) xs))
             (range_step n cb))
  else vmap_chains samp keys xs.

(** Keys of jax.random.split(k, n) (take_steps.py 72). *)
Definition split_keys (k : key) (n : nat) : list key := map (split k n) (seq 0 n).

(** take_steps.py 60-144: __call__, with the chain sampler [samp] of the subclass obtained from
    the kernel and logpdf resources (their lookup raises KeyError). *)
Definition take_steps (samp : resource -> resource -> datad -> nat -> key -> vec
                              -> res (list (vec * F * bool)))
  (ts : takesteps) : strategy := fun k xs d =>
  let k' := split k 2 0 in
  let subkeys := split_keys (split k 2 1) (length xs) in
  do! (_, st) <- get_state (ts_state ts);
  do! pname <- mlift (state_str st (ts_pos_key ts));
  do! lname <- mlift (state_str st (ts_lp_key ts));
  do! aname <- mlift (state_str st (ts_acc_key ts));
  do! (pl, _) <- get_buffer pname;
  do! (ll, _) <- get_buffer lname;
  do! (al, _) <- get_buffer aname;
  do! kern <- res_get (ts_kernel ts);
  do! lpdfr <- res_get (ts_logpdf ts);
  do! out <- mlift (run_chains (samp kern lpdfr d (ts_n_steps ts)) (ts_batch ts) subkeys xs);
  (* positions[:, ::thinning] etc.; a zero slice step raises ValueError *)
  do! _ <- (if ts_thinning ts =? 0 then mraise ValueError else mret tt);
  let kept := map (stride (ts_thinning ts)) out in
  let positions := map (map (fun o => fst (fst o))) kept in
  let log_probs := map (map (fun o => snd (fst o))) kept in
  let accs := map (map (fun o => b2f (snd o))) kept in
  do! cur <- get_cursor (ts_cur ts);
  do! _ <- buf_update pl (stack3 positions) cur;
  do! _ <- buf_update ll (stack2 log_probs) cur;
  do! _ <- buf_update al (stack2 accs) cur;
  do! _ <- heap_set (ts_cur ts)
             (OCursor (cur + Z.of_nat (ts_n_steps ts / ts_thinning ts)));
  (* positions[:, -1]; an empty step axis cannot be indexed *)
  do! lasts <- mlift (rmapM (fun ps => match last_opt ps with
                                       | Some p => Ok p | None => Raise IndexError end)
                            positions);
  mret (k', lasts).

(** take_steps.py 147-180.  A kernel resource of another kind raises (attribute or
    carry-structure error). *)
Definition samp_serial (kern lp : resource) (d : datad) (n : nat) (k : key) (x : vec)
  : res (list (vec * F * bool)) :=
  match as_lpdf lp, kern with
  | Some f, RSer kf => serial_sample kf f d n k x
  | _, _ => Raise TypeError
  end.

(** take_steps.py 183-206. *)
Definition samp_group (kern lp : resource) (d : datad) (n : nat) (k : key) (x : vec)
  : res (list (vec * F * bool)) :=
  match as_lpdf lp, kern with
  | Some f, RNFP p => group_sample p f d n k x
  | _, _ => Raise TypeError
  end.

Definition take_serial_steps := take_steps samp_serial.
Definition take_group_steps := take_steps samp_group.

(** take_steps.py 57-58: set_current_position. *)
Definition set_current_position (ts : takesteps) (z : Z) : M world unit :=
  heap_set (ts_cur ts) (OCursor z).

(* ------------------------------------------------------------------------------------ *)
(** * NFModel.train (resource/model/nf_model/base.py 127-210) *)

(** data[perm, ...] (base.py 146). *)
Definition gather {A} (dflt : A) (l : list A) (ix : list nat) : list A :=
  map (fun i => nth i l dflt) ix.

(** base.py 145-147: the loop over the rows of perms. *)
Fixpoint epoch_loop (m : mdl) (tx : gtx) (st : optst) (value : F) (batches : list (list vec))
  : F * mdl * optst :=
  match batches with
  | [] => (value, m, st)
  | b :: rest =>
      let '(v, m', st') := m_step m b tx st in epoch_loop m' tx st' v rest
  end.

(** 1e9, the initial loss (base.py 136, 186). *)
Definition big_loss : F := fofZ 1000000000.

(** Batches of an epoch (base.py 139-146): rows of perms[: s*b].reshape(s, b). *)
Definition epoch_batches (k : key) (data : list vec) (bs : nat) : list (list vec) :=
  let n := length data in
  let steps := n / bs in
  map (gather [] data) (reshape_rows steps bs (firstn (steps * bs) (permutation k n))).

(** base.py 127-151: train_epoch.  batch_size = 0 raises ZeroDivisionError. *)
Definition train_epoch (m : mdl) (k : key) (tx : gtx) (st : optst) (data : list vec) (bs : nat)
  : res (F * mdl * optst) :=
  if bs =? 0 then Raise ZeroDivisionError
  else
    let steps := length data / bs in
    if 0 <? steps then Ok (epoch_loop m tx st big_loss (epoch_batches k data bs))
    else Ok (m_step m data tx st).

(** base.py 189-200: the epoch loop, for a (model, optimiser state) pair [cur] and an epoch
    function.  Carries the best pair and its loss; returns the losses in order.
    (flowmatching/base.py 299-310 is the same loop.) *)
Fixpoint best_epoch_loop {S : Type} (epoch : key -> S -> res (F * S)) (n : nat) (k : key)
  (cur best : S) (best_loss : F) : res (key * S * list F) :=
  match n with
  | O => Ok (k, best, [])
  | S n' =>
      let* (value, cur') := epoch (split k 2 1) cur in
      let better := value <.? best_loss in
      let best' := if better then cur' else best in
      let best_loss' := if better then value else best_loss in
      let* (kf, b, losses) := best_epoch_loop epoch n' (split k 2 0) cur' best' best_loss' in
      Ok (kf, b, value :: losses)
  end.

(** base.py 153-210: train.  best_model is the model before the data statistics are set. *)
Definition train (m : mdl) (k : key) (data : list vec) (tx : gtx) (st : optst)
  (num_epochs bs : nat) : res (key * (mdl * optst) * list F) :=
  best_epoch_loop
    (fun k' ms => rmap (fun o => (fst (fst o), (snd (fst o), snd o)))
                       (train_epoch (fst ms) k' tx (snd ms) data bs))
    num_epochs k (m_stats m data, st) (m, st) big_loss.

(* ------------------------------------------------------------------------------------ *)
(** * TrainModel (strategy/train_model.py) *)

(** train_model.py 11-45. *)
Record trainmodel := mkTrainModel {
  tm_model : string; tm_data : string; tm_opt : string; tm_loss : string;
  tm_epochs : nat; tm_bs : nat; tm_max : nat; tm_window : nat }.

(** All index tuples of a shape in row-major order. *)
Fixpoint indices (sh : list nat) : list (list nat) :=
  match sh with
  | [] => [[]]
  | d :: r => flat_map (fun i => map (cons i) (indices r)) (seq 0 d)
  end.

(** Rows of an array along its last axis, in row-major order of the leading axes. *)
Definition arr_rows (a : arr) : list vec :=
  map (fun ix => map (fun j => aget a (ix ++ [j])) (seq 0 (last (ashape a) 0)))
      (indices (removelast (ashape a))).

(** train_model.py 66-71: rows with all coordinates finite, reshaped to (n_chains, -1, n_dims)
    (TypeError when the sizes do not match), last history_window of each, flattened. *)
Definition training_pool (a : arr) (window : nat) : res (list vec) :=
  match ashape a with
  | [] => Raise IndexError
  | n_chains :: _ =>
      let rows := filter (fun r => forallb ffinite r) (arr_rows a) in
      if (n_chains =? 0) || negb (length rows mod n_chains =? 0) then Raise TypeError
      else Ok (concat (map (last_window window)
                           (reshape_rows n_chains (length rows / n_chains) rows)))
  end.

(** train_model.py 73-80: resampling with replacement; jax.random.choice raises ValueError on
    an empty pool when samples are requested. *)
Definition draw_examples (k : key) (pool : list vec) (n : nat) : res (list vec) :=
  if (length pool =? 0) && negb (n =? 0) then Raise ValueError
  else Ok (gather [] pool (choice k (length pool) n)).

(** train_model.py 47-112: __call__. *)
Definition train_model (tm : trainmodel) : strategy := fun k xs _ =>
  do! mr <- res_get (tm_model tm);
  do! m <- (match mr with RModel m => mret m | _ => mraise AssertionError end);
  do! (_, db) <- get_buffer (tm_data tm);
  do! (ol, opt) <- get_optimizer (tm_opt tm);
  do! pool <- mlift (training_pool (b_data db) (tm_window tm));
  let k1 := split k 2 0 in
  do! ex <- mlift (draw_examples (split k 2 1) pool (tm_max tm));
  (* line 81: rng_key, subkey = split(rng_key); rng_key is overwritten by train's *)
  let subkey := split k1 2 1 in
  do! (k3, (m', st'), losses) <-
     mlift (train m subkey ex (o_tx opt) (o_state opt) (tm_epochs tm) (tm_bs tm));
  do! _ <- (if String.eqb (tm_loss tm) "" then mret tt
            else
              do! (ll, lb) <- get_buffer (tm_loss tm);
              do! _ <- buf_update ll (stack1 losses) (b_cursor lb);
              do! (_, lb') <- get_buffer (tm_loss tm);
              do! _ <- heap_set ll (OBuf {| b_name := b_name lb'; b_data := b_data lb';
                                   b_cursor := b_cursor lb' + Z.of_nat (length losses);
                                   b_cursor_dim := b_cursor_dim lb' |});
              res_set (tm_loss tm) (RObj ll));
  do! _ <- heap_set ol (OOpt {| o_tx := o_tx opt; o_state := st' |});
  do! _ <- res_set (tm_model tm) (RModel m');
  do! _ <- res_set (tm_opt tm) (RObj ol);
  mret (k3, xs).

(* ------------------------------------------------------------------------------------ *)
(** * UpdateState and Lambda *)

(** update_state.py 30-47: __call__. *)
Definition update_state (name : string) (keys : list string) (values : list sval) : strategy :=
  fun k xs _ =>
    do! (l, s) <- get_state name;
    do! _ <- heap_set l (OState (state_update s keys values));
    mret (k, xs).

(** lambda_function.py 25-37: the function's return value is ignored, key and position are
    passed through. *)
Definition lambda (f : key -> pos_t -> datad -> M world unit) : strategy :=
  fun k xs d => do! _ <- f k xs d; mret (k, xs).

End Strategies.

(* ------------------------------------------------------------------------------------ *)
(** * Sampler (Sampler.py) *)

Section Sampler.
Context {N : Num} {G : Rng} {NF : NFOps}.

(** Python values an attribute can hold, as far as Sampler is concerned. *)
Inductive pyval := VInt (z : Z) | VBool (b : bool) | VStr (s : string) | VOther.

(** strategy_order is None, a list of names, or something else. *)
Inductive order_t := ONone | OList (l : list string) | OOther.

(** Sampler.py 27-37: instance attributes; [sm_attrs] holds the attributes set through keyword
    arguments. *)
Record sampler := mkSampler {
  sm_n_dim : nat; sm_n_chains : nat; sm_key : key;
  sm_resources : dict resource; sm_strategies : dict strategy; sm_order : order_t;
  sm_attrs : dict pyval }.

(** ResourceStrategyBundle (resource_strategy_bundle/base.py). *)
Record bundle := mkBundle {
  bd_resources : dict resource; bd_strategies : dict strategy; bd_order : list string }.

(** Keys of Sampler.__dict__ (Sampler.py 10-118): values and methods defined in the class body,
    plus dunder names.  Annotated names without a value (n_dim, ...) are not in __dict__. *)
Definition class_keys : list string :=
  ["__module__"; "__annotations__"; "__doc__"; "verbose"; "logging"; "outdir"; "__init__";
   "sample"; "serialize"; "deserialize"; "__dict__"; "__weakref__"]%string.

(** str.startswith("__") *)
Definition starts_dunder (s : string) : bool := String.prefix "__" s.

(** Sampler.py 78-82: the keyword loop. *)
Definition apply_kwargs (kw : dict pyval) : dict pyval :=
  fold_left (fun a kv => if existsb (String.eqb (fst kv)) class_keys
                         then if starts_dunder (fst kv) then a else dset a (fst kv) (snd kv)
                         else a) kw [].

(** Sampler.py 39-82: __init__. *)
Definition sampler_init (n_dim n_chains : nat) (k : key)
  (resources : option (dict resource)) (strategies : option (dict strategy))
  (order : order_t) (bd : option bundle) (kwargs : dict pyval) : res sampler :=
  match resources, strategies with
  | Some r, Some s =>
      Ok (mkSampler n_dim n_chains k r s order (apply_kwargs kwargs))
  | _, _ =>
      match bd with
      | None => Raise ValueError
      | Some b => Ok (mkSampler n_dim n_chains k (bd_resources b) (bd_strategies b)
                                (OList (bd_order b)) (apply_kwargs kwargs))
      end
  end.

(** Reading an attribute that a keyword may have overridden (class default otherwise). *)
Definition attr (s : sampler) (name : string) (dflt : pyval) : pyval :=
  match dget (sm_attrs s) name with Some v => v | None => dflt end.

(** The initial position given to sample: one vector or a 2-D array. *)
Inductive initpos := P1 (v : vec) | P2 (m : pos_t).
(** jnp.atleast_2d (Sampler.py 92). *)
Definition atleast_2d (p : initpos) : pos_t := match p with P1 v => [v] | P2 m => m end.

(** Sampler.py 96-110: the loop over strategy_order. *)
Fixpoint run_order (strats : dict strategy) (order : list string) (k : key) (xs : pos_t)
  (d : datad) : M world (key * pos_t) :=
  match order with
  | [] => mret (k, xs)
  | name :: rest =>
      match dget strats name with
      | None => mraise ValueError
      | Some st => do! (k', xs') <- st k xs d; run_order strats rest k' xs' d
      end
  end.

(** Sampler.py 84-110: sample.  Runs on the heap [h] with the sampler's own resources; the
    resource dictionary of the resulting world is self.resources afterwards.  The returned key
    and position are discarded by Python but exposed here; rng_key starts from self.rng_key,
    which is never reassigned. *)
Definition sampler_sample (s : sampler) (init : initpos) (d : datad) (h : list obj)
  : res (key * pos_t) * world :=
  let w := mkWorld h (sm_resources s) in
  match sm_order s with
  | OList order => run_order (sm_strategies s) order (sm_key s) (atleast_2d init) d w
  | _ => (Raise AssertionError, w)
  end.

(** The sampler object after sample: only self.resources was reassigned (Sampler.py 103-107). *)
Definition sampler_after (s : sampler) (w : world) : sampler :=
  {| sm_n_dim := sm_n_dim s; sm_n_chains := sm_n_chains s; sm_key := sm_key s;
     sm_resources := rdict w; sm_strategies := sm_strategies s; sm_order := sm_order s;
     sm_attrs := sm_attrs s |}.
End Sampler.
