(** Specification vocabulary about bundle runs: a reference algorithm without buffers, names,
    cursors or resource dictionaries, and what it means for the buffers to hold its output. *)
From Verif Require Import Prelude Num M_Core M_Kernels M_Strategies M_PT M_Bundle
  Spec Spec_Core Spec_Steps Spec_Kernels Spec_Train Spec_PT.

(** What one loop produces: every chain's local steps, the losses of the training (none in
    production), every chain's global steps. *)
Record loop {N : Num} := mkLoop { lo_local : list chain_out; lo_losses : list F; lo_global : list chain_out }.
Arguments mkLoop {N}.

(** What a resource name refers to: a plain resource, or the current content of a mutable one. *)
Inductive content {N : Num} {G : Rng} {NF : NFOps} :=
| CNone | CPlain (r : resource) | CObject (o : option obj).
Definition content_of {N : Num} {G : Rng} {NF : NFOps} (w : world) (name : string) : content :=
  match dget (rdict w) name with
  | None => CNone
  | Some (RObj l) => CObject (hget l w)
  | Some r => CPlain r
  end.
Definition training_buffers : list string :=
  ["positions_training"; "log_prob_training"; "local_accs_training"; "global_accs_training"]%string.
Definition production_buffers : list string :=
  ["positions_production"; "log_prob_production"; "local_accs_production"; "global_accs_production"]%string.

Section SpecBundle.
Context {N : Num} {G : Rng} {NF : NFOps}.

(** State of the reference algorithm: key, positions of the chains, flow, optimiser state; [E] is
    extra state (the tempered ensemble, or nothing). *)
Record rstate (E : Type) := mkR { r_key : key; r_pos : pos_t; r_model : mdl; r_opt : optst; r_ext : E }.
Arguments mkR {E}. Arguments r_key {E}. Arguments r_pos {E}. Arguments r_model {E}.
Arguments r_opt {E}. Arguments r_ext {E}.

(** Steps 0, th, 2 th, ... of the n steps of a chain. *)
Definition kept_steps (n th : nat) (co : chain_out) : chain_out :=
  map (fun j => nth (j * th) co ([], f0, false)) (seq 0 (n / th)).

(** The chains advance by n steps of a chain sampler, each with its own key, from [xs] to [ys];
    [out] lists all steps. *)
Definition chains_run (samp : nat -> key -> vec -> res chain_out) (n th : nat) (k : key)
  (xs : pos_t) (out : list chain_out) (ys : pos_t) : Prop :=
  length out = length xs /\ length ys = length xs /\
  forall i, i < length xs ->
    samp n (split (split k 2 1) (length xs) i) (nth i xs []) = Ok (nth i out []) /\
    length (nth i out []) = n /\ last_kept n th (nth i out []) (nth i ys []).

(** n_local_steps of MALA on the target; n_global_steps of the flow kernel with flow [m]. *)
Definition local_run (c : config) (d : datad) :=
  chains_run (serial_sample (mala_kernel (c_step c)) (c_logpdf c) d) (c_local c) (c_local_th c).
Definition global_run (c : config) (d : datad) (m : mdl) :=
  chains_run (group_sample (mkNfp m (c_nf_bs c)) (c_logpdf c) d) (c_global c) (c_global_th c).

(** Everything chain [i] recorded in loops [ls], oldest first; [true] marks local steps. *)
Definition chain_history (c : config) (ls : list loop) (i : nat) : list (bool * (vec * F * bool)) :=
  concat (map (fun l =>
    map (pair true) (kept_steps (c_local c) (c_local_th c) (nth i (lo_local l) [])) ++
    map (pair false) (kept_steps (c_global c) (c_global_th c) (nth i (lo_global l) []))) ls).

(** Training examples drawn from the chains' positions [hist]: the finite ones, cut into as many
    equally long blocks as there are chains, the last [window] of each block, [max] draws. *)
Definition training_set (window max : nat) (k : key) (hist : list (list vec)) (ex : list vec) : Prop :=
  exists blocks n, concat blocks = concat (map (filter finite_row) hist) /\
    length blocks = length hist /\ (forall b, In b blocks -> length b = n) /\
    let pool := concat (map (recent window) blocks) in
    ex = map (fun i => nth i pool []) (choice k (length pool) max) /\ length ex = max /\
    (forall x, In x ex -> In x pool).

(** One training loop after the loops [past]: (what happens before, e.g. tempering,) local steps,
    training of the flow on the positions recorded so far, global steps with the new flow. *)
Definition training_loop {E} (before : E -> key -> pos_t -> E -> key -> pos_t -> Prop)
  (c : config) (window : nat) (d : datad) (past : list loop) (s : rstate E) (l : loop) (s' : rstate E)
  : Prop :=
  exists k0 xs0 xs1 ex k3,
    before (r_ext s) (r_key s) (r_pos s) (r_ext s') k0 xs0 /\
    local_run c d k0 xs0 (lo_local l) xs1 /\
    training_set window (c_max c) (split (split k0 2 0) 2 1)
      (map (fun i => map (fun o => s_pos (snd o)) (chain_history c past i) ++
                     map s_pos (kept_steps (c_local c) (c_local_th c) (nth i (lo_local l) [])))
           (seq 0 (length xs0))) ex /\
    train (r_model s) (split (split (split k0 2 0) 2 0) 2 1) ex (c_tx c) (r_opt s) (c_epochs c) (c_batch c)
      = Ok (k3, (r_model s', r_opt s'), lo_losses l) /\
    global_run c d (r_model s') k3 xs1 (lo_global l) (r_pos s') /\
    r_key s' = split k3 2 0.

(** One production loop: local steps and global steps; the flow stays. *)
Definition production_loop {E} (before : E -> key -> pos_t -> E -> key -> pos_t -> Prop)
  (c : config) (d : datad) (s : rstate E) (l : loop) (s' : rstate E) : Prop :=
  exists k0 xs0 xs1,
    before (r_ext s) (r_key s) (r_pos s) (r_ext s') k0 xs0 /\
    local_run c d k0 xs0 (lo_local l) xs1 /\
    global_run c d (r_model s) (split k0 2 0) xs1 (lo_global l) (r_pos s') /\
    lo_losses l = [] /\ r_model s' = r_model s /\ r_opt s' = r_opt s /\
    r_key s' = split (split k0 2 0) 2 0.

(** Runs: one loop after the other. *)
Inductive training_run {E} (before : E -> key -> pos_t -> E -> key -> pos_t -> Prop) c window d
  : rstate E -> list loop -> rstate E -> Prop :=
| tr_none s : training_run before c window d s [] s
| tr_more s past s1 l s2 : training_run before c window d s past s1 ->
    training_loop before c window d past s1 l s2 -> training_run before c window d s (past ++ [l]) s2.
Inductive production_run {E} (before : E -> key -> pos_t -> E -> key -> pos_t -> Prop) c d
  : rstate E -> list loop -> rstate E -> Prop :=
| pr_none s : production_run before c d s [] s
| pr_more s past s1 l s2 : production_run before c d s past s1 ->
    production_loop before c d s1 l s2 -> production_run before c d s (past ++ [l]) s2.

(** A loop of the training phase of a second run on the same sampler: the flow is trained on the
    positions [hist] recorded earlier instead of those of this run. *)
Definition retraining_loop {E} (before : E -> key -> pos_t -> E -> key -> pos_t -> Prop)
  (c : config) (window : nat) (d : datad) (hist : list (list vec)) (s : rstate E) (l : loop) (s' : rstate E)
  : Prop :=
  exists k0 xs0 xs1 ex k3,
    before (r_ext s) (r_key s) (r_pos s) (r_ext s') k0 xs0 /\
    local_run c d k0 xs0 (lo_local l) xs1 /\
    training_set window (c_max c) (split (split k0 2 0) 2 1) hist ex /\
    train (r_model s) (split (split (split k0 2 0) 2 0) 2 1) ex (c_tx c) (r_opt s) (c_epochs c) (c_batch c)
      = Ok (k3, (r_model s', r_opt s'), lo_losses l) /\
    global_run c d (r_model s') k3 xs1 (lo_global l) (r_pos s') /\
    r_key s' = split k3 2 0.
Inductive retraining_run {E} (before : E -> key -> pos_t -> E -> key -> pos_t -> Prop) c window d hist
  : rstate E -> list loop -> rstate E -> Prop :=
| rr_none s : retraining_run before c window d hist s [] s
| rr_more s past s1 l s2 : retraining_run before c window d hist s past s1 ->
    retraining_loop before c window d hist s1 l s2 -> retraining_run before c window d hist s (past ++ [l]) s2.
(** All positions recorded in loops [ls], chain by chain. *)
Definition positions_of (c : config) (ls : list loop) : list (list vec) :=
  map (fun i => map (fun o => s_pos (snd o)) (chain_history c ls i)) (seq 0 (c_n_chains c)).

(** Without tempering nothing happens before the local steps. *)
Definition nothing_before (e : unit) (k : key) (xs : pos_t) (e' : unit) (k' : key) (xs' : pos_t) : Prop :=
  k' = k /\ xs' = xs.

(** Parallel tempering before the local steps of a loop; the ensemble is kept in two buffers
    (stored walkers, temperatures), updated in training and left alone in production. *)
Definition tempering (pc : pt_config) (d : datad) (training : bool) (e : buffer * buffer) (k : key)
  (xs : pos_t) (e' : buffer * buffer) (k' : key) (xs' : pos_t) : Prop :=
  exists after accs, length after = length xs /\ length accs = length xs /\ length xs' = length xs /\
    k' = split (split (split k 2 0) 2 0) 2 0 /\
    (forall i, i < length xs ->
       chain_update (pt_strat pc) (mala_kernel (c_step (p_base pc))) (pt_tempered pc) d (fst e) (snd e)
         k xs i (nth i after []) (nth i accs []) (nth i xs' [])) /\
    if training then
      same_header (fst e) (fst e') /\ same_header (snd e) (snd e') /\
      (forall i j, i < length xs -> j + 1 < length (temps_of (snd e)) ->
         brow (fst e') (c_n_dims (p_base pc)) i j = nth (j + 1) (nth i after []) []) /\
      temps_of (snd e') = adapt_temperature (temps_of (snd e)) accs
    else e' = e.
(** At the start every stored walker of a chain is at the chain's position, and the temperatures are
    evenly spaced from 1 to max_temperature. *)
Definition initial_ensemble (pc : pt_config) (xs : pos_t) (e : buffer * buffer) : Prop :=
  ashape (b_data (fst e)) = [c_n_chains (p_base pc); p_n_temps pc - 1; c_n_dims (p_base pc)] /\
  (forall i j, i < length xs -> j < p_n_temps pc - 1 ->
     brow (fst e) (c_n_dims (p_base pc)) i j = nth i xs []) /\
  temps_of (snd e) = linspace f1 (p_max_temp pc) (p_n_temps pc).

(** The four buffers of a phase ("training" or "production") as named in the resources hold exactly
    the history of [ls]: one slot per entry; a slot's acceptance flag is in the buffer of its kind of
    step and the slot of the other acceptance buffer is -inf. *)
Definition phase_recorded (c : config) (w : world) (phase : string) (ls : list loop) : Prop :=
  exists slots pl pb ll lb al ab gl gb,
    buffer_named w (append "positions_" phase) pl pb /\ buffer_named w (append "log_prob_" phase) ll lb /\
    buffer_named w (append "local_accs_" phase) al ab /\ buffer_named w (append "global_accs_" phase) gl gb /\
    ashape (b_data pb) = [c_n_chains c; slots; c_n_dims c] /\ ashape (b_data lb) = [c_n_chains c; slots] /\
    ashape (b_data ab) = [c_n_chains c; slots] /\ ashape (b_data gb) = [c_n_chains c; slots] /\
    forall i, i < c_n_chains c ->
      length (chain_history c ls i) = slots /\
      forall s is_local o, nth_error (chain_history c ls i) s = Some (is_local, o) ->
        brow pb (c_n_dims c) i s = s_pos o /\
        aget (b_data lb) [i; s] = s_lp o /\
        aget (b_data ab) [i; s] = (if is_local then b2f (s_acc o) else fninf) /\
        aget (b_data gb) [i; s] = (if is_local then fninf else b2f (s_acc o)).

(** The same for positions, log-probabilities and the acceptance flags of the slot's own kind; the
    slots of the other acceptance buffer may hold anything. *)
Definition phase_samples (c : config) (w : world) (phase : string) (ls : list loop) : Prop :=
  exists slots pl pb ll lb al ab gl gb,
    buffer_named w (append "positions_" phase) pl pb /\ buffer_named w (append "log_prob_" phase) ll lb /\
    buffer_named w (append "local_accs_" phase) al ab /\ buffer_named w (append "global_accs_" phase) gl gb /\
    ashape (b_data pb) = [c_n_chains c; slots; c_n_dims c] /\ ashape (b_data lb) = [c_n_chains c; slots] /\
    ashape (b_data ab) = [c_n_chains c; slots] /\ ashape (b_data gb) = [c_n_chains c; slots] /\
    forall i, i < c_n_chains c ->
      length (chain_history c ls i) = slots /\
      forall s is_local o, nth_error (chain_history c ls i) s = Some (is_local, o) ->
        brow pb (c_n_dims c) i s = s_pos o /\
        aget (b_data lb) [i; s] = s_lp o /\
        aget (b_data (if is_local : bool then ab else gb)) [i; s] = b2f (s_acc o).

(** The loss buffer holds the losses of all trainings, one after the other, and is full. *)
Definition losses_recorded (c : config) (w : world) (ls : list loop) : Prop :=
  exists ll lb, buffer_named w "loss_buffer" ll lb /\
    ashape (b_data lb) = [length (concat (map lo_losses ls))] /\
    b_cursor lb = Z.of_nat (length (concat (map lo_losses ls))) /\
    forall j v, nth_error (concat (map lo_losses ls)) j = Some v -> aget (b_data lb) [j] = v.

(** The flow models of a run: a class of models closed under training steps and data statistics,
    whose samples are vectors of the right length. *)
Definition model_class (good : mdl -> Prop) (dim : nat) : Prop :=
  (forall m, good m -> samples_shape m dim) /\
  (forall m data, good m -> good (m_stats m data)) /\
  (forall m b tx st, good m -> good (snd (fst (m_step m b tx st)))).

(** Standing conditions of a bundle run from [xs]: thinnings divide the numbers of steps, the flow
    batch size is positive, dimension positive, positions one per chain and of n_dims coordinates, and
    the external routines return arrays of the documented shapes. *)
Record run_ok (c : config) (d : datad) (xs : pos_t) (good : mdl -> Prop) : Prop := mkRunOk {
  ok_local : c_local c mod c_local_th c = 0;
  ok_global : c_global c mod c_global_th c = 0;
  ok_bs : 0 < c_nf_bs c;
  ok_dims : 0 < c_n_dims c;
  ok_chains : length xs = c_n_chains c;
  ok_pos : forall x, In x xs -> length x = c_n_dims c;
  ok_grad : grad_shape (c_logpdf c) d (c_n_dims c);
  ok_ninf : ffinite fninf = false;
  ok_normal : normal_shape;
  ok_choice : choice_law;
  ok_class : model_class good (c_n_dims c);
  ok_model : good (c_model c (split (c_key c) 2 1)) }.
End SpecBundle.
Arguments mkR {N G NF E}. Arguments r_key {N G NF E}. Arguments r_pos {N G NF E}. Arguments r_model {N G NF E}.
Arguments r_opt {N G NF E}. Arguments r_ext {N G NF E}.
