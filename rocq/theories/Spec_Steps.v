(** Specification vocabulary about stepping strategies. *)
From Verif Require Import Prelude Num M_Core M_Kernels M_Strategies.

(** One chain's output: per step a position, a log-probability and an acceptance flag. *)
Notation chain_out := (list (vec * F * bool)).

Section SpecSteps.
Context {N : Num} {G : Rng} {NF : NFOps}.

(** The State resource [sname] currently names, under [key], the buffer object [b] at [l]. *)
Definition target (w : world) (sname key : string) (l : loc) (b : buffer) : Prop :=
  exists sl st bn, dget (rdict w) sname = Some (RObj sl) /\ hget sl w = Some (OState st) /\
    dget (s_data st) key = Some (SStr bn) /\
    dget (rdict w) bn = Some (RObj l) /\ hget l w = Some (OBuf b).

(** Everything a stepping call needs is present and of the right kind. *)
Definition ready (w : world) (ts : takesteps) : Prop :=
  (exists l b, target w (ts_state ts) (ts_pos_key ts) l b) /\
  (exists l b, target w (ts_state ts) (ts_lp_key ts) l b) /\
  (exists l b, target w (ts_state ts) (ts_acc_key ts) l b) /\
  dget (rdict w) (ts_kernel ts) <> None /\ dget (rdict w) (ts_logpdf ts) <> None.

Definition s_pos (o : vec * F * bool) : vec := fst (fst o).
Definition s_lp (o : vec * F * bool) : F := snd (fst o).
Definition s_acc (o : vec * F * bool) : bool := snd o.

(** The log-density a resource used as target stands for: a LogPDF is its function, a TemperedPDF the
    function of its untempered LogPDF. *)
Definition density_of (r : resource) (f : lpdf) : Prop :=
  (exists l, r = RLog l /\ f = l_pdf l) \/ (exists t, r = RTemp t /\ f = l_pdf (t_base t)).

(** All chains have [n] steps and all positions [dim] coordinates. *)
Definition rectangular (n dim : nat) (out : list chain_out) : Prop :=
  forall co, In co out -> length co = n /\ forall o, In o co -> length (s_pos o) = dim.

(** Slot [slot] of chain [c] in the three buffers holds the step output [o]. *)
Definition holds_at (pb lb ab : buffer) (dim c slot : nat) (o : vec * F * bool) : Prop :=
  (forall i, i < dim -> aget (b_data pb) [c; slot; i] = nth i (s_pos o) f0) /\
  aget (b_data lb) [c; slot] = s_lp o /\
  aget (b_data ab) [c; slot] = b2f (s_acc o).

(** The buffers hold, from slot [cur] on, the kept steps of [out]: slot cur + j of chain c holds
    step j*th of chain c. *)
Definition holds_samples (pb lb ab : buffer) (cur n th dim : nat) (out : list chain_out) : Prop :=
  forall c j o, c < length out -> j * th < n ->
    nth_error (nth c out []) (j * th) = Some o ->
    holds_at pb lb ab dim c (cur + j) o.

(** The step of chain output [co] that a stepping call returns as the chain's new position: the
    last kept one. *)
Definition last_kept (n th : nat) (co : chain_out) (p : vec) : Prop :=
  exists o, nth_error co ((n - 1) / th * th) = Some o /\ p = s_pos o.

(** The usual situation of a stepping call: three distinct target buffers with cursor dimension
    1, a kernel and a log-density resource, and the strategy's current_position at [cur]. *)
Record setup (w : world) (ts : takesteps) (pl : loc) (pb : buffer) (ll : loc) (lb : buffer)
  (al : loc) (ab : buffer) (kern lp : resource) (cur : nat) : Prop := mkSetup {
  su_pos : target w (ts_state ts) (ts_pos_key ts) pl pb;
  su_lp : target w (ts_state ts) (ts_lp_key ts) ll lb;
  su_acc : target w (ts_state ts) (ts_acc_key ts) al ab;
  su_distinct : pl <> ll /\ pl <> al /\ ll <> al;
  su_dims : b_cursor_dim pb = 1 /\ b_cursor_dim lb = 1 /\ b_cursor_dim ab = 1;
  su_kern : dget (rdict w) (ts_kernel ts) = Some kern;
  su_logpdf : dget (rdict w) (ts_logpdf ts) = Some lp;
  su_cur : hget (ts_cur ts) w = Some (OCursor (Z.of_nat cur)) }.

(** [slots] more slots are available from [cur] in a buffer (along axis 1). *)
Definition room (b : buffer) (cur slots : nat) : Prop :=
  cur + slots <= nth 1 (ashape (b_data b)) 0.

(** Every output of the chain sampler has [n] steps of [dim]-dimensional positions. *)
Definition sampler_shape (samp : nat -> key -> vec -> res (list (vec * F * bool)))
  (n dim : nat) (good : vec -> Prop) : Prop :=
  forall q x co, good x -> samp n q x = Ok co ->
    length co = n /\ forall o, In o co -> length (s_pos o) = dim /\ good (s_pos o).

(** [m] consecutive calls of a strategy, threading key and position. *)
Fixpoint calls (m : nat) (st : strategy) (k : key) (xs : pos_t) (d : datad)
  : M world (key * pos_t) :=
  match m with
  | O => mret (k, xs)
  | S m' => fun w => match st k xs d w with
                     | (Ok (k', xs'), w') => calls m' st k' xs' d w'
                     | (Raise e, w') => (Raise e, w')
                     end
  end.
End SpecSteps.

Section SpecSteps2.
Context {N : Num} {G : Rng} {NF : NFOps}.
(** The position recorded for chain [c] in slot [s], as a vector. *)
Definition recorded_position (pb : buffer) (dim c s : nat) : vec :=
  map (fun i => aget (b_data pb) [c; s; i]) (seq 0 dim).

(** The three buffers are large enough for [slots] samples of [nc] chains in [dim] dimensions. *)
Definition large_enough (pb lb ab : buffer) (nc slots dim : nat) : Prop :=
  (exists cp sp dp, ashape (b_data pb) = [cp; sp; dp] /\ nc <= cp /\ slots <= sp /\ dim <= dp) /\
  (exists cp sp, ashape (b_data lb) = [cp; sp] /\ nc <= cp /\ slots <= sp) /\
  (exists cp sp, ashape (b_data ab) = [cp; sp] /\ nc <= cp /\ slots <= sp).
End SpecSteps2.
