(** Model of flowMC's data resources: arrays, Buffer, State, LogPDF, TemperedPDF and their
    save/load methods. *)
From Verif Require Import Prelude Num.

(* ------------------------------------------------------------------------------------ *)
(** * Arrays and jax.lax.dynamic_update_slice_in_dim *)

Section Arrays.
Context {N : Num}.

(** A JAX array: shape and entries addressed by multi-index (one coordinate per axis). *)
Record arr := mkArr { ashape : list nat; aget : list nat -> F }.

(** A multi-index addresses an entry of an array of shape [sh]. *)
Fixpoint in_shape (sh ix : list nat) : bool :=
  match sh, ix with
  | [], [] => true
  | d :: sh', i :: ix' => (i <? d) && in_shape sh' ix'
  | _, _ => false
  end.

(** JAX start index normalisation: a negative static index counts from the end, then
    the start is clamped so that the update fits
    (jax.lax.dynamic_update_slice documentation; used by buffers.py 39-41). *)
Definition norm_start (start : Z) (d_op d_up : nat) : nat :=
  let s := if (start <? 0)%Z then (start + Z.of_nat d_op)%Z else start in
  Z.to_nat (Z.min (Z.max s 0) (Z.of_nat (d_op - d_up))).

(** start indices: [start] on [axis], 0 elsewhere. *)
Definition starts (axis : nat) (start : Z) (sh_op sh_up : list nat) : list nat :=
  map (fun k => if k =? axis then norm_start start (nth k sh_op 0) (nth k sh_up 0) else 0)
      (seq 0 (length sh_op)).

(** Is [ix] inside the window that begins at [st] and has extent [sh]? *)
Fixpoint in_window (st sh ix : list nat) : bool :=
  match st, sh, ix with
  | [], [], [] => true
  | s :: st', d :: sh', i :: ix' => (s <=? i) && (i <? s + d) && in_window st' sh' ix'
  | _, _, _ => false
  end.

(** jax.lax.dynamic_update_slice_in_dim(operand, update, start, axis), as used by
    buffers.py 39-41.  IndexError when the axis does not exist (list assignment of the start
    index), TypeError when ranks differ or the update is larger than the operand.  Axes are
    non-negative; dtype mismatch is not modelled. *)
Definition dus_in_dim (op up : arr) (start : Z) (axis : nat) : res arr :=
  if length (ashape op) <=? axis then Raise IndexError
  else if negb (length (ashape op) =? length (ashape up)) then Raise TypeError
  else if negb (forallb (fun p => snd p <=? fst p) (combine (ashape op) (ashape up)))
  then Raise TypeError
  else
    let st := starts axis start (ashape op) (ashape up) in
    Ok {| ashape := ashape op;
          aget := fun ix => if in_window st (ashape up) ix
                            then aget up (map2 Nat.sub ix st) else aget op ix |}.

(** Nested lists to arrays; the shape is read off the first row (all rows of a vmapped
    result have the same shape). *)
Definition stack1 (l : list F) : arr :=
  {| ashape := [length l];
     aget := fun ix => match ix with [i] => nth i l f0 | _ => f0 end |}.
Definition stack2 (l : list (list F)) : arr :=
  {| ashape := [length l; length (nth 0 l [])];
     aget := fun ix => match ix with [i; j] => nth j (nth i l []) f0 | _ => f0 end |}.
Definition stack3 (l : list (list vec)) : arr :=
  {| ashape := [length l; length (nth 0 l []); length (nth 0 (nth 0 l []) [])];
     aget := fun ix => match ix with [i; j; k] => nth k (nth j (nth i l []) []) f0 | _ => f0 end |}.

(** Arrays to nested lists (reading a buffer). *)
Definition unstack1 (a : arr) : list F :=
  map (fun i => aget a [i]) (seq 0 (nth 0 (ashape a) 0)).
Definition unstack3 (a : arr) : list (list vec) :=
  map (fun i => map (fun j => map (fun k => aget a [i; j; k]) (seq 0 (nth 2 (ashape a) 0)))
                    (seq 0 (nth 1 (ashape a) 0)))
      (seq 0 (nth 0 (ashape a) 0)).

(* ------------------------------------------------------------------------------------ *)
(** * Buffer (resource/buffers.py) *)

(** buffers.py 11-15: attributes. *)
Record buffer := mkBuffer {
  b_name : string; b_data : arr; b_cursor : Z; b_cursor_dim : nat }.

(** buffers.py 24-27: __init__; [jnp.zeros(shape) - jnp.inf], class default cursor = 0. *)
Definition buffer_init (name : string) (shape : list nat) (cursor_dim : nat) : buffer :=
  {| b_name := name;
     b_data := {| ashape := shape; aget := fun _ => fninf |};
     b_cursor := 0; b_cursor_dim := cursor_dim |}.

(** buffers.py 32-41: update_buffer(updates, start). *)
Definition update_buffer (b : buffer) (updates : arr) (start : Z) : res buffer :=
  let* d := dus_in_dim (b_data b) updates start (b_cursor_dim b) in
  Ok {| b_name := b_name b; b_data := d;
        b_cursor := b_cursor b; b_cursor_dim := b_cursor_dim b |}.

(** Content of a .npz file written by np.savez(path, name=..., data=...). *)
Record npz (D : Type) := mkNpz { z_name : string; z_data : D }.
Arguments mkNpz {D}. Arguments z_name {D}. Arguments z_data {D}.

(** buffers.py 52-57: save_resource (file content; the file system is not modelled). *)
Definition buffer_save (b : buffer) : npz arr := mkNpz (b_name b) (b_data b).

(** buffers.py 59-64: load_resource; the loaded buffer is built with the default
    cursor_dim = 0 and cursor = 0.  np.load returns the name as a 0-d string array, here a
    string. *)
Definition buffer_load (z : npz arr) : buffer :=
  let result := buffer_init (z_name z) (ashape (z_data z)) 0 in
  {| b_name := b_name result; b_data := z_data z;
     b_cursor := b_cursor result; b_cursor_dim := b_cursor_dim result |}.
End Arrays.
Arguments mkNpz {D}. Arguments z_name {D}. Arguments z_data {D}.

(* ------------------------------------------------------------------------------------ *)
(** * State (resource/states.py) *)

(** states.py 21: values are int | bool | str. *)
Inductive sval := SInt (z : Z) | SBool (b : bool) | SStr (s : string).

(** states.py 20-21, 26-35. *)
Record state := mkState { s_name : string; s_data : dict sval }.

(** states.py 37-48: update; pairs keys and values with zip, assigns left to right. *)
Definition state_update (s : state) (keys : list string) (values : list sval) : state :=
  {| s_name := s_name s;
     s_data := fold_left (fun d kv => dset d (fst kv) (snd kv)) (combine keys values)
                         (s_data s) |}.

(** A Python value that is either a string or a dictionary (what State's two constructor
    arguments can be after a load). *)
Inductive pyobj := PStr (s : string) | PDict (d : dict sval).
Record pystate := mkPyState { py_name : pyobj; py_data : pyobj }.

(** states.py 53-58: save_resource. *)
Definition state_save (s : state) : npz (dict sval) := mkNpz (s_name s) (s_data s).

(** states.py 60-63: load_resource: [State(data["name"], data["data"])] where the
    constructor is [State(data, name)].  [pickle_ok] tells whether np.load un-pickles object
    arrays (its default allow_pickle=False makes data["data"] raise ValueError). *)
Definition state_load (pickle_ok : bool) (z : npz (dict sval)) : res pystate :=
  if pickle_ok then Ok {| py_data := PStr (z_name z); py_name := PDict (z_data z) |}
  else Raise ValueError.

(** Python truth value of a state entry (parallel_tempering.py 123). *)
Definition truthy (v : sval) : bool :=
  match v with SInt z => negb (z =? 0)%Z | SBool b => b | SStr s => negb (String.eqb s EmptyString) end.

(* ------------------------------------------------------------------------------------ *)
(** * Data passed to log-densities, LogPDF and TemperedPDF (resource/logPDF.py) *)

Section LogPDF.
Context {N : Num}.

(** The user's data dictionary; entries are integers or arrays. *)
Inductive dval := DInt (z : Z) | DVec (v : vec).
Definition datad := dict dval.

(** A log-density callable together with the gradient that jax.grad computes for it. *)
Record lpdf := mkLpdf { lp_val : vec -> datad -> F; lp_grad : vec -> datad -> vec }.

(** logPDF.py 8-17: Variable. *)
Record variable := mkVar { v_name : string; v_cont : bool }.

(** Decimal rendering, Python's str(i) for i >= 0. *)
Fixpoint str_of_nat_aux (fuel n : nat) : string :=
  match fuel with
  | O => EmptyString
  | S f => let d := String (Ascii.ascii_of_nat (48 + n mod 10)) EmptyString in
           if n <? 10 then d else append (str_of_nat_aux f (n / 10)) d
  end.
Definition str_of_nat (n : nat) : string := str_of_nat_aux (S n) n.

Record logpdf_res := mkLogPDF { l_pdf : lpdf; l_vars : list variable }.

(** logPDF.py 40-58: LogPDF.__init__(log_pdf, variables, n_dims). *)
Definition logpdf_init (f : lpdf) (variables : option (list variable)) (n_dims : option nat)
  : res logpdf_res :=
  match variables, n_dims with
  | None, Some n =>
      Ok (mkLogPDF f (map (fun i => mkVar (append "x_" (str_of_nat i)) true) (seq 0 n)))
  | Some v, _ => Ok (mkLogPDF f v)
  | None, None => Raise ValueError
  end.

(** logPDF.py 33-35: n_dims property. *)
Definition logpdf_n_dims (l : logpdf_res) : nat := length (l_vars l).

(** logPDF.py 60-61: __call__. *)
Definition logpdf_call (l : logpdf_res) (x : vec) (d : datad) : F := lp_val (l_pdf l) x d.

(** logPDF.py 74-81: tree_flatten / tree_unflatten (no children). *)
Definition logpdf_flatten (l : logpdf_res) : lpdf * list variable := (l_pdf l, l_vars l).
Definition logpdf_unflatten (aux : lpdf * list variable) : res logpdf_res :=
  logpdf_init (fst aux) (Some (snd aux)) None.

(** logPDF.py 85-99: TemperedPDF; n_temps and max_temp are accepted and ignored. *)
Record tempered := mkTempered { t_base : logpdf_res; t_prior : lpdf }.
Definition tempered_init (lik prior : lpdf) (variables : option (list variable))
  (n_dims : option nat) : res tempered :=
  let* b := logpdf_init lik variables n_dims in Ok (mkTempered b prior).

(** logPDF.py 101-102: __call__ (no temperature, no prior). *)
Definition tempered_call (t : tempered) (x : vec) (d : datad) : F := logpdf_call (t_base t) x d.

(** logPDF.py 104-106: tempered_log_pdf(temperatures, x, data). *)
Definition tempered_log_pdf (t : tempered) (temp : F) (x : vec) (d : datad) : F :=
  (f1 /. temp) *. logpdf_call (t_base t) x d +. lp_val (t_prior t) x d.

(** Its gradient as computed by jax.grad (linearity); used when it is handed to a kernel as
    jax.tree_util.Partial(logpdf.tempered_log_pdf, temperature), parallel_tempering.py 196. *)
Definition tempered_grad (t : tempered) (temp : F) (x : vec) (d : datad) : vec :=
  vadd (vscale (f1 /. temp) (lp_grad (l_pdf (t_base t)) x d)) (lp_grad (t_prior t) x d).
Definition tempered_lpdf (t : tempered) (temp : F) : lpdf :=
  mkLpdf (tempered_log_pdf t temp) (tempered_grad t temp).

(** logPDF.py 108-115: flatten / unflatten: cls(log_pdf, log_prior, variables). *)
Definition tempered_flatten (t : tempered) : lpdf * lpdf * list variable :=
  (l_pdf (t_base t), t_prior t, l_vars (t_base t)).
Definition tempered_unflatten (aux : lpdf * lpdf * list variable) : res tempered :=
  let '(f, p, v) := aux in tempered_init f p (Some v) None.
End LogPDF.
