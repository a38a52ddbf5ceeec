(** Specification vocabulary for misconfigured strategies: the first problem in the order the names are looked up. *)
From Verif Require Import Prelude Num M_Core M_Kernels M_Strategies.

Section Errors.
Context {N : Num} {G : Rng} {NF : NFOps}.
(** Kinds of resources. *)
Definition is_state (w : world) (r : resource) : bool := match r with RObj l => match hget l w with Some (OState _) => true | _ => false end | _ => false end.
Definition is_buffer (w : world) (r : resource) : bool := match r with RObj l => match hget l w with Some (OBuf _) => true | _ => false end | _ => false end.
Definition is_optimizer (w : world) (r : resource) : bool := match r with RObj l => match hget l w with Some (OOpt _) => true | _ => false end | _ => false end.
Definition is_model (r : resource) : bool := match r with RModel _ => true | _ => false end.
Definition is_kernel (r : resource) : bool := match r with RSer _ | RNFP _ => true | _ => false end.
Definition is_tempered (r : resource) : bool := match r with RTemp _ => true | _ => false end.
Definition anything (r : resource) : bool := true.
(** A missing name is a KeyError, a resource of the wrong kind an AssertionError. *)
Definition lookup_error (w : world) (name : string) (right : resource -> bool) : option exn :=
  match dget (rdict w) name with None => Some KeyError | Some r => if right r then None else Some AssertionError end.
(** The entry of the State resource [st] under [key], if [st] is a State. *)
Definition state_entry (w : world) (st key : string) : option (option sval) :=
  match dget (rdict w) st with
  | Some (RObj l) => match hget l w with Some (OState s) => Some (dget (s_data s) key) | _ => None end
  | _ => None end.
(** The State has no such key: KeyError; the entry is not a string: AssertionError. *)
Definition entry_error (w : world) (st key : string) : option exn :=
  match state_entry w st key with Some None => Some KeyError | Some (Some (SStr _)) => None | Some (Some _) => Some AssertionError | None => None end.
(** The buffer a State entry names. *)
Definition entry_buffer_error (w : world) (st key : string) : option exn :=
  match state_entry w st key with Some (Some (SStr n)) => lookup_error w n (is_buffer w) | _ => None end.
Fixpoint first_error (l : list (option exn)) : option exn :=
  match l with [] => None | Some e :: _ => Some e | None :: r => first_error r end.
End Errors.
