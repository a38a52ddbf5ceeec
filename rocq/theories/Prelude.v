(** Generic vocabulary used by the model: Python-like results, exceptions, the
    state-and-exception monad, dictionaries and list operations.  No flowMC code here. *)
From Coq Require Export String.
From Coq Require Export List Arith ZArith Lia Bool.
Export ListNotations.
Open Scope list_scope.
Open Scope nat_scope.
Arguments String.eqb : simpl never.

(** Python exceptions that the modelled code can raise. *)
Inductive exn :=
| ValueError | AssertionError | KeyError | TypeError | ZeroDivisionError
| IndexError | NotImplementedError | OtherError.

(** Result of a Python call: a value or an exception. *)
Inductive res (A : Type) := Ok (a : A) | Raise (e : exn).
Arguments Ok {A} a.
Arguments Raise {A} e.

Definition rbind {A B} (r : res A) (f : A -> res B) : res B :=
  match r with Ok a => f a | Raise e => Raise e end.
Definition rmap {A B} (f : A -> B) (r : res A) : res B :=
  match r with Ok a => Ok (f a) | Raise e => Raise e end.
Notation "'let*' x ':=' r 'in' k" := (rbind r (fun x => k))
  (at level 61, x pattern, r at next level, right associativity).

(** Map with exceptions (first exception wins). *)
Fixpoint rmapM {A B} (f : A -> res B) (l : list A) : res (list B) :=
  match l with
  | [] => Ok []
  | x :: r => let* y := f x in let* ys := rmapM f r in Ok (y :: ys)
  end.

(** State + exception monad.  On an exception the state reached so far is kept:
    this is how in-place mutation before a Python [raise] behaves. *)
Definition M (W A : Type) := W -> res A * W.
Definition mret {W A} (a : A) : M W A := fun w => (Ok a, w).
Definition mraise {W A} (e : exn) : M W A := fun w => (Raise e, w).
Definition mbind {W A B} (m : M W A) (f : A -> M W B) : M W B :=
  fun w => match m w with
           | (Ok a, w') => f a w'
           | (Raise e, w') => (Raise e, w')
           end.
Definition mget {W} : M W W := fun w => (Ok w, w).
Definition mput {W} (w : W) : M W unit := fun _ => (Ok tt, w).
Definition mlift {W A} (r : res A) : M W A := fun w => (r, w).
Notation "'do!' x '<-' m ';' k" := (mbind m (fun x => k))
  (at level 61, x pattern, m at next level, right associativity).

(** Python dictionaries: association lists; assignment keeps the position of an existing
    key and appends a new one. *)
Definition dict (V : Type) := list (string * V).
Fixpoint dget {V} (d : dict V) (k : string) : option V :=
  match d with
  | [] => None
  | (k', v) :: r => if String.eqb k k' then Some v else dget r k
  end.
Fixpoint dset {V} (d : dict V) (k : string) (v : V) : dict V :=
  match d with
  | [] => [(k, v)]
  | (k', v') :: r => if String.eqb k k' then (k', v) :: r else (k', v') :: dset r k v
  end.
Definition dkeys {V} (d : dict V) : list string := map fst d.

(** [zip] with a function; stops at the shorter list. *)
Fixpoint map2 {A B C} (f : A -> B -> C) (l : list A) (m : list B) : list C :=
  match l, m with
  | x :: l', y :: m' => f x y :: map2 f l' m'
  | _, _ => []
  end.

(** Ceiling division, [ceil(a / b)]. *)
Definition cdiv (a b : nat) : nat := (a + b - 1) / b.

(** Python slice [l[a:b]] for 0 <= a. *)
Definition slice {A} (a b : nat) (l : list A) : list A := firstn (b - a) (skipn a l).

(** Python [l[-k:]]: for k = 0 Python's [-0] is [0], i.e. the whole list. *)
Definition last_window {A} (k : nat) (l : list A) : list A :=
  match k with O => l | _ => skipn (length l - k) l end.

(** Python [l[::k]] for k >= 1. *)
Fixpoint stride_from {A} (k c : nat) (l : list A) : list A :=
  match l with
  | [] => []
  | x :: r => match c with
              | O => x :: stride_from k (k - 1) r
              | S c' => stride_from k c' r
              end
  end.
Definition stride {A} (k : nat) (l : list A) : list A := stride_from k 0 l.

(** Python [range(0, n, b)] for b >= 1. *)
Definition range_step (n b : nat) : list nat := map (fun j => j * b) (seq 0 (cdiv n b)).

(** Rows of a row-major reshape of [l] into [n] rows of [m] entries. *)
Definition reshape_rows {A} (n m : nat) (l : list A) : list (list A) :=
  map (fun i => slice (i * m) (i * m + m) l) (seq 0 n).

(** [l.at[i].set(x)] *)
Fixpoint set_nth {A} (i : nat) (x : A) (l : list A) : list A :=
  match l, i with
  | [], _ => []
  | _ :: r, O => x :: r
  | y :: r, S i' => y :: set_nth i' x r
  end.

Definition last_opt {A} (l : list A) : option A :=
  match l with [] => None | x :: r => Some (last r x) end.

Definition is_nil {A} (l : list A) : bool := match l with [] => true | _ => false end.

Fixpoint iter {A} (n : nat) (f : A -> A) (x : A) : A :=
  match n with O => x | S n' => iter n' f (f x) end.
