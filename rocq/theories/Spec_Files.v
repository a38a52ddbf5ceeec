(** Specification vocabulary for files and histograms. *)
From Coq Require Import Reals.
From Verif Require Import Prelude Num M_Core M_Files RNum Spec.

(** The file that a resource called [name] saved with argument [path] ends up in. *)
Definition stored_as (path name file : string) : Prop :=
  ((exists s, append path name = append s ".npz") /\ file = append path name) \/
  ((~ exists s, append path name = append s ".npz") /\ file = append (append path name) ".npz").

(** Truncation of non-negative reals. *)
Definition trunc_law (trunc : R -> nat) : Prop := forall x, (0 <= x)%R -> (INR (trunc x) <= x < INR (trunc x) + 1)%R.
(** All that is used of the conversion to an integer for the bin of a value between 0 and n: the result is at most n and right up to
    one (the scaled offset was rounded before it was truncated; NumPy corrects the index by one afterwards). *)
Definition near_trunc (n : nat) (trunc : R -> nat) : Prop :=
  forall x, (0 <= x <= INR n)%R -> (trunc x <= n)%nat /\ (INR (trunc x) - 1 <= x < INR (trunc x) + 2)%R.

(** Edge i of n equal bins of [lo, hi]. *)
Definition edge (lo hi : R) (n i : nat) : R := (lo + INR i * ((hi - lo) / INR n))%R.
(** x lies in bin i: half open, except the last one. *)
Definition in_bin (lo hi : R) (n i : nat) (x : R) : Prop :=
  (edge lo hi n i <= x)%R /\ ((x < edge lo hi n (S i))%R \/ (i = (n - 1)%nat /\ x = hi)).
(** Number of slots of an array, and its slots. *)
Definition slots (sh : list nat) : nat := fold_right Nat.mul 1%nat sh.

(** A save_resource call writes the file [file]. *)
Definition writes {N : Num} (c : save_call) (file : string) : Prop :=
  match c with SaveBuffer p b => stored_as p (b_name b) file | SaveState p s => stored_as p (s_name s) file end.
(** [b'] has the content of [b] and the default cursor settings. *)
Definition reset_copy {N : Num} (b b' : buffer) : Prop :=
  b_name b' = b_name b /\ b_data b' = b_data b /\ b_cursor b' = 0%Z /\ b_cursor_dim b' = 0%nat.

(** Nothing lies beyond an infinity, and only NaN and the infinities are not finite. *)
Record inf_laws {N : Num} : Prop := {
  il_below : forall x, (x <=.? fninf) = true -> x = fninf;
  il_above : forall x, (fneg fninf <=.? x) = true -> x = fneg fninf;
  il_kinds : forall x, ffinite x = false -> fnan x = true \/ x = fninf \/ x = fneg fninf }.

(** [l] lists, once each, the slots of an array of shape [sh] that satisfy P. *)
Definition slots_where (sh : list nat) (P : list nat -> Prop) (l : list (list nat)) : Prop :=
  NoDup l /\ forall ix, In ix l <-> valid_index sh ix /\ P ix.
(** Extremes of the slots of an array of reals. *)
Definition extremes (a : @arr RNum) (lo hi : R) : Prop :=
  (exists ix, valid_index (ashape a) ix /\ aget a ix = lo) /\ (exists ix, valid_index (ashape a) ix /\ aget a ix = hi) /\
  forall ix, valid_index (ashape a) ix -> (lo <= aget a ix <= hi)%R.
