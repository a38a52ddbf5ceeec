(** Specification vocabulary shared by the property theorems.  Nothing here is used by the
    model; every notion is elementary and independent of the model's helper functions. *)
From Verif Require Import Prelude.

(** A multi-index [ix] addresses an entry of an array of shape [sh]. *)
Definition valid_index (sh ix : list nat) : Prop :=
  length ix = length sh /\ forall k, k < length sh -> nth k ix 0 < nth k sh 0.

(** [ix] with [s] added to its coordinate on axis [ax]. *)
Definition shifted (ax s : nat) (jx ix : list nat) : Prop :=
  length ix = length jx /\ forall k, nth k ix 0 = nth k jx 0 + (if k =? ax then if k <? length jx then s else 0 else 0).

(** The last element paired with [k] in a list of pairs. *)
Definition last_value {V} (l : list (string * V)) (k : string) : option V :=
  match filter (fun kv => String.eqb k (fst kv)) (rev l) with
  | [] => None
  | kv :: _ => Some (snd kv)
  end.
