(** Specification of Sampler.sample: a relational account of "runs the named strategies in
    order", independent of the model's loop. *)
From Verif Require Import Prelude Num M_Core M_Kernels M_Strategies.

Section SpecSampler.
Context {N : Num} {G : Rng} {NF : NFOps}.

(** [runs S d order k xs w trace r w']: started with key k, position xs and world w, executing
    the strategies named by [order] calls, in this sequence, the strategies listed in [trace]
    (each with the key and position it receives), ends with result [r] in world [w']. *)
Inductive runs (S : dict strategy) (d : datad) :
  list string -> key -> pos_t -> world ->
  list (string * key * pos_t) -> res (key * pos_t) -> world -> Prop :=
| runs_done : forall k xs w, runs S d [] k xs w [] (Ok (k, xs)) w
| runs_unknown : forall n rest k xs w,
    dget S n = None -> runs S d (n :: rest) k xs w [] (Raise ValueError) w
| runs_raise : forall n rest st k xs w e w',
    dget S n = Some st -> st k xs d w = (Raise e, w') ->
    runs S d (n :: rest) k xs w [(n, k, xs)] (Raise e) w'
| runs_next : forall n rest st k xs w k1 xs1 w1 tr r w',
    dget S n = Some st -> st k xs d w = (Ok (k1, xs1), w1) ->
    runs S d rest k1 xs1 w1 tr r w' ->
    runs S d (n :: rest) k xs w ((n, k, xs) :: tr) r w'.

(** A strategy whose returned key is a function of the key it receives (not of positions, data,
    resources or outcomes). *)
Definition key_deterministic (st : strategy) : Prop :=
  exists g : key -> key, forall k xs d w k' xs' w',
    st k xs d w = (Ok (k', xs'), w') -> k' = g k.

(** The names on which a keyword argument can have an effect. *)
Definition settable : list string :=
  ["verbose"; "logging"; "outdir"; "sample"; "serialize"; "deserialize"]%string.
End SpecSampler.
