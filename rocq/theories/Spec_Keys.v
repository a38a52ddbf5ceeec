(** Specification vocabulary about random streams.  A key is the path of split indices that leads to
    it from the user's key (most recent first; i-th of n and i-th of m subkeys are identified), and
    all random numbers come from a [tape] that assigns arbitrary draws to paths. *)
From Verif Require Import Prelude Num M_Core M_Kernels M_Strategies M_Flow M_Net M_Mala.

Section SpecKeys.
Context {N : Num}.
Definition path := list nat.
Record tape := mkTape {
  t_normal : path -> nat -> vec; t_normal0 : path -> F; t_uniform : path -> F;
  t_perm : path -> nat -> list nat; t_choice : path -> nat -> nat -> list nat }.
Definition tape_rng (t : tape) : Rng :=
  mkRng _ path (fun k _ i => i :: k) (t_normal t) (t_normal0 t) (t_uniform t) (t_perm t) (t_choice t).
(** Flow models: only sampling draws random numbers. *)
Definition tape_nf {M O T : Type} (logp : M -> vec -> F) (samp : tape -> M -> path -> nat -> list vec)
  (step : M -> list vec -> T -> O -> F * M * O) (stats : M -> list vec -> M) (t : tape) : @NFOps N (tape_rng t) :=
  @mkNFOps N (tape_rng t) M O T logp (samp t) step stats.

(** [p] is [k] or was split off [k], directly or not. *)
Definition below (k p : path) : Prop := exists s, p = s ++ k.
(** No key is below both. *)
Definition apart (k k' : path) : Prop := forall p, ~ (below k p /\ below k' p).
Inductive all_apart : list path -> Prop :=
| aa_nil : all_apart []
| aa_cons k l : (forall k', In k' l -> apart k k') -> all_apart l -> all_apart (k :: l).

(** Two tapes with the same draws at the keys in [P]. *)
Definition same_draws (P : path -> Prop) (t t' : tape) : Prop :=
  forall p, P p -> t_normal t p = t_normal t' p /\ t_normal0 t p = t_normal0 t' p /\ t_uniform t p = t_uniform t' p /\
    t_perm t p = t_perm t' p /\ t_choice t p = t_choice t' p.
(** The result depends only on the draws at keys in [P]. *)
Definition reads {A} (P : path -> Prop) (f : tape -> A) : Prop := forall t t', same_draws P t t' -> f t = f t'.

(** A kernel that draws random numbers (its definition for every tape). *)
Definition kernel_family := tape -> path -> vec -> F -> lpdf -> datad -> res (vec * F * bool).
Definition in_repo (kf : kernel_family) : Prop :=
  (exists ss, kf = fun t => @grw_kernel N (tape_rng t) ss) \/
  (exists ss, kf = fun t => @mala_kernel N (tape_rng t) ss) \/
  (exists chol dt, kf = fun t => @mat_mala_kernel N (tape_rng t) chol dt) \/
  (exists h, kf = fun t => @hmc_kernel N (tape_rng t) h).

(** Key of the [i]-th step of a scan started with key [k]: k is split into (carry, this step). *)
Definition step_key (k : path) (i : nat) : path := 1 :: repeat 0 i ++ k.

(** Keys from which one call of a strategy with key [k] on [n] chains draws (with their
    descendants): stepping (and AdamOptimization) uses one per chain, tempering two per chain (steps,
    exchanges), training one to draw the examples and one per epoch. *)
Definition chain_roots (k : path) (n : nat) : list path := map (fun i => i :: 1 :: k) (seq 0 n).
Definition tempering_roots (k : path) (n : nat) : list path := chain_roots (0 :: k) n ++ chain_roots (0 :: 0 :: k) n.
Definition training_roots (epochs : nat) (k : path) : list path :=
  (1 :: k) :: map (step_key (1 :: 0 :: k)) (seq 0 epochs).

(** [roots k n] are streams of a strategy: apart from each other and from the key it passes on, all
    below the key it got. *)
Definition fresh_streams {t : tape} {NF : @NFOps N (tape_rng t)} (st : @strategy N (tape_rng t) NF)
  (roots : path -> nat -> list path) : Prop :=
  forall (k : path) xs, all_apart (roots k (length xs)) /\ (forall p, In p (roots k (length xs)) -> below k p) /\
    forall d w (k' : path) xs' w', st k xs d w = (Ok (k', xs'), w') ->
      below k k' /\ forall p, In p (roots k (length xs)) -> apart p k'.

(** The streams of the strategies of the two bundles, by name. *)
Definition bundle_roots (epochs : nat) (name : string) (k : path) (n : nat) : list path :=
  if (name =? "local_stepper")%string then chain_roots k n
  else if (name =? "global_stepper")%string then chain_roots k n
  else if (name =? "model_trainer")%string then training_roots epochs k
  else if (name =? "parallel_tempering")%string then tempering_roots k n
  else [].
(** All streams of the strategy calls of a run. *)
Definition run_streams (roots : string -> path -> nat -> list path) (trace : list (string * path * list vec)) : list path :=
  concat (map (fun c => roots (fst (fst c)) (snd (fst c)) (length (snd c))) trace).
End SpecKeys.
