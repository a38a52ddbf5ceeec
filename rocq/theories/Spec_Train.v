(** Specification vocabulary about training. *)
From Coq Require Import Permutation.
From Verif Require Import Prelude Num M_Core M_Kernels M_Strategies Spec Spec_Core Spec_Kernels.

Section SpecTrain.
Context {N : Num} {G : Rng} {NF : NFOps}.

(** jax.random.permutation(key, n) is a permutation of 0, ..., n-1. *)
Definition permutation_law : Prop := forall k n, Permutation (permutation k n) (seq 0 n).
(** jax.random.choice(key, arange(n), (c,)) is c indices below n. *)
Definition choice_law : Prop :=
  forall k n c, length (choice k n c) = c /\ (0 < n -> forall i, In i (choice k n c) -> i < n).

(** [hist] is what the epochs of a training run produce: its i-th entry is the loss of epoch i
    and the (model, optimiser state) pair right after it, epoch i continuing from the pair of
    epoch i-1 (from [s0] for the first) with its own key. *)
Definition epochs_from (tx : gtx) (data : list vec) (bs : nat) (k : key) (s0 : mdl * optst)
  (hist : list (F * (mdl * optst))) : Prop :=
  forall i v s, nth_error hist i = Some (v, s) ->
    let s' := match i with O => s0 | S j => snd (nth j hist (f0, s0)) end in
    train_epoch (fst s') (scan_key k i) tx (snd s') data bs = Ok (v, fst s, snd s).

(** Epoch [i] is the first one with the smallest loss, among the losses below [bound]. *)
Definition first_best (bound : F) (losses : list F) (i : nat) : Prop :=
  exists v, nth_error losses i = Some v /\ (v <.? bound) = true /\
    (forall u, In u losses -> (u <.? v) = false) /\
    (forall j u, j < i -> nth_error losses j = Some u -> (v <.? u) = true \/ fnan u = true).

(** [updates tx s batches losses s']: applying the training step to the batches one after the
    other leads from the pair [s] to [s'], and the steps report [losses]. *)
Inductive updates (tx : gtx) : mdl * optst -> list (list vec) -> list F -> mdl * optst -> Prop :=
| updates_nil s : updates tx s [] [] s
| updates_cons s b bs v s1 vs s2 :
    m_step (fst s) b tx (snd s) = (v, fst s1, snd s1) ->
    updates tx s1 bs vs s2 -> updates tx s (b :: bs) (v :: vs) s2.

(** Row (c, s) of a buffer of shape (n_chains, n_steps, n_dim). *)
Definition brow (b : buffer) (dim c s : nat) : vec :=
  map (fun i => aget (b_data b) [c; s; i]) (seq 0 dim).
Definition finite_row (r : vec) : bool := forallb ffinite r.
(** The finite rows of chain c, oldest first. *)
Definition finite_rows (b : buffer) (n_steps dim c : nat) : list vec :=
  filter finite_row (map (brow b dim c) (seq 0 n_steps)).

(** The last [k] elements (all of them when k exceeds the length). *)
Definition last_elements {A} (k : nat) (l : list A) : list A := skipn (length l - k) l.
(** history_window = 0 keeps everything (Python's l[-0:] is l). *)
Definition recent {A} (window : nat) (l : list A) : list A :=
  if window =? 0 then l else last_elements window l.

(** [name] currently denotes the buffer [b] (object [l]). *)
Definition buffer_named (w : world) (name : string) (l : loc) (b : buffer) : Prop :=
  dget (rdict w) name = Some (RObj l) /\ hget l w = Some (OBuf b).
Definition optimizer_named (w : world) (name : string) (l : loc) (o : optimizer) : Prop :=
  dget (rdict w) name = Some (RObj l) /\ hget l w = Some (OOpt o).

(** [ex] is the training set used by a successful call: the call's model and optimiser state are
    those that training on [ex] returns. *)
Definition trained_on (tm : trainmodel) (w w' : world) (k : key) (ex : list vec) (losses : list F) : Prop :=
  exists m ol opt m' st' k',
    dget (rdict w) (tm_model tm) = Some (RModel m) /\ optimizer_named w (tm_opt tm) ol opt /\
    train m k ex (o_tx opt) (o_state opt) (tm_epochs tm) (tm_bs tm) = Ok (k', (m', st'), losses) /\
    dget (rdict w') (tm_model tm) = Some (RModel m') /\
    optimizer_named w' (tm_opt tm) ol (mkOptimizer (o_tx opt) st').

(** The loss buffer after recording [losses]: written from slot [s], cursor advanced by the number
    of losses, header otherwise kept. *)
Definition recorded (b b' : buffer) (losses : list F) (s : nat) : Prop :=
  ashape (b_data b') = ashape (b_data b) /\ b_name b' = b_name b /\
  b_cursor_dim b' = b_cursor_dim b /\
  b_cursor b' = (b_cursor b + Z.of_nat (length losses))%Z /\
  written_at b (stack1 losses) s b'.
End SpecTrain.
