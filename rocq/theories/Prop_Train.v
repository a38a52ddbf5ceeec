(** Properties C34-C37: NFModel.train_epoch, NFModel.train and the TrainModel strategy. *)
From Coq Require Import Permutation.
From Verif Require Import Prelude Num M_Core M_Kernels M_Strategies P_Lists Spec Spec_Core Spec_Steps
  Spec_Kernels Spec_Train P_Train P_Train2 Toy.

Section Props.
Context {N : Num} {G : Rng} {NF : NFOps}.

(* ==================================================================================== *)
(** C34.  NFModel.train returns the losses of the epochs in order, and the model and optimiser
    state right after the first epoch of minimal loss among the losses below 1e9; a NaN loss is
    never selected; without any loss below 1e9 the original model and state come back. *)
Theorem C34_best_epoch :
  forall m k data tx st n bs kf m' st' losses, NumLaws ->
  train m k data tx st n bs = Ok (kf, (m', st'), losses) ->
  exists hist, length hist = n /\
    epochs_from tx data bs k (m_stats m data, st) hist /\
    losses = map fst hist /\ kf = iter n (fun q => split q 2 0) k /\
    ((exists i v, first_best (fofZ 1000000000) losses i /\
        nth_error hist i = Some (v, (m', st')) /\ fnan v = false) \/
     ((forall u, In u losses -> (u <.? fofZ 1000000000) = false) /\ (m', st') = (m, st))).
Proof. exact C34_proof. Qed.

(** Training succeeds unless an epoch is run with batch size 0. *)
Theorem C34_succeeds :
  forall m k data tx st n bs,
  (exists o, train m k data tx st n bs = Ok o) <-> (bs <> 0 \/ n = 0).
Proof. exact C34_total_proof. Qed.

(* ==================================================================================== *)
(** C35.  With 0 < batch_size <= n an epoch performs n // batch_size updates, one per batch of
    exactly batch_size examples; no example is used twice and n mod batch_size are left out.  The
    epoch's loss is the one reported by the last update. *)
Theorem C35_full_batches :
  forall m k tx st data bs, permutation_law -> 0 < bs <= length data ->
  exists batches ix vs v m' st',
    train_epoch m k tx st data bs = Ok (v, m', st') /\
    updates tx (m, st) batches vs (m', st') /\ v = last vs f0 /\
    length batches = length data / bs /\ (forall b, In b batches -> length b = bs) /\
    concat batches = map (fun i => nth i data []) ix /\ NoDup ix /\
    (forall i, In i ix -> i < length data) /\ length ix = length data - length data mod bs.
Proof. exact C35_proof. Qed.

(** With batch_size > n: one update on the whole data. *)
Theorem C35_small_data :
  forall m k tx st data bs, length data < bs ->
  train_epoch m k tx st data bs = Ok (m_step m data tx st).
Proof. exact C35_small_proof. Qed.

Theorem C35_batch_size_zero :
  forall m k tx st data, train_epoch m k tx st data 0 = Raise ZeroDivisionError.
Proof. exact C35_zero_proof. Qed.

(* ==================================================================================== *)
(** C36.  What a successful TrainModel call trains on.  The finite rows of all chains, in order,
    are cut into n_chains blocks of equal length; the pool is the last history_window rows of each
    block; exactly n_max_examples rows are drawn from the pool; all of them are finite rows of the
    buffer.  When all chains have the same number of finite rows, the blocks are the chains. *)
Theorem C36_training_set :
  forall tm k xs d w k' xs' w' dl db C S D, choice_law ->
  train_model tm k xs d w = (Ok (k', xs'), w') ->
  buffer_named w (tm_data tm) dl db -> ashape (b_data db) = [C; S; D] ->
  exists blocks pool ex losses n,
    concat blocks = concat (map (finite_rows db S D) (seq 0 C)) /\
    length blocks = C /\ (forall b, In b blocks -> length b = n) /\
    pool = concat (map (recent (tm_window tm)) blocks) /\
    ex = map (fun i => nth i pool []) (choice (split k 2 1) (length pool) (tm_max tm)) /\
    length ex = tm_max tm /\ trained_on tm w w' (split (split k 2 0) 2 1) ex losses /\
    (forall r, In r ex -> exists c s, c < C /\ s < S /\ r = brow db D c s /\ finite_row r = true) /\
    ((forall c c', c < C -> c' < C -> length (finite_rows db S D c) = length (finite_rows db S D c')) ->
      blocks = map (finite_rows db S D) (seq 0 C)).
Proof. exact C36_pool_proof. Qed.

(** A total of finite rows that is not a multiple of n_chains is refused, and so is a buffer without
    finite rows; nothing is modified. *)
Theorem C36_refused :
  forall tm k xs d w m dl db ol opt C S D,
  dget (rdict w) (tm_model tm) = Some (RModel m) -> buffer_named w (tm_data tm) dl db ->
  optimizer_named w (tm_opt tm) ol opt -> ashape (b_data db) = [C; S; D] -> 0 < C ->
  (length (concat (map (finite_rows db S D) (seq 0 C))) mod C <> 0 ->
     train_model tm k xs d w = (Raise TypeError, w)) /\
  (0 < tm_max tm -> (forall c s, c < C -> s < S -> finite_row (brow db D c s) = false) ->
     train_model tm k xs d w = (Raise ValueError, w)).
Proof. exact C36_refused_proof. Qed.

(** Slots of a new buffer hold -inf and do not count as samples, and training on a buffer nothing was
    written to is refused. *)
Theorem C36_unwritten_slots :
  forall (L : NumLaws) name C S D cd c s, 0 < D ->
  let db := buffer_init name [C; S; D] cd in
  ashape (b_data db) = [C; S; D] /\ (forall i, aget (b_data db) [c; s; i] = fninf) /\
  finite_row (brow db D c s) = false.
Proof. exact C36_unwritten_proof. Qed.
Theorem C36_fresh_buffer_refused :
  forall (L : NumLaws) tm k xs d w m dl name ol opt C S D cd,
  dget (rdict w) (tm_model tm) = Some (RModel m) ->
  buffer_named w (tm_data tm) dl (buffer_init name [C; S; D] cd) ->
  optimizer_named w (tm_opt tm) ol opt -> 0 < C -> 0 < D -> 0 < tm_max tm ->
  train_model tm k xs d w = (Raise ValueError, w).
Proof. exact C36_fresh_proof. Qed.

(* ==================================================================================== *)
(** C37.  Effects of a successful call: the model entry and the optimiser's state are the trained
    ones; if a loss buffer is named, the losses are written at its cursor (moved back as far as
    needed for them to fit) and the cursor advances by n_epochs; every other dictionary entry and
    every other object is as before; the position is returned unchanged. *)
Theorem C37_effects :
  forall tm k xs d w k' xs' w',
  train_model tm k xs d w = (Ok (k', xs'), w') ->
  xs' = xs /\
  exists ex losses ol opt,
    optimizer_named w (tm_opt tm) ol opt /\
    trained_on tm w w' (split (split k 2 0) 2 1) ex losses /\ length losses = tm_epochs tm /\
    (forall n, n <> tm_model tm -> dget (rdict w') n = dget (rdict w) n) /\
    (forall l, l <> ol ->
       (forall ll lb, tm_loss tm <> ""%string -> buffer_named w (tm_loss tm) ll lb -> l <> ll) ->
       hget l w' = hget l w) /\
    (tm_loss tm <> ""%string -> exists ll lb lb' s size,
       buffer_named w (tm_loss tm) ll lb /\ buffer_named w' (tm_loss tm) ll lb' /\
       ashape (b_data lb) = [size] /\ tm_epochs tm <= size /\ b_cursor_dim lb = 0 /\
       recorded lb lb' losses s /\
       ((0 <= b_cursor lb)%Z ->
        Z.of_nat s = Z.min (b_cursor lb) (Z.of_nat (size - tm_epochs tm)))).
Proof. exact C37_proof. Qed.

(** A call that raises modifies nothing. *)
Theorem C37_failed_call_changes_nothing :
  forall tm k xs d w e w', train_model tm k xs d w = (Raise e, w') -> w' = w.
Proof. exact C37_raise_proof. Qed.

(** History: n consecutive calls with enough room record all their losses one after the other. *)
Theorem C37_history :
  forall tm d ll, tm_loss tm <> ""%string -> forall n k xs w k' xs' w' lb (c0 : nat) size,
  buffer_named w (tm_loss tm) ll lb -> b_cursor lb = Z.of_nat c0 -> ashape (b_data lb) = [size] ->
  c0 + n * tm_epochs tm <= size ->
  calls n (train_model tm) k xs d w = (Ok (k', xs'), w') ->
  xs' = xs /\
  exists ls ws lb', length ls = n /\ length ws = Datatypes.S n /\ nth 0 ws w = w /\ nth n ws w = w' /\
    (forall i, i < n -> length (nth i ls []) = tm_epochs tm /\
       exists q ex, trained_on tm (nth i ws w) (nth (Datatypes.S i) ws w) q ex (nth i ls [])) /\
    buffer_named w' (tm_loss tm) ll lb' /\ ashape (b_data lb') = [size] /\
    b_cursor lb' = Z.of_nat (c0 + n * tm_epochs tm) /\
    (forall j, j < n * tm_epochs tm -> aget (b_data lb') [c0 + j] = nth j (concat ls) f0) /\
    (forall j, j < c0 \/ c0 + n * tm_epochs tm <= j -> aget (b_data lb') [j] = aget (b_data lb) [j]).
Proof. exact C37_calls_proof. Qed.
End Props.

(* ==================================================================================== *)
(** Concrete cases. *)

(** The laws of the random routines hold in the executable instance. *)
Example C35_laws : @permutation_law ZNum ZRng /\ @choice_law ZNum ZRng.
Proof. split; [exact znf_permutation|exact znf_choice]. Qed.

(** Seven examples in batches of 3: two updates on six examples; the loss of the second one. *)
Example C35_run : @train_epoch ZNum ZRng ZNF 5%Z [] (-1)%Z 0%Z [[1]; [2]; [3]; [4]; [5]; [6]; [7]]%Z 3
  = Ok (13, 3, 2)%Z.
Proof. vm_compute. reflexivity. Qed.

(** The smallest loss, -3, is that of the fourth epoch, whose model -1 and state 4 are returned. *)
Example C34_run :
  rmap (fun o => (snd (fst o), snd o))
   (@train ZNum ZRng ZNF 0%Z [] [[1]; [2]; [3]]%Z (-1)%Z 0%Z 6 9) =
  Ok ((-1, 4), [6; 1; -2; -3; -2; 1])%Z.
Proof. vm_compute. reflexivity. Qed.
(** The first of equal minima is kept (tx = 0: the model never changes). *)
Example C34_tie :
  rmap (fun o => (snd (fst o), snd o))
   (@train ZNum ZRng ZNF 0%Z [] [[1]; [2]; [3]]%Z 0%Z 0%Z 3 9) = Ok ((3, 1), [6; 6; 6])%Z.
Proof. vm_compute. reflexivity. Qed.

(** Four finite rows per chain, window 2, five examples drawn from rows 2 and 3 of the chains. *)
Example C36_run :
  zok (@train_model ZNum ZRng ZNF ttm [] zstart [] (tworld 4 4)) = true /\
  @training_pool ZNum (tdata 4 4) 2 = Ok [[20; 21]; [30; 31]; [120; 121]; [130; 131]]%Z.
Proof. split; vm_compute; reflexivity. Qed.
(** Unequal numbers of finite rows (3 and 5) with an even total: the fourth block row of "chain 0"
    is a row of chain 1, and the windows mix chains. *)
Example C36_mixed :
  zok (@train_model ZNum ZRng ZNF ttm [] zstart [] (tworld 3 5)) = true /\
  @training_pool ZNum (tdata 3 5) 2 = Ok [[20; 21]; [100; 101]; [130; 131]; [140; 141]]%Z.
Proof. split; vm_compute; reflexivity. Qed.
(** 3 + 4 finite rows: refused.  No finite rows: refused. *)
Example C36_not_divisible :
  fst (@train_model ZNum ZRng ZNF ttm [] zstart [] (tworld 3 4)) = Raise TypeError /\
  fst (@train_model ZNum ZRng ZNF ttm [] zstart [] (tworld 0 0)) = Raise ValueError.
Proof. split; vm_compute; reflexivity. Qed.

(** Two calls fill the loss buffer of six slots; a third one succeeds but overwrites the last
    three slots. *)
Example C37_run :
  let w2 := snd (calls 2 (@train_model ZNum ZRng ZNF ttm) [] zstart [] (tworld 4 4)) in
  let w3 := snd (calls 3 (@train_model ZNum ZRng ZNF ttm) [] zstart [] (tworld 4 4)) in
  zok (calls 3 (@train_model ZNum ZRng ZNF ttm) [] zstart [] (tworld 4 4)) = true /\
  map (fun i => zdata w2 1 [i]) (seq 0 6) = [23; 7; -1; 14; 2; -2]%Z /\
  map (fun i => zdata w3 1 [i]) (seq 0 3) = [23; 7; -1]%Z /\
  map (fun i => zdata w2 0 [0; i; 0]) (seq 0 5) = [0; 10; 20; 30; -1000000]%Z.
Proof. vm_compute. repeat split; reflexivity. Qed.

Print Assumptions C34_best_epoch.
Print Assumptions C34_succeeds.
Print Assumptions C35_full_batches.
Print Assumptions C35_small_data.
Print Assumptions C36_training_set.
Print Assumptions C36_refused.
Print Assumptions C36_unwritten_slots.
Print Assumptions C36_fresh_buffer_refused.
Print Assumptions C37_effects.
Print Assumptions C37_failed_call_changes_nothing.
Print Assumptions C37_history.
