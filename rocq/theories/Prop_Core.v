(** Properties C01, C02, C03, C48, C50: buffers, states, log-density resources. *)
From Verif Require Import Prelude Num M_Core M_Kernels M_Strategies Spec Spec_Core P_Lists P_Buffer P_Core.

(* ==================================================================================== *)
(** C01.  A write at a start where the update fits places exactly the update. *)
Theorem C01_update_places_slice :
  forall {N : Num} (b : buffer) (u : arr) (start : nat),
    fits_shape b u ->
    start + nth (b_cursor_dim b) (ashape u) 0 <= nth (b_cursor_dim b) (ashape (b_data b)) 0 ->
    exists b', update_buffer b u (Z.of_nat start) = Ok b' /\ same_header b b' /\
               written_at b u start b'.
Proof. exact (@C01_proof). Qed.
Print Assumptions C01_update_places_slice.

Example C01_example :
  forall {N : Num}, exists (b : buffer) (u : arr),
    fits_shape b u /\ 1 + nth (b_cursor_dim b) (ashape u) 0 <= nth (b_cursor_dim b) (ashape (b_data b)) 0.
Proof.
  intros. exists (buffer_init "b" [2; 4; 3] 1), (stack3 [[[f0]; [f1]]; [[f1]; [f0]]]).
  split; [split; [simpl; lia|split; [reflexivity|]]|simpl; lia].
  intros [|[|[|k]]] Hk; simpl in *; lia.
Qed.

(* ==================================================================================== *)
(** C02.  The shape (and name, cursor, cursor dimension) never changes. *)
Theorem C02_never_resized :
  forall {N : Num} (b : buffer) (u : arr) (start : Z) (b' : buffer),
    update_buffer b u start = Ok b' -> same_header b b'.
Proof. exact (@C02_shape_proof). Qed.
Print Assumptions C02_never_resized.

(** An overrunning write is accepted and lands on the last slots instead. *)
Theorem C02_overrun_lands_on_last_slots :
  forall {N : Num} (b : buffer) (u : arr) (start : Z),
    fits_shape b u ->
    let ext := nth (b_cursor_dim b) (ashape (b_data b)) 0 in
    let len := nth (b_cursor_dim b) (ashape u) 0 in
    (0 <= start)%Z -> (Z.of_nat ext < start + Z.of_nat len)%Z ->
    exists b', update_buffer b u start = Ok b' /\ same_header b b' /\
               written_at b u (ext - len) b'.
Proof. exact (@C02_overrun_proof). Qed.
Print Assumptions C02_overrun_lands_on_last_slots.

(** A negative start counts from the end (and is clamped on both sides). *)
Theorem C02_negative_start_counts_from_the_end :
  forall {N : Num} (b : buffer) (u : arr) (start : Z),
    fits_shape b u ->
    let ext := nth (b_cursor_dim b) (ashape (b_data b)) 0 in
    let len := nth (b_cursor_dim b) (ashape u) 0 in
    (start < 0)%Z ->
    exists b', update_buffer b u start = Ok b' /\ same_header b b' /\
      written_at b u (Nat.min (Z.to_nat (start + Z.of_nat ext)) (ext - len)) b'.
Proof. exact (@C02_negative_proof). Qed.
Print Assumptions C02_negative_start_counts_from_the_end.

(** An update of another rank, or larger in some dimension, is refused, and the call on the
    object in the heap leaves the whole world as it was. *)
Theorem C02_refused_leaves_everything :
  forall {N : Num} {G : Rng} {NF : NFOps} (w : world) (l : loc) (b : buffer) (u : arr) (start : Z),
    hget l w = Some (OBuf b) -> ~ fits_shape b u ->
    exists e, buf_update l u start w = (Raise e, w).
Proof. exact (@C02_refused_proof). Qed.
Print Assumptions C02_refused_leaves_everything.

Example C02_example :
  forall {N : Num}, exists (b : buffer) (u v : arr),
    fits_shape b u /\
    nth (b_cursor_dim b) (ashape (b_data b)) 0 < 3 + nth (b_cursor_dim b) (ashape u) 0 /\
    ~ fits_shape b v.
Proof.
  intros. exists (buffer_init "b" [2; 4] 1), (stack2 [[f0; f1]; [f1; f0]]), (stack2 [[f0]; [f0]; [f0]]).
  split; [split; [simpl; lia|split; [reflexivity|]]|split; [simpl; lia|]].
  - intros [|[|k]] Hk; simpl in *; lia.
  - intros (_ & _ & H). specialize (H 0). simpl in H. lia.
Qed.

(* ==================================================================================== *)
(** C03.  State.update is a key-wise overwrite: the last value paired with the key by zip wins,
    other keys are as before; the name is kept. *)
Theorem C03_state_update_overwrites :
  forall (s : state) (keys : list string) (values : list sval) (k : string),
    s_name (state_update s keys values) = s_name s /\
    dget (s_data (state_update s keys values)) k
    = match last_value (combine keys values) k with
      | Some v => Some v
      | None => dget (s_data s) k
      end.
Proof. exact C03_full_proof. Qed.
Print Assumptions C03_state_update_overwrites.

(** The UpdateState strategy overwrites the named state in place in the same way, touches no other
    object, passes key and positions through, and raises when there is no such state. *)
Theorem C03_update_strategy :
  forall (N : Num) (G : Rng) (NF : NFOps) name keys values k xs d (w : world),
  (forall l s, dget (rdict w) name = Some (RObj l) -> hget l w = Some (OState s) ->
    exists s' w', update_state name keys values k xs d w = (Ok (k, xs), w') /\
      rdict w' = rdict w /\ hget l w' = Some (OState s') /\ s_name s' = s_name s /\
      (forall q, dget (s_data s') q = match last_value (combine keys values) q with Some v => Some v | None => dget (s_data s) q end) /\
      (forall l', l' <> l -> hget l' w' = hget l' w)) /\
  ((forall l s, dget (rdict w) name = Some (RObj l) -> hget l w <> Some (OState s)) ->
    exists e, update_state name keys values k xs d w = (Raise e, w)).
Proof. exact @C03_strategy_proof. Qed.
Print Assumptions C03_update_strategy.

Example C03_example :
  let s := mkState "s" [("a", SInt 1); ("b", SBool true)]%string in
  map (dget (s_data (state_update s ["b"; "c"; "b"; "z"]%string [SInt 2; SStr "u"; SInt 3])))
      ["a"; "b"; "c"; "z"]%string
  = [Some (SInt 1); Some (SInt 3); Some (SStr "u"); None].
Proof. vm_compute. reflexivity. Qed.

(* ==================================================================================== *)
(** C48.  Buffer: name, shape and data survive save/load; cursor and cursor dimension become 0. *)
Theorem C48_buffer_roundtrip :
  forall {N : Num} (b : buffer),
    let b' := buffer_load (buffer_save b) in
    b_name b' = b_name b /\ ashape (b_data b') = ashape (b_data b) /\
    (forall ix, aget (b_data b') ix = aget (b_data b) ix) /\
    b_cursor b' = 0%Z /\ b_cursor_dim b' = 0 /\
    (b' = b <-> b_cursor b = 0%Z /\ b_cursor_dim b = 0).
Proof. exact (@C48_buffer_proof). Qed.
Print Assumptions C48_buffer_roundtrip.

(** Consequence: every buffer created by the bundles with cursor_dim = 1 is not restored, and
    after loading a write goes along axis 0 instead of axis 1. *)
Theorem C48_buffer_not_restored_refuted :
  forall {N : Num}, exists b : buffer, buffer_load (buffer_save b) <> b.
Proof. exact (@C48_buffer_refuted_proof). Qed.
Print Assumptions C48_buffer_not_restored_refuted.

(** State: whatever np.load's pickle setting, load never returns the saved state: it raises, or the loaded object has the
    saved name as data and the saved data as name. *)
Theorem C48_state_never_restored :
  forall (pickle_ok : bool) (s : state),
    match state_load pickle_ok (state_save s) with
    | Ok p => pickle_ok = true /\ py_data p = PStr (s_name s) /\ py_name p = PDict (s_data s) /\
              ~ (py_name p = PStr (s_name s) /\ py_data p = PDict (s_data s))
    | Raise e => pickle_ok = false /\ e = ValueError
    end.
Proof. exact C48_state_proof. Qed.
Print Assumptions C48_state_never_restored.

(* ==================================================================================== *)
(** C50.  n_dims = n: n continuous variables named x_0 .. x_{n-1}, pairwise distinct. *)
Theorem C50_default_names :
  forall {N : Num} (f : lpdf) (n : nat),
    exists l, logpdf_init f None (Some n) = Ok l /\ l_pdf l = f /\ length (l_vars l) = n /\ logpdf_n_dims l = n /\
      (forall i d, i < n -> v_name (nth i (l_vars l) d) = append "x_" (str_of_nat i) /\
                            v_cont (nth i (l_vars l) d) = true) /\
      NoDup (map v_name (l_vars l)).
Proof. exact (@C50_names_proof). Qed.
Print Assumptions C50_default_names.

(** Given variables win over n_dims; with neither the constructor raises ValueError. *)
Theorem C50_precedence :
  forall {N : Num} (f : lpdf) (v : list variable) (n : option nat),
    (exists l, logpdf_init f (Some v) n = Ok l /\ l_pdf l = f /\ l_vars l = v /\ logpdf_n_dims l = length v) /\
    logpdf_init f None None = Raise ValueError.
Proof. exact (@C50_precedence_proof). Qed.
Print Assumptions C50_precedence.

(** Flatten / unflatten round trips. *)
Theorem C50_pytree_roundtrip :
  forall {N : Num} (l : logpdf_res) (t : tempered),
    logpdf_unflatten (logpdf_flatten l) = Ok l /\
    tempered_unflatten (tempered_flatten t) = Ok t.
Proof. exact (@C50_roundtrip_proof). Qed.
Print Assumptions C50_pytree_roundtrip.

Example C50_example :
  map str_of_nat [0; 9; 10; 42; 307] = ["0"; "9"; "10"; "42"; "307"]%string.
Proof. vm_compute. reflexivity. Qed.
