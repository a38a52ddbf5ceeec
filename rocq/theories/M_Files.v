(** Files written by Buffer and State, and Buffer.get_distribution (resource/buffers.py 49-64,
    resource/states.py 53-63). *)
From Verif Require Import Prelude Num M_Core M_Kernels M_Strategies.

Section Files.
Context {N : Num}.

(** What np.savez(file, name=..., data=...) stores for a Buffer or a State. *)
Inductive npz_file := FBuffer (z : npz arr) | FState (z : npz (dict sval)).

(** s.endswith(".npz") *)
Definition ends_npz (s : string) : bool :=
  (4 <=? String.length s) && String.eqb (substring (String.length s - 4) 4 s) ".npz".
(** np.savez appends the extension unless the name already has it. *)
Definition savez_name (s : string) : string := if ends_npz s then s else append s ".npz".

(** buffers.py 52-57 and states.py 53-58: save_resource(path); an existing file is replaced. *)
Definition buffer_save_to (fs : dict npz_file) (path : string) (b : buffer) : dict npz_file :=
  dset fs (savez_name (append path (b_name b))) (FBuffer (buffer_save b)).
Definition state_save_to (fs : dict npz_file) (path : string) (s : state) : dict npz_file :=
  dset fs (savez_name (append path (s_name s))) (FState (state_save s)).

(** A call of save_resource on a Buffer or a State (buffers.py 52-57, states.py 53-58), and a sequence of them. *)
Inductive save_call := SaveBuffer (path : string) (b : buffer) | SaveState (path : string) (s : state).
Definition save_any (fs : dict npz_file) (c : save_call) : dict npz_file :=
  match c with SaveBuffer p b => buffer_save_to fs p b | SaveState p s => state_save_to fs p s end.
Definition save_all (fs : dict npz_file) (cs : list save_call) : dict npz_file := fold_left save_any cs fs.

(** buffers.py 59-64: load_resource(path).  np.load opens exactly the given name (FileNotFoundError is OtherError);
    data["data"] of a State file is an object array, which np.load refuses (ValueError). *)
Definition buffer_load_from (fs : dict npz_file) (path : string) : res buffer :=
  match dget fs path with
  | None => Raise OtherError
  | Some (FBuffer z) => Ok (buffer_load z)
  | Some (FState _) => Raise ValueError
  end.

(* ------------------------------------------------------------------------------------ *)
(** * Buffer.get_distribution (buffers.py 49-50): np.histogram(data.flatten(), bins=n_bins) *)

(** data.flatten(): row-major. *)
Definition flatten (a : arr) : list F := map (aget a) (indices (ashape a)).
(** ndarray.min() and max() of a non-empty array: NaN-propagating. *)
Definition amin (x : F) (l : list F) : F := fold_left fmin l x.
Definition amax (x : F) (l : list F) : F := fold_left fmax l x.
(** NumPy's outer edges: (0, 1) for an empty array; ValueError if the range is not finite; a range of length zero is
    widened by 1/2 on both sides. *)
Definition outer_edges (l : list F) : res (F * F) :=
  match l with
  | [] => Ok (f0, f1)
  | x :: r =>
      let lo := amin x r in let hi := amax x r in
      if ffinite lo && ffinite hi
      then Ok (if (lo <=.? hi) && (hi <=.? lo) then (lo -. fhalf, hi +. fhalf) else (lo, hi))
      else Raise ValueError
  end.
(** np.linspace(lo, hi, n + 1): start + i * step with step = (hi - lo) / n, the last entry set to hi. *)
Definition bin_edges (lo hi : F) (n : nat) : list F :=
  map (fun i => if i =? n then hi else lo +. fofZ (Z.of_nat i) *. ((hi -. lo) /. fofZ (Z.of_nat n))) (seq 0 (S n)).
(** astype(np.intp): truncation; external. *)
Variable trunc : F -> nat.
(** Bin of one value: index from the scaled offset, the right edge belongs to the last bin, then NumPy's correction of
    the index by one if the value is on the other side of an edge. *)
Definition bin_of (lo hi : F) (n : nat) (x : F) : nat :=
  let edges := bin_edges lo hi n in
  let i := trunc (((x -. lo) /. (hi -. lo)) *. fofZ (Z.of_nat n)) in
  let i := if i =? n then n - 1 else i in
  let i := if x <.? nth i edges f0 then i - 1 else i in
  if (nth (S i) edges f0 <=.? x) && negb (i =? n - 1) then S i else i.
(** np.bincount(indices, minlength=n) *)
Definition bincount (n : nat) (ix : list nat) : list nat := map (fun i => count_occ Nat.eq_dec ix i) (seq 0 n).
(** buffers.py 49-50; n_bins < 1 raises ValueError. *)
Definition get_distribution (b : buffer) (n_bins : nat) : res (list nat * list F) :=
  if n_bins =? 0 then Raise ValueError
  else
    let l := flatten (b_data b) in
    let* (lo, hi) := outer_edges l in
    Ok (bincount n_bins (map (bin_of lo hi n_bins) l), bin_edges lo hi n_bins).
End Files.
