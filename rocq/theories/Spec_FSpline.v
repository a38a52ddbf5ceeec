(** Specification vocabulary: the spline in IEEE single precision. *)
From Coq Require Import ZArith Reals.
From Flocq Require Import Core BinarySingleNaN.
From Verif Require Import Prelude Num Float32 M_Flow M_Net.
Open Scope R_scope.

(** The real number a finite float stands for. *)
Definition val (x : B32) : R := @B2R 24 128 x.
Definition isfin (x : B32) : Prop := is_finite x = true.

(** What is assumed of the library's exponential and logarithm (far less than they promise). *)
Record lib_ok (fe fl : B32 -> B32) : Prop := mkLibOk {
  lb_exp : forall x, Bleb x (b32_ofZ 0) = true -> isfin (fe x) /\ 0 <= val (fe x) <= 1;   (* also at -inf *)
  lb_exp0 : forall x, isfin x -> val x = 0 -> val (fe x) = 1;
  lb_exp1 : forall x, isfin x -> 1 / 2 <= val x <= 1 -> isfin (fe x) /\ 3 / 2 <= val (fe x) <= 3;
  lb_ln : forall x, isfin x -> 0 < val x -> isfin (fl x) /\ Rabs (val (fl x)) <= 128;
  lb_ln1 : forall x, isfin x -> 1 <= val x -> 0 <= val (fl x) }.

(** The range, minimal bin size and number of bins for which the knots are well separated in single precision
    (the repository's defaults are -10, 10, 1e-4 and, in the bundles, 8 bins). *)
Definition range_ok (lo hi m : B32) (K : nat) : Prop :=
  isfin lo /\ isfin hi /\ isfin m /\ (1 <= K <= 16)%nat /\ -10 <= val lo /\ val hi <= 10 /\ / 16384 <= val m /\
  2 * INR K * val m <= val hi - val lo.
(** Finite, from [lo] to [hi], consecutive entries at least 2^-16 apart. *)
Definition separated (l : list B32) (lo hi : B32) : Prop :=
  (forall x, In x l -> isfin x) /\ hd_error l = Some lo /\ (exists r, l = r ++ [hi]) /\
  forall i d, (S i < length l)%nat -> val (nth i l d) + / 65536 <= val (nth (S i) l d).
(** A finite float of magnitude at most 2^k. *)
Definition within (k : Z) (x : B32) : Prop := isfin x /\ Rabs (val x) <= IZR (2 ^ k).
(** A spline with such a range, and a minimal slope between 2^-14 and 1/2 (the default is 1e-4). *)
Definition settings_ok {pi fe fl ft} (q : @rqspline (B32Num pi fe fl ft)) : Prop :=
  range_ok (@rq_min (B32Num pi fe fl ft) q) (@rq_max (B32Num pi fe fl ft) q) (@rq_min_bin (B32Num pi fe fl ft) q) (rq_bins q) /\
  isfin (@rq_min_slope (B32Num pi fe fl ft) q) /\ / 16384 <= val (@rq_min_slope (B32Num pi fe fl ft) q) <= 1 / 2.
(** A mask of zeros and ones (1: passed through, 0: transformed) for [n] coordinates. *)
Definition mask01 (m : list B32) (n : nat) : Prop := length m = n /\ forall i d, (i < n)%nat -> nth i m d = b32_ofZ 0 \/ nth i m d = b32_ofZ 1.
(** For every context of [n] numbers up to 2^60, the conditioner's output has one row of 3 bins + 1 numbers for each
    of [n] coordinates, all of moderate size. *)
Definition conditioner_ok {pi fe fl ft} (q : @rqspline (B32Num pi fe fl ft)) (n : nat) : Prop :=
  forall c, length c = n -> (forall v, In v c -> within 60 v) -> length (@rq_cond (B32Num pi fe fl ft) q c) = (n * (rq_bins q * 3 + 1))%nat /\ forall v, In v (@rq_cond (B32Num pi fe fl ft) q c) -> within 30 v.
(** What is promised of one coordinate: a finite value and log-derivative, and values in the range mapped into it
    up to [slack]. *)
Definition coordinate_result {pi fe fl ft} (q : @rqspline (B32Num pi fe fl ft)) (slack : R) (x : B32) (r : B32 * B32) : Prop :=
  within 102 (fst r) /\ within 10 (snd r) /\
  (val (@rq_min (B32Num pi fe fl ft) q) <= val x <= val (@rq_max (B32Num pi fe fl ft) q) ->
   val (@rq_min (B32Num pi fe fl ft) q) <= val (fst r) <= val (@rq_max (B32Num pi fe fl ft) q) + slack).
(** What is promised of layer [i] of the flow: the same shape, everything finite, the coordinates the mask passes
    through unchanged, the others mapped from the range into the range up to [slack]. *)
Definition layer_result {pi fe fl ft} (q : @rqspline (B32Num pi fe fl ft)) (i : nat) (slack : R) (x : list B32) (r : list B32 * B32) : Prop :=
  length (fst r) = length x /\ isfin (snd r) /\
  forall j d, (j < length x)%nat -> within 102 (nth j (fst r) d) /\
    ((j + i) mod 2 = 1%nat -> val (nth j (fst r) d) = val (nth j x d)) /\
    ((j + i) mod 2 = 0%nat -> val (@rq_min (B32Num pi fe fl ft) q) <= val (nth j x d) <= val (@rq_max (B32Num pi fe fl ft) q) ->
     val (@rq_min (B32Num pi fe fl ft) q) <= val (nth j (fst r) d) <= val (@rq_max (B32Num pi fe fl ft) q) + slack).
(** The hyperbolic tangent of the library: finite and between -1 and 1 at finite arguments. *)
Definition tanh_ok (ft : B32 -> B32) : Prop := forall x, isfin x -> isfin (ft x) /\ -1 <= val (ft x) <= 1.
(** A linear map from [a] to [b] numbers with parameters up to 2^12. *)
Definition linear_ok {pi fe fl ft} (l : @linear (B32Num pi fe fl ft)) (a b : nat) : Prop :=
  length (@ln_w (B32Num pi fe fl ft) l) = b /\
  (forall row, In row (@ln_w (B32Num pi fe fl ft) l) -> length row = a /\ forall v, In v row -> within 12 v) /\
  match @ln_b (B32Num pi fe fl ft) l with Some bs => length bs = b /\ forall v, In v bs -> within 12 v | None => True end.
(** Consecutive linear maps with the given layer widths. *)
Fixpoint linears_ok {pi fe fl ft} (ls : list (@linear (B32Num pi fe fl ft))) (widths : list nat) : Prop :=
  match ls, widths with
  | [], [_] => True
  | l :: ls', a :: ((b :: _) as r) => (a <= 2 ^ 16)%nat /\ linear_ok l a b /\ linears_ok ls' r
  | _, _ => False
  end.
