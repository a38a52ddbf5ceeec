(** Specification vocabulary for Hamiltonian Monte Carlo (C19-C21). *)
From Coq Require Import Reals.
From Coquelicot Require Import Coquelicot.
From Verif Require Import Prelude Num M_Core M_Kernels RNum.

(** Reversal of the momentum. *)
Definition flip (z : list R * list R) : list R * list R := (fst z, map Ropp (snd z)).

(** One step of velocity Verlet with step [eps], force [g] and velocity [vel]. *)
Definition verlet (eps : R) (g vel : list R -> list R) (z : list R * list R) : list R * list R :=
  let p1 := map2 (fun p a => p + eps / 2 * a) (snd z) (g (fst z)) in
  let q1 := map2 (fun q v => q + eps * v) (fst z) (vel p1) in
  (q1, map2 (fun p a => p + eps / 2 * a) p1 (g q1)).

(** Entry (i, j) of a matrix given by rows. *)
Definition entry (m : list (list R)) (i j : nat) : R := nth j (nth i m []) 0.
Definition square_mat (m : list (list R)) (n : nat) : Prop := length m = n /\ forall r, In r m -> length r = n.
Definition delta (i j : nat) : R := if Nat.eqb i j then 1 else 0.
(** [l] is a factor of the inverse of [m]: l l^T m = 1, as is cholesky(inv(m)). *)
Definition factors_inverse (l m : list (list R)) (n : nat) : Prop :=
  forall i j, (i < n)%nat -> (j < n)%nat ->
    Rsum n (fun k => Rsum n (fun t => entry l i t * entry l k t) * entry m k j) = delta i j.
Definition diagonal_mat (m : list (list R)) (n : nat) : Prop :=
  forall i j, (i < n)%nat -> (j < n)%nat -> i <> j -> entry m i j = 0.
Definition symmetric_mat (m : list (list R)) (n : nat) : Prop :=
  forall i j, (i < n)%nat -> (j < n)%nat -> entry m i j = entry m j i.

(** Phase-space points as single vectors (q, p). *)
Definition flat (z : list R * list R) : list R := fst z ++ snd z.
Definition unflat (n : nat) (w : list R) : list R * list R := (firstn n w, skipn n w).
