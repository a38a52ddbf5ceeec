(** Specification vocabulary: parallel chains. *)
From Coq Require Import Reals.
From Verif Require Import Prelude Num M_Core M_Kernels M_Strategies M_Bundle Spec_Bundle Spec_Kernels RNum Spec_Real Spec_Inv Spec_Lln.
Open Scope R_scope.

Section Sources.
Context {G : @Rng RNum}.
(** The keys of split(key, n) are mutually independent, key number i distributed as [Es i]: the expectation of a product of
    functions of the single keys is the product of the expectations. *)
Definition splits_all (E : expect key) (n : nat) (Es : nat -> expect key) : Prop :=
  forall h : nat -> key -> R, ex E (fun k => Rprod n (fun i => h i (split k n i))) = Rprod n (fun i => ex (Es i) (h i)).
(** The keys of [n] production loops of [chains] chains: in every loop the carried key is split twice, each subkey is split over
    the chains, independently, and the keys of chain i are distributed as [P] (local steps) and [Q] (global steps) ask. *)
Fixpoint loops_sources (chains : nat) (P Q : expect key -> Prop) (n : nat) (E : expect key) : Prop :=
  match n with
  | O => True
  | S n' => exists E0 E1 Ec E00 E01 Ed,
      splits2 E E0 E1 /\ splits_all E1 chains Ec /\ (forall i, (i < chains)%nat -> P (Ec i)) /\
      splits2 E0 E00 E01 /\ splits_all E01 chains Ed /\ (forall i, (i < chains)%nat -> Q (Ed i)) /\
      loops_sources chains P Q n' E00
  end.
End Sources.

(** The random values [l i k], i < n, are mutually independent. *)
Definition independent {K A} (E : expect K) (n : nat) (l : nat -> K -> A) : Prop :=
  forall u : nat -> A -> R, ex E (fun k => Rprod n (fun i => u i (l i k))) = Rprod n (fun i => ex E (fun k => u i (l i k))).
(** A larger value has a larger expectation. *)
Definition monotone {K} (E : expect K) : Prop := forall f g : K -> R, (forall k, f k <= g k) -> ex E f <= ex E g.
(** Everything chain [i] leaves behind: the positions it recorded and the position it returns. *)
Definition chain_result {G : @Rng RNum} {NF : @NFOps RNum G} (r : res (key * list (list R)) * world) (name : string) (dim slots i : nat) : list (list R) * list R :=
  (recorded_rows (snd r) name dim i slots, returned_row r i).
(** The positions recorded by all chains, pooled. *)
Definition pooled_rows {G : @Rng RNum} {NF : @NFOps RNum G} (w : world) (name : string) (dim chains slots : nat) : list (list R) :=
  flat_map (fun i => recorded_rows w name dim i slots) (seq 0 chains).
