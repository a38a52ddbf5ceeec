(** Specification vocabulary: ideal random sources and invariance of a target on finitely many points. *)
From Coq Require Import Reals.
From Verif Require Import Prelude Num M_Core M_Kernels M_Strategies M_Bundle Spec_Train Spec_Bundle Spec_Kernels RNum Spec_Real.
Open Scope R_scope.

(** An ideal random value of type [T], given by its expectations: a linear, normalised functional.  Finite weighted
    averages are examples. *)
Record expect (T : Type) := mkExpect {
  ex : (T -> R) -> R;
  ex_ext : forall f g, (forall t, f t = g t) -> ex f = ex g;
  ex_lin : forall a f b g, ex (fun t => a * f t + b * g t) = a * ex f + b * ex g;
  ex_const : forall c, ex (fun _ => c) = c }.
Arguments ex {T}.

(** Sum over a list of points. *)
Definition total {A} (l : list A) (h : A -> R) : R := fold_right (fun a s => h a + s) 0 l.

(** [expected_under X w h]: sum over the states x of X of w(x) h(x), the (unnormalised) expectation of h when the
    state is distributed over X with weights w. *)
Definition expected_under {A} (X : list A) (w : A -> R) (h : A -> R) : R := total X (fun x => w x * h x).

Section Sources.
Context {G : @Rng RNum}.

(** The two keys of split(key, 2) are independent, distributed as [E0] and [E1]. *)
Definition splits2 (E E0 E1 : expect key) : Prop :=
  forall h : key -> key -> R,
  ex E (fun k => h (split k 2 0) (split k 2 1)) = ex E0 (fun a => ex E1 (fun b => h a b)) /\
  ex E0 (fun a => ex E1 (fun b => h a b)) = ex E1 (fun b => ex E0 (fun a => h a b)).
(** Key number [c] of split(key, n) is distributed as [Ec]. *)
Definition split_has (E : expect key) (n c : nat) (Ec : expect key) : Prop :=
  forall h : key -> R, ex E (fun k => h (split k n c)) = ex Ec h.
(** A key that is split again and again, (key, subkey) = split(key), [n] times, the subkeys satisfying [P]. *)
Fixpoint key_chain (P : expect key -> Prop) (n : nat) (E : expect key) : Prop :=
  match n with
  | O => True
  | S n' => exists E0 E1, splits2 E E0 E1 /\ P E1 /\ key_chain P n' E0
  end.

(** normal(key, n) takes the values in the finite set [Z], each with probability proportional to the standard normal
    density there. *)
Definition gaussian_on (Z : list (list R)) (n : nat) (E : expect key) : Prop :=
  NoDup Z /\ (forall z, In z Z -> length z = n) /\
  exists c, 0 < c /\ forall h : list R -> R, ex E (fun k => h (normal k n)) = total Z (fun z => c * std_density n z * h z).
(** uniform(key) accepts the outcome [run] with the probability a uniform number in [0,1] does. *)
Definition accepts_as_uniform (E : expect key) (run : outcome) : Prop :=
  forall p, accept_prob run p -> ex E (fun k => flag_of (run (uniform k))) = p.
Definition never_accepts (E : expect key) (run : outcome) : Prop := ex E (fun k => flag_of (run (uniform k))) = 0.

(** One step of a Metropolis kernel on the finite set [X] of states ([run k x z] is the kernel's outcome from x with the
    Gaussian draw z; it does not depend on the key k): a move that stays in X is accepted with the right probability and can be undone by a draw of Z;
    a move that leaves X is never accepted (X is where the target's density is not zero). *)
Definition step_source (X : list (list R)) (n : nat) (run : key -> list R -> list R -> outcome) (undoes : list R -> list R -> list R -> Prop)
  (E : expect key) : Prop :=
  exists En Eu Z, splits2 E En Eu /\ gaussian_on Z n En /\
  forall k x z y, In x X -> In z Z -> proposes (run k x z) y ->
  (In y X /\ accepts_as_uniform Eu (run k x z) /\ exists z', In z' Z /\ undoes x z z') \/
  (~ In y X /\ never_accepts Eu (run k x z)).
(** The draw [z'] takes the kernel back from where [z] took it to. *)
Definition back (run : key -> list R -> list R -> outcome) (x z z' : list R) : Prop :=
  forall k y, proposes (run k x z) y -> proposes (run k y z') x.
(** For HMC: [z'] gives the reversed final momentum. *)
Definition momentum_back (h : hmc) (m : list (list R)) (f : lpdf) (d : datad) (x z z' : list R) : Prop :=
  hmc_momentum h z' = map Ropp (snd (leapfrog h m f d (x, hmc_momentum h z))).
(** A test with log ratio [r] against log(uniform(key)) succeeds with probability min(1, exp r). *)
Definition test_prob (E : expect key) (r : R) : R := ex E (fun k => if Rltb (ln (uniform k)) r then 1 else 0).
(** The states: finitely many different points of dimension [n]. *)
Definition states (X : list (list R)) (n : nat) : Prop := NoDup X /\ forall x, In x X -> length x = n.
(** The target's (unnormalised) density. *)
Definition density (f : lpdf) (d : datad) (x : list R) : R := exp (lp_val f x d).
End Sources.

(** Independent draws from the finite set [Y] with probabilities [q]. *)
Fixpoint iid (Y : list (list R)) (q : list R -> R) (n : nat) (h : list (list R) -> R) : R :=
  match n with
  | O => h []
  | S n' => total Y (fun y => q y * iid Y q n' (fun l => h (y :: l)))
  end.

Section FlowSources.
Context {G : @Rng RNum} {NF : @NFOps RNum G}.
(** sample(key, s) gives s independent points of [Y], each with probability [q]. *)
Definition draws_from (m : mdl) (Y : list (list R)) (q : list R -> R) (s : nat) (E : expect key) : Prop :=
  forall h : list (list R) -> R, ex E (fun k => h (m_sample m k s)) = iid Y q s h.
(** A source of flow samples: the key itself gives independent draws, and it can be split again and again ([n] times)
    into keys that do; no more than [b] points are drawn with one key. *)
Definition flow_source (m : mdl) (Y : list (list R)) (q : list R -> R) (b n : nat) (E : expect key) : Prop :=
  (forall s, (s <= b)%nat -> draws_from m Y q s E) /\
  key_chain (fun E' => forall s, (s <= b)%nat -> draws_from m Y q s E') n E.
(** The uniform numbers of the acceptance tests: for states x of X and proposals y of Y, with log ratio
    (log p(y) - log p(x)) - (log q(y) - log q(x)), the test has the ideal probability when y is a state and never
    succeeds otherwise. *)
Definition flow_tests (X Y : list (list R)) (p q : list R -> R) (E : expect key) : Prop :=
  forall x y, In x X -> In y Y ->
  let r := (ln (p y) - ln (p x)) - (ln (q y) - ln (q x)) in
  (In y X -> test_prob E r = Rmin 1 (exp r)) /\ (~ In y X -> test_prob E r = 0).
End FlowSources.

(** The position recorded at step [j] of a chain, seen through the observable [g]. *)
Definition at_step (j : nat) (g : list R -> R) (r : res (list (list R * R * bool))) : R :=
  match r with
  | Ok l => match nth_error l j with Some (x, _, _) => g x | None => 0 end
  | Raise _ => 0
  end.

Section LoopSources.
Context {G : @Rng RNum}.
(** The keys of [n] production loops as chain [i] of [chains] sees them: in every loop the carried key is split twice, the
    subkeys are split over the chains, and chain i's keys are distributed as [P] (local steps) and [Q] (global
    steps) ask. *)
Fixpoint loops_source (chains i : nat) (P Q : expect key -> Prop) (n : nat) (E : expect key) : Prop :=
  match n with
  | O => True
  | S n' => exists E0 E1 Ec E00 E01 Ed,
      splits2 E E0 E1 /\ split_has E1 chains i Ec /\ P Ec /\
      splits2 E0 E00 E01 /\ split_has E01 chains i Ed /\ Q Ed /\
      loops_source chains i P Q n' E00
  end.
End LoopSources.

(** The vector in slot [s] of chain [i] of the buffer called [name]. *)
Definition recorded_row {G : @Rng RNum} {NF : @NFOps RNum G} (w : world) (name : string) (dim i s : nat) : list R :=
  match content_of w name with CObject (Some (OBuf b)) => brow b dim i s | _ => [] end.
(** The position of chain [i] in the result of a run. *)
Definition returned_row {K W} (r : res (K * list (list R)) * W) (i : nat) : list R :=
  match fst r with Ok (_, xs) => nth i xs [] | Raise _ => [] end.

(** The local and global key sources of chain [i] of the bundle built with [c]. *)
Definition local_source {G : @Rng RNum} {NF : @NFOps RNum G} (c : config) (d : datad) (X : list (list R)) (E : expect key) : Prop :=
  key_chain (step_source X (c_n_dims c) (fun k x z => mala_run (c_step c) k (c_logpdf c) d x z)
    (back (fun k x z => mala_run (c_step c) k (c_logpdf c) d x z))) (c_local c) E.
Definition global_source {G : @Rng RNum} {NF : @NFOps RNum G} (c : config) (d : datad) (m : mdl) (X Y : list (list R)) (q : list R -> R) (E : expect key) : Prop :=
  exists Ea Ed, splits2 E Ea Ed /\ key_chain (flow_tests X Y (density (c_logpdf c) d) q) (c_global c) Ea /\
    flow_source m Y q (c_nf_bs c) (c_global c) Ed.
