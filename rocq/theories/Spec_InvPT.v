(** Specification vocabulary: ideal random sources for parallel tempering. *)
From Coq Require Import Reals.
From Verif Require Import Prelude Num M_Core M_Kernels M_Strategies M_PT M_Bundle Spec_Core Spec_Kernels Spec_Train Spec_Bundle Spec_Prog Spec_PT RNum Spec_Real Spec_HMC Spec_Inv.
Open Scope R_scope.

(** All ensembles of [m] walkers, each in a state of [X]. *)
Fixpoint ensembles (X : list (list R)) (m : nat) : list (list (list R)) :=
  match m with O => [[]] | S m' => flat_map (fun x => map (cons x) (ensembles X m')) X end.

Section Sources.
Context {G : @Rng RNum}.
(** Expectation over independent keys. *)
Fixpoint ex_keys (Es : list (expect key)) (h : list key -> R) : R :=
  match Es with [] => h [] | E :: Es' => ex E (fun k => ex_keys Es' (fun l => h (k :: l))) end.
(** The keys of split(key, n) are independent, distributed as [Es]. *)
Definition splits_all (E : expect key) (Es : list (expect key)) : Prop :=
  forall h, ex E (fun k => h (map (split k (length Es)) (seq 0 (length Es)))) = ex_keys Es h.

(** The library's one-step kernels, with the key source they need for the states [X] and the target [f]. *)
Inductive ideal_kernel (X : list (list R)) (n : nat) (f : lpdf) (d : datad) : skernel -> (expect key -> Prop) -> Prop :=
| ik_walk ss : ok_grw ss n -> (forall i, (i < n)%nat -> step_of ss i <> 0) ->
    ideal_kernel X n f d (grw_kernel ss) (step_source X n (fun k x z => grw_run ss k f d x z) (back (fun k x z => grw_run ss k f d x z)))
| ik_langevin ss : step_accepted ss n -> (forall i, (i < n)%nat -> step_of ss i <> 0) -> grad_shape f d n ->
    ideal_kernel X n f d (mala_kernel ss) (step_source X n (fun k x z => mala_run ss k f d x z) (back (fun k x z => mala_run ss k f d x z)))
| ik_hmc h M : h_cond h = CMat M -> square_mat M n -> square_mat (h_chol h) n ->
    factors_inverse (h_chol h) M n -> diagonal_mat M n -> grad_shape f d n ->
    ideal_kernel X n f d (hmc_kernel h) (step_source X n (fun k x z => hmc_run h k f d x z) (momentum_back h M f d)).

(** The key of [steps] kernel steps of a walker with target [f]. *)
Definition walker_source (X : list (list R)) (n : nat) (f : lpdf) (d : datad) (kern : skernel) (steps : nat) (E : expect key) : Prop :=
  exists P, ideal_kernel X n f d kern P /\ key_chain P steps E.
(** Exchange tests have the ideal probability, for all ensembles of [m] walkers and all adjacent pairs. *)
Definition swap_tests (X : list (list R)) (temps : list R) (f : lpdf) (d : datad) (E : expect key) : Prop :=
  forall xs i, In xs (ensembles X (length temps)) -> (i + 1 < length temps)%nat ->
  let r := @swap_log_ratio RNum temps (fun x => lp_val f x d) xs i in test_prob E r = Rmin 1 (exp r).
(** The key of a call as chain [c] of [chains] sees it: the moves of the walkers and the exchange sweep use
    independent keys. *)
Definition tempering_source (chains c : nat) (X : list (list R)) (n : nat) (t : tempered) (d : datad) (kern : skernel) (steps : nat) (temps : list R)
  (E : expect key) : Prop :=
  exists E1 E2 Es Ec Ws Ex Exc,
    split_has E 2 0 E1 /\ splits2 E1 E2 Es /\
    split_has Es chains c Ec /\ splits_all Ec Ws /\
    Forall2 (fun W T => walker_source X n (tempered_lpdf t T) d kern steps W) Ws temps /\
    split_has E2 2 1 Ex /\ split_has Ex chains c Exc /\ key_chain (swap_tests X temps (l_pdf (t_base t)) d) (length temps - 1) Exc.
End Sources.

(** The walkers of chain [c] after a call: the returned position, then the stored ones. *)
Definition ensemble_after {G : @Rng RNum} {NF : @NFOps RNum G} (pl : loc) (r : res (key * list (list R)) * world) (c : nat) : list (list R) :=
  match r with
  | (Ok (_, xs'), w') => match hget pl w' with Some (OBuf pb') => ensemble_before pb' xs' c | _ => [] end
  | _ => []
  end.

(** A parallel-tempering call in which everything but the walkers of chain [c] is arbitrary: for every ensemble [e] of
    [X], [w e] and [xs e] are a memory and positions in which the walkers of chain [c] are [e], and the call succeeds
    whatever the key. *)
Definition chain_in_state {G : @Rng RNum} {NF : @NFOps RNum G} (pt : ptemp) (kern : skernel) (t : tempered) (d : datad) (pl tl : loc) (training : bool)
  (temps : list R) (n chains c : nat) (X : list (list R)) (w : list (list R) -> world) (xs : list (list R) -> list (list R)) : Prop :=
  forall e, In e (ensembles X (length temps)) ->
    length (xs e) = chains /\ (forall x, In x (xs e) -> length x = n) /\
    (exists pb tb, pt_setup (w e) pt kern t pl pb tl tb training /\ temps_of tb = temps /\ ensemble_before pb (xs e) c = e) /\
    (forall k, exists r w', parallel_tempering pt k (xs e) d (w e) = (Ok r, w')).

(** A second call, with key [k], from the positions and the memory the call with result [r] left. *)
Definition call_again {G : @Rng RNum} {NF : @NFOps RNum G} (pt : ptemp) (d : datad) (k : key) (r : res (key * list (list R)) * world) : res (key * list (list R)) * world :=
  match r with (Ok (_, xs'), w') => parallel_tempering pt k xs' d w' | _ => r end.
