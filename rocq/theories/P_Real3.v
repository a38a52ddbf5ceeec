(** C15, and a concrete one-dimensional instance of C15-C18. *)
From Coq Require Import Reals Psatz.
From Coquelicot Require Import Coquelicot.
From Verif Require Import Prelude Num M_Core M_Kernels Spec_Steps Spec_Kernels P_Lists P_Kernels RNum Spec_Real P_Real1 P_Real2.

Section Probs.
Context {G : @Rng RNum}.

Lemma C15_grw_proof ss k f d (x z : list R) : ok_grw ss (length x) -> length z = length x ->
  exists y, proposes (grw_run ss k f d x z) y /\
    let p := Rmin 1 (exp (lp_val f y d - lp_val f x d)) in
    accept_prob (grw_run ss k f d x z) p /\
    forall h, is_RInt (fun u => test h (grw_run ss k f d x z u)) 0 1
      (p * h (y, lp_val f y d, true) + (1 - p) * h (x, lp_val f x d, false)).
Proof.
  intros Ho Hz. destruct (grw_metropolis ss k f d x z Ho Hz) as (y & M & _). exists y. split; [|split].
  - now apply (metropolis_proposes _ _ _ _ _ _ _ M).
  - apply (metropolis_accept _ _ _ _ _ _ M).
  - apply (metropolis_prob _ _ _ _ _ _ M).
Qed.

Lemma C15_mala_proof ss k f d (x z : list R) : mala_ok_step ss (length x) -> length z = length x -> grad_shape f d (length x) ->
  exists y r, proposes (mala_run ss k f d x z) y /\ mala_ratio ss f d x y = Ok r /\
    let p := Rmin 1 (exp r) in
    accept_prob (mala_run ss k f d x z) p /\
    forall h, is_RInt (fun u => test h (mala_run ss k f d x z u)) 0 1
      (p * h (y, lp_val f y d, true) + (1 - p) * h (x, lp_val f x d, false)).
Proof.
  intros Ho Hz Hg. destruct (mala_metropolis ss k f d x z Ho Hz Hg) as (y & r & M & E & _). exists y, r. split; [|split; [exact E|split]].
  - now apply (metropolis_proposes _ _ _ _ _ _ _ M).
  - apply (metropolis_accept _ _ _ _ _ _ M).
  - apply (metropolis_prob _ _ _ _ _ _ M).
Qed.

Lemma C15_hmc_proof h m k f d (x z : list R) : h_cond h = CMat m -> square m (length x) = true ->
  let p0 := hmc_momentum h z in
  let y := fst (leapfrog h m f d (x, p0)) in
  let p1 := snd (leapfrog h m f d (x, p0)) in
  let H q p := - lp_val f q d + kinetic p m in
  proposes (hmc_run h k f d x z) y /\
  let p := Rmin 1 (exp (H x p0 - H y p1)) in
    accept_prob (hmc_run h k f d x z) p /\
    forall t, is_RInt (fun u => test t (hmc_run h k f d x z u)) 0 1
      (p * t (y, lp_val f y d, true) + (1 - p) * t (x, lp_val f x d, false)).
Proof.
  intros Hc Hs p0 y p1 H. pose proof (hmc_metropolis h m k f d x z Hc Hs) as M. split; [|split].
  - now apply (metropolis_proposes _ _ _ _ _ _ _ M).
  - apply (metropolis_accept _ _ _ _ _ _ M).
  - apply (metropolis_prob _ _ _ _ _ _ M).
Qed.

Lemma C17_raises_proof v k f d (x z : list R) u : mala_run (SVec v) k f d x z u = Raise ValueError.
Proof. reflexivity. Qed.
End Probs.

Section FlowProbs.
Context {G : @Rng RNum} {NF : @NFOps RNum G}.
Lemma C15_flow_proof (m : @nfp RNum G NF) k f d (x y : list R) : (0 < nfp_bs m)%nat -> ignores_n_steps f ->
  m_sample (nfp_model m) (split k 2 1) 1 = [y] ->
  proposes (flow_run m k f d x) y /\
  let p := Rmin 1 (exp ((lp_val f y d - lp_val f x d) - (m_logp (nfp_model m) y - m_logp (nfp_model m) x))) in
    accept_prob (flow_run m k f d x) p /\
    forall t, is_RInt (fun u => test t (flow_run m k f d x u)) 0 1
      (p * t (y, lp_val f y d, true) + (1 - p) * t (x, lp_val f x d, false)).
Proof.
  intros Hb Hi Hy. pose proof (flow_metropolis m k f d x y Hb Hi Hy) as M. split; [|split].
  - now apply (metropolis_proposes _ _ _ _ _ _ _ M).
  - apply (metropolis_accept _ _ _ _ _ _ M).
  - apply (metropolis_prob _ _ _ _ _ _ M).
Qed.
End FlowProbs.

(* ------------------------------------------------------------------ a concrete instance *)
(** Random source and flow with trivial keys, and the 1-D target exp(-x^2/2). *)
Definition RRng : @Rng RNum := @mkRng RNum bool (fun k _ _ => k) (fun _ n => repeat 0 n) (fun _ => 0)
  (fun _ => 1/2) (fun _ n => seq 0 n) (fun _ n m => repeat 0%nat m).
Definition RNF : @NFOps RNum RRng := @mkNFOps RNum RRng unit unit unit
  (fun _ x => - (hd 0 x) ^ 2) (fun _ k n => repeat [if k then 1 else 0] n) (fun _ _ _ _ => (0, tt, tt)) (fun _ _ => tt).
Definition rlp : @lpdf RNum := @mkLpdf RNum (fun x _ => - (hd 0 x) ^ 2 / 2) (fun x _ => map Ropp x).

Lemma mala_example_proof :
  let ss := @SScalar RNum (1/2) in
  mala_ok_step ss 1 /\ (forall i, (i < 1)%nat -> step_of ss i <> 0) /\ grad_shape rlp [] 1 /\
  exists z z', length z = 1%nat /\ length z' = 1%nat /\
    proposes (@mala_run RRng ss true rlp [] [0] z) [1] /\ proposes (@mala_run RRng ss true rlp [] [1] z') [0].
Proof.
  intros ss. assert (A : mala_ok_step ss 1) by exact I.
  assert (B : forall i, (i < 1)%nat -> step_of ss i <> 0) by (intros; cbn; lra).
  assert (C : grad_shape rlp [] 1) by (intros x Hx; cbn; rlen; exact Hx).
  destruct (@C17_reach_proof RRng ss true rlp [] [0] [1] 1 A B C eq_refl eq_refl) as (z & Lz & Pz).
  destruct (@C17_reach_proof RRng ss true rlp [] [1] [0] 1 A B C eq_refl eq_refl) as (z' & Lz' & Pz').
  repeat split; auto. exists z, z'. auto.
Qed.
Lemma grw_example_proof :
  let ss := @SVec RNum [1/2; 3] in
  ok_grw ss 2 /\ (forall i, (i < 2)%nat -> step_of ss i <> 0) /\
  exists z z', length z = 2%nat /\ length z' = 2%nat /\
    proposes (@grw_run RRng ss true rlp [] [0; 0] z) [1; 2] /\ proposes (@grw_run RRng ss true rlp [] [1; 2] z') [0; 0].
Proof.
  intros ss. assert (A : ok_grw ss 2) by reflexivity.
  assert (B : forall i, (i < 2)%nat -> step_of ss i <> 0) by (intros [|[|]] ?; cbn; try lia; lra).
  destruct (@C16_reach_proof RRng ss true rlp [] [0;0] [1;2] 2 A B eq_refl eq_refl) as (z & Lz & Pz).
  destruct (@C16_reach_proof RRng ss true rlp [] [1;2] [0;0] 2 A B eq_refl eq_refl) as (z' & Lz' & Pz').
  repeat split; auto. exists z, z'. auto.
Qed.
Lemma flow_example_proof :
  let p := @mkNfp RNum RRng RNF tt 5 in
  (0 < nfp_bs p)%nat /\ ignores_n_steps rlp /\
  m_sample (nfp_model p) (@split _ RRng true 2 1) 1 = [[1]] /\ m_sample (nfp_model p) (@split _ RRng false 2 1) 1 = [[0]] /\
  proposes (flow_run p true rlp [] [0]) [1] /\ accept_prob (flow_run p false rlp [] [1]) (Rmin 1 (exp (-1/2))).
Proof.
  intros p. assert (A : (0 < nfp_bs p)%nat) by (cbn; lia). assert (B : ignores_n_steps rlp) by (intros x d v; reflexivity).
  repeat split; auto.
  - now apply (C15_flow_proof p true rlp [] [0] [1] A B).
  - destruct (C15_flow_proof p false rlp [] [1] [0] A B eq_refl) as (_ & H & _). cbn in H.
    match type of H with accept_prob _ ?q => replace q with (Rmin 1 (exp (-1/2))) in H end; [exact H|].
    f_equal. f_equal. field.
Qed.
