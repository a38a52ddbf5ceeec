(** Corollaries and example data for Prop_Kernels.v. *)
From Coq Require Import ZArith.
From Flocq Require Import BinarySingleNaN.
From Verif Require Import Prelude Num M_Core M_Kernels M_Strategies M_PT M_Bundle
  Spec Spec_Core Spec_Steps Spec_Kernels P_Lists P_Steps P_Kernels P_StepsK Float32 Toy.

Section K2.
Context {N : Num} {G : Rng} {NF : NFOps}.

Lemma not_impossible v : ~ impossible v -> fnan v = false /\ v <> fninf.
Proof.
  intros H. split. - destruct (fnan v) eqn:E; auto. exfalso. apply H. now left.
  - intros E. apply H. now right.
Qed.
Lemma C14_local_kernels_proof kf dim f d q x lp o : NumLaws -> repo_kernel kf dim ->
  kf q x lp f d = Ok o -> s_acc o = true ->
  fnan (lp_val f (s_pos o) d) = false /\ lp_val f (s_pos o) d <> fninf.
Proof. intros. apply not_impossible. eapply repo_kernel_possible; eauto. Qed.

Lemma C14_mala_gradient_proof ss k x lp f d o i : NumLaws ->
  normal_shape -> grad_shape f d (length x) ->
  mala_kernel ss k x lp f d = Ok o -> s_acc o = true -> i < length x ->
  fnan (nth i (lp_grad f (s_pos o) d) f0) = false /\ fnan (nth i (lp_grad f x d) f0) = false.
Proof. intros NL. apply (mala_gradient_nan NL). Qed.

Lemma C14_hmc_energy_proof h k x lp f d o m : NumLaws ->
  hmc_kernel h k x lp f d = Ok o -> s_acc o = true -> h_cond h = CMat m ->
  let p := hmc_momentum h (normal (split k 2 0) (length x)) in
  let z := leapfrog h m f d (x, p) in
  fnan (fneg lp +. kinetic p m) = false /\ fnan (fneg (lp_val f (fst z) d) +. kinetic (snd z) m) = false.
Proof. intros NL. apply (hmc_energy_nan NL). Qed.

Lemma C14_flow_kernel_proof p k x lp f d n co dim o : NumLaws ->
  samples_shape (nfp_model p) dim -> 0 < nfp_bs p ->
  dget d "n_steps" = Some (DInt (Z.of_nat n)) ->
  nfp_kernel p k x lp f d = Ok co -> In o co -> s_acc o = true ->
  fnan (lp_val f (s_pos o) d) = false /\ lp_val f (s_pos o) d <> fninf.
Proof.
  intros NL HS Hb Hd H Ho Ha. apply not_impossible.
  destruct (nfp_kernel_spec _ _ _ _ _ _ _ _ _ HS Hb Hd H) as (props & _ & _ & L & _ & Q).
  destruct (In_nth _ _ (x, lp, false) Ho) as (i & Hi & Ei). rewrite L in Hi.
  destruct (Q i Hi) as (A & B & _). rewrite Ei in A, B. destruct (B Ha) as [-> _]. rewrite Ha in A. symmetry in A.
  eapply (nfp_possible NL); eauto.
Qed.

Lemma C23_raises_proof p k n : (exists o, sample_flow p k n = Ok o) <-> (0 < nfp_bs p \/ n = 0).
Proof.
  split; [|apply sample_flow_ok]. intros [o H]. unfold sample_flow in H.
  destruct (nfp_bs p) eqn:E; [|lia]. destruct n; [auto|]. discriminate.
Qed.
End K2.

(** binary32 with the identity for the library functions, a one-point random source. *)
Definition b32_ninf : B32 := B754_infinity true.
Definition b32_nan : B32 := B754_nan.
Definition ENum : Num := B32Num (b32_ofZ 3) (fun x => x) (fun x => x) (fun x => x).
Definition ERng : @Rng ENum := @mkRng ENum unit
  (fun _ _ _ => tt) (fun _ n => repeat (b32_ofZ 1) n) (fun _ => b32_ofZ 1) (fun _ => b32_ofZ 0)
  (fun _ n => seq 0 n) (fun _ _ m => repeat 0 m).
(** 0 at the origin, [v] elsewhere. *)
Definition e_target (v : B32) : @lpdf ENum :=
  @mkLpdf ENum (fun x _ => match x with [B754_zero _] => b32_ofZ 0 | _ => v end) (fun x _ => x).
Definition accepted {A} (r : res (A * bool)) : option bool :=
  match r with Ok (_, b) => Some b | Raise _ => None end.
Lemma C14_float32_run_proof :
  accepted (@grw_kernel ENum ERng (@SScalar ENum (b32_ofZ 1)) tt [b32_ofZ 0] (b32_ofZ 0) (e_target b32_ninf) []) = Some false /\
  accepted (@grw_kernel ENum ERng (@SScalar ENum (b32_ofZ 1)) tt [b32_ofZ 0] (b32_ofZ 0) (e_target b32_nan) []) = Some false /\
  accepted (@grw_kernel ENum ERng (@SScalar ENum (b32_ofZ 1)) tt [b32_ofZ 0] (b32_ofZ 0) (e_target (b32_ofZ 3)) []) = Some true.
Proof.
  split; [|split]; vm_compute; reflexivity.
Qed.

Lemma C13_runs_proof :
  (exists o, @grw_kernel ZNum ZRng (@SScalar ZNum 1%Z) [] [1; 2]%Z 0%Z zlp [] = Ok o) /\
  (exists o, @mala_kernel ZNum ZRng (@SDiag ZNum [1; 2]%Z) [] [1; 2]%Z 0%Z zlp [] = Ok o) /\
  (exists o, @hmc_kernel ZNum ZRng (@mkHmc ZNum (@CMat ZNum [[1; 0]; [0; 1]]%Z) 1%Z 3 [[1; 0]; [0; 1]]%Z)
                [] [1; 2]%Z 0%Z zlp [] = Ok o) /\
  (exists o, @nfp_kernel ZNum ZRng ZNF (@mkNfp ZNum ZRng ZNF 1%Z 2) [] [1; 2]%Z (-5)%Z zlp
                [("n_steps", DInt 5)]%string = Ok o /\ length o = 5 /\
             existsb (fun s => snd s) o = true /\ forallb (fun s => snd s) o = false).
Proof.
  split; [|split; [|split]]; eexists; try (vm_compute; reflexivity).
  split; [vm_compute; reflexivity|]. split; [reflexivity|]. split; reflexivity.
Qed.
