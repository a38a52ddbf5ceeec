(** Properties C13, C14, C22, C23: the proposal kernels, for every arithmetic. *)
From Verif Require Import Prelude Num M_Core M_Kernels M_Strategies M_PT M_Bundle
  Spec Spec_Core Spec_Steps Spec_Kernels P_Lists P_Steps P_Kernels P_StepsK P_Kernels2 Float32 Toy.

Section Props.
Context {N : Num} {G : Rng} {NF : NFOps}.

(* ==================================================================================== *)
(** C13, random walk.  There is one proposal y = x + noise * step size; the kernel returns y with
    its log-density and True, or x with its log-density and False, and accepts exactly when
    log u < logpdf(y) - log_prob.  The call raises exactly for step sizes of the wrong shape. *)
Theorem C13_random_walk :
  forall ss k x lp f d o, grw_kernel ss k x lp f d = Ok o ->
  exists y,
    (normal_shape -> length y = length x /\
     forall i, i < length x ->
       nth i y f0 = nth i x f0 +. nth i (normal (split k 2 0) (length x)) f0 *. step_of ss i) /\
    s_acc o = (fln (uniform (split k 2 1)) <.? (lp_val f y d -. lp)) /\
    (s_acc o = true -> s_pos o = y /\ s_lp o = lp_val f y d) /\
    (s_acc o = false -> s_pos o = x /\ s_lp o = lp).
Proof. exact grw_contract. Qed.

Theorem C13_random_walk_raises :
  forall ss k x lp f d, normal_shape ->
  (exists o, grw_kernel ss k x lp f d = Ok o) <->
  match ss with SScalar _ => True | SVec v => length v = length x | SDiag _ => False end.
Proof. exact grw_ok. Qed.

(** C13, MALA: y = x + (step^2 grad(x)) / 2 + step * noise.  The log-density returned on rejection
    is logpdf(x); the log_prob argument is not read.  ([mala_ratio] is identified in C17.) *)
Theorem C13_mala :
  forall ss k x lp f d o, mala_kernel ss k x lp f d = Ok o ->
  exists y r,
    mala_ok_step ss (length x) /\
    (normal_shape -> grad_shape f d (length x) -> length y = length x /\
     forall i, i < length x ->
       nth i y f0 = (nth i x f0 +. (step_of ss i *. step_of ss i *. nth i (lp_grad f x d) f0) /. f2)
                    +. step_of ss i *. nth i (normal (split k 2 0) (length x)) f0) /\
    mala_ratio ss f d x y = Ok r /\
    s_acc o = (fln (uniform (split k 2 1)) <.? r) /\
    (s_acc o = true -> s_pos o = y /\ s_lp o = lp_val f y d) /\
    (s_acc o = false -> s_pos o = x /\ s_lp o = lp_val f x d).
Proof. exact mala_contract. Qed.

Theorem C13_mala_raises :
  forall ss k x lp f d, normal_shape -> grad_shape f d (length x) ->
  (exists o, mala_kernel ss k x lp f d = Ok o) <->
  match ss with SScalar _ => True | SVec _ => False | SDiag v => length v = length x end.
Proof. exact mala_ok. Qed.

(** C13, HMC: the proposal is the end of the leapfrog trajectory (identified in C19, C20) from
    (x, p); the test compares log u with the decrease of potential + kinetic energy, the potential
    being minus the log-density. *)
Theorem C13_hmc :
  forall h k x lp f d o, hmc_kernel h k x lp f d = Ok o ->
  exists m, h_cond h = CMat m /\
    let p := hmc_momentum h (normal (split k 2 0) (length x)) in
    let q' := fst (leapfrog h m f d (x, p)) in
    let p' := snd (leapfrog h m f d (x, p)) in
    s_acc o = (fln (uniform (split k 2 1)) <.?
               ((fneg lp +. kinetic p m) -. (fneg (lp_val f q' d) +. kinetic p' m))) /\
    (s_acc o = true -> s_pos o = q' /\ s_lp o = fneg (fneg (lp_val f q' d))) /\
    (s_acc o = false -> s_pos o = x /\ s_lp o = lp).
Proof. exact hmc_contract. Qed.

(** C13, flow proposal: step i compares the i-th flow draw with the state left by step i - 1. *)
Theorem C13_flow_proposal :
  forall p k x lp f d n co dim,
  samples_shape (nfp_model p) dim -> 0 < nfp_bs p ->
  dget d "n_steps" = Some (DInt (Z.of_nat n)) ->
  nfp_kernel p k x lp f d = Ok co ->
  exists props,
    sample_flow p (split k 2 1) n = Ok (props, map (m_logp (nfp_model p)) props) /\
    length props = n /\ length co = n /\ (forall y, In y props -> length y = dim) /\
    forall i, i < n ->
      let xp := s_pos (prev (x, lp, false) co i) in
      let lpp := s_lp (prev (x, lp, false) co i) in
      let y := nth i props [] in
      let o := nth i co (x, lp, false) in
      s_acc o = (fln (uniform (scan_key (split k 2 0) i)) <.?
                 ((lp_val f y d -. lpp) -. (m_logp (nfp_model p) y -. m_logp (nfp_model p) xp))) /\
      (s_acc o = true -> s_pos o = y /\ s_lp o = lp_val f y d) /\
      (s_acc o = false -> s_pos o = xp /\ s_lp o = lpp).
Proof. exact nfp_kernel_spec. Qed.

(* ==================================================================================== *)
(** C14.  An accepted proposal of a local kernel has a log-density that is neither NaN nor -inf. *)
Theorem C14_local_kernels :
  forall kf dim f d q x lp o, NumLaws -> repo_kernel kf dim ->
  kf q x lp f d = Ok o -> s_acc o = true ->
  fnan (lp_val f (s_pos o) d) = false /\ lp_val f (s_pos o) d <> fninf.
Proof. exact C14_local_kernels_proof. Qed.

(** MALA: an accepted proposal has no NaN in its gradient (nor had the starting point). *)
Theorem C14_mala_gradient :
  forall ss k x lp f d o i, NumLaws ->
  normal_shape -> grad_shape f d (length x) ->
  mala_kernel ss k x lp f d = Ok o -> s_acc o = true -> i < length x ->
  fnan (nth i (lp_grad f (s_pos o) d) f0) = false /\ fnan (nth i (lp_grad f x d) f0) = false.
Proof. exact C14_mala_gradient_proof. Qed.

(** HMC: neither the initial nor the final energy of an accepted trajectory is NaN. *)
Theorem C14_hmc_energy :
  forall h k x lp f d o m, NumLaws ->
  hmc_kernel h k x lp f d = Ok o -> s_acc o = true -> h_cond h = CMat m ->
  let p := hmc_momentum h (normal (split k 2 0) (length x)) in
  let z := leapfrog h m f d (x, p) in
  fnan (fneg lp +. kinetic p m) = false /\ fnan (fneg (lp_val f (fst z) d) +. kinetic (snd z) m) = false.
Proof. exact C14_hmc_energy_proof. Qed.

(** Flow proposal: no step, of any trajectory length, accepts such a draw. *)
Theorem C14_flow_kernel :
  forall p k x lp f d n co dim o, NumLaws ->
  samples_shape (nfp_model p) dim -> 0 < nfp_bs p ->
  dget d "n_steps" = Some (DInt (Z.of_nat n)) ->
  nfp_kernel p k x lp f d = Ok co -> In o co -> s_acc o = true ->
  fnan (lp_val f (s_pos o) d) = false /\ lp_val f (s_pos o) d <> fninf.
Proof. exact C14_flow_kernel_proof. Qed.

(** Whole stepping calls of any length: from starts that are not [impossible] (NaN or -inf), no
    recorded log-density is, and the positions handed to the next strategy are not either. *)
Theorem C14_local_steps :
  forall ts k xs d w k' xs' w' pl pb ll lb al ab kf lpr f cur dim,
  NumLaws ->
  setup w ts pl pb ll lb al ab (RSer kf) lpr cur -> density_of lpr f ->
  repo_kernel kf dim -> normal_shape -> grad_shape f d dim ->
  (forall x, In x xs -> length x = dim /\ ~ impossible (lp_val f x d)) ->
  let kept := cdiv (ts_n_steps ts) (ts_thinning ts) in
  room pb cur kept -> room lb cur kept -> room ab cur kept ->
  take_serial_steps ts k xs d w = (Ok (k', xs'), w') ->
  (forall x, In x xs' -> length x = dim /\ ~ impossible (lp_val f x d)) /\
  exists pb' lb',
    hget pl w' = Some (OBuf pb') /\ hget ll w' = Some (OBuf lb') /\
    (forall c s, c < length xs -> cur <= s < cur + kept -> ~ impossible (aget (b_data lb') [c; s])).
Proof. exact C14_serial_proof. Qed.

Theorem C14_global_steps :
  forall ts k xs d w k' xs' w' pl pb ll lb al ab p lpr f cur dim,
  NumLaws ->
  setup w ts pl pb ll lb al ab (RNFP p) lpr cur -> density_of lpr f ->
  samples_shape (nfp_model p) dim -> 0 < nfp_bs p ->
  (forall x, In x xs -> length x = dim /\ ~ impossible (lp_val f x d)) ->
  let kept := cdiv (ts_n_steps ts) (ts_thinning ts) in
  room pb cur kept -> room lb cur kept -> room ab cur kept ->
  take_group_steps ts k xs d w = (Ok (k', xs'), w') ->
  (forall x, In x xs' -> length x = dim /\ (ignores_n_steps f -> ~ impossible (lp_val f x d))) /\
  exists pb' lb',
    hget pl w' = Some (OBuf pb') /\ hget ll w' = Some (OBuf lb') /\
    (forall c s, c < length xs -> cur <= s < cur + kept -> ~ impossible (aget (b_data lb') [c; s])).
Proof. exact C14_group_proof. Qed.

(* ==================================================================================== *)
(** C22.  The batched evaluation of the target equals the plain one, for every batch size > 0. *)
Theorem C22_batched_logpdf :
  forall bs n f (props : list vec), 0 < bs -> length props = n ->
  batched_logpdf bs n f props = map f props.
Proof. exact batched_logpdf_spec. Qed.

(* ==================================================================================== *)
(** C23.  sample_flow returns exactly n proposals with their own flow log-densities; they are the
    first n of the concatenation of model.sample calls, none larger than the batch size, each with
    its own key; one call with the given key when n <= batch size. *)
Theorem C23_sample_flow :
  forall p k n dim props nfs,
  samples_shape (nfp_model p) dim ->
  sample_flow p k n = Ok (props, nfs) ->
  length props = n /\ nfs = map (m_logp (nfp_model p)) props /\
  (forall x, In x props -> length x = dim) /\
  exists (calls : list (key * nat)),
    (forall q s, In (q, s) calls -> s <= nfp_bs p) /\
    props = firstn n (concat (map (fun c => m_sample (nfp_model p) (fst c) (snd c)) calls)) /\
    n <= list_sum (map snd calls) /\
    (n <= nfp_bs p -> calls = [(k, n)]) /\
    (nfp_bs p < n -> forall i, i < length calls -> fst (nth i calls (k, 0)) = scan_key k i).
Proof. exact sample_flow_spec. Qed.

Theorem C23_raises :
  forall p k n, (exists o, sample_flow p k n = Ok o) <-> (0 < nfp_bs p \/ n = 0).
Proof. exact C23_raises_proof. Qed.
End Props.

(* ==================================================================================== *)
(** The arithmetic laws hold for IEEE binary32, with any library functions. *)
Example C14_float32 : forall pi fe fl ft, @NumLaws (B32Num pi fe fl ft).
Proof. exact B32_laws. Qed.

(** binary32: a random walk from 0 with noise 1; the target is 0 at the origin and -inf (then NaN)
    elsewhere, the proposal is rejected; with a finite target it is accepted. *)
Example C14_float32_run :
  accepted (@grw_kernel ENum ERng (@SScalar ENum (b32_ofZ 1)) tt [b32_ofZ 0] (b32_ofZ 0) (e_target b32_ninf) []) = Some false /\
  accepted (@grw_kernel ENum ERng (@SScalar ENum (b32_ofZ 1)) tt [b32_ofZ 0] (b32_ofZ 0) (e_target b32_nan) []) = Some false /\
  accepted (@grw_kernel ENum ERng (@SScalar ENum (b32_ofZ 1)) tt [b32_ofZ 0] (b32_ofZ 0) (e_target (b32_ofZ 3)) []) = Some true.
Proof. exact C14_float32_run_proof. Qed.

(** Each kernel of the toy instance runs; the flow kernel with a batch size (2) not dividing 5
    accepts some and rejects some proposals. *)
Example C13_runs :
  (exists o, @grw_kernel ZNum ZRng (@SScalar ZNum 1%Z) [] [1; 2]%Z 0%Z zlp [] = Ok o) /\
  (exists o, @mala_kernel ZNum ZRng (@SDiag ZNum [1; 2]%Z) [] [1; 2]%Z 0%Z zlp [] = Ok o) /\
  (exists o, @hmc_kernel ZNum ZRng (@mkHmc ZNum (@CMat ZNum [[1; 0]; [0; 1]]%Z) 1%Z 3 [[1; 0]; [0; 1]]%Z)
                [] [1; 2]%Z 0%Z zlp [] = Ok o) /\
  (exists o, @nfp_kernel ZNum ZRng ZNF (@mkNfp ZNum ZRng ZNF 1%Z 2) [] [1; 2]%Z (-5)%Z zlp
                [("n_steps", DInt 5)]%string = Ok o /\ length o = 5 /\
             existsb (fun s => snd s) o = true /\ forallb (fun s => snd s) o = false).
Proof. exact C13_runs_proof. Qed.

Print Assumptions C13_random_walk.
Print Assumptions C13_random_walk_raises.
Print Assumptions C13_mala.
Print Assumptions C13_mala_raises.
Print Assumptions C13_hmc.
Print Assumptions C13_flow_proposal.
Print Assumptions C14_local_kernels.
Print Assumptions C14_mala_gradient.
Print Assumptions C14_hmc_energy.
Print Assumptions C14_flow_kernel.
Print Assumptions C14_local_steps.
Print Assumptions C14_global_steps.
Print Assumptions C22_batched_logpdf.
Print Assumptions C23_sample_flow.
Print Assumptions C23_raises.
