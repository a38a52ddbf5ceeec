(** C86: the units of the parameters. *)
From Coq Require Import Reals Psatz.
From Verif Require Import Prelude Num M_Core M_Kernels M_Strategies M_PT M_Net M_Mala P_Lists RNum MxR Spec_Kernels Spec_Prog Spec_Real Spec_HMC
  Spec_Net Spec_TreeR Spec_Mala P_Mala Spec_Units P_Units1 P_Units2.
Open Scope R_scope.

(** C86.  Measuring the parameters in other units and from other origins (y_i = a_i x_i + b_i), with the target's gradient, the
    kernel's step sizes or condition matrix and the starting point converted, changes nothing but the units: with the same key
    every step of every kernel makes the same decision, records the same log-probability and the converted position. *)
Theorem C86_kernels : forall (G : @Rng RNum) n a b, normal_shape -> (forall i, (i < n)%nat -> a i <> 0) ->
  forall kern kern', kernel_in_units n a kern kern' -> forall k f g d (x x' : list R) (lp : R), target_in_units n a b f g -> in_units n a b x x' ->
  both (step_in_units n a b) (kern k x lp f d) (kern' k x' lp g d).
Proof. intros G n a b NS A0. exact (kernel_units NS n a b A0). Qed.
(** All chains of TakeSerialSteps, any number of steps, any chain batch size. *)
Theorem C86_serial : forall (G : @Rng RNum) n a b, normal_shape -> (forall i, (i < n)%nat -> a i <> 0) ->
  forall kern kern' f g d steps batch keys (xs xs' : list (list R)), kernel_in_units n a kern kern' -> target_in_units n a b f g ->
  Forall2 (in_units n a b) xs xs' ->
  both (Forall2 (Forall2 (step_in_units n a b)))
    (run_chains (serial_sample kern f d steps) batch keys xs) (run_chains (serial_sample kern' g d steps) batch keys xs').
Proof.
  intros G n a b NS A0 kern kern' f g d steps batch keys xs xs' K T X. apply chains_units; [|exact X].
  intros k x x' HX. now apply (serial_units NS n a b A0).
Qed.
(** The same for TakeGroupSteps with a flow and the flow it becomes in the new units. *)
Theorem C86_group : forall (G : @Rng RNum) (NF : @NFOps RNum G) n a b m m' bs f g d steps batch keys (xs xs' : list (list R)),
  flow_in_units n a b m m' -> target_in_units n a b f g -> (0 < bs)%nat -> Forall2 (in_units n a b) xs xs' ->
  both (Forall2 (Forall2 (step_in_units n a b)))
    (run_chains (group_sample (mkNfp m bs) f d steps) batch keys xs) (run_chains (group_sample (mkNfp m' bs) g d steps) batch keys xs').
Proof.
  intros G NF n a b m m' bs f g d steps batch keys xs xs' H T B X. apply chains_units; [|exact X].
  intros k x x' HX. now apply group_units.
Qed.
(** Parallel tempering: the tempered ensemble of a chain, and the exchanges between temperatures (same decisions). *)
Theorem C86_tempering : forall (G : @Rng RNum) n a b, normal_shape -> (forall i, (i < n)%nat -> a i <> 0) ->
  forall kern kern' t t' d steps k (temps : list R) (xs xs' : list (list R)), kernel_in_units n a kern kern' -> tempered_in_units n a b t t' ->
  Forall2 (in_units n a b) xs xs' -> length xs = length temps ->
  both (Forall2 (in_units n a b)) (ensemble_step steps kern t d temps k xs) (ensemble_step steps kern' t' d temps k xs') /\
  forall q, let r := exchange t d temps q xs in let r' := exchange t' d temps q xs' in
    Forall2 (in_units n a b) (fst (fst r)) (fst (fst r')) /\ snd (fst r') = snd (fst r) /\ snd r' = snd r.
Proof.
  intros G n a b NS A0 kern kern' t t' d steps k temps xs xs' K T X L. split; [now apply (ensemble_units NS n a b A0)|].
  intros q. exact (exchange_units n a b t t' d temps q xs xs' T X).
Qed.

(* ------------------------------------------------------------------ a concrete case *)
(** Two parameters, lengths in halves and thirds from other origins; a Gaussian target. *)
Definition ua (i : nat) : R := match i with O => 2 | _ => 3 end.
Definition ub (i : nat) : R := match i with O => 1 | _ => -1 end.
Definition uf : @lpdf RNum := @mkLpdf RNum (fun (x : list R) _ => - (nth 0 x 0 ^ 2 + nth 1 x 0 ^ 2) / 2) (fun (x : list R) _ => [- nth 0 x 0; - nth 1 x 0]).
Definition ug : @lpdf RNum := @mkLpdf RNum (fun (y : list R) _ => - (((nth 0 y 0 - 1) / 2) ^ 2 + ((nth 1 y 0 + 1) / 3) ^ 2) / 2)
  (fun (y : list R) _ => [- ((nth 0 y 0 - 1) / 2) / 2; - ((nth 1 y 0 + 1) / 3) / 3]).
Example C86_case_target : target_in_units 2 ua ub uf ug /\ in_units 2 ua ub [1; 2] [3; 5] /\ (forall i, (i < 2)%nat -> ua i <> 0).
Proof.
  split; [|split].
  - intros x y d (L1 & L2 & H). pose proof (H 0%nat ltac:(lia)) as H0. pose proof (H 1%nat ltac:(lia)) as H1. cbn [ua ub] in H0, H1.
    cbn [uf ug lp_val lp_grad]. change (@F RNum) with R in * . rewrite H0, H1. split; [|split; [reflexivity|split; [reflexivity|]]].
    + cbn. field.
    + intros [|[|i]] Hi; [cbn; field|cbn; field|lia].
  - split; [reflexivity|]. split; [reflexivity|]. intros [|[|i]] Hi; [cbn; lra|cbn; lra|lia].
  - intros [|[|i]] Hi; cbn; lra.
Qed.
(** A scalar step becomes a vector (random walk) or a diagonal matrix (MALA); a diagonal condition matrix and its factor (HMC). *)
Example C86_case_kernels (G : @Rng RNum) :
  kernel_in_units 2 ua (grw_kernel (@SScalar RNum (1/2))) (grw_kernel (@SVec RNum [1; 3/2])) /\
  kernel_in_units 2 ua (mala_kernel (@SScalar RNum (1/2))) (mala_kernel (@SDiag RNum [1; 3/2])) /\
  kernel_in_units 2 ua (hmc_kernel (@mkHmc RNum (CMat [[1; 0]; [0; 4]]) (1/10) 5 [[1; 0]; [0; 1/2]]))
                       (hmc_kernel (@mkHmc RNum (CMat [[4; 0]; [0; 36]]) (1/10) 5 [[1/2; 0]; [0; 1/6]])) /\
  (forall chol, chol_law chol -> kernel_in_units 2 ua (mat_mala_kernel chol [[1; 0]; [0; 2]]) (mat_mala_kernel chol [[2; 0]; [0; 6]])) /\
  (** coordinates with one unit can be coupled *)
  kernel_in_units 2 (fun _ => 2) (hmc_kernel (@mkHmc RNum (CMat [[2; 1]; [1; 2]]) (1/10) 5 [[1; 0]; [1; 1]]))
                                 (hmc_kernel (@mkHmc RNum (CMat [[8; 4]; [4; 8]]) (1/10) 5 [[1/2; 0]; [1/2; 1/2]])).
Proof.
  assert (SQ : forall p q r s : R, square_mat [[p; q]; [r; s]] 2) by (intros; split; [reflexivity|]; intros w [<-|[<-|[]]]; reflexivity).
  split; [|split; [|split; [|split]]].
  - apply ku_walk; [exact I|reflexivity|]. intros [|[|i]] Hi; [cbn; lra|cbn; lra|lia].
  - apply ku_langevin; [exact I|reflexivity| |].
    + intros i Hi. cbn. lra.
    + intros [|[|i]] Hi; [cbn; lra|cbn; lra|lia].
  - apply ku_hamiltonian. split; [reflexivity|]. split; [reflexivity|]. do 2 eexists. split; [reflexivity|]. split; [reflexivity|].
    do 4 (split; [apply SQ|]). intros [|[|i]] [|[|j]] Hi Hj; try lia; cbn; (split; [|split]); try lra; (left; reflexivity) || (right; reflexivity).
  - intros chol CL. apply ku_matrix; [exact CL| |].
    + exists [[1; 0]; [0; 2]]. split.
      * split; [split; [reflexivity|intros w [<-|[<-|[]]]; reflexivity]|]. split.
        -- intros i j Hij. assert (i = 0%nat /\ j = 1%nat) as [-> ->] by lia. reflexivity.
        -- intros [|[|i]] Hi; [cbn; lra|cbn; lra|lia].
      * intros [|[|i]] [|[|j]] Hi Hj; try lia; cbn; lra.
    + split; [split; [reflexivity|intros w [<-|[<-|[]]]; reflexivity]|]. split; [split; [reflexivity|intros w [<-|[<-|[]]]; reflexivity]|].
      intros [|[|i]] [|[|j]] Hi Hj; try lia; cbn; (split; [|lra]); (left; reflexivity) || (right; reflexivity).
  - apply ku_hamiltonian. split; [reflexivity|]. split; [reflexivity|]. do 2 eexists. split; [reflexivity|]. split; [reflexivity|].
    do 4 (split; [apply SQ|]). intros [|[|i]] [|[|j]] Hi Hj; try lia; cbn; (split; [right; reflexivity|split]); lra.
Qed.
(** Affine flows: the flow with scales s and offsets o becomes the flow with scales a s and offsets a o + b. *)
Definition uflow (z : nat -> R) (m : (nat -> R) * (nat -> R)) : list R := map (fun i => fst m i * z i + snd m i) (seq 0 2).
Definition UNF (G : @Rng RNum) (z : key -> nat -> nat -> R) : @NFOps RNum G :=
  @mkNFOps RNum G ((nat -> R) * (nat -> R)) unit unit
    (fun m (y : list R) => - (((nth 0 y 0 - snd m 0%nat) / fst m 0%nat) ^ 2 + ((nth 1 y 0 - snd m 1%nat) / fst m 1%nat) ^ 2) / 2 - ln (Rabs (fst m 0%nat)) - ln (Rabs (fst m 1%nat)))
    (fun m k s => map (fun j => uflow (z k j) m) (seq 0 s)) (fun m _ _ st => (0, m, st)) (fun m _ => m).
Example C86_case_flow (G : @Rng RNum) (z : key -> nat -> nat -> R) :
  @flow_in_units G (UNF G z) 2 ua ub ((fun _ => 5), (fun _ => 7)) ((fun i => ua i * 5), (fun i => ua i * 7 + ub i)).
Proof.
  split.
  - intros k s. cbn [m_sample UNF]. split; [now rewrite map_length, seq_length|]. 
    set (u := fun j => uflow (z k j) ((fun _ => 5), (fun _ => 7))). set (v := fun j => uflow (z k j) ((fun i => ua i * 5), (fun i => ua i * 7 + ub i))).
    assert (Q : forall s j, Forall2 (in_units 2 ua ub) (map u (seq j s)) (map v (seq j s))); [|apply Q]. clear s.
    induction s as [|s IH]; intros j; cbn [seq map]; constructor; [|apply IH].
    split; [reflexivity|]. split; [reflexivity|]. intros [|[|i]] Hi; [cbn; ring|cbn; ring|lia].
  - exists (Rsum 2 (fun i => ln (Rabs (ua i)))). intros x y (L1 & L2 & H). pose proof (H 0%nat ltac:(lia)) as H0. pose proof (H 1%nat ltac:(lia)) as H1. cbn [ua ub] in H0, H1.
    cbn [m_logp UNF fst snd Rsum]. change (@F RNum) with R in * . rewrite H0, H1. cbn [ua ub].
    assert (P : forall p q, 0 < p -> 0 < q -> ln (Rabs (p * q)) = ln (Rabs p) + ln (Rabs q)).
    { intros p q Hp Hq. rewrite Rabs_mult. apply ln_mult; apply Rabs_pos_lt; lra. }
    rewrite !P by lra. field.
Qed.

Print Assumptions C86_kernels.
Print Assumptions C86_serial.
Print Assumptions C86_group.
Print Assumptions C86_tempering.
