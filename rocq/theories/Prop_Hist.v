(** C72: at any time, every recorded sample of a bundle is a position together with the value of the target there. *)
From Verif Require Import Prelude Num M_Core M_Kernels M_Strategies M_PT M_Bundle P_Lists Float32
  Spec Spec_Core Spec_Sampler Spec_Steps Spec_Kernels Spec_Train Spec_PT Spec_Bundle Spec_Kinds Spec_Prog Spec_Hist P_Hist4 P_Hist5 Toy Prop_Bundle Prop_Prog.
Open Scope nat_scope.

(** C72.  After any calls of sample on the base bundle, whether they returned or raised, and between any two strategies
    of a further call, every slot of the position and log-probability buffers of both phases either was never written or
    holds a position together with the value of the target there, with the data of one of the calls; every acceptance
    flag is -inf (not written), 0 or 1. *)
Theorem C72_base_honest : forall (N : Num) (G : Rng) (NF : NFOps) c h bd n nc k o kw s args good w,
  rqspline_mala_bundle c = Ok (h, bd) -> sampler_init n nc k None None o (Some bd) kw = Ok s -> history_ok c args good ->
  seen s h bd args w ->
  phase_honest c w "training" (target_value c args) /\ phase_honest c w "production" (target_value c args).
Proof. exact @base_honest. Qed.
(** With parallel tempering the recorded values are those of the target itself, never those of a tempered one. *)
Theorem C72_pt_honest : forall (N : Num) (G : Rng) (NF : NFOps) pc h bd n nc k o kw s args good w, let c := p_base pc in
  rqspline_mala_pt_bundle pc = Ok (h, bd) -> sampler_init n nc k None None o (Some bd) kw = Ok s -> history_ok c args good ->
  (forall init d, In (init, d) args -> grad_shape (p_prior pc) d (c_n_dims c)) -> seen s h bd args w ->
  phase_honest c w "training" (target_value c args) /\ phase_honest c w "production" (target_value c args).
Proof. exact @pt_honest. Qed.
(** For a target that does not read the entry n_steps of its data the value is exactly that of one of the calls. *)
Theorem C72_value : forall (N : Num) (G : Rng) (NF : NFOps) c args x v, ignores_n_steps (c_logpdf c) -> target_value c args x v ->
  exists init d, In (init, d) args /\ v = lp_val (c_logpdf c) x d.
Proof. exact @exact_value. Qed.
(** Support: if the target is NaN or -inf outside a region and every call starts in it, no recorded position is outside. *)
Theorem C72_base_support : forall (N : Num) (G : Rng) (NF : NFOps) c h bd n nc k o kw s args P good w, NumLaws ->
  rqspline_mala_bundle c = Ok (h, bd) -> sampler_init n nc k None None o (Some bd) kw = Ok s -> history_ok c args good ->
  (forall init d, In (init, d) args ->
     impossible_outside (c_logpdf c) d (c_n_dims c) P /\ impossible_outside (c_logpdf c) (with_n_steps d (c_global c)) (c_n_dims c) P) ->
  starts_in args P -> seen s h bd args w ->
  phase_honest c w "training" (fun x _ => P x) /\ phase_honest c w "production" (fun x _ => P x).
Proof. exact @base_support. Qed.
(** With tempering, if in addition the prior is NaN or -inf outside. *)
Theorem C72_pt_support : forall (N : Num) (G : Rng) (NF : NFOps) pc h bd n nc k o kw s args P good w, let c := p_base pc in NumLaws ->
  rqspline_mala_pt_bundle pc = Ok (h, bd) -> sampler_init n nc k None None o (Some bd) kw = Ok s -> history_ok c args good ->
  (forall init d, In (init, d) args -> grad_shape (p_prior pc) d (c_n_dims c)) ->
  (forall init d, In (init, d) args ->
     impossible_outside (c_logpdf c) d (c_n_dims c) P /\ impossible_outside (c_logpdf c) (with_n_steps d (c_global c)) (c_n_dims c) P /\
     impossible_outside (p_prior pc) d (c_n_dims c) P) ->
  starts_in args P -> seen s h bd args w ->
  phase_honest c w "training" (fun x _ => P x) /\ phase_honest c w "production" (fun x _ => P x).
Proof. exact @pt_support. Qed.

(** Three calls of the toy bundles, the second raising TypeError after it has begun (four positions for buffers of two
    chains), and a fourth one seen after its third strategy. *)
Definition z_hist : list (@initpos ZNum * @datad ZNum) := [(@P2 ZNum zstart, []); (@P2 ZNum (zstart ++ zstart), [])].
Example C72_case : @history_ok ZNum ZRng ZNF zcfg z_hist (fun _ => True) /\ (forall init d, In (init, d) z_hist -> @grad_shape ZNum (p_prior zpcfg) d 2) /\
  @seen ZNum ZRng ZNF (zsamp (snd zhb)) (fst zhb) (snd zhb) z_hist
    (snd (@run_order ZNum ZRng ZNF (bd_strategies (snd zhb)) (firstn 3 (bd_order (snd zhb))) [5] zstart []
       (calls_of (zsamp (snd zhb)) (fst zhb) (z_hist ++ z_hist)))).
Proof.
  assert (HG : forall d, @grad_shape ZNum zlp d 2) by (intros d x Hx; cbn; now rewrite map_length).
  split; [|split].
  - destruct z_run_ok as [O1 O2 O3 O4 O5 O6 O7 O7b O8 O9 O10 O11]. constructor; try (cbn; lia); auto.
    + intros init d x [E|[E|[]]]; injection E as <- <-; cbn; intros H; repeat (destruct H as [<-|H]; [reflexivity|]); destruct H.
  - intros init d _. apply HG.
  - exists (z_hist ++ z_hist), (@P2 ZNum zstart), [], 3, [5]. split; [|split; [left; reflexivity|reflexivity]].
    intros a Ha. apply in_app_iff in Ha as [Ha|Ha]; exact Ha.
Qed.
(** In it some slots are written and some are not. *)
Example C72_slots :
  let w := calls_of (zsamp (snd zhb)) (fst zhb) z_hist in
  existsb (fun s => Z.eqb (zdata w L_lp_tr [0; s]) (-1000000)) (seq 0 8) = false /\
  map (fun s => zdata w L_lp_tr [0; s]) (seq 0 2) =
  map (fun s => @lp_val ZNum zlp [zdata w L_pos_tr [0; s; 0]; zdata w L_pos_tr [0; s; 1]] []) (seq 0 2).
Proof. split; vm_compute; reflexivity. Qed.
(** A binary32 target that is NaN at non-finite positions is impossible outside the finite ones. *)
Example C72_binary32 pi fe fl ft : forall d, @impossible_outside (B32Num pi fe fl ft) (b_target pi fe fl ft) d 2 (fun x => @finite_row (B32Num pi fe fl ft) x = true).
Proof. intros d x Hx. destruct (@finite_row (B32Num pi fe fl ft) x) eqn:E; [left; reflexivity|right]. exact (b_rules pi fe fl ft d x Hx E). Qed.

Print Assumptions C72_base_honest. Print Assumptions C72_pt_honest. Print Assumptions C72_value. Print Assumptions C72_base_support. Print Assumptions C72_pt_support.
