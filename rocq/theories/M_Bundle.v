(** Model of the two resource/strategy bundles
    (resource_strategy_bundle/RQSpline_MALA.py and RQSpline_MALA_PT.py). *)
From Verif Require Import Prelude Num M_Core M_Kernels M_Strategies M_PT.

Section Bundle.
Context {N : Num} {G : Rng} {NF : NFOps}.

(** Constructor arguments (RQSpline_MALA.py 33-55).  The flow architecture parameters are
    represented by [c_model], the function building the model from its key; the optimiser by
    [c_tx] and [c_opt] (optimizer.py 13-23). *)
Record config := mkConfig {
  c_key : key; c_n_chains : nat; c_n_dims : nat; c_logpdf : lpdf;
  c_local : nat; c_global : nat; c_train_loops : nat; c_prod_loops : nat; c_epochs : nat;
  c_step : stepsize; c_chain_batch : nat; c_batch : nat; c_max : nat;
  c_local_th : nat; c_global_th : nat; c_nf_bs : nat; c_window : nat;
  c_model : key -> mdl; c_tx : gtx; c_opt : mdl -> optst }.

(** Number of slots of a phase with [loops] loops (RQSpline_MALA.py 57-64). *)
Definition phase_slots (c : config) (loops : nat) : nat :=
  c_local c / c_local_th c * loops + c_global c / c_global_th c * loops.

(** Heap locations of the bundle's mutable objects. *)
Definition L_pos_tr := 0. Definition L_lp_tr := 1. Definition L_la_tr := 2.
Definition L_ga_tr := 3.  Definition L_loss := 4.  Definition L_pos_pr := 5.
Definition L_lp_pr := 6.  Definition L_la_pr := 7. Definition L_ga_pr := 8.
Definition L_opt := 9.    Definition L_state := 10.
Definition L_lcur := 11.  Definition L_gcur := 12.
Definition L_tpos := 13.  Definition L_temp := 14.

(** RQSpline_MALA.py 103-112: initial sampler state. *)
Definition init_state : state := mkState "sampler_state"
  [("target_positions", SStr "positions_training");
   ("target_log_prob", SStr "log_prob_training");
   ("target_local_accs", SStr "local_accs_training");
   ("target_global_accs", SStr "global_accs_training");
   ("training", SBool true)]%string.

(** RQSpline_MALA.py 67-90, 100, 103-112, and the steppers' current_position = 0. *)
Definition base_heap (c : config) (m : mdl) : list obj :=
  let nt := phase_slots c (c_train_loops c) in
  let np := phase_slots c (c_prod_loops c) in
  let n := c_n_chains c in
  [ OBuf (buffer_init "positions_training" [n; nt; c_n_dims c] 1);
    OBuf (buffer_init "log_prob_training" [n; nt] 1);
    OBuf (buffer_init "local_accs_training" [n; nt] 1);
    OBuf (buffer_init "global_accs_training" [n; nt] 1);
    OBuf (buffer_init "loss_buffer" [c_train_loops c * c_epochs c] 0);
    OBuf (buffer_init "positions_production" [n; np; c_n_dims c] 1);
    OBuf (buffer_init "log_prob_production" [n; np] 1);
    OBuf (buffer_init "local_accs_production" [n; np] 1);
    OBuf (buffer_init "global_accs_production" [n; np] 1);
    OOpt (mkOptimizer (c_tx c) (c_opt c m));
    OState init_state;
    OCursor 0; OCursor 0 ]%string.

(** LogPDF(logpdf, n_dims=n_dims) (RQSpline_MALA.py 101). *)
Definition bundle_logpdf (c : config) : logpdf_res :=
  mkLogPDF (c_logpdf c)
    (map (fun i => mkVar (append "x_" (str_of_nat i)) true) (seq 0 (c_n_dims c))).

(** RQSpline_MALA.py 92-101, 114-130: resources.  The model is built from the second half of
    the split key. *)
Definition base_resources (c : config) (m : mdl) : dict resource :=
  [ ("logpdf", RLog (bundle_logpdf c));
    ("positions_training", RObj L_pos_tr);
    ("log_prob_training", RObj L_lp_tr);
    ("local_accs_training", RObj L_la_tr);
    ("global_accs_training", RObj L_ga_tr);
    ("loss_buffer", RObj L_loss);
    ("positions_production", RObj L_pos_pr);
    ("log_prob_production", RObj L_lp_pr);
    ("local_accs_production", RObj L_la_pr);
    ("global_accs_production", RObj L_ga_pr);
    ("local_sampler", RSer (mala_kernel (c_step c)));
    ("global_sampler", RNFP (mkNfp m (c_nf_bs c)));
    ("model", RModel m);
    ("optimizer", RObj L_opt);
    ("sampler_state", RObj L_state) ]%string.

(** RQSpline_MALA.py 132-152. *)
Definition local_ts (c : config) : takesteps :=
  mkTakeSteps "logpdf" "local_sampler" "sampler_state"
    "target_positions" "target_log_prob" "target_local_accs"
    (c_local c) (c_local_th c) (c_chain_batch c) L_lcur.
Definition global_ts (c : config) : takesteps :=
  mkTakeSteps "logpdf" "global_sampler" "sampler_state"
    "target_positions" "target_log_prob" "target_global_accs"
    (c_global c) (c_global_th c) (c_chain_batch c) L_gcur.

(** RQSpline_MALA.py 154-163 (history_window is the default 100 there and a parameter in
    RQSpline_MALA_PT.py 184-194). *)
Definition trainer_tm (c : config) (window : nat) : trainmodel :=
  mkTrainModel "model" "positions_training" "optimizer" "loss_buffer"
    (c_epochs c) (c_batch c) (c_max c) window.

(** RQSpline_MALA.py 165-181. *)
Definition prod_keys : list string :=
  ["target_positions"; "target_log_prob"; "target_local_accs"; "target_global_accs";
   "training"]%string.
Definition prod_values : list sval :=
  [SStr "positions_production"; SStr "log_prob_production"; SStr "local_accs_production";
   SStr "global_accs_production"; SBool false]%string.

(** RQSpline_MALA.py 183-202. *)
Definition reset_steppers (c : config) : strategy :=
  lambda (fun _ _ _ => do! _ <- set_current_position (local_ts c) 0;
                       set_current_position (global_ts c) 0).

(** RQSpline_MALA.py 204-213. *)
Definition update_global_step (c : config) : strategy :=
  lambda (fun _ _ _ => do! z <- get_cursor (ts_cur (local_ts c));
                       set_current_position (global_ts c) z).
Definition update_local_step (c : config) : strategy :=
  lambda (fun _ _ _ => do! z <- get_cursor (ts_cur (global_ts c));
                       set_current_position (local_ts c) z).

(** RQSpline_MALA.py 215-238: resources["global_sampler"] gets resources["model"]. *)
Definition update_model : strategy :=
  lambda (fun _ _ _ =>
    do! mr <- res_get "model";
    do! gr <- res_get "global_sampler";
    match mr, gr with
    | RModel m, RNFP p => res_set "global_sampler" (RNFP (mkNfp m (nfp_bs p)))
    | _, _ => mraise OtherError
    end).

(** RQSpline_MALA.py 240-249. *)
Definition base_strategies (c : config) (window : nat) : dict strategy :=
  [ ("local_stepper", take_serial_steps (local_ts c));
    ("global_stepper", take_group_steps (global_ts c));
    ("model_trainer", train_model (trainer_tm c window));
    ("update_state", update_state "sampler_state" prod_keys prod_values);
    ("update_global_step", update_global_step c);
    ("update_local_step", update_local_step c);
    ("reset_steppers", reset_steppers c);
    ("update_model", update_model) ]%string.

(** RQSpline_MALA.py 251-264. *)
Definition training_phase : list string :=
  ["local_stepper"; "update_global_step"; "model_trainer"; "update_model"; "global_stepper";
   "update_local_step"]%string.
Definition production_phase : list string :=
  ["local_stepper"; "update_global_step"; "global_stepper"; "update_local_step"]%string.

Fixpoint repeat_phase (n : nat) (p : list string) : list string :=
  match n with O => [] | S n' => p ++ repeat_phase n' p end.

(** RQSpline_MALA.py 265-274. *)
Definition base_order (c : config) : list string :=
  repeat_phase (c_train_loops c) training_phase
    ++ ["reset_steppers"; "update_state"]%string
    ++ repeat_phase (c_prod_loops c) production_phase.

(** RQSpline_MALA.py 33-274: the constructor; a zero thinning raises ZeroDivisionError
    (57-64).  Returns the heap with the freshly created objects and the bundle. *)
Definition rqspline_mala_bundle (c : config) : res (list obj * bundle) :=
  if (c_local_th c =? 0) || (c_global_th c =? 0) then Raise ZeroDivisionError
  else
    let m := c_model c (split (c_key c) 2 1) in
    Ok (base_heap c m,
        mkBundle (base_resources c m) (base_strategies c 100) (base_order c)).

(* ------------------------------------------------------------------------------------ *)
(** * RQSpline_MALA_PT *)

(** Extra arguments (RQSpline_MALA_PT.py 61-65): n_tempered_steps is a signed integer. *)
Record pt_config := mkPtConfig {
  p_base : config; p_n_temps : nat; p_max_temp : F; p_steps : Z; p_prior : lpdf }.

(** jnp.linspace(start, stop, n): start*(1-i/(n-1)) + stop*i/(n-1), the last entry exactly
    stop. *)
Definition linspace (a b : F) (n : nat) : list F :=
  match n with
  | 0 => []
  | 1 => [a]
  | S n' => map (fun i => let s := fofZ (Z.of_nat i) /. fofZ (Z.of_nat n') in
                          a *. (f1 -. s) +. b *. s) (seq 0 n') ++ [b]
  end.

(** RQSpline_MALA_PT.py 125-128: the temperature buffer after its initial update (full
    length, so the update always fits). *)
Definition temp_buffer (pc : pt_config) : buffer :=
  let b := buffer_init "temperature" [p_n_temps pc] 0 in
  match update_buffer b (stack1 (linspace f1 (p_max_temp pc) (p_n_temps pc))) 0 with
  | Ok b' => b' | Raise _ => b end.

(** RQSpline_MALA_PT.py 121-128. *)
Definition pt_heap (pc : pt_config) (m : mdl) : list obj :=
  let c := p_base pc in
  base_heap c m ++
  [ OBuf (buffer_init "tempered_positions" [c_n_chains c; p_n_temps pc - 1; c_n_dims c] 2);
    OBuf (temp_buffer pc) ].

(** RQSpline_MALA_PT.py 115-120. *)
Definition pt_tempered (pc : pt_config) : tempered :=
  mkTempered (bundle_logpdf (p_base pc)) (p_prior pc).

(** RQSpline_MALA_PT.py 141-160. *)
Definition pt_resources (pc : pt_config) (m : mdl) : dict resource :=
  base_resources (p_base pc) m ++
  [ ("tempered_logpdf", RTemp (pt_tempered pc));
    ("tempered_positions", RObj L_tpos);
    ("temperatures", RObj L_temp) ]%string.

(** RQSpline_MALA_PT.py 271-282. *)
Definition pt_strat (pc : pt_config) : ptemp :=
  mkPtemp (if (p_steps pc <=? 0)%Z then c_local (p_base pc) else Z.to_nat (p_steps pc))
    "tempered_logpdf" "local_sampler" "tempered_positions" "temperatures" "sampler_state".

(** RQSpline_MALA_PT.py 284-304. *)
Definition initialize_tempered_positions (pc : pt_config) : strategy :=
  lambda (fun _ xs _ =>
    buf_update L_tpos (stack3 (map (fun x => repeat x (p_n_temps pc - 1)) xs)) 0).

(** RQSpline_MALA_PT.py 306-317. *)
Definition pt_strategies (pc : pt_config) : dict strategy :=
  base_strategies (p_base pc) (c_window (p_base pc)) ++
  [ ("parallel_tempering", parallel_tempering (pt_strat pc));
    ("initialize_tempered_positions", initialize_tempered_positions pc) ]%string.

(** RQSpline_MALA_PT.py 319-334. *)
Definition pt_training_phase : list string := "parallel_tempering"%string :: training_phase.
Definition pt_production_phase : list string := "parallel_tempering"%string :: production_phase.

(** RQSpline_MALA_PT.py 335-344. *)
Definition pt_order (pc : pt_config) : list string :=
  ["initialize_tempered_positions"]%string
    ++ repeat_phase (c_train_loops (p_base pc)) pt_training_phase
    ++ ["reset_steppers"; "update_state"]%string
    ++ repeat_phase (c_prod_loops (p_base pc)) pt_production_phase.

(** RQSpline_MALA_PT.py 38-344.  n_temperatures = 0 would give a negative buffer dimension
    (ValueError). *)
Definition rqspline_mala_pt_bundle (pc : pt_config) : res (list obj * bundle) :=
  let c := p_base pc in
  if (c_local_th c =? 0) || (c_global_th c =? 0) then Raise ZeroDivisionError
  else if p_n_temps pc =? 0 then Raise ValueError
  else
    let m := c_model c (split (c_key c) 2 1) in
    Ok (pt_heap pc m, mkBundle (pt_resources pc m) (pt_strategies pc) (pt_order pc)).
End Bundle.
