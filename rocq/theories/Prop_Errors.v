(** C75: misconfigured strategies raise the first problem met and change nothing. *)
From Verif Require Import Prelude Num M_Core M_Kernels M_Strategies M_PT Spec_Errors P_Errors Toy.

(** Stepping: the State, its three entries, the three buffers they name, the kernel, the target. *)
Theorem C75_steps : forall (N : Num) (G : Rng) (NF : NFOps) samp ts k xs d w e,
  first_error [lookup_error w (ts_state ts) (is_state w);
    entry_error w (ts_state ts) (ts_pos_key ts); entry_error w (ts_state ts) (ts_lp_key ts); entry_error w (ts_state ts) (ts_acc_key ts);
    entry_buffer_error w (ts_state ts) (ts_pos_key ts); entry_buffer_error w (ts_state ts) (ts_lp_key ts); entry_buffer_error w (ts_state ts) (ts_acc_key ts);
    lookup_error w (ts_kernel ts) anything; lookup_error w (ts_logpdf ts) anything] = Some e ->
  take_steps samp ts k xs d w = (Raise e, w).
Proof. exact @steps_error. Qed.
(** A serial stepper given a flow kernel (or no kernel), a group stepper given a one-step kernel, a target that is not
    a LogPDF: refused whenever there is a chain. *)
Theorem C75_serial_kind : forall (N : Num) (G : Rng) (NF : NFOps) ts k xs d w kr lr,
  xs <> [] -> dget (rdict w) (ts_kernel ts) = Some kr -> dget (rdict w) (ts_logpdf ts) = Some lr ->
  ((forall kf, kr <> RSer kf) \/ (forall l, lr <> RLog l) /\ (forall t, lr <> RTemp t)) ->
  exists e, take_serial_steps ts k xs d w = (Raise e, w).
Proof. exact @serial_kind. Qed.
Theorem C75_group_kind : forall (N : Num) (G : Rng) (NF : NFOps) ts k xs d w kr lr,
  xs <> [] -> dget (rdict w) (ts_kernel ts) = Some kr -> dget (rdict w) (ts_logpdf ts) = Some lr ->
  ((forall p, kr <> RNFP p) \/ (forall l, lr <> RLog l) /\ (forall t, lr <> RTemp t)) ->
  exists e, take_group_steps ts k xs d w = (Raise e, w).
Proof. exact @group_kind. Qed.
(** Training: the model, the data buffer, the optimizer. *)
Theorem C75_training : forall (N : Num) (G : Rng) (NF : NFOps) tm k xs d w e,
  first_error [lookup_error w (tm_model tm) is_model; lookup_error w (tm_data tm) (is_buffer w); lookup_error w (tm_opt tm) (is_optimizer w)] = Some e ->
  train_model tm k xs d w = (Raise e, w).
Proof. exact @train_error. Qed.
(** Parallel tempering: the kernel, the tempered target, the two buffers, the State. *)
Theorem C75_tempering : forall (N : Num) (G : Rng) (NF : NFOps) pt k xs d w e,
  first_error [lookup_error w (pt_kernel pt) is_kernel; lookup_error w (pt_logpdf pt) is_tempered;
    lookup_error w (pt_pos_buf pt) (is_buffer w); lookup_error w (pt_temp_buf pt) (is_buffer w); lookup_error w (pt_state pt) (is_state w)] = Some e ->
  parallel_tempering pt k xs d w = (Raise e, w).
Proof. exact @tempering_error. Qed.
Theorem C75_update_state : forall (N : Num) (G : Rng) (NF : NFOps) name keys values k xs d w e,
  lookup_error w name (is_state w) = Some e -> update_state name keys values k xs d w = (Raise e, w).
Proof. exact @update_error. Qed.

(** Cases of each kind in the toy world: missing State, State that is a buffer, missing entry, missing kernel. *)
Example C75_cases :
  @take_serial_steps ZNum ZRng ZNF (mkTakeSteps "lp" "rw" "nope" "p" "l" "a" 3 1 0 4) [] zstart [] zworld = (Raise KeyError, zworld) /\
  @take_serial_steps ZNum ZRng ZNF (mkTakeSteps "lp" "rw" "P" "p" "l" "a" 3 1 0 4) [] zstart [] zworld = (Raise AssertionError, zworld) /\
  @take_serial_steps ZNum ZRng ZNF (mkTakeSteps "lp" "rw" "st" "p" "x" "a" 3 1 0 4) [] zstart [] zworld = (Raise KeyError, zworld) /\
  @take_serial_steps ZNum ZRng ZNF (mkTakeSteps "lp" "xx" "st" "p" "l" "a" 3 1 0 4) [] zstart [] zworld = (Raise KeyError, zworld) /\
  @update_state ZNum ZRng ZNF "P" [] [] [] zstart [] zworld = (Raise AssertionError, zworld) /\
  @train_model ZNum ZRng ZNF (mkTrainModel "lp" "P" "o" "" 1 1 1 1) [] zstart [] zworld = (Raise AssertionError, zworld) /\
  @parallel_tempering ZNum ZRng ZNF (mkPtemp 1 "lp" "rw" "P" "L" "st") [] zstart [] zworld = (Raise AssertionError, zworld).
Proof.
  split; [apply C75_steps; reflexivity|]. split; [apply C75_steps; reflexivity|]. split; [apply C75_steps; reflexivity|]. split; [apply C75_steps; reflexivity|].
  split; [apply C75_update_state; reflexivity|]. split; [apply C75_training; reflexivity|apply C75_tempering; reflexivity].
Qed.
Example C75_kind_cases :
  (exists e, @take_serial_steps ZNum ZRng ZNF (zts "nf" 3 1 0) [] zstart [] zworld = (Raise e, zworld)) /\
  (exists e, @take_group_steps ZNum ZRng ZNF (zts "rw" 3 1 0) [] zstart [] zworld = (Raise e, zworld)).
Proof.
  split.
  - eapply C75_serial_kind; [discriminate|reflexivity|reflexivity|]. left. discriminate.
  - eapply C75_group_kind; [discriminate|reflexivity|reflexivity|]. left. discriminate.
Qed.
Print Assumptions C75_steps.
Print Assumptions C75_serial_kind.
Print Assumptions C75_group_kind.
Print Assumptions C75_training.
Print Assumptions C75_tempering.
Print Assumptions C75_update_state.
