(** Specification vocabulary: a whole bundle run in other units. *)
From Coq Require Import Reals.
From Verif Require Import Prelude Num M_Core M_Kernels M_Strategies M_PT M_Bundle RNum Spec Spec_Core Spec_Steps Spec_Kernels Spec_Train Spec_PT Spec_Bundle
  Spec_Prog Spec_Real Spec_HMC Spec_Units.

Section SpecURun.
Context {G : @Rng RNum} {NF : @NFOps RNum G}.

(** The same bundle settings with the target, its gradient and the MALA step size converted.  The flow constructor may differ;
    for the initial flows it must give the same optimiser state. *)
Record config_in_units (n : nat) (a b : nat -> R) (c c' : config) : Prop := mkCU {
  cu_key : c_key c' = c_key c; cu_chains : c_n_chains c' = c_n_chains c; cu_dims : c_n_dims c = n; cu_dims' : c_n_dims c' = n;
  cu_local : c_local c' = c_local c; cu_global : c_global c' = c_global c;
  cu_train : c_train_loops c' = c_train_loops c; cu_prod : c_prod_loops c' = c_prod_loops c;
  cu_epochs : c_epochs c' = c_epochs c; cu_batch : c_batch c' = c_batch c; cu_max : c_max c' = c_max c;
  cu_local_th : c_local_th c' = c_local_th c; cu_global_th : c_global_th c' = c_global_th c; cu_bs : c_nf_bs c' = c_nf_bs c;
  cu_window : c_window c' = c_window c; cu_tx : c_tx c' = c_tx c;
  cu_target : target_in_units n a b (c_logpdf c) (c_logpdf c');
  cu_step : step_accepted (c_step c) n /\ step_accepted (c_step c') n /\ (forall i, (i < n)%nat -> step_of (c_step c) i <> 0%R) /\
            steps_in_units n a (c_step c) (c_step c');
  cu_opt : c_opt c' (c_model c' (split (c_key c) 2 1)) = c_opt c (c_model c (split (c_key c) 2 1)) }.

(** A relation [conv] between flows in the old and in the new units that the training respects: fitting the data statistics to
    converted data makes flows related by [pre] related by [conv]; a training step on a converted batch has the same loss and
    leads to the same optimiser state (from states with property [okst], which training keeps); related flows propose converted points with the same density up to a constant. *)
Record flows_convert (n : nat) (a b : nat -> R) (tx : gtx) (max : nat) (okst : optst -> Prop) (pre conv : mdl -> mdl -> Prop) : Prop := mkFC {
  fc_pre : forall m m', conv m m' -> pre m m';
  fc_flow : forall m m', conv m m' -> flow_in_units n a b m m';
  fc_stats : forall m m' data data', pre m m' -> length data = max -> Forall2 (in_units n a b) data data' -> conv (m_stats m data) (m_stats m' data');
  fc_step : forall m m' batch batch' st, conv m m' -> okst st -> Forall2 (in_units n a b) batch batch' ->
    let r := m_step m batch tx st in let r' := m_step m' batch' tx st in
    fst (fst r') = fst (fst r) /\ conv (snd (fst r)) (snd (fst r')) /\ snd r' = snd r /\ okst (snd r) }.

(** The four buffers of a phase hold the same run in the two units: converted positions, the same log-probabilities and
    acceptance entries in every slot. *)
Definition records_in_units (n : nat) (a b : nat -> R) (chains slots : nat) (w w' : world) (phase : string) : Prop :=
  exists pl pb ll lb al ab gl gb pl' pb' ll' lb' al' ab' gl' gb',
    buffer_named w (append "positions_" phase) pl pb /\ buffer_named w (append "log_prob_" phase) ll lb /\
    buffer_named w (append "local_accs_" phase) al ab /\ buffer_named w (append "global_accs_" phase) gl gb /\
    buffer_named w' (append "positions_" phase) pl' pb' /\ buffer_named w' (append "log_prob_" phase) ll' lb' /\
    buffer_named w' (append "local_accs_" phase) al' ab' /\ buffer_named w' (append "global_accs_" phase) gl' gb' /\
    ashape (b_data pb) = [chains; slots; n] /\ ashape (b_data pb') = [chains; slots; n] /\
    forall i s, i < chains -> s < slots ->
      in_units n a b (brow pb n i s) (brow pb' n i s) /\
      aget (b_data lb') [i; s] = aget (b_data lb) [i; s] /\
      aget (b_data ab') [i; s] = aget (b_data ab) [i; s] /\
      aget (b_data gb') [i; s] = aget (b_data gb) [i; s].
(** The same losses. *)
Definition same_losses (w w' : world) : Prop :=
  exists l lb l' lb', buffer_named w "loss_buffer" l lb /\ buffer_named w' "loss_buffer" l' lb' /\
    ashape (b_data lb') = ashape (b_data lb) /\ b_cursor lb' = b_cursor lb /\
    forall j, j < nth 0 (ashape (b_data lb)) 0 -> aget (b_data lb') [j] = aget (b_data lb) [j].
(** The training positions are in range in one system of units exactly where they are in the other (numbers are finite below
    2^128; a conversion must not carry positions across that bound, or the training sees other examples). *)
Definition same_range (n chains : nat) (w w' : world) : Prop :=
  forall l pb l' pb', buffer_named w "positions_training" l pb -> buffer_named w' "positions_training" l' pb' ->
  forall i s, i < chains -> s < nth 1 (ashape (b_data pb)) 0 -> finite_row (brow pb n i s) = finite_row (brow pb' n i s).
(** Some epoch of the first training has a loss below the 10^9 with which the comparison starts, so that its flow is kept. *)
Definition first_training_kept (c : config) (w : world) : Prop :=
  exists l lb j, buffer_named w "loss_buffer" l lb /\ j < c_epochs c /\ 0 < c_train_loops c /\ (aget (b_data lb) [j] < 1000000000)%R.

(** Two runs in the two units. *)
Definition runs_in_units (n : nat) (a b : nat -> R) (c : config) (conv : mdl -> mdl -> Prop)
  (k : key) (xs : list (list R)) (w : world) (k' : key) (xs' : list (list R)) (w' : world) : Prop :=
  k' = k /\ Forall2 (in_units n a b) xs xs' /\
  records_in_units n a b (c_n_chains c) (phase_slots c (c_train_loops c)) w w' "training" /\
  records_in_units n a b (c_n_chains c) (phase_slots c (c_prod_loops c)) w w' "production" /\
  same_losses w w' /\ content_of w' "optimizer" = content_of w "optimizer" /\
  exists m m', content_of w "model" = CPlain (RModel m) /\ content_of w' "model" = CPlain (RModel m') /\ conv m m'.
End SpecURun.

(** The parallel-tempering bundle: the same temperatures and numbers of steps, and a converted prior. *)
Record pt_config_in_units {G : @Rng RNum} {NF : @NFOps RNum G} (n : nat) (a b : nat -> R) (p p' : pt_config) : Prop := mkPCU {
  pu_base : config_in_units n a b (p_base p) (p_base p'); pu_temps : p_n_temps p' = p_n_temps p; pu_max : p_max_temp p' = p_max_temp p;
  pu_steps : p_steps p' = p_steps p; pu_prior : target_in_units n a b (p_prior p) (p_prior p') }.
(** The tempered walkers kept between loops, and the temperatures. *)
Definition ensembles_in_units {G : @Rng RNum} {NF : @NFOps RNum G} (n : nat) (a b : nat -> R) (chains walkers : nat) (w w' : world) : Prop :=
  exists pl pb tl tb pl' pb' tl' tb', buffer_named w "tempered_positions" pl pb /\ buffer_named w "temperatures" tl tb /\
    buffer_named w' "tempered_positions" pl' pb' /\ buffer_named w' "temperatures" tl' tb' /\
    ashape (b_data pb) = [chains; walkers; n] /\ ashape (b_data pb') = [chains; walkers; n] /\
    (forall i j, i < chains -> j < walkers -> in_units n a b (brow pb n i j) (brow pb' n i j)) /\ temps_of tb' = temps_of tb.
