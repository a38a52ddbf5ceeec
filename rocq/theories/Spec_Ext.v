(** Specification vocabulary: comparing two runs of a bundle. *)
From Verif Require Import Prelude Num M_Core M_Kernels M_Strategies M_PT M_Bundle Spec Spec_Core Spec_Steps Spec_Kernels Spec_Train Spec_PT Spec_Bundle.

Section SpecExt.
Context {N : Num} {G : Rng} {NF : NFOps}.

(** The same bundle settings, except for the number of training and production loops, the chain batch size, and the batch size
    of the flow kernel where all proposals fit into one batch. *)
Record same_settings (c1 c2 : config) : Prop := mkSame {
  se_key : c_key c1 = c_key c2; se_chains : c_n_chains c1 = c_n_chains c2; se_dims : c_n_dims c1 = c_n_dims c2;
  se_logpdf : c_logpdf c1 = c_logpdf c2; se_local : c_local c1 = c_local c2; se_global : c_global c1 = c_global c2;
  se_epochs : c_epochs c1 = c_epochs c2; se_step : c_step c1 = c_step c2; se_batch : c_batch c1 = c_batch c2;
  se_max : c_max c1 = c_max c2; se_local_th : c_local_th c1 = c_local_th c2; se_global_th : c_global_th c1 = c_global_th c2;
  se_window : c_window c1 = c_window c2; se_model : c_model c1 = c_model c2; se_tx : c_tx c1 = c_tx c2; se_opt : c_opt c1 = c_opt c2;
  se_bs : c_nf_bs c1 = c_nf_bs c2 \/ (c_global c1 <= c_nf_bs c1 /\ c_global c2 <= c_nf_bs c2) }.
(** The same for the parallel-tempering bundle. *)
Record same_pt_settings (p1 p2 : pt_config) : Prop := mkSamePt {
  sp_base : same_settings (p_base p1) (p_base p2); sp_temps : p_n_temps p1 = p_n_temps p2; sp_max : p_max_temp p1 = p_max_temp p2;
  sp_steps : p_steps p1 = p_steps p2; sp_prior : p_prior p1 = p_prior p2 }.

(** The four buffers of a phase hold the same samples in the slots that exist in both memories ([n1] and [n2] slots). *)
Definition records_agree (chains dims n1 n2 : nat) (w1 w2 : world) (phase : string) : Prop :=
  exists pl1 pb1 ll1 lb1 al1 ab1 gl1 gb1 pl2 pb2 ll2 lb2 al2 ab2 gl2 gb2,
    buffer_named w1 (append "positions_" phase) pl1 pb1 /\ buffer_named w1 (append "log_prob_" phase) ll1 lb1 /\
    buffer_named w1 (append "local_accs_" phase) al1 ab1 /\ buffer_named w1 (append "global_accs_" phase) gl1 gb1 /\
    buffer_named w2 (append "positions_" phase) pl2 pb2 /\ buffer_named w2 (append "log_prob_" phase) ll2 lb2 /\
    buffer_named w2 (append "local_accs_" phase) al2 ab2 /\ buffer_named w2 (append "global_accs_" phase) gl2 gb2 /\
    ashape (b_data pb1) = [chains; n1; dims] /\ ashape (b_data pb2) = [chains; n2; dims] /\
    forall i s, i < chains -> s < n1 -> s < n2 ->
      brow pb1 dims i s = brow pb2 dims i s /\
      aget (b_data lb1) [i; s] = aget (b_data lb2) [i; s] /\
      aget (b_data ab1) [i; s] = aget (b_data ab2) [i; s] /\
      aget (b_data gb1) [i; s] = aget (b_data gb2) [i; s].
(** The loss buffers agree in the entries that exist in both. *)
Definition losses_agree (n1 n2 : nat) (w1 w2 : world) : Prop :=
  exists l1 b1 l2 b2, buffer_named w1 "loss_buffer" l1 b1 /\ buffer_named w2 "loss_buffer" l2 b2 /\
    ashape (b_data b1) = [n1] /\ ashape (b_data b2) = [n2] /\
    forall j, j < n1 -> j < n2 -> aget (b_data b1) [j] = aget (b_data b2) [j].

(** The slots of a phase with so many loops. *)
Definition slots (c : config) (loops : nat) : nat := loops * (c_local c / c_local_th c + c_global c / c_global_th c).
(** What two runs share. *)
Definition runs_agree (c1 c2 : config) (k1 : key) (xs1 : pos_t) (w1 : world) (k2 : key) (xs2 : pos_t) (w2 : world) : Prop :=
  records_agree (c_n_chains c1) (c_n_dims c1) (slots c1 (c_train_loops c1)) (slots c2 (c_train_loops c2)) w1 w2 "training" /\
  losses_agree (c_train_loops c1 * c_epochs c1) (c_train_loops c2 * c_epochs c2) w1 w2 /\
  (c_train_loops c1 = c_train_loops c2 ->
    records_agree (c_n_chains c1) (c_n_dims c1) (slots c1 (c_prod_loops c1)) (slots c2 (c_prod_loops c2)) w1 w2 "production" /\
    content_of w1 "model" = content_of w2 "model" /\ content_of w1 "optimizer" = content_of w2 "optimizer" /\
    (c_prod_loops c1 = c_prod_loops c2 -> k1 = k2 /\ xs1 = xs2)).
End SpecExt.
