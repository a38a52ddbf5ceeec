(** Whole bundle runs. *)
From Verif Require Import Prelude Num M_Core M_Kernels M_Strategies M_PT M_Bundle P_Lists P_Buffer
  Spec Spec_Core P_Core Spec_Sampler P_Sampler Spec_Steps P_Steps Spec_Kernels P_Kernels P_StepsK P_Steps2 Spec_Train P_Train P_Train2
  Spec_PT P_PT P_PT2 P_PT3 P_PT4 P_PT5 Spec_Bundle P_Bundle P_Bundle2 P_Bundle3.

Section Bnd.
Context {N : Num} {G : Rng} {NF : NFOps}.

(** All slots empty. *)
Definition empty_bufs (c : config) (slots : nat) (phase : string) : pbufs :=
  mkPB (buffer_init (append "positions_" phase) [c_n_chains c; slots; c_n_dims c] 1)
       (buffer_init (append "log_prob_" phase) [c_n_chains c; slots] 1)
       (buffer_init (append "local_accs_" phase) [c_n_chains c; slots] 1)
       (buffer_init (append "global_accs_" phase) [c_n_chains c; slots] 1).
Lemma empty_shape c slots phase : ph_shape c slots (empty_bufs c slots phase).
Proof. constructor; try reflexivity. repeat split; reflexivity. Qed.
Lemma empty_fresh c slots phase : fresh_pos (empty_bufs c slots phase).
Proof. intros i s j. reflexivity. Qed.

Lemma phase_slots_eq c n : phase_slots c n = n * per_loop c.
Proof. unfold phase_slots, per_loop. lia. Qed.

Definition phase_name (ph : bool) : string := (if ph then "training" else "production")%string.
Lemma recorded_w c rx hx m mg st tr pr loss ost lc gc (ph : bool) b ls slots :
  let w := bworld c rx hx m mg st tr pr loss ost lc gc in
  b = (if ph then tr else pr) -> ph_shape c slots b ->
  ph_holds c slots (empty_bufs c slots (phase_name ph)) b (chain_history c ls) ->
  length ls * per_loop c = slots -> phase_recorded c w (phase_name ph) ls.
Proof.
  intros w Eb [X1 X2 X3 X4 _] Hh Hl.
  exists slots, (if ph then L_pos_tr else L_pos_pr), (q_pos b), (if ph then L_lp_tr else L_lp_pr), (q_lp b),
    (if ph then L_la_tr else L_la_pr), (q_la b), (if ph then L_ga_tr else L_ga_pr), (q_ga b).
  rewrite Eb in X1, X2, X3, X4, Hh |- * . clear Eb b.
  do 4 (split; [destruct ph; split; reflexivity|]). do 4 (split; [assumption|]).
  intros i Hi. split; [rewrite history_length; auto|]. intros s tag o E. specialize (Hh i s Hi). rewrite E in Hh. exact Hh.
Qed.

(** Same statement about positions and log-probabilities only, whatever the buffers held before. *)
Section Run.
Variables (c : config) (rx : dict resource) (d : datad) (window : nat) (S : dict strategy) (pre : list string).
Variables (E : Type) (hx : E -> list obj) (before : bool -> E -> key -> pos_t -> E -> key -> pos_t -> Prop).
Variable good : mdl -> Prop.
Variable xs : pos_t.
Hypothesis OK : run_ok c d xs good.
Hypothesis S_local : dget S "local_stepper" = Some (take_serial_steps (local_ts c)).
Hypothesis S_global : dget S "global_stepper" = Some (take_group_steps (global_ts c)).
Hypothesis S_train : dget S "model_trainer" = Some (train_model (trainer_tm c window)).
Hypothesis S_ugs : dget S "update_global_step" = Some (update_global_step c).
Hypothesis S_uls : dget S "update_local_step" = Some (update_local_step c).
Hypothesis S_um : dget S "update_model" = Some update_model.
Hypothesis S_reset : dget S "reset_steppers" = Some (reset_steppers c).
Hypothesis S_us : dget S "update_state" = Some (update_state "sampler_state" prod_keys prod_values).
Hypothesis Hpre : forall ph e m mg tr pr loss ost lc gc k xs k' xs' w', shaped c xs ->
  run_order S pre k xs d (bworld c rx (hx e) m mg ph tr pr loss ost lc gc) = (Ok (k', xs'), w') ->
  exists e', before ph e k xs e' k' xs' /\ shaped c xs' /\
    w' = bworld c rx (hx e') m mg ph tr pr loss ost lc gc.

Definition the_order : list string :=
  repeat_phase (c_train_loops c) (pre ++ training_phase) ++ ["reset_steppers"; "update_state"]%string
    ++ repeat_phase (c_prod_loops c) (pre ++ production_phase).
Definition fresh_loss : buffer := buffer_init "loss_buffer" [c_train_loops c * c_epochs c] 0.

Lemma bundle_run_w e m k k' xs' w' : good m ->
  run_order S the_order k xs d
    (bworld c rx (hx e) m m true (empty_bufs c (phase_slots c (c_train_loops c)) "training")
       (empty_bufs c (phase_slots c (c_prod_loops c)) "production") fresh_loss (c_opt c m) 0 0) = (Ok (k', xs'), w') ->
  exists ls1 ls2 k1 xs1 m' st' e1 e2 tr' pr' loss' lc gc,
    training_run (before true) c window d (mkR k xs m (c_opt c m) e) ls1 (mkR k1 xs1 m' st' e1) /\
    production_run (before false) c d (mkR k1 xs1 m' st' e1) ls2 (mkR k' xs' m' st' e2) /\
    length ls1 = c_train_loops c /\ length ls2 = c_prod_loops c /\
    (forall l, In l ls1 -> length (lo_losses l) = c_epochs c) /\
    w' = bworld c rx (hx e2) m' m' false tr' pr' loss' st' lc gc /\
    ph_shape c (phase_slots c (c_train_loops c)) tr' /\ ph_shape c (phase_slots c (c_prod_loops c)) pr' /\
    good m' /\ shaped c xs' /\
    phase_recorded c w' "training" ls1 /\ phase_recorded c w' "production" ls2 /\ losses_recorded c w' ls1.
Proof.
  intros Hm H. destruct OK as [O1 O2 O3 O4 O5 O6 O7 O7b O8 O9 O10 O11].
  unfold the_order in H. apply run_order_app in H as (k1 & xs1 & w1 & H1 & H).
  pose proof (training_run_w c rx d window S pre E hx before good O7b O7 O8 O1 O2 O3 O4 O9 O10 S_local S_global S_train S_ugs S_uls S_um Hpre
     (c_train_loops c) e m (empty_bufs c (phase_slots c (c_train_loops c)) "training") (empty_bufs c (phase_slots c (c_prod_loops c)) "production") fresh_loss (c_opt c m) k xs k1 xs1 w1 (phase_slots c (c_train_loops c)) (c_train_loops c * c_epochs c)
     Hm (conj O5 O6) (empty_fresh _ _ _) (empty_shape _ _ _)) as T.
  destruct T as (ls1 & e1 & m' & st' & tr' & loss' & N1 & R1 & LL & Hm' & Hx1 & Sh1 & Hh1 & Hlo & ->).
  { rewrite phase_slots_eq. lia. }
  { split; [reflexivity|]. split; [reflexivity|]. split; [reflexivity|]. intros [|j] v Hv; discriminate. }
  { lia. }
  { exact H1. }
  apply run_order_app in H as (k2 & xs2 & w2 & H2 & H).
  apply (run_order_cons _ _ _ _ _ _ _ _ _ _ _ S_reset) in H2 as (k3 & xs3 & w3 & H3 & H2).
  rewrite (reset_w c rx d) in H3. injection H3 as <- <- <-.
  apply (run_order_cons _ _ _ _ _ _ _ _ _ _ _ S_us) in H2 as (k3 & xs3 & w3 & H3 & H2).
  rewrite (ustate_w c rx d) in H3. injection H3 as <- <- <-.
  cbn [run_order] in H2. unfold mret in H2. injection H2 as <- <- <-.
  pose proof (production_run_w c rx d S pre E hx before good O7 O8 O1 O2 O3 O4 O10 S_local S_global S_ugs S_uls Hpre
     (c_prod_loops c) e1 m' tr' (empty_bufs c (phase_slots c (c_prod_loops c)) "production") loss' st' k1 xs1 k' xs' w' (phase_slots c (c_prod_loops c)) Hm' Hx1 (empty_shape _ _ _)) as T.
  destruct T as (ls2 & e2 & pr' & N2 & R2 & Hx2 & Sh2 & Hh2 & Hw).
  { rewrite phase_slots_eq. lia. }
  { exact H. }
  exists ls1, ls2, k1, xs1, m', st', e1, e2, tr', pr', loss', (c_prod_loops c * per_loop c), (c_prod_loops c * per_loop c).
  split; [exact R1|]. split; [exact R2|]. split; [auto|]. split; [auto|]. split; [auto|]. split; [exact Hw|].
  split; [auto|]. split; [auto|]. split; [auto|]. split; [auto|]. rewrite Hw.
  split; [|split].
  - apply (recorded_w c rx (hx e2) m' m' false tr' pr' loss' st' _ _ true tr' ls1 _ eq_refl Sh1 Hh1). rewrite N1. now rewrite phase_slots_eq.
  - apply (recorded_w c rx (hx e2) m' m' false tr' pr' loss' st' _ _ false pr' ls2 _ eq_refl Sh2 Hh2). rewrite N2. now rewrite phase_slots_eq.
  - exists L_loss, loss'. split; [split; reflexivity|].
    pose proof (losses_length_le ls1 (c_epochs c) LL) as Hn. rewrite N1 in Hn.
    destruct Hlo as (A & B & C & D). rewrite A, Hn. split; [reflexivity|]. split; [rewrite C, Hn; reflexivity|exact D].
Qed.
End Run.
End Bnd.
