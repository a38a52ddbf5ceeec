(** C68: histograms of acceptance buffers; C67: names of the bundles' buffers; the laws of the infinities in binary32. *)
From Flocq Require Import Core BinarySingleNaN.
From Verif Require Import Prelude Num M_Core M_Kernels M_Strategies M_PT M_Bundle M_Files Spec Spec_Core Spec_Sampler Spec_Steps Spec_Kernels Spec_Train Spec_Bundle P_Lists P_Core Float32.
From Verif Require Spec_Files P_Files P_Files2.
From Verif Require Import P_Bundle5.
Import Spec_Files P_Files P_Files2.
Open Scope nat_scope.

Lemma B32_inf_laws pi fe fl ft : @inf_laws (B32Num pi fe fl ft).
Proof.
  constructor; cbn [F fneg fle fninf fnan ffinite B32Num].
  - intros x. destruct x as [[]|[]| |[]]; cbn; try discriminate; reflexivity.
  - intros x. destruct x as [[]|[]| |[]]; cbn; try discriminate; reflexivity.
  - intros x. destruct x as [[]|[]| |[]]; cbn; try discriminate; auto.
Qed.

Section Acc.
Context {N : Num} {G : Rng} {NF : NFOps}.
Lemma kept_ex n th co : 0 < n -> n mod th = 0 -> exists o, In o (kept_steps n th co).
Proof.
  intros H1 H2. unfold kept_steps. exists (nth (0 * th) co ([], f0, false)). apply in_map_iff. exists 0. split; [reflexivity|]. apply in_seq.
  split; [lia|]. cbn. destruct th as [|th]; [cbn in H2; lia|]. apply Nat.div_str_pos. split; [lia|]. apply Nat.mod_divides in H2 as [q H2]; [|lia]. destruct q; lia.
Qed.
Lemma history_kind c ls i (kind : bool) : 0 < length ls -> c_local c mod c_local_th c = 0 -> c_global c mod c_global_th c = 0 ->
  0 < (if kind then c_local c else c_global c) -> exists s o, nth_error (chain_history c ls i) s = Some (kind, o).
Proof.
  intros H1 H2 H3 H4. destruct ls as [|l ls]; [cbn in H1; lia|].
  assert (exists o, In (kind, o) (chain_history c (l :: ls) i)) as (o & Ho).
  { destruct kind.
    - destruct (kept_ex (c_local c) (c_local_th c) (nth i (lo_local l) []) H4 H2) as (o & Ho). exists o. unfold chain_history. cbn [map concat].
      apply in_or_app. left. apply in_or_app. left. now apply in_map.
    - destruct (kept_ex (c_global c) (c_global_th c) (nth i (lo_global l) []) H4 H3) as (o & Ho). exists o. unfold chain_history. cbn [map concat].
      apply in_or_app. left. apply in_or_app. right. now apply in_map. }
  apply In_nth_error in Ho as (s & Hs). eauto.
Qed.
Lemma acc_hist trunc c w phase ls al ab gl gb bins : NumLaws -> inf_laws ->
  phase_recorded c w phase ls -> 0 < c_n_chains c -> 0 < length ls -> c_local c mod c_local_th c = 0 -> c_global c mod c_global_th c = 0 ->
  buffer_named w (append "local_accs_" phase) al ab -> buffer_named w (append "global_accs_" phase) gl gb ->
  (0 < c_global c -> get_distribution trunc ab bins = Raise ValueError) /\ (0 < c_local c -> get_distribution trunc gb bins = Raise ValueError).
Proof.
  intros HL HI (sl & pl & pb & ll & lb & al' & ab' & gl' & gb' & _ & _ & [A1 A2] & [B1 B2] & _ & _ & SA & SG & H) Hc Hl D1 D2 [A3 A4] [B3 B4].
  assert (ab' = ab) by congruence. assert (gb' = gb) by congruence. subst ab' gb'. destruct (H 0 Hc) as [HH1 HH2].
  assert (V : forall s o k0, nth_error (chain_history c ls 0) s = Some (k0, o) -> valid_index [c_n_chains c; sl] [0; s]).
  { intros s o k0 E. split; [reflexivity|]. intros [|[|k]] Hk; cbn in *; [lia| |lia]. rewrite <- HH1. apply nth_error_Some. congruence. }
  assert (NI : ffinite fninf = false) by (apply (not_finite HL); auto).
  split; intros Hp.
  - destruct (history_kind c ls 0 false Hl D1 D2 Hp) as (s & o & E). destruct (HH2 _ _ _ E) as (_ & _ & X & _).
    apply (bad_distribution HL HI trunc ab bins [0; s]); [rewrite SA; eapply V; eauto|rewrite X; exact NI].
  - destruct (history_kind c ls 0 true Hl D1 D2 Hp) as (s & o & E). destruct (HH2 _ _ _ E) as (_ & _ & _ & X).
    apply (bad_distribution HL HI trunc gb bins [0; s]); [rewrite SG; eapply V; eauto|rewrite X; exact NI].
Qed.
Lemma run_acc_hist trunc c h bd n nc k o kw s d xs good k' xs' w' phase al ab gl gb bins : NumLaws -> inf_laws ->
  rqspline_mala_bundle c = Ok (h, bd) -> sampler_init n nc k None None o (Some bd) kw = Ok s -> run_ok c d xs good ->
  sampler_sample s (P2 xs) d h = (Ok (k', xs'), w') ->
  0 < c_n_chains c ->
  (phase = "training"%string /\ 0 < c_train_loops c \/ phase = "production"%string /\ 0 < c_prod_loops c) ->
  buffer_named w' (append "local_accs_" phase) al ab -> buffer_named w' (append "global_accs_" phase) gl gb ->
  (0 < c_global c -> get_distribution trunc ab bins = Raise ValueError) /\ (0 < c_local c -> get_distribution trunc gb bins = Raise ValueError).
Proof.
  intros HL HI Hb Hs Hok Hrun Hc Hph HA HG.
  destruct (C45_base_proof c h bd n nc k o kw s d xs good k' xs' w' Hb Hs Hok Hrun) as (tl & pl & s1 & s2 & _ & _ & L1 & L2 & _ & _ & P1 & P2 & _).
  destruct Hok as [D1 D2 _ _ _ _ _ _ _ _ _ _].
  destruct Hph as [[-> Hp]|[-> Hp]]; [apply (acc_hist trunc c w' "training" tl al ab gl gb bins); auto; lia|apply (acc_hist trunc c w' "production" pl al ab gl gb bins); auto; lia].
Qed.
Lemma fresh_hist trunc name sh cd bins : NumLaws -> inf_laws -> 0 < slots sh -> get_distribution trunc (buffer_init name sh cd) bins = Raise ValueError.
Proof.
  intros HL HI H. rewrite <- indices_length in H. destruct (indices sh) as [|ix l] eqn:E; [cbn in H; lia|].
  apply (bad_distribution HL HI trunc _ bins ix); [apply indices_valid; cbn; rewrite E; now left|]. apply (not_finite HL). cbn. auto.
Qed.

Definition buffers_in (h : list obj) : list buffer := flat_map (fun o => match o with OBuf b => [b] | _ => [] end) h.
Lemma all_saved fs path bs i b :
  NoDup (map b_name bs) -> (forall b, In b bs -> ~ exists a, b_name b = append a ".npz") -> nth_error bs i = Some b ->
  exists file b', stored_as path (b_name b) file /\ buffer_load_from (save_all fs (map (SaveBuffer path) bs)) file = Ok b' /\ reset_copy b b'.
Proof. apply one_path. Qed.
Lemma names_npz (l : list string) : forallb (fun n => negb (ends_npz n)) l = true -> forall n, In n l -> ~ exists a, n = append a ".npz".
Proof. intros H n Hn He. apply ends_npz_iff in He. rewrite forallb_forall in H. specialize (H n Hn). now rewrite He in H. Qed.
Lemma temp_name pc : b_name (temp_buffer pc) = "temperature"%string.
Proof. unfold temp_buffer. destruct (update_buffer _ _ _) as [b|e] eqn:E; [|reflexivity]. unfold update_buffer in E. destruct (dus_in_dim _ _ _ _); [|discriminate]. now injection E as <-. Qed.
Lemma base_names c m : map b_name (buffers_in (base_heap c m)) =
  ["positions_training"; "log_prob_training"; "local_accs_training"; "global_accs_training"; "loss_buffer";
   "positions_production"; "log_prob_production"; "local_accs_production"; "global_accs_production"]%string.
Proof. reflexivity. Qed.
Lemma pt_names pc m : map b_name (buffers_in (pt_heap pc m)) =
  ["positions_training"; "log_prob_training"; "local_accs_training"; "global_accs_training"; "loss_buffer";
   "positions_production"; "log_prob_production"; "local_accs_production"; "global_accs_production"; "tempered_positions"; "temperature"]%string.
Proof. cbn. now rewrite temp_name. Qed.
End Acc.
