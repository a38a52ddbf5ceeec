(** Runs whose recorded positions are all finite do not stop. *)
From Verif Require Import Prelude Num M_Core M_Kernels M_Strategies M_PT M_Bundle P_Lists P_Buffer
  Spec Spec_Core P_Core Spec_Sampler P_Sampler Spec_Steps P_Steps Spec_Kernels P_Kernels P_StepsK P_Steps2 Spec_Train P_Train P_Train2
  P_Kernels2 P_PT3 P_PT5 P_Tree13 Spec_Bundle P_Bundle P_Bundle2 P_Bundle3 P_Bundle4 P_Bundle5 Spec_Prog P_Prog1 P_Prog2.

Section Prog.
Context {N : Num} {G : Rng} {NF : NFOps}.

Lemma filter_all {A} (f : A -> bool) l : (forall x, In x l -> f x = true) -> filter f l = l.
Proof. induction l as [|x l IH]; intros H; [reflexivity|]. cbn. rewrite (H x) by (left; auto). f_equal. apply IH. intros; apply H; right; auto. Qed.

Definition all_finite_so_far (c : config) (past : list loop) (lout : list chain_out) : Prop :=
  forall h x, In h (recorded_so_far c past lout) -> In x h -> finite_row x = true.

Lemma total_finite c past lout : all_finite_so_far c past lout ->
  length (concat (map (filter finite_row) (recorded_so_far c past lout))) = c_n_chains c * (length past * per_loop c + c_local c / c_local_th c).
Proof.
  intros H. rewrite (map_ext_in _ (fun h => h)), map_id by (intros h Hh; apply filter_all; intros x Hx; eapply H; eauto).
  rewrite (concat_length_eq _ (length past * per_loop c + c_local c / c_local_th c)).
  - unfold recorded_so_far. rewrite map_length, seq_length. lia.
  - intros h Hh. unfold recorded_so_far in Hh. apply in_map_iff in Hh as (i & <- & _).
    rewrite app_length, !map_length, history_length, kept_steps_length. reflexivity.
Qed.
Lemma finite_not_refused c past lout e : counts_ok c -> 0 < c_local_th c -> c_local c mod c_local_th c = 0 ->
  all_finite_so_far c past lout -> ~ training_refused c past lout e.
Proof.
  intros HO Ht Hm Ha Hr. unfold training_refused in Hr. cbv zeta in Hr. rewrite (total_finite c past lout Ha) in Hr.
  assert (0 < c_local c / c_local_th c). { apply Nat.div_str_pos. destruct HO. split; [lia|]. apply Nat.mod_divide in Hm as [q Hq]; [|lia]. destruct q; nia. }
  destruct HO. destruct Hr as [[_ Hr]|(_ & Hr & _)].
  - apply Hr. rewrite Nat.mul_comm. apply Nat.mod_mul. lia.
  - nia.
Qed.

Section Fin.
Variables (c : config) (d : datad) (good : mdl -> Prop).
Hypothesis NL : NumLaws.
Hypothesis Hgrad : grad_shape (c_logpdf c) d (c_n_dims c).
Hypothesis Hnormal : normal_shape.
Hypothesis Hbs : 0 < c_nf_bs c.
Hypothesis Hclass : model_class good (c_n_dims c).
Hypothesis R1 : rules_out_nonfinite (c_logpdf c) d (c_n_dims c).
Hypothesis R2 : rules_out_nonfinite (c_logpdf c) (with_n_steps d (c_global c)) (c_n_dims c).

Definition okpos (x : vec) : Prop := length x = c_n_dims c /\ finite_row x = true.

Lemma possible_okpos x d' : rules_out_nonfinite (c_logpdf c) d' (c_n_dims c) -> length x = c_n_dims c -> ~ impossible (lp_val (c_logpdf c) x d') -> okpos x.
Proof. intros R Hl Hi. split; [auto|]. destruct (finite_row x) eqn:E; [reflexivity|]. exfalso. apply Hi, R; auto. Qed.

Lemma serial_okpos n k x co : okpos x -> serial_sample (mala_kernel (c_step c)) (c_logpdf c) d n k x = Ok co -> forall o, In o co -> okpos (s_pos o).
Proof.
  intros Hx H o Ho. unfold serial_sample in H.
  apply (serial_scan_inv (fun x lp => okpos x) (mala_kernel (c_step c)) (c_logpdf c) d) with (3 := H); auto.
  intros q z lp o' Hz Ho'. destruct Hz as [Hl Hf]. pose proof (mala_shape _ _ _ _ Hnormal Hgrad _ _ _ _ Hl Ho') as Hl'.
  destruct (s_acc o') eqn:Ea.
  - apply (possible_okpos _ d R1 Hl'). eapply mala_possible; eauto.
  - rewrite (repo_kernel_reject (mala_kernel (c_step c)) (c_n_dims c) (c_logpdf c) d ltac:(right; left; eauto) _ _ _ _ Ho' Ea). split; auto.
Qed.
Lemma group_okpos m n k x co : good m -> n = c_global c -> okpos x -> group_sample (mkNfp m (c_nf_bs c)) (c_logpdf c) d n k x = Ok co ->
  forall o, In o co -> okpos (s_pos o).
Proof.
  intros Hm -> Hx H o Ho. unfold group_sample in H.
  refine (nfp_inv (fun y lp => okpos y) (mkNfp m (c_nf_bs c)) _ _ _ _ _ _ _ (c_n_dims c) (proj1 Hclass m Hm) Hbs (with_n_steps_get d (c_global c)) H Hx _ o Ho).
  intros y ratio Hl (xp & lpp & _ & ->) (u & Hu). apply (possible_okpos _ _ R2 Hl). eapply nfp_possible; eauto.
Qed.
Lemma run_okpos (samp : nat -> key -> vec -> res chain_out) n th k xs out ys :
  (forall k x co, okpos x -> samp n k x = Ok co -> forall o, In o co -> okpos (s_pos o)) ->
  chains_run samp n th k xs out ys -> (forall x, In x xs -> okpos x) ->
  (forall i o, i < length xs -> In o (nth i out []) -> okpos (s_pos o)) /\ (forall y, In y ys -> okpos y).
Proof.
  intros Hs (L1 & L2 & H) Hx.
  assert (A : forall i o, i < length xs -> In o (nth i out []) -> okpos (s_pos o)).
  { intros i o Hi Ho. destruct (H i Hi) as (B & _). eapply Hs; [|exact B|exact Ho]. apply Hx, nth_In. exact Hi. }
  split; [exact A|]. intros y Hy. destruct (In_nth _ _ [] Hy) as (i & Hi & <-). rewrite L2 in Hi.
  destruct (H i Hi) as (_ & _ & (o & Ho & ->)). apply (A i o Hi). eapply nth_error_In; eauto.
Qed.
Lemma kept_in n th co o : length co = n -> In o (kept_steps n th co) -> In o co \/ th = 0.
Proof.
  intros Hl H. unfold kept_steps in H. apply in_map_iff in H as (j & <- & Hj). apply in_seq in Hj.
  destruct (Nat.eq_dec th 0) as [|Ht]; [auto|left]. apply nth_In. rewrite Hl.
  assert (th * (n / th) <= n) by (apply Nat.mul_div_le; auto). nia.
Qed.

Variables (window : nat) (E : Type) (before : E -> key -> pos_t -> E -> key -> pos_t -> Prop) (einv : E -> Prop).
Hypothesis Hbefore : forall e k xs e' k' xs', before e k xs e' k' xs' -> einv e -> length xs = c_n_chains c -> (forall x, In x xs -> okpos x) ->
  einv e' /\ length xs' = c_n_chains c /\ (forall x, In x xs' -> okpos x).
Hypothesis HTl : 0 < c_local_th c.
Hypothesis HTg : 0 < c_global_th c.

Lemma loop_okpos past s l s' : good (r_model s) -> einv (r_ext s) -> length (r_pos s) = c_n_chains c -> (forall x, In x (r_pos s) -> okpos x) ->
  training_loop before c window d past s l s' ->
  good (r_model s') /\ einv (r_ext s') /\ length (r_pos s') = c_n_chains c /\ (forall x, In x (r_pos s') -> okpos x) /\
  (forall i o, i < c_n_chains c -> In o (chain_history c [l] i) -> okpos (s_pos (snd o))).
Proof.
  intros Hg He Hl Hx (k0 & xs0 & xs1 & ex & k3 & B & Lr & _ & T & Gr & _).
  destruct (Hbefore _ _ _ _ _ _ B He Hl Hx) as (He' & Hl0 & Hx0).
  assert (Hg' : good (r_model s')) by exact (good_train c good Hclass _ _ _ _ _ _ _ _ _ _ _ Hg T).
  destruct (run_okpos _ _ _ _ _ _ _ (fun k x co => serial_okpos _ k x co) Lr Hx0) as [A1 A2].
  destruct (run_okpos _ _ _ _ _ _ _ (fun k x co => group_okpos (r_model s') _ k x co Hg' eq_refl) Gr A2) as [B1 B2].
  pose proof Lr as (L1 & L2 & L3). pose proof Gr as (G1 & G2 & G3).
  split; [auto|]. split; [auto|]. split; [congruence|]. split; [auto|].
  intros i o Hi Ho. unfold chain_history in Ho. cbn [map concat] in Ho. rewrite app_nil_r in Ho. apply in_app_iff in Ho as [Ho|Ho];
    apply in_map_iff in Ho as (o' & <- & Ho); cbn [snd].
  - apply (A1 i); [congruence|]. destruct (L3 i ltac:(congruence)) as (_ & Le & _). destruct (kept_in _ _ _ _ Le Ho); [auto|lia].
  - apply (B1 i); [congruence|]. destruct (G3 i ltac:(congruence)) as (_ & Le & _). destruct (kept_in _ _ _ _ Le Ho); [auto|lia].
Qed.
Lemma run_okpos_all s0 ls s : training_run before c window d s0 ls s ->
  good (r_model s0) -> einv (r_ext s0) -> length (r_pos s0) = c_n_chains c -> (forall x, In x (r_pos s0) -> okpos x) ->
  good (r_model s) /\ einv (r_ext s) /\ length (r_pos s) = c_n_chains c /\ (forall x, In x (r_pos s) -> okpos x) /\
  (forall i o, i < c_n_chains c -> In o (chain_history c ls i) -> okpos (s_pos (snd o))).
Proof.
  intros H Hg He Hl Hx. induction H as [s|s past s1 l s2 H IH Hloop].
  - do 4 (split; [auto|]). intros i o _ [].
  - destruct (IH Hg He Hl Hx) as (g1 & e1 & l1 & x1 & h1).
    destruct (loop_okpos _ _ _ _ g1 e1 l1 x1 Hloop) as (g2 & e2 & l2 & x2 & h2). do 4 (split; [auto|]).
    intros i o Hi Ho. unfold chain_history in Ho. rewrite map_app, concat_app in Ho. apply in_app_iff in Ho as [Ho|Ho]; [eapply h1|eapply h2]; eauto.
Qed.
Lemma never_stops s0 loops e : counts_ok c -> c_local c mod c_local_th c = 0 ->
  good (r_model s0) -> einv (r_ext s0) -> length (r_pos s0) = c_n_chains c -> (forall x, In x (r_pos s0) -> okpos x) ->
  ~ stops_early before c window d loops s0 e.
Proof.
  intros HO Hm Hg He Hl Hx (past & s & e0 & k0 & xs0 & lout & xs1 & _ & Hr & B & Lr & Hf).
  destruct (run_okpos_all _ _ _ Hr Hg He Hl Hx) as (g1 & e1 & l1 & x1 & h1).
  destruct (Hbefore _ _ _ _ _ _ B e1 l1 x1) as (_ & Hl0 & Hx0).
  destruct (run_okpos _ _ _ _ _ _ _ (fun k x co => serial_okpos _ k x co) Lr Hx0) as [A1 A2].
  revert Hf. apply finite_not_refused; auto.
  intros h x Hh Hxh. unfold recorded_so_far in Hh. apply in_map_iff in Hh as (i & <- & Hi). apply in_seq in Hi.
  apply in_app_iff in Hxh as [Hxh|Hxh]; apply in_map_iff in Hxh as (o & <- & Ho).
  - apply (h1 i o); [lia|auto].
  - apply (A1 i o); [lia|]. destruct Lr as (_ & _ & L3). destruct (L3 i ltac:(lia)) as (_ & Le & _). destruct (kept_in _ _ _ _ Le Ho); [auto|lia].
Qed.
End Fin.

Lemma finite_never_stops {E} (before : E -> key -> pos_t -> E -> key -> pos_t -> Prop) c window d loops s0 e :
  counts_ok c -> 0 < c_local_th c -> c_local c mod c_local_th c = 0 ->
  (forall past s e0 k0 xs0 lout xs1, length past < loops -> training_run before c window d s0 past s ->
     before (r_ext s) (r_key s) (r_pos s) e0 k0 xs0 -> local_run c d k0 xs0 lout xs1 ->
     forall h x, In h (recorded_so_far c past lout) -> In x h -> finite_row x = true) ->
  ~ stops_early before c window d loops s0 e.
Proof.
  intros HO Ht Hm H (past & s & e0 & k0 & xs0 & lout & xs1 & A1 & A2 & A3 & A4 & A5). revert A5. apply finite_not_refused; auto.
  intros h x Hh Hx. eapply H; eauto.
Qed.

Lemma base_never_raises c h bd n nc k o kw s d xs good : NumLaws ->
  rqspline_mala_bundle c = Ok (h, bd) -> sampler_init n nc k None None o (Some bd) kw = Ok s -> run_ok c d xs good -> counts_ok c ->
  rules_out_nonfinite (c_logpdf c) d (c_n_dims c) -> rules_out_nonfinite (c_logpdf c) (with_n_steps d (c_global c)) (c_n_dims c) ->
  (forall x, In x xs -> finite_row x = true) ->
  exists k' xs' w', sampler_sample s (P2 xs) d h = (Ok (k', xs'), w').
Proof.
  intros NL Hb Hs Hok HO R1 R2 Hx. destruct (base_outcome _ _ _ _ _ _ _ _ _ _ _ _ Hb Hs Hok HO) as [H|(err & w' & _ & He)]; [exact H|exfalso].
  unfold rqspline_mala_bundle in Hb. destruct (_ || _) eqn:Et; [discriminate|]. apply orb_false_iff in Et as [T1 T2]. apply Nat.eqb_neq in T1, T2.
  destruct Hok as [O1 O2 O3 O4 O5 O6 O7 O7b O8 O9 O10 O11].
  revert He. apply (never_stops c d good NL O7 O8 O3 O10 R1 R2 100 unit nothing_before (fun _ => True)); auto; try lia.
  - intros e ks ys e' k' ys' [-> ->] _ L HH. auto.
  - intros x Hin. split; [now apply O6|now apply Hx].
Qed.
End Prog.
