(** Runs that stay in a set of positions closed under local moves and draws of the flows. *)
From Verif Require Import Prelude Num M_Core M_Kernels M_Strategies M_PT M_Bundle P_Lists P_Buffer
  Spec Spec_Core P_Core Spec_Sampler P_Sampler Spec_Steps P_Steps Spec_Kernels P_Kernels P_StepsK P_Steps2 Spec_Train P_Train P_Train2
  P_Kernels2 Spec_Bundle P_Bundle P_Bundle2 P_Bundle3 P_Bundle4 P_Bundle5 Spec_Prog P_Prog1 P_Prog2 P_Prog3.

Section Closed.
Context {N : Num} {G : Rng} {NF : NFOps}.

Lemma kept_in n th (co : chain_out) o : length co = n -> In o (kept_steps n th co) -> In o co \/ th = 0.
Proof.
  intros Hl H. unfold kept_steps in H. apply in_map_iff in H as (j & <- & Hj). apply in_seq in Hj.
  destruct (Nat.eq_dec th 0) as [|Ht]; [auto|left]. apply nth_In. rewrite Hl.
  assert (th * (n / th) <= n) by (apply Nat.mul_div_le; auto). nia.
Qed.

Lemma flow_batches_in m : forall nb k ns b, In b (flow_batches m k nb ns) -> exists q, b = m_sample m q ns.
Proof. induction nb as [|nb IH]; intros k ns b H; [destruct H|]. destruct H as [<-|H]; [eauto|exact (IH _ _ _ H)]. Qed.
Lemma firstn_in {A} n (l : list A) x : In x (firstn n l) -> In x l.
Proof. intros H. rewrite <- (firstn_skipn n l). apply in_or_app. now left. Qed.
Lemma sample_flow_in p k n props lps y : sample_flow p k n = Ok (props, lps) -> In y props -> exists q s, In y (m_sample (nfp_model p) q s).
Proof.
  unfold sample_flow. destruct (_ <? _).
  - destruct (_ =? 0); [discriminate|]. intros H Hy. injection H as <- _. apply firstn_in in Hy. apply in_concat in Hy as (b & Hb & Hy).
    apply flow_batches_in in Hb as [q ->]. eauto.
  - intros H Hy. injection H as <- _. eauto.
Qed.
Lemma nfp_closed (P : vec -> Prop) p k x lp f d n co dim :
  samples_shape (nfp_model p) dim -> 0 < nfp_bs p -> dget d "n_steps" = Some (DInt (Z.of_nat n)) -> nfp_kernel p k x lp f d = Ok co -> P x ->
  (forall q s y, In y (m_sample (nfp_model p) q s) -> P y) -> forall o, In o co -> P (s_pos o).
Proof.
  intros HS Hb Hd H H0 HP o Ho.
  destruct (nfp_kernel_spec _ _ _ _ _ _ _ _ _ HS Hb Hd H) as (props & ES & L1 & L2 & HD & HO).
  assert (HPP : forall y, In y props -> P y). { intros y Hy. destruct (sample_flow_in _ _ _ _ _ _ ES Hy) as (q & s & Hs). eauto. }
  assert (Q : forall i, i < n -> P (s_pos (nth i co (x, lp, false)))).
  { induction i as [|i IH]; intros Hi.
    - destruct (HO 0 Hi) as (A & B & C). simpl prev in * . destruct (s_acc (nth 0 co (x, lp, false))).
      + destruct (B eq_refl) as [-> _]. apply HPP, nth_In. lia.
      + destruct (C eq_refl) as [-> _]. exact H0.
    - specialize (IH ltac:(lia)). destruct (HO (S i) Hi) as (A & B & C). simpl prev in * .
      destruct (s_acc (nth (S i) co (x, lp, false))).
      + destruct (B eq_refl) as [-> _]. apply HPP, nth_In. lia.
      + destruct (C eq_refl) as [-> _]. exact IH. }
  destruct (In_nth _ _ (x, lp, false) Ho) as (i & Hi & <-). apply Q. lia.
Qed.

Variables (c : config) (d : datad) (good : mdl -> Prop) (P : vec -> Prop).
Hypothesis Hbs : 0 < c_nf_bs c.
Hypothesis Hclass : model_class good (c_n_dims c).
Hypothesis HTl : 0 < c_local_th c.
Hypothesis HTg : 0 < c_global_th c.
Hypothesis HL : forall q x lp o, P x -> mala_kernel (c_step c) q x lp (c_logpdf c) d = Ok o -> P (s_pos o).
Hypothesis HF : forall m q s y, good m -> In y (m_sample m q s) -> P y.
Hypothesis Hfin : forall x, P x -> finite_row x = true.

Lemma serial_closed n k x co : P x -> serial_sample (mala_kernel (c_step c)) (c_logpdf c) d n k x = Ok co -> forall o, In o co -> P (s_pos o).
Proof.
  intros Hx H o Ho. unfold serial_sample in H.
  apply (serial_scan_inv (fun x lp => P x) (mala_kernel (c_step c)) (c_logpdf c) d) with (3 := H); eauto.
Qed.
Lemma group_closed m n k x co : good m -> n = c_global c -> P x -> group_sample (mkNfp m (c_nf_bs c)) (c_logpdf c) d n k x = Ok co -> forall o, In o co -> P (s_pos o).
Proof.
  intros Hm -> Hx H. unfold group_sample in H.
  refine (nfp_closed P (mkNfp m (c_nf_bs c)) _ _ _ _ _ _ _ (c_n_dims c) (proj1 Hclass m Hm) Hbs (with_n_steps_get d (c_global c)) H Hx _).
  intros q s y Hy. eapply HF; [exact Hm|exact Hy].
Qed.
Lemma run_closed (samp : nat -> key -> vec -> res chain_out) n th k xs out ys :
  (forall k x co, P x -> samp n k x = Ok co -> forall o, In o co -> P (s_pos o)) ->
  chains_run samp n th k xs out ys -> (forall x, In x xs -> P x) ->
  (forall i o, i < length xs -> In o (nth i out []) -> P (s_pos o)) /\ (forall y, In y ys -> P y).
Proof.
  intros Hs (L1 & L2 & H) Hx.
  assert (A : forall i o, i < length xs -> In o (nth i out []) -> P (s_pos o)).
  { intros i o Hi Ho. destruct (H i Hi) as (B & _). eapply Hs; [|exact B|exact Ho]. apply Hx, nth_In. exact Hi. }
  split; [exact A|]. intros y Hy. destruct (In_nth _ _ [] Hy) as (i & Hi & <-). rewrite L2 in Hi.
  destruct (H i Hi) as (_ & _ & (o & Ho & ->)). apply (A i o Hi). eapply nth_error_In; eauto.
Qed.

Notation before := (@nothing_before N G).
Lemma loop_closed past s l s' : good (r_model s) -> length (r_pos s) = c_n_chains c -> (forall x, In x (r_pos s) -> P x) ->
  training_loop before c 100 d past s l s' ->
  good (r_model s') /\ length (r_pos s') = c_n_chains c /\ (forall x, In x (r_pos s') -> P x) /\
  (forall i o, i < c_n_chains c -> In o (chain_history c [l] i) -> P (s_pos (snd o))).
Proof.
  intros Hg Hl Hx (k0 & xs0 & xs1 & ex & k3 & B & Lr & _ & T & Gr & _). destruct B as [_ ->].
  assert (Hg' : good (r_model s')) by exact (good_train c good Hclass _ _ _ _ _ _ _ _ _ _ _ Hg T).
  destruct (run_closed _ _ _ _ _ _ _ (fun k x co => serial_closed _ k x co) Lr Hx) as [A1 A2].
  destruct (run_closed _ _ _ _ _ _ _ (fun k x co => group_closed (r_model s') _ k x co Hg' eq_refl) Gr A2) as [B1 B2].
  pose proof Lr as (L1 & L2 & L3). pose proof Gr as (G1 & G2 & G3).
  split; [auto|]. split; [congruence|]. split; [auto|].
  intros i o Hi Ho. unfold chain_history in Ho. cbn [map concat] in Ho. rewrite app_nil_r in Ho. apply in_app_iff in Ho as [Ho|Ho];
    apply in_map_iff in Ho as (o' & <- & Ho); cbn [snd].
  - apply (A1 i); [congruence|]. destruct (L3 i ltac:(congruence)) as (_ & Le & _). destruct (kept_in _ _ _ _ Le Ho); [auto|lia].
  - apply (B1 i); [congruence|]. destruct (G3 i ltac:(congruence)) as (_ & Le & _). destruct (kept_in _ _ _ _ Le Ho); [auto|lia].
Qed.
Lemma closed_run s0 ls s : training_run before c 100 d s0 ls s -> good (r_model s0) -> length (r_pos s0) = c_n_chains c -> (forall x, In x (r_pos s0) -> P x) ->
  good (r_model s) /\ length (r_pos s) = c_n_chains c /\ (forall x, In x (r_pos s) -> P x) /\
  (forall i o, i < c_n_chains c -> In o (chain_history c ls i) -> P (s_pos (snd o))).
Proof.
  intros H Hg Hl Hx. induction H as [s|s past s1 l s2 H IH Hloop].
  - do 3 (split; [auto|]). intros i o _ [].
  - destruct (IH Hg Hl Hx) as (g1 & l1 & x1 & h1).
    destruct (loop_closed _ _ _ _ g1 l1 x1 Hloop) as (g2 & l2 & x2 & h2). do 3 (split; [auto|]).
    intros i o Hi Ho. unfold chain_history in Ho. rewrite map_app, concat_app in Ho. apply in_app_iff in Ho as [Ho|Ho]; [eapply h1|eapply h2]; eauto.
Qed.
Lemma closed_goes_on s0 loops e : counts_ok c -> c_local c mod c_local_th c = 0 ->
  good (r_model s0) -> length (r_pos s0) = c_n_chains c -> (forall x, In x (r_pos s0) -> P x) -> ~ stops_early before c 100 d loops s0 e.
Proof.
  intros HO Hm Hg Hl Hx (past & s & e0 & k0 & xs0 & lout & xs1 & _ & Hr & B & Lr & Hf).
  destruct (closed_run _ _ _ Hr Hg Hl Hx) as (g1 & l1 & x1 & h1). destruct B as [_ ->].
  destruct (run_closed _ _ _ _ _ _ _ (fun k x co => serial_closed _ k x co) Lr x1) as [A1 A2].
  revert Hf. apply finite_not_refused; auto.
  intros h x Hh Hxh. unfold recorded_so_far in Hh. apply in_map_iff in Hh as (i & <- & Hi). apply in_seq in Hi.
  apply in_app_iff in Hxh as [Hxh|Hxh]; apply in_map_iff in Hxh as (o & <- & Ho).
  - apply Hfin, (h1 i o); [lia|auto].
  - apply Hfin, (A1 i o); [lia|]. destruct Lr as (_ & _ & L3). destruct (L3 i ltac:(lia)) as (_ & Le & _). destruct (kept_in _ _ _ _ Le Ho); [auto|lia].
Qed.
(** The run returns and its training positions are in the set. *)
Lemma closed_returns h bd n nc k o kw s xs : rqspline_mala_bundle c = Ok (h, bd) -> sampler_init n nc k None None o (Some bd) kw = Ok s -> run_ok c d xs good -> counts_ok c ->
  (forall x, In x xs -> P x) ->
  exists k' xs' w', sampler_sample s (P2 xs) d h = (Ok (k', xs'), w') /\
    forall l pb i sl, buffer_named w' "positions_training"%string l pb -> i < c_n_chains c -> sl < nth 1 (ashape (b_data pb)) 0 -> P (brow pb (c_n_dims c) i sl).
Proof.
  intros Hb Hs Hok HO Hx. pose proof Hok as [O1 O2 O3 O4 O5 O6 O7 O7b O8 O9 O10 O11].
  destruct (base_outcome _ _ _ _ _ _ _ _ _ _ _ _ Hb Hs Hok HO) as [(k' & xs' & w' & H)|(err & w' & _ & He)].
  - exists k', xs', w'. split; [exact H|]. intros l pb i sl Bn Hi Hsl.
    destruct (C45_base_proof _ _ _ _ _ _ _ _ _ _ _ _ _ _ _ Hb Hs Hok H) as (tl & pl & s1 & s2 & T & _ & _ & _ & _ & _ & PR & _).
    destruct PR as (slots & l1 & pb1 & l2 & lb & l3 & ab & l4 & gb & B1 & _ & _ & _ & S1 & _ & _ & _ & HR).
    destruct B1 as [B1 B2], Bn as [C1 C2]. change (append "positions_" "training") with "positions_training"%string in B1. rewrite B1 in C1. injection C1 as <-. rewrite B2 in C2. injection C2 as <-.
    rewrite S1 in Hsl. cbn [nth] in Hsl. destruct (HR i Hi) as [LH HS].
    destruct (nth_error (chain_history c tl i) sl) as [[il o0]|] eqn:En; [|apply nth_error_None in En; lia].
    destruct (HS sl il o0 En) as (-> & _).
    destruct (closed_run _ _ _ T O11 O5 Hx) as (_ & _ & _ & HH). exact (HH i (il, o0) Hi (nth_error_In _ _ En)).
  - exfalso. revert He. apply closed_goes_on; auto.
Qed.
End Closed.
