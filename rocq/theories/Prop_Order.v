(** C73: the temperature ladder in floating-point arithmetic. *)
From Flocq Require Import Core BinarySingleNaN.
From Verif Require Import Prelude Num M_Core M_Kernels M_Strategies M_PT M_Bundle P_Lists Float32 Float32b
  Spec Spec_Core Spec_Sampler Spec_Steps Spec_Kernels Spec_Train Spec_PT P_PT2 Spec_Bundle Spec_Kinds Spec_Prog Spec_Hist Spec_Order P_Hist5 P_Order.
Open Scope nat_scope.

(** C73.  In any arithmetic with the order laws, any history of adaptations keeps the ladder starting at 1 and its
    temperatures but the last from decreasing. *)
Theorem C73_adaptations : forall (N : Num), NumLaws -> OrderLaws -> exp_nonneg -> forall hist temps,
  ladder_from_one temps -> ladder_from_one (adaptations temps hist).
Proof. exact @ladder_adaptations. Qed.
(** Such a ladder has no temperature below 1 except perhaps the last: each is at least 1 or NaN. *)
Theorem C73_at_least_one : forall (N : Num), NumLaws -> OrderLaws -> forall temps i, ladder_from_one temps -> i + 1 < length temps ->
  at_least f1 (nth i temps f0).
Proof. exact @ladder_ge. Qed.
(** At any time the temperatures of the tempered bundle are a ladder from 1 to max_temperature, if the initial ones are. *)
Theorem C73_bundle : forall (N : Num) (G : Rng) (NF : NFOps), NumLaws -> OrderLaws -> exp_nonneg ->
  forall pc h bd n nc k o kw s args good w, let c := p_base pc in
  rqspline_mala_pt_bundle pc = Ok (h, bd) -> sampler_init n nc k None None o (Some bd) kw = Ok s -> history_ok c args good ->
  (forall init d, In (init, d) args -> grad_shape (p_prior pc) d (c_n_dims c)) ->
  ladder_from_one (linspace f1 (p_max_temp pc) (p_n_temps pc)) -> 1 < p_n_temps pc -> seen s h bd args w ->
  exists tl tb, buffer_named w "temperatures" tl tb /\ ladder_from_one (temps_of tb) /\ length (temps_of tb) = p_n_temps pc /\
    nth (p_n_temps pc - 1) (temps_of tb) f0 = p_max_temp pc.
Proof.
  intros N G NF NL OL EX pc h bd n nc k o kw s args good w c Hb Hs HK Hpr HL Hn Hw.
  destruct (pt_seen_temps pc h bd n nc k o kw s args good
    (fun t => ladder_from_one t /\ length t = p_n_temps pc /\ nth (p_n_temps pc - 1) t f0 = p_max_temp pc) w Hb Hs HK Hpr) as (tl & tb & A & B); [| |exact Hw|].
  - split; [exact HL|]. unfold linspace. destruct (p_n_temps pc) as [|[|m]]; [lia|lia|].
    match goal with |- context [map ?f (seq 0 (S m))] => set (l := map f (seq 0 (S m))) end.
    assert (El : length l = S m) by (unfold l; now rewrite map_length, seq_length). rewrite app_length, El. cbn [length]. split; [lia|].
    rewrite app_nth2 by lia. rewrite El. replace (S (S m) - 1 - S m) with 0 by lia. reflexivity.
  - intros temps accs (A & B & C). destruct (adapt_ends temps accs) as (E1 & _ & E3). split; [apply ladder_adapt; auto|]. rewrite E1. split; [exact B|].
    rewrite B in E3. rewrite E3. exact C.
  - exists tl, tb. auto.
Qed.
(** Hence with tempering it is enough that the target is NaN or -inf outside a region (nothing about the prior) for no
    recorded position to lie outside it. *)
Theorem C73_pt_support : forall (N : Num), NumLaws -> OrderLaws -> exp_nonneg -> forall (G : Rng) (NF : NFOps) pc h bd n nc k o kw s args P good w, let c := p_base pc in
  rqspline_mala_pt_bundle pc = Ok (h, bd) -> sampler_init n nc k None None o (Some bd) kw = Ok s -> history_ok c args good ->
  (forall init d, In (init, d) args -> grad_shape (p_prior pc) d (c_n_dims c)) ->
  ladder_from_one (linspace f1 (p_max_temp pc) (p_n_temps pc)) -> (f0 <.? p_max_temp pc) = true ->
  (forall init d, In (init, d) args ->
     impossible_outside (c_logpdf c) d (c_n_dims c) P /\ impossible_outside (c_logpdf c) (with_n_steps d (c_global c)) (c_n_dims c) P) ->
  starts_in args P -> seen s h bd args w ->
  phase_honest c w "training" (fun x _ => P x) /\ phase_honest c w "production" (fun x _ => P x).
Proof. exact @pt_support_target. Qed.
(** binary32 arithmetic has these laws, whatever its exponential, logarithm and hyperbolic tangent. *)
Theorem C73_binary32 : forall pi fe fl ft, @OrderLaws (B32Num pi fe fl ft) /\ @NumLaws (B32Num pi fe fl ft).
Proof. intros. split; [apply B32_order|apply B32_laws]. Qed.
(** The default arguments n_temperatures = 5, max_temperature = 5 give a ladder in binary32. *)
Example C73_default_ladder : forall pi fe fl ft, @ladder_from_one (B32Num pi fe fl ft) (@linspace (B32Num pi fe fl ft) f1 (fofZ 5) 5).
Proof.
  intros. split; [apply B2SF_inj; vm_compute; reflexivity|]. intros i Hi. change (@length (@F (B32Num pi fe fl ft)) (@linspace (B32Num pi fe fl ft) f1 (fofZ 5) 5)) with 5 in Hi.
  destruct i as [|[|[|i]]]; [left; vm_compute; reflexivity..|lia].
Qed.

Print Assumptions C73_adaptations. Print Assumptions C73_at_least_one. Print Assumptions C73_bundle. Print Assumptions C73_pt_support. Print Assumptions C73_binary32.
