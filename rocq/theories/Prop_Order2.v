(** C73 for the arithmetic of JAX: the initial temperatures in single precision. *)
From Coq Require Import ZArith Reals Lra Lia Psatz.
From Flocq Require Import Core BinarySingleNaN.
From Verif Require Import Prelude Num M_Core M_Kernels M_Strategies M_PT M_Bundle P_Lists Float32 Float32b Float32t
  Spec Spec_Core Spec_Sampler Spec_Steps Spec_Kernels Spec_Train Spec_PT P_PT2 P_PT3 Spec_Bundle Spec_Kinds Spec_Prog Spec_Hist Spec_Order P_Hist5 P_Order Prop_Order P_Order2.
Open Scope nat_scope.
Local Strategy 100 [Bplus Bminus Bmult Bdiv Bopp Bsqrt].

(** The tempering settings the theorems cover: two to 2^20 + 1 temperatures, the largest a number up to 2^126 and not too
    close to 1, (n - 1) (M + 1) <= 2^21 (M - 1) (for M >= 2 this allows every n up to 699051, for M = 1.1 up to 99865). *)
Record good_ladder (M : B32) (n : nat) : Prop := mkGoodLadder {
  gl_fin : is_finite M = true; gl_two : 2 <= n; gl_many : (Z.of_nat n - 1 <= 2 ^ 20)%Z;
  gl_big : (B2R M <= IZR (2 ^ 126))%R;
  gl_gap : (IZR (Z.of_nat n - 1) * (B2R M + 1) <= IZR (2 ^ 21) * (B2R M - 1))%R }.

(** C73: computed in single precision, linspace(1, M, n) has n entries, starts at exactly 1, ends at exactly M, and never
    decreases (no entry is NaN). *)
Theorem C73_initial_binary32 : forall pi fe fl ft (M : B32) n, good_ladder M n ->
  let temps := @linspace (B32Num pi fe fl ft) f1 M n in
  length temps = n /\ nth 0 temps f0 = f1 /\ nth (n - 1) temps f0 = M /\
  forall i j, i <= j < n -> (nth i temps f0 <=.? nth j temps f0) = true.
Proof.
  intros pi fe fl ft M n [A B C D E]. cbv zeta. split; [apply linspace_length|]. split; [now apply lin_first|]. split; [now apply lin_last|].
  intros i j H. now apply lin_le.
Qed.
(** Hence in single precision the tempered bundle's temperatures are at any time a ladder from 1 to max_temperature. *)
Theorem C73_bundle_binary32 : forall pi fe fl ft, let N := B32Num pi fe fl ft in @exp_nonneg N -> forall (G : Rng) (NF : NFOps),
  forall pc h bd n nc k o kw s args good w, let c := p_base pc in
  rqspline_mala_pt_bundle pc = Ok (h, bd) -> sampler_init n nc k None None o (Some bd) kw = Ok s -> history_ok c args good ->
  (forall init d, In (init, d) args -> grad_shape (p_prior pc) d (c_n_dims c)) ->
  good_ladder (p_max_temp pc) (p_n_temps pc) -> seen s h bd args w ->
  exists tl tb, buffer_named w "temperatures" tl tb /\ ladder_from_one (temps_of tb) /\ length (temps_of tb) = p_n_temps pc /\
    nth (p_n_temps pc - 1) (temps_of tb) f0 = p_max_temp pc.
Proof.
  intros pi fe fl ft N EX G NF pc h bd n nc k o kw s args good w c Hb Hs HK Hpr [A B C D E] Hw.
  exact (C73_bundle N G NF (B32_laws pi fe fl ft) (B32_order pi fe fl ft) EX pc h bd n nc k o kw s args good w Hb Hs HK Hpr
    (lin_ladder pi fe fl ft (p_max_temp pc) (p_n_temps pc) A B C D E) B Hw).
Qed.
(** And tempering never records a position where the target is NaN or -inf (nothing is asked of the prior). *)
Theorem C73_support_binary32 : forall pi fe fl ft, let N := B32Num pi fe fl ft in @exp_nonneg N -> forall (G : Rng) (NF : NFOps),
  forall pc h bd n nc k o kw s args P good w, let c := p_base pc in
  rqspline_mala_pt_bundle pc = Ok (h, bd) -> sampler_init n nc k None None o (Some bd) kw = Ok s -> history_ok c args good ->
  (forall init d, In (init, d) args -> grad_shape (p_prior pc) d (c_n_dims c)) ->
  good_ladder (p_max_temp pc) (p_n_temps pc) ->
  (forall init d, In (init, d) args ->
     impossible_outside (c_logpdf c) d (c_n_dims c) P /\ impossible_outside (c_logpdf c) (with_n_steps d (c_global c)) (c_n_dims c) P) ->
  starts_in args P -> seen s h bd args w ->
  phase_honest c w "training" (fun x _ => P x) /\ phase_honest c w "production" (fun x _ => P x).
Proof.
  intros pi fe fl ft N EX G NF pc h bd n nc k o kw s args P good w c Hb Hs HK Hpr [A B C D E] Hi Hst Hw.
  refine (C73_pt_support N (B32_laws pi fe fl ft) (B32_order pi fe fl ft) EX G NF pc h bd n nc k o kw s args P good w Hb Hs HK Hpr
    (lin_ladder pi fe fl ft (p_max_temp pc) (p_n_temps pc) A B C D E) _ Hi Hst Hw).
  apply (proj2 (ltb_V _ _ (eq_refl : fin (@f0 N)) A)). change (V (@f0 N)) with 0%R.
  assert (X : (1 < V (p_max_temp pc))%R) by (apply (M_gt (p_max_temp pc) (Z.of_nat (p_n_temps pc) - 1)); auto; lia). lra.
Qed.

(** The default (5 temperatures up to 5) and 1000 temperatures up to 100 are covered. *)
Example C73_good_cases : good_ladder (b32_ofZ 5) 5 /\ good_ladder (b32_ofZ 100) 1000.
Proof.
  destruct (ofZ_ok 5 ltac:(lia)) as [F5 V5]. destruct (ofZ_ok 100 ltac:(lia)) as [F1 V1]. unfold V in V5, V1.
  split; constructor; auto; try lia; rewrite ?V5, ?V1, <- ?plus_IZR, <- ?minus_IZR, <- ?mult_IZR; apply IZR_le; lia.
Qed.
(** The restriction on M is needed: six temperatures up to the number after 1 (1 + 2^-23) are not a ladder, the fourth is
    smaller than the third. *)
Definition next_one : B32 := Bsucc (b32_ofZ 1).
Theorem C73_initial_refuted : forall pi fe fl ft,
  is_finite next_one = true /\ Bltb (b32_ofZ 1) next_one = true /\ ~ @ladder_from_one (B32Num pi fe fl ft) (@linspace (B32Num pi fe fl ft) f1 next_one 6).
Proof.
  intros pi fe fl ft. split; [vm_compute; reflexivity|]. split; [vm_compute; reflexivity|]. intros [_ H].
  specialize (H 2). change (@length (@F (B32Num pi fe fl ft)) (@linspace (B32Num pi fe fl ft) f1 next_one 6)) with 6 in H. destruct (H ltac:(lia)) as [X|X]; vm_compute in X; discriminate X.
Qed.
Print Assumptions C73_initial_binary32. Print Assumptions C73_bundle_binary32. Print Assumptions C73_support_binary32. Print Assumptions C73_initial_refuted.
