(** C83: in a run of a bundle the chains meet only through the flow (and, with tempering, through the temperatures). *)
From Verif Require Import Prelude Num M_Core M_Kernels M_Strategies M_PT M_Bundle Spec Spec_Core Spec_Steps Spec_Kernels Spec_Train Spec_PT Spec_Bundle Spec_Ext Spec_Chain P_Chain Toy Prop_Bundle Prop_Ext.
Open Scope nat_scope.

Section Props.
Context {N : Num} {G : Rng} {NF : NFOps}.
(** C83: two runs of one RQSpline_MALA bundle with the same key and data from starting positions that agree in chain i (the other
    chains may start anywhere): chain i records the same local steps in its first training loop; without training loops it
    records the same production samples and ends in the same position; with training loops it does so if the two trained models
    are equal and it ended training in the same position. *)
Theorem C83_base :
  forall c h b n1 n2 nc1 nc2 k o1 o2 kw1 kw2 s1 s2 d xs ys good1 good2 k1 x1 w1 k2 x2 w2 i,
  rqspline_mala_bundle c = Ok (h, b) -> sampler_init n1 nc1 k None None o1 (Some b) kw1 = Ok s1 -> sampler_init n2 nc2 k None None o2 (Some b) kw2 = Ok s2 ->
  run_ok c d xs good1 -> run_ok c d ys good2 -> i < c_n_chains c -> nth i xs [] = nth i ys [] ->
  sampler_sample s1 (P2 xs) d h = (Ok (k1, x1), w1) -> sampler_sample s2 (P2 ys) d h = (Ok (k2, x2), w2) ->
  (0 < c_train_loops c -> chain_agrees (c_n_dims c) (c_local c / c_local_th c) w1 w2 "training" i) /\
  (c_train_loops c = 0 \/
   (0 < c_global c /\ content_of w1 "model" = content_of w2 "model" /\
    (forall x y, recorded_at (c_n_dims c) w1 "training" i (slots c (c_train_loops c) - 1) x -> recorded_at (c_n_dims c) w2 "training" i (slots c (c_train_loops c) - 1) y -> x = y)) ->
   chain_agrees (c_n_dims c) (slots c (c_prod_loops c)) w1 w2 "production" i /\ k1 = k2 /\ nth i x1 [] = nth i x2 []).
Proof. exact base_chains. Qed.

(** C83: the same for RQSpline_MALA_PT; with training loops also the final temperatures and chain i's stored walkers must agree. *)
Theorem C83_pt :
  forall pc h b n1 n2 nc1 nc2 k o1 o2 kw1 kw2 s1 s2 d xs ys good1 good2 k1 x1 w1 k2 x2 w2 i, let c := p_base pc in
  rqspline_mala_pt_bundle pc = Ok (h, b) -> sampler_init n1 nc1 k None None o1 (Some b) kw1 = Ok s1 -> sampler_init n2 nc2 k None None o2 (Some b) kw2 = Ok s2 ->
  run_ok c d xs good1 -> run_ok c d ys good2 -> grad_shape (p_prior pc) d (c_n_dims c) -> i < c_n_chains c -> nth i xs [] = nth i ys [] ->
  sampler_sample s1 (P2 xs) d h = (Ok (k1, x1), w1) -> sampler_sample s2 (P2 ys) d h = (Ok (k2, x2), w2) ->
  (0 < c_train_loops c -> chain_agrees (c_n_dims c) (c_local c / c_local_th c) w1 w2 "training" i) /\
  (c_train_loops c = 0 \/
   (0 < c_global c /\ content_of w1 "model" = content_of w2 "model" /\
    (forall x y, recorded_at (c_n_dims c) w1 "training" i (slots c (c_train_loops c) - 1) x -> recorded_at (c_n_dims c) w2 "training" i (slots c (c_train_loops c) - 1) y -> x = y) /\
    (forall l1 tb1 l2 tb2, buffer_named w1 "temperatures" l1 tb1 -> buffer_named w2 "temperatures" l2 tb2 -> temps_of tb1 = temps_of tb2) /\
    (forall l1 pb1 l2 pb2 j, buffer_named w1 "tempered_positions" l1 pb1 -> buffer_named w2 "tempered_positions" l2 pb2 -> j + 1 < p_n_temps pc -> brow pb1 (c_n_dims c) i j = brow pb2 (c_n_dims c) i j)) ->
   chain_agrees (c_n_dims c) (slots c (c_prod_loops c)) w1 w2 "production" i /\ k1 = k2 /\ nth i x1 [] = nth i x2 []).
Proof. exact pt_chains. Qed.
End Props.

(** Starts that agree in chain 0 and differ in chain 1; a bundle with two training loops (zcfg) and one with none (zcfg0). *)
Definition zother : list (list Z) := [[1; 2]; [2; -1]]%Z.
Definition zcfg0 : @config ZNum ZRng ZNF := @mkConfig ZNum ZRng ZNF
  [7] 2 2 zlp 4 2 0 2 3 (@SScalar ZNum 1%Z) 1 2 6 2 1 2 100 (fun k => Z.of_nat (length k)) 1%Z (fun m => 0%Z).
Definition zfrom (xs : list (list Z)) hb := @sampler_sample ZNum ZRng ZNF (zsamp (snd hb)) (@P2 ZNum xs) [] (fst hb).
Lemma z_run_ok_start c xs : @run_ok ZNum ZRng ZNF c [] zstart (fun _ => True) -> length xs = 2 -> (forall x, In x xs -> length x = 2) -> c_n_chains c = 2 -> c_n_dims c = 2 ->
  @run_ok ZNum ZRng ZNF c [] xs (fun _ => True).
Proof. intros H L D E1 E2. destruct H. constructor; auto. - now rewrite E1. - intros x Hx. rewrite E2. now apply D. Qed.
Lemma z_run_ok0 : @run_ok ZNum ZRng ZNF zcfg0 [] zstart (fun _ => True).
Proof. destruct z_run_ok. constructor; auto; cbn; lia. Qed.
Lemma zother_dims x : In x zother -> length x = 2.
Proof. intros [<-|[<-|[]]]; reflexivity. Qed.
Example C83_case :
  @run_ok ZNum ZRng ZNF zcfg [] zstart (fun _ => True) /\ @run_ok ZNum ZRng ZNF zcfg [] zother (fun _ => True) /\
  @run_ok ZNum ZRng ZNF zcfg0 [] zstart (fun _ => True) /\ @run_ok ZNum ZRng ZNF zcfg0 [] zother (fun _ => True) /\
  nth 0 zstart [] = nth 0 zother [] /\ nth 1 zstart [] <> nth 1 zother [] /\
  zok (zfrom zstart (zhb_of zcfg)) = true /\ zok (zfrom zother (zhb_of zcfg)) = true /\ zok (zfrom zstart (zhb_of zcfg0)) = true /\ zok (zfrom zother (zhb_of zcfg0)) = true /\
  zok (zfrom zstart (zhp_of zcfg)) = true /\ zok (zfrom zother (zhp_of zcfg)) = true /\ zok (zfrom zstart (zhp_of zcfg0)) = true /\ zok (zfrom zother (zhp_of zcfg0)) = true.
Proof.
  split; [exact z_run_ok|]. split; [exact (z_run_ok_start _ zother z_run_ok eq_refl zother_dims eq_refl eq_refl)|]. split; [exact z_run_ok0|].
  split; [exact (z_run_ok_start _ zother z_run_ok0 eq_refl zother_dims eq_refl eq_refl)|]. split; [reflexivity|]. split; [discriminate|]. repeat split; vm_compute; reflexivity.
Qed.
(** With training the hypotheses of the second clause are met too: here the trained models and chain 0's last training positions agree. *)
Example C83_case_training :
  @content_of ZNum ZRng ZNF (snd (zfrom zstart (zhb_of zcfg))) "model" = @content_of ZNum ZRng ZNF (snd (zfrom zother (zhb_of zcfg))) "model" /\
  map (fun j => zdata (snd (zfrom zstart (zhb_of zcfg))) L_pos_tr [0; @slots ZNum ZRng ZNF zcfg 2 - 1; j]) [0; 1] =
  map (fun j => zdata (snd (zfrom zother (zhb_of zcfg))) L_pos_tr [0; @slots ZNum ZRng ZNF zcfg 2 - 1; j]) [0; 1].
Proof. split; vm_compute; reflexivity. Qed.
(** C83: with training the claim needs its condition: a flow that learns from where the samples are carries the other chain's start into chain 0. *)
Definition ZNF2 : @NFOps ZNum ZRng := @mkNFOps ZNum ZRng Z Z Z
  (fun m x => (- (hd 0 x - m) * (hd 0 x - m))%Z)
  (fun m k n => map (fun i => [m + hash (i :: k) mod 7; hash (i :: i :: k) mod 5]%Z) (seq 0 n))
  (fun m b tx st => ((m * m - Z.of_nat (length b))%Z, (m + fold_right Z.add 0 (map (fun x => hd 0 x) b))%Z, (st + 1)%Z))
  (fun m data => (m + Z.of_nat (length data))%Z).
Definition zlearn : @config ZNum ZRng ZNF2 := @mkConfig ZNum ZRng ZNF2
  [7] 2 2 zsteep 4 2 2 2 3 (@SScalar ZNum 1%Z) 1 2 6 2 1 2 100 (fun k => Z.of_nat (length k)) 1%Z (fun m => 0%Z).
Definition zhl : list (@obj ZNum ZRng ZNF2) * @bundle ZNum ZRng ZNF2 :=
  match @rqspline_mala_bundle ZNum ZRng ZNF2 zlearn with Ok p => p | Raise _ => ([], mkBundle [] [] []) end.
Definition zsampl : @sampler ZNum ZRng ZNF2 := @mkSampler ZNum ZRng ZNF2 2 2 [3] (bd_resources (snd zhl)) (bd_strategies (snd zhl)) (OList (bd_order (snd zhl))) [].
Definition zfroml (xs : list (list Z)) := @sampler_sample ZNum ZRng ZNF2 zsampl (@P2 ZNum xs) [] (fst zhl).
Lemma z_run_okl xs : length xs = 2 -> (forall x, In x xs -> length x = 2) -> @run_ok ZNum ZRng ZNF2 zlearn [] xs (fun _ => True).
Proof.
  intros L D. destruct z_run_ok. constructor; auto; try (intros x Hx; cbn; now rewrite map_length).
Qed.
Lemma zfroml_def xs : zfroml xs = @sampler_sample ZNum ZRng ZNF2 zsampl (@P2 ZNum xs) [] (fst zhl).
Proof. reflexivity. Qed.
Theorem C83_training_refuted :
  ~ (forall (N : Num) (G : Rng) (NF : NFOps) c h b n nc k o kw s d xs ys good k1 x1 w1 k2 x2 w2 i,
     rqspline_mala_bundle c = Ok (h, b) -> sampler_init n nc k None None o (Some b) kw = Ok s ->
     run_ok c d xs good -> run_ok c d ys good -> i < c_n_chains c -> nth i xs [] = nth i ys [] ->
     sampler_sample s (P2 xs) d h = (Ok (k1, x1), w1) -> sampler_sample s (P2 ys) d h = (Ok (k2, x2), w2) -> nth i x1 [] = nth i x2 []).
Proof.
  intros H.
  assert (P : (match fst (zfroml zstart) with Ok (_, xs) => xs | _ => [] end) = [[108; 4]; [105; 0]]%Z) by (vm_compute; reflexivity).
  assert (Q : (match fst (zfroml zother) with Ok (_, xs) => xs | _ => [] end) = [[136; 4]; [133; 0]]%Z) by (vm_compute; reflexivity).
  destruct (zfroml zstart) as [[[k1 x1]|e1] w1] eqn:E1; [|discriminate P].
  destruct (zfroml zother) as [[[k2 x2]|e2] w2] eqn:E2; [|discriminate Q]. cbn [fst] in P, Q. rewrite zfroml_def in E1, E2.
  assert (D1 : forall x, In x zstart -> length x = 2) by (intros x [<-|[<-|[]]]; reflexivity).
  pose proof (H ZNum ZRng ZNF2 zlearn (fst zhl) (snd zhl) 2 2 [3] ONone [] zsampl [] zstart zother (fun _ => True) k1 x1 w1 k2 x2 w2 0 eq_refl eq_refl
    (z_run_okl zstart eq_refl D1) (z_run_okl zother eq_refl zother_dims) ltac:(cbn; lia) eq_refl E1 E2) as X.
  rewrite P, Q in X. discriminate X.
Qed.
Print Assumptions C83_base.
Print Assumptions C83_pt.
Print Assumptions C83_training_refuted.
