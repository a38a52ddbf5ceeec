(** Corollaries for Prop_Steps.v. *)
From Verif Require Import Prelude Num M_Core M_Kernels M_Strategies M_PT M_Bundle
  Spec Spec_Core Spec_Steps Spec_Kernels P_Lists P_Sampler P_Steps P_Kernels P_StepsK Toy.

Section S2.
Context {N : Num} {G : Rng} {NF : NFOps}.

Lemma C08_serial_shape_proof kf lpr f d n dim :
  density_of lpr f -> repo_kernel kf dim -> normal_shape -> grad_shape f d dim ->
  sampler_shape (samp_serial (RSer kf) lpr d) n dim (fun x => length x = dim).
Proof. intros. eapply samp_serial_shape; eauto. now apply repo_kernel_shape. Qed.

Lemma C12_slot_count_proof n th : 0 < th ->
  (forall j, j < cdiv n th <-> j * th < n) /\
  (n mod th = 0 -> cdiv n th = n / th) /\
  (n mod th <> 0 -> cdiv n th = n / th + 1) /\
  (0 < n -> n - 1 - (n - 1) / th * th = (n - 1) mod th /\ (n - 1) mod th < th).
Proof.
  intros H. split. { intros j. symmetry. now apply cdiv_lt. }
  split. { now apply cdiv_exact. } split. { intros. rewrite cdiv_notexact by auto. lia. }
  intros _. pose proof (Nat.div_mod (n - 1) th). pose proof (Nat.mod_upper_bound (n - 1) th). nia.
Qed.

Lemma C12_tiling_proof samp ts m k xs d w k' xs' w' pl pb ll lb al ab kern lp cur dim (good : vec -> Prop) :
  setup w ts pl pb ll lb al ab kern lp cur ->
  sampler_shape (samp kern lp d) (ts_n_steps ts) dim good -> (forall x, In x xs -> good x) ->
  let n := ts_n_steps ts in let th := ts_thinning ts in let kept := n / th in
  n mod th = 0 -> 0 < th ->
  room pb cur (m * kept) -> room lb cur (m * kept) -> room ab cur (m * kept) ->
  calls m (take_steps samp ts) k xs d w = (Ok (k', xs'), w') ->
  exists (outs : nat -> list chain_out) (pos : nat -> pos_t) pb' lb' ab',
    pos 0 = xs /\ pos m = xs' /\
    (forall i c, i < m -> c < length xs ->
       samp kern lp d n (split (split (iter i (fun q => split q 2 0) k) 2 1) (length xs) c)
            (nth c (pos i) []) = Ok (nth c (outs i) []) /\
       last_kept n th (nth c (outs i) []) (nth c (pos (S i)) [])) /\
    setup w' ts pl pb' ll lb' al ab' kern lp (cur + m * kept) /\
    (forall c t, c < length xs -> t < m * kept ->
       exists o, nth_error (nth c (outs (t / kept)) []) (t mod kept * th) = Some o /\
                 holds_at pb' lb' ab' dim c (cur + t) o).
Proof.
  intros Hsu HS Hg n th kept Hd Hth R1 R2 R3 H.
  assert (Hk : cdiv n th = n / th) by (apply cdiv_exact; auto).
  destruct (C12_calls_proof samp ts m k xs d w k' xs' w' pl pb ll lb al ab kern lp cur dim good Hsu HS Hg) as
    (outs & pos & pb' & lb' & ab' & B0 & B1 & _ & B3 & B4 & B5 & _ & _).
  1-3: fold n th; rewrite Hk, Nat.sub_diag, Nat.add_0_r; auto.
  { exact H. }
  fold n th in B3, B4, B5. fold kept in B4, B5.
  exists outs, pos, pb', lb', ab'. split; [auto|]. split; [auto|]. split. { intros i c Hi Hc. now apply B3. }
  split; [auto|].
  intros c t Hc Ht. assert (0 < kept) by nia.
  pose proof (Nat.div_mod t kept ltac:(lia)) as E. pose proof (Nat.mod_upper_bound t kept ltac:(lia)) as E2.
  assert (Hi : t / kept < m) by (apply Nat.div_lt_upper_bound; lia).
  destruct (B3 _ c Hi Hc) as (_ & HL & _ & _).
  assert (Hj : t mod kept * th < n). { apply cdiv_lt; auto. rewrite Hk. auto. }
  destruct (nth_error (nth c (outs (t / kept)) []) (t mod kept * th)) as [o|] eqn:Eo.
  2: { apply nth_error_None in Eo. lia. }
  exists o. split; [reflexivity|]. replace (cur + t) with (cur + t / kept * kept + t mod kept) by lia.
  apply B5; auto.
Qed.

Lemma C12_lossy_proof samp ts k xs d w k' xs' w' pl pb ll lb al ab kern lp cur dim (good : vec -> Prop) :
  setup w ts pl pb ll lb al ab kern lp cur ->
  sampler_shape (samp kern lp d) (ts_n_steps ts) dim good -> (forall x, In x xs -> good x) ->
  let n := ts_n_steps ts in let th := ts_thinning ts in let adv := n / th in
  n mod th <> 0 -> 0 < th ->
  room pb cur (2 * adv + 1) -> room lb cur (2 * adv + 1) -> room ab cur (2 * adv + 1) ->
  calls 2 (take_steps samp ts) k xs d w = (Ok (k', xs'), w') ->
  exists out1 out2 xs1 k1 w1 pb1 lb1 ab1 pb' lb' ab',
    take_steps samp ts k xs d w = (Ok (k1, xs1), w1) /\
    setup w1 ts pl pb1 ll lb1 al ab1 kern lp (cur + adv) /\
    setup w' ts pl pb' ll lb' al ab' kern lp (cur + 2 * adv) /\
    forall c, c < length xs ->
      samp kern lp d n (split (split k 2 1) (length xs) c) (nth c xs []) = Ok (nth c out1 []) /\
      samp kern lp d n (split (split k1 2 1) (length xs) c) (nth c xs1 []) = Ok (nth c out2 []) /\
      (exists o1, nth_error (nth c out1 []) (adv * th) = Some o1 /\
                  holds_at pb1 lb1 ab1 dim c (cur + adv) o1 /\ nth c xs1 [] = s_pos o1) /\
      (exists o2, nth_error (nth c out2 []) 0 = Some o2 /\
                  holds_at pb' lb' ab' dim c (cur + adv) o2).
Proof.
  intros Hsu HS Hg n th adv Hd Hth R1 R2 R3 H.
  assert (Hk : cdiv n th = S adv) by (apply cdiv_notexact; auto).
  assert (Hn : adv * th < n /\ (n - 1) / th = adv /\ 0 < n).
  { unfold adv. pose proof (Nat.div_mod n th ltac:(lia)) as E. pose proof (Nat.mod_upper_bound n th ltac:(lia)).
    assert (n / th * th < n) by nia. split; [auto|]. split; [|lia].
    symmetry. apply (Nat.div_unique _ _ _ (n mod th - 1)); nia. }
  destruct Hn as (Hn & Hn2 & Hn3).
  cbn [calls] in H.
  destruct (take_steps samp ts k xs d w) as [[[k1 xs1]|e] w1] eqn:E1; [|discriminate].
  destruct (take_steps samp ts k1 xs1 d w1) as [[[k2 xs2]|e] w2] eqn:E2; [|discriminate].
  unfold mret in H. injection H as -> -> ->.
  assert (Q : forall b, room b cur (2 * adv + 1) -> room b cur (cdiv (ts_n_steps ts) (ts_thinning ts))).
  { intros b Hb. fold n th. rewrite Hk. unfold room in * . lia. }
  destruct (C08_setup_proof samp ts k xs d w k1 xs1 w1 pl pb ll lb al ab kern lp cur dim good Hsu HS Hg (Q _ R1) (Q _ R2) (Q _ R3) E1) as
      (o1 & pb1 & lb1 & ab1 & A1 & A2 & A3 & A4 & S1 & S2 & S3 & A5 & A6 & A7 & A8 & A9 & _ & ->).
  fold n th in A2, A3, A4, A5, A6, A8. fold adv in A4.
  assert (Rm : forall b b', same_header b b' -> room b cur (2 * adv + 1) -> room b' (cur + adv) (cdiv (ts_n_steps ts) (ts_thinning ts))).
  { intros b b' (Hs & _) Hr. fold n th. rewrite Hk. unfold room in * . rewrite Hs. lia. }
  destruct (C08_setup_proof samp ts (split k 2 0) xs1 d w1 k' xs' w' pl pb1 ll lb1 al ab1 kern lp (cur + adv) dim good A4 HS A9 (Rm _ _ S1 R1) (Rm _ _ S2 R2) (Rm _ _ S3 R3) E2) as
      (o2 & pb2 & lb2 & ab2 & B1 & B2 & B3 & B4 & _ & _ & _ & B5 & B6 & B7 & B8 & B9 & _ & _).
  fold n th in B2, B3, B4, B5, B6, B8. fold adv in B4.
  exists o1, o2, xs1, (split k 2 0), w1, pb1, lb1, ab1, pb2, lb2, ab2.
  split; [auto|]. split; [auto|]. split. { replace (cur + 2 * adv) with (cur + adv + adv) by lia. auto. }
  intros c Hc. split; [now apply A2|]. split. { rewrite <- A7. apply B2. lia. } split.
  - destruct (A8 c Hc) as (_ & o & Ho & Ho2). rewrite Hn2 in Ho. exists o. split; [auto|]. split; [|auto].
    apply A5; auto. lia.
  - destruct (B3 (nth c o2 [])) as [HL _]. { apply nth_In. lia. }
    destruct (nth_error (nth c o2 []) 0) as [o|] eqn:Eo. 2: { apply nth_error_None in Eo. lia. }
    exists o. split; auto. replace (cur + adv) with (cur + adv + 0) by lia. apply B5; try lia; auto.
Qed.

Lemma C24_proof p f d n k x co dim :
  samples_shape (nfp_model p) dim -> 0 < nfp_bs p ->
  group_sample p f d n k x = Ok co ->
  let d' := dset d "n_steps" (DInt (Z.of_nat n)) in
  (forall key, key <> "n_steps"%string -> dget d' key = dget d key) /\
  dget d' "n_steps" = Some (DInt (Z.of_nat n)) /\
  (forall i o, nth_error co i = Some o -> s_acc o = true -> s_lp o = lp_val f (s_pos o) d') /\
  (forall o, nth_error co 0 = Some o -> s_acc o = false -> s_pos o = x /\ s_lp o = lp_val f x d) /\
  (ignores_n_steps f -> forall o, In o co -> s_lp o = lp_val f (s_pos o) d).
Proof.
  intros HS Hb H d'. split. { intros key Hk. apply dget_dset_neq. congruence. }
  split; [apply dget_dset_eq|]. unfold group_sample in H.
  destruct (nfp_kernel_spec _ _ _ _ _ _ _ _ _ HS Hb (with_n_steps_get d n) H) as (props & _ & L1 & L2 & HD & HO).
  split; [|split].
  - intros i o Ho Ha. assert (Hi : i < n) by (rewrite <- L2; apply nth_error_Some; congruence).
    destruct (HO i Hi) as (_ & B & _). rewrite (nth_error_nth _ _ _ Ho) in B. destruct (B Ha) as [-> ->]. reflexivity.
  - intros o Ho Ha. assert (Hi : 0 < n) by (rewrite <- L2; apply nth_error_Some; congruence).
    destruct (HO 0 Hi) as (_ & _ & B). rewrite (nth_error_nth _ _ _ Ho) in B. destruct (B Ha) as [-> ->]. simpl. auto.
  - intros Hi. eapply group_density; eauto.
Qed.
End S2.

Definition zlp_reads : @lpdf ZNum :=
  @mkLpdf ZNum (fun x d => match dget d "n_steps" with Some (DInt z) => (1000 + z)%Z | _ => 5%Z end)
               (fun x d => x).
Lemma znf_shape : @samples_shape ZNum ZRng ZNF 1%Z 2.
Proof.
  intros k n. cbn. rewrite map_length, seq_length. split; auto. intros x Hx. apply in_map_iff in Hx as (i & <- & _). auto.
Qed.
Lemma C24_differ_proof :
  exists (N : Num) (G : Rng) (NF : NFOps) (p : nfp) (f : lpdf) (d : datad) n k x co o,
    samples_shape (nfp_model p) 2 /\ 0 < nfp_bs p /\ dget d "n_steps" = None /\
    group_sample p f d n k x = Ok co /\ In o co /\ s_lp o <> lp_val f (s_pos o) d.
Proof.
  exists ZNum, ZRng, ZNF, (@mkNfp ZNum ZRng ZNF 1%Z 2), zlp_reads, [], 3, [], [1; 2]%Z.
  eexists _, _. split; [exact znf_shape|]. split; [simpl; lia|]. split; [reflexivity|].
  split; [vm_compute; reflexivity|]. split; [left; reflexivity|]. vm_compute. discriminate.
Qed.

Lemma steps_example_proof :
  (exists pb lb ab kern lp, @setup ZNum ZRng ZNF zworld (zts "rw" 5 2 0) 0 pb 1 lb 2 ab kern lp 3 /\
     room pb 3 5 /\ room lb 3 5 /\ room ab 3 5) /\
  (exists pb lb ab kern lp, @setup ZNum ZRng ZNF zworld (zts "nf" 4 2 0) 0 pb 1 lb 2 ab kern lp 3 /\
     room pb 3 4 /\ room lb 3 4 /\ room ab 3 4) /\
  @normal_shape ZNum ZRng /\ @grad_shape ZNum zlp [] 2 /\ @samples_shape ZNum ZRng ZNF 1%Z 2 /\
  zok (calls 2 (@take_serial_steps ZNum ZRng ZNF (zts "rw" 5 2 0)) [] zstart [] zworld) = true /\
  zok (calls 2 (@take_group_steps ZNum ZRng ZNF (zts "nf" 4 2 0)) [] zstart [] zworld) = true /\
  zdata (snd (@take_serial_steps ZNum ZRng ZNF (zts "rw" 5 2 0) [] zstart [] zworld)) 2 [0; 3] = 0%Z /\
  zdata (snd (@take_serial_steps ZNum ZRng ZNF (zts "rw" 5 2 0) [] zstart [] zworld)) 2 [0; 4] = 1%Z.
Proof.
  split; [|split; [|split; [|split; [|split; [|split; [|split; [|split]]]]]]].
  1-2: eexists _, _, _, _, _; split;
    [ constructor; try (eexists 3, _, _; repeat split; reflexivity); repeat split; try reflexivity; discriminate
    | unfold room; simpl; lia].
  - intros k n. cbn. now rewrite map_length, seq_length.
  - intros x Hx. cbn. now rewrite map_length.
  - exact znf_shape.
  - vm_compute. reflexivity.
  - vm_compute. reflexivity.
  - vm_compute. reflexivity.
  - vm_compute. reflexivity.
Qed.

Lemma C07_example_proof :
  ~ @ready ZNum ZRng ZNF (mkWorld (heap zworld) (tl (rdict zworld))) (zts "rw" 5 2 0) /\
  fst (@take_serial_steps ZNum ZRng ZNF (zts "rw" 5 2 0) [] zstart [] (mkWorld (heap zworld) (tl (rdict zworld))))
    = Raise KeyError.
Proof.
  split.
  - intros ((l & b & sl & st & bn & H1 & H2 & H3 & H4 & H5) & _).
    change (Some (@RObj ZNum ZRng ZNF 3) = Some (RObj sl)) in H1. injection H1 as <-.
    change (Some (@OState ZNum ZRng ZNF zstate) = Some (OState st)) in H2. injection H2 as <-.
    change (Some (SStr "P") = Some (SStr bn)) in H3. injection H3 as <-.
    change (@None (@resource ZNum ZRng ZNF) = Some (RObj l)) in H4. discriminate.
  - vm_compute. reflexivity.
Qed.
