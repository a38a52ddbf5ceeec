(** Parallel tempering with a single temperature. *)
From Coq Require Import Lia.
From Verif Require Import Prelude Num M_Core M_Kernels M_Strategies M_PT P_Lists Spec_Kernels Spec_Train Spec_PT P_PT P_PT2 P_PT4 Spec_Reach Spec_Single.

Section S.
Context {N : Num} {G : Rng} {NF : NFOps}.
Variables (pt : ptemp) (kern : skernel) (t : tempered) (d : datad) (T : F) (dim : nat).
Hypothesis KD : keeps_dim kern t d dim.
Notation step c n k x := (end_of kern (tempered_lpdf t T) d (pt_n_steps pt) (walker_key k n c) x).
(** A world in which the only temperature is [T]. *)
Definition single (w : world) : Prop := exists pl pb tl tb tr, pt_setup w pt kern t pl pb tl tb tr /\ temps_of tb = [T].
Lemma scan_dim n : forall k x lp tr, length x = dim -> serial_scan kern (tempered_lpdf t T) d n k x lp = Ok tr -> length (last (map (fun o => fst (fst o)) tr) x) = dim.
Proof.
  induction n as [|n IH]; intros k x lp tr L H; [injection H as <-; exact L|]. cbn [serial_scan] in H.
  destruct (kern (split k 2 1) x lp (tempered_lpdf t T) d) as [[[y v] b]|e] eqn:H1; [|discriminate]. cbn [rbind] in H.
  destruct (serial_scan kern (tempered_lpdf t T) d n (split k 2 0) y v) as [l|e] eqn:H2; [|discriminate]. injection H as <-.
  pose proof (KD _ _ _ _ _ L H1) as Ly. cbn [fst] in Ly. pose proof (IH _ _ _ _ Ly H2) as Q. cbn [map fst].
  assert (E : forall m (x y : vec), last (y :: m) x = last m y).
  { clear. intros m. induction m as [|a m IH]; intros x y; [reflexivity|]. change (last (y :: a :: m) x) with (last (a :: m) x). exact (eq_trans (IH x a) (eq_sym (IH y a))). }
  rewrite E. exact Q.
Qed.
Lemma single_call k xs w k' xs' w' : single w -> (forall x, In x xs -> length x = dim) -> dim = length (nth 0 xs []) ->
  parallel_tempering pt k xs d w = (Ok (k', xs'), w') ->
  length xs' = length xs /\ single w' /\
  forall c, c < length xs -> (exists tr, serial_sample kern (tempered_lpdf t T) d (pt_n_steps pt) (walker_key k (length xs) c) (nth c xs []) = Ok tr) /\
    nth c xs' [] = step c (length xs) k (nth c xs []).
Proof.
  intros (pl & pb & tl & tb & tr & SU & HT) LX HD H. subst dim.
  pose proof (C41_proof pt k xs d w kern t pl pb tl tb tr k' xs' w' SU KD LX H) as (after & accs & L1 & L2 & L3 & _ & CU & W).
  split; [exact L3|]. split.
  - destruct tr.
    + destruct W as (pb' & tb' & Hp & Ht & Sp & St & RD & FR & _ & TE). exists pl, pb', tl, tb', true. split.
      * destruct SU as [A B (C1 & C2) (D1 & D2) (sl & st & v & F1 & F2 & F3 & F4)].
        refine (mkPtSetup _ _ _ _ _ _ _ _ _ _ _ (conj _ Hp) (conj _ Ht) _); [rewrite RD; exact A|rewrite RD; exact B|rewrite RD; exact C1|rewrite RD; exact D1|].
        exists sl, st, v. rewrite RD. rewrite FR; [auto| |]; intros ->; congruence.
      * rewrite TE, HT. apply adapt_small. cbn. lia.
    + subst w'. now exists pl, pb, tl, tb, false.
  - intros c Hc. destruct (CU c Hc) as (E1 & E2 & stepped & ens & E3 & MV & (S1 & S2 & S3 & S4 & _) & EC). rewrite HT in * . cbn [length] in * .
    destruct (MV 0 ltac:(lia)) as (trc & M1 & M2). cbn [nth] in M1.
    assert (B0 : nth 0 (ensemble_before pb xs c) [] = nth c xs []) by reflexivity. rewrite B0 in M1, M2.
    change (serial_sample kern (tempered_lpdf t T) d (pt_n_steps pt) (walker_key k (length xs) c) (nth c xs []) = Ok trc) in M1.
    split; [now exists trc|]. unfold end_of. rewrite M1. rewrite E3 in S1. cbn in S1. rewrite S1 in S4. rewrite S3 in S4. rewrite EC, <- S4. exact M2.
Qed.
Lemma single_calls ks : forall xs w ys, single w -> xs <> [] -> (forall x, In x xs -> length x = dim) -> pt_calls pt d ks xs w = Ok ys ->
  length ys = length xs /\ forall c, c < length xs -> nth c ys [] = fold_left (fun x k => step c (length xs) k x) ks (nth c xs []).
Proof.
  induction ks as [|k ks IH]; intros xs w ys SG NE LX H.
  - injection H as <-. split; [reflexivity|]. reflexivity.
  - cbn [pt_calls] in H. destruct (parallel_tempering pt k xs d w) as [[[k' zs]|e] w'] eqn:HC; [|discriminate].
    assert (HD : dim = length (nth 0 xs [])) by (symmetry; apply LX; destruct xs; [congruence|now left]).
    destruct (single_call k xs w k' zs w' SG LX HD HC) as (L & SG' & ST).
    assert (LZ : forall x, In x zs -> length x = dim).
    { intros x Hx. apply (In_nth _ _ []) in Hx as (c & Hc & <-). rewrite L in Hc. destruct (ST c Hc) as ((tr & E) & ->). unfold end_of. rewrite E. 
      apply (scan_dim _ _ _ _ _ (LX _ (nth_In _ _ Hc)) E). }
    assert (NZ : zs <> []) by (intros ->; destruct xs; [congruence|discriminate]).
    destruct (IH zs w' ys SG' NZ LZ H) as (L' & F'). rewrite L in L', F'. split; [exact L'|]. intros c Hc. rewrite (F' c Hc). cbn [fold_left]. now rewrite (proj2 (ST c Hc)).
Qed.
End S.
