(** C67, C68: files of resources and histograms of buffers. *)
From Coq Require Import Reals Psatz.
From Verif Require Import Prelude Num M_Core M_Kernels M_Strategies M_PT M_Bundle M_Files Spec Spec_Core Spec_Sampler Spec_Steps Spec_Kernels Spec_Train Spec_Bundle RNum Float32 Toy.
From Verif Require Import Spec_Files P_Files P_Files2 P_Files3 P_Files4.
Open Scope nat_scope.

(* ==================================================================================== *)
(** C67.  save_resource(path) writes one file, called path + name with ".npz" appended unless that already ends in
    ".npz" ([stored_as], a function of path and name).  A buffer saved and, after any number of saves to other
    files, loaded from that file has the same name and data (and cursor 0, cursor_dim 0). *)
Theorem C67_file_name : forall p n, exists f, stored_as p n f /\ forall g, stored_as p n g -> g = f.
Proof. exact stored_total. Qed.
Theorem C67_round_trip : forall (N : Num) fs path b file later,
  stored_as path (b_name b) file -> (forall c, In c later -> ~ writes c file) ->
  exists b', buffer_load_from (save_all (buffer_save_to fs path b) later) file = Ok b' /\ reset_copy b b'.
Proof. exact @save_load. Qed.
(** Two saves go to the same file exactly if path + name agree, or differ by the suffix ".npz" that was added. *)
Theorem C67_same_file : forall p n f p' n' f', stored_as p n f -> stored_as p' n' f' ->
  (f = f' <-> append p n = append p' n' \/
     (append p n = append (append p' n') ".npz" /\ ~ exists a, append p' n' = append a ".npz") \/
     (append p' n' = append (append p n) ".npz" /\ ~ exists a, append p n = append a ".npz")).
Proof. exact same_file. Qed.
(** The argument of save_resource is not the argument of load_resource: it names the file only if the resource's name is
    empty and the path ends in ".npz", and otherwise load_resource raises (unless something else wrote that file). *)
Theorem C67_own_argument : forall p n, stored_as p n p <-> n = EmptyString /\ exists a, p = append a ".npz".
Proof. exact own_argument. Qed.
Theorem C67_missing : forall (N : Num) fs cs file, dget fs file = None -> (forall c, In c cs -> ~ writes c file) ->
  buffer_load_from (save_all fs cs) file = Raise OtherError.
Proof. exact @not_written. Qed.
(** A State's file is refused by Buffer.load_resource. *)
Theorem C67_state_file : forall (N : Num) fs path s file later,
  stored_as path (s_name s) file -> (forall c, In c later -> ~ writes c file) ->
  buffer_load_from (save_all (state_save_to fs path s) later) file = Raise ValueError.
Proof. exact @state_file. Qed.
(** Buffers with distinct names, none ending in ".npz", saved with one path: all come back.  The buffers of both bundles
    are such a family. *)
Theorem C67_all_buffers : forall (N : Num) fs path bs i b,
  NoDup (map b_name bs) -> (forall b, In b bs -> ~ exists a, b_name b = append a ".npz") -> nth_error bs i = Some b ->
  exists file b', stored_as path (b_name b) file /\
    buffer_load_from (save_all fs (map (SaveBuffer path) bs)) file = Ok b' /\ reset_copy b b'.
Proof. exact @one_path. Qed.
Theorem C67_bundle_names : forall (N : Num) (G : Rng) (NF : NFOps) c pc m names,
  names = map b_name (buffers_in (base_heap c m)) \/ names = map b_name (buffers_in (pt_heap pc m)) ->
  NoDup names /\ forall n, In n names -> ~ exists a, n = append a ".npz".
Proof.
  intros N G NF c pc m names H. rewrite base_names, pt_names in H.
  split; [destruct H as [->| ->]; repeat constructor; cbn; intuition discriminate|].
  destruct H as [->| ->]; apply names_npz; reflexivity.
Qed.

Example C67_cases : forall (N : Num),
  stored_as "out/" "positions" "out/positions.npz" /\ stored_as "out/" "positions.npz" "out/positions.npz" /\
  let b1 := buffer_init "positions" [2] 0 in let b2 := buffer_init "positions.npz" [3] 0 in
  buffer_load_from (save_all [] [SaveBuffer "out/" b1; SaveBuffer "out/" b2]) "out/positions.npz" = Ok b2 /\
  buffer_load_from (save_all [] [SaveBuffer "out/" b1]) "out/" = Raise OtherError.
Proof.
  intros N. split; [apply stored_savez; reflexivity|]. split; [apply stored_savez; reflexivity|]. split; reflexivity.
Qed.

(* ==================================================================================== *)
(** C68.  Buffer.get_distribution raises ValueError for zero bins and whenever any slot is NaN or infinite, in particular
    while a slot has never been written. *)
Theorem C68_no_bins : forall (N : Num) trunc b, get_distribution trunc b 0 = Raise ValueError.
Proof. exact @no_bins. Qed.
Theorem C68_not_finite : forall (N : Num), NumLaws -> inf_laws -> forall trunc b n ix,
  valid_index (ashape (b_data b)) ix -> ffinite (aget (b_data b) ix) = false -> get_distribution trunc b n = Raise ValueError.
Proof. exact @bad_distribution. Qed.
Theorem C68_fresh : forall (N : Num) trunc name sh cursor_dim bins, NumLaws -> inf_laws -> 0 < slots sh ->
  get_distribution trunc (buffer_init name sh cursor_dim) bins = Raise ValueError.
Proof. exact @fresh_hist. Qed.
(** The acceptance buffers of a bundle always have such slots: after any completed run of a phase with both kinds of
    steps, neither acceptance buffer of the phase has a histogram. *)
Theorem C68_acceptances : forall (N : Num) (G : Rng) (NF : NFOps)
  trunc c h bd n nc k o kw s d xs good k' xs' w' phase al ab gl gb bins, NumLaws -> inf_laws ->
  rqspline_mala_bundle c = Ok (h, bd) -> sampler_init n nc k None None o (Some bd) kw = Ok s -> run_ok c d xs good ->
  sampler_sample s (P2 xs) d h = (Ok (k', xs'), w') ->
  0 < c_n_chains c ->
  (phase = "training"%string /\ 0 < c_train_loops c \/ phase = "production"%string /\ 0 < c_prod_loops c) ->
  buffer_named w' (append "local_accs_" phase) al ab -> buffer_named w' (append "global_accs_" phase) gl gb ->
  (0 < c_global c -> get_distribution trunc ab bins = Raise ValueError) /\
  (0 < c_local c -> get_distribution trunc gb bins = Raise ValueError).
Proof. exact @run_acc_hist. Qed.
(** binary32 satisfies both sets of laws. *)
Theorem C68_binary32 : forall pi fe fl ft, @NumLaws (B32Num pi fe fl ft) /\ @inf_laws (B32Num pi fe fl ft).
Proof. intros. split; [apply B32_laws|apply B32_inf_laws]. Qed.

(** With exact arithmetic, n > 0 bins and finite slots the result is the histogram: n + 1 equally spaced edges from the smallest to
    the largest slot (from v - 1/2 to v + 1/2 if all slots equal v, from 0 to 1 if there are no slots); the count of bin i
    is the number of slots in it, bins being half open except the last; the counts add up to the number of slots.  The truncated
    index may be off by one. *)
Theorem C68_histogram : forall trunc (b : @buffer RNum) (n : nat), 0 < n -> near_trunc n trunc ->
  (forall ix, valid_index (ashape (b_data b)) ix -> @ffinite RNum (aget (b_data b) ix) = true) ->
  exists counts edges lo hi, @get_distribution RNum trunc b n = Ok (counts, edges) /\ (lo < hi)%R /\
    ((slots (ashape (b_data b)) = 0 /\ lo = 0%R /\ hi = 1%R) \/ extremes (b_data b) lo hi \/
     exists v, extremes (b_data b) v v /\ lo = (v - 1 / 2)%R /\ hi = (v + 1 / 2)%R) /\
    length edges = S n /\ (forall i, i <= n -> @nth R i edges 0%R = edge lo hi n i) /\
    length counts = n /\ fold_right Nat.add 0 counts = slots (ashape (b_data b)) /\
    forall i, i < n -> exists l, slots_where (ashape (b_data b)) (fun ix => in_bin lo hi n i (aget (b_data b) ix)) l /\ nth i counts 0 = length l.
Proof. exact hist_real. Qed.

(** Truncation exists, and a buffer with slots 0, 1, 4 has the histogram [2; 1] in two bins. *)
Definition up_trunc (x : R) : nat := Z.to_nat (up x - 1).
Lemma up_trunc_law : trunc_law up_trunc.
Proof.
  intros x Hx. unfold up_trunc. destruct (archimed x) as [A B].
  assert (0 < up x)%Z. { apply lt_IZR. lra. }
  rewrite INR_IZR_INZ, Z2Nat.id by lia. rewrite minus_IZR. lra.
Qed.
Lemma near_of_law trunc : trunc_law trunc -> forall n, near_trunc n trunc.
Proof.
  intros H n x [H0 H1]. destruct (H x H0) as [A B]. split; [|lra].
  apply INR_le. lra.
Qed.
(** An index that is one too large or one too small is corrected too. *)
Definition off_trunc (n : nat) (x : R) : nat := if up_trunc x <? n then S (up_trunc x) else up_trunc x - 1.
Lemma off_near n : near_trunc (S n) (off_trunc (S n)).
Proof.
  intros x [H0 H1]. destruct (near_of_law _ up_trunc_law (S n) x (conj H0 H1)) as [A _]. destruct (up_trunc_law x H0) as [B C].
  unfold off_trunc. destruct (Nat.ltb_spec (up_trunc x) (S n)) as [L|L].
  - rewrite S_INR. split; [lia|lra].
  - split; [lia|]. rewrite minus_INR by lia. cbn [INR]. lra.
Qed.
Definition three_slots : @buffer RNum := @mkBuffer RNum "b" (@mkArr RNum [3] (fun ix => match ix with [0] => 0 | [1] => 1 | _ => 4 end)%R) 0 0.
Example C68_case : exists edges, @get_distribution RNum up_trunc three_slots 2 = Ok ([2; 1], edges).
Proof.
  assert (Fin : forall ix, valid_index (ashape (b_data three_slots)) ix -> @ffinite RNum (aget (b_data three_slots) ix) = true).
  { intros ix _. apply finite_R. unfold Rbig. cbn. destruct ix as [|[|[|?]] [|? ?]]; rewrite Rabs_pos_eq; lra. }
  destruct (C68_histogram up_trunc three_slots 2 ltac:(lia) (near_of_law _ up_trunc_law 2) Fin) as (c & e & lo & hi & E & Hlt & Hk & _ & _ & Lc & _ & H).
  exists e. rewrite E.
  assert (lo = 0 /\ hi = 4)%R as [-> ->].
  { assert (V : forall i, i < 3 -> valid_index [3] [i]) by (intros i Hi; split; [reflexivity|]; intros [|k] Hk'; cbn in *; lia).
    destruct Hk as [[Hs _]|[(A & B & X)|(v & (A & B & X) & _)]]; [discriminate Hs| |].
    - pose proof (X [0] (V 0 ltac:(lia))) as X0. pose proof (X [2] (V 2 ltac:(lia))) as X2. cbn in X0, X2.
      destruct A as (ix & _ & A), B as (jx & _ & B). cbn in A, B.
      destruct ix as [|[|[|?]] [|? ?]]; destruct jx as [|[|[|?]] [|? ?]]; cbn in *; lra.
    - pose proof (X [0] (V 0 ltac:(lia))) as X0. pose proof (X [2] (V 2 ltac:(lia))) as X2. cbn in X0, X2. lra. }
  assert (W : forall i ix, valid_index [3] ix -> i < 2 -> in_bin 0 4 2 i (aget (b_data three_slots) ix) <-> (i = if hd 0 ix =? 2 then 1 else 0)).
  { intros i ix [V1 V2] Hi. destruct ix as [|j [|? ?]]; try discriminate V1. specialize (V2 0 ltac:(cbn; lia)). cbn [nth] in V2. cbn [hd].
    unfold in_bin, edge. destruct i as [|[|i]]; [| |lia]; destruct j as [|[|[|j]]]; try lia; cbn;
    (split; [intros [H1 [H2|[H2 H3]]]|intros HE]); try reflexivity; try discriminate; try (exfalso; lra); (split; [lra|first [left; lra|right; split; [reflexivity|lra]]]). }
  assert (C : forall i, i < 2 -> nth i c 0 = length (filter (fun ix => i =? (if hd 0 ix =? 2 then 1 else 0)) [[0]; [1]; [2]])).
  { intros i Hi. destruct (H i Hi) as (l & [ND Hl] & ->). apply Nat.le_antisymm; apply NoDup_incl_length; auto.
    - intros ix Hix. apply Hl in Hix as [V Hb]. apply (W i ix V Hi) in Hb. apply filter_In. split; [|now apply Nat.eqb_eq].
      destruct V as [V1 V2]. destruct ix as [|j [|? ?]]; try discriminate V1. specialize (V2 0 ltac:(cbn; lia)). cbn in V2. destruct j as [|[|[|j]]]; cbn; auto; lia.
    - apply NoDup_filter. repeat constructor; cbn; intuition discriminate.
    - intros ix Hix. apply filter_In in Hix as [Hin Hb]. apply Nat.eqb_eq in Hb. apply Hl.
      assert (V : valid_index [3] ix). { cbn in Hin. destruct Hin as [<-|[<-|[<-|[]]]]; (split; [reflexivity|]; intros [|k] Hk'; cbn in *; lia). }
      split; [exact V|]. now apply (W i ix V Hi). }
  destruct c as [|c0 [|c1 [|? ?]]]; try discriminate Lc. pose proof (C 0 ltac:(lia)) as C0. pose proof (C 1 ltac:(lia)) as C1. cbn in C0, C1. now subst.
Qed.

Print Assumptions C67_file_name. Print Assumptions C67_round_trip. Print Assumptions C67_same_file. Print Assumptions C67_own_argument.
Print Assumptions C67_missing. Print Assumptions C67_state_file. Print Assumptions C67_all_buffers. Print Assumptions C67_bundle_names.
Print Assumptions C68_no_bins. Print Assumptions C68_not_finite. Print Assumptions C68_fresh. Print Assumptions C68_acceptances.
Print Assumptions C68_binary32. Print Assumptions C68_histogram.
