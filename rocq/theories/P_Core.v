(** Proofs about resources (C01, C02, C03, C48, C50). *)
From Verif Require Import Prelude Num M_Core Spec Spec_Core P_Lists P_Buffer.

Lemma valid_index_iff sh ix : valid_index sh ix <-> in_shape sh ix = true.
Proof.
  unfold valid_index. revert ix; induction sh as [|d sh IH]; intros [|i ix]; simpl.
  - split; auto. intros _; split; auto. intros; lia.
  - split; [intros [H _]|]; discriminate.
  - split; [intros [H _]|]; discriminate.
  - rewrite andb_true_iff, Nat.ltb_lt, <- IH. split.
    + intros [H1 H2]. split; [apply (H2 0); lia|]. split; [lia|]. intros k Hk. apply (H2 (S k)); lia.
    + intros [H1 [H2 H3]]. split; [lia|]. intros [|k] Hk; [lia|]. apply H3; lia.
Qed.

Lemma shifted_iff ax s jx ix : shifted ax s jx ix <-> ix = shift_ix ax s jx.
Proof.
  unfold shifted, shift_ix. split.
  - intros [H1 H2]. apply (list_eq_nth 0); [now rewrite set_nth_length|].
    intros k Hk. rewrite H2. destruct (Nat.eqb_spec k ax) as [->|Hn].
    + rewrite (proj2 (Nat.ltb_lt _ _)) by lia. rewrite nth_set_nth_eq by lia. lia.
    + rewrite nth_set_nth_neq by auto. lia.
  - intros ->. split; [now rewrite set_nth_length|]. intros k.
    destruct (Nat.eqb_spec k ax) as [->|Hn].
    + destruct (Nat.ltb_spec ax (length jx)).
      * rewrite nth_set_nth_eq by lia. lia.
      * rewrite set_nth_overflow by lia. rewrite nth_overflow by lia. lia.
    + rewrite nth_set_nth_neq by auto. lia.
Qed.

Section Core.
Context {N : Num}.

Lemma update_written b u start :
  fits_shape b u ->
  exists b', update_buffer b u start = Ok b' /\ same_header b b' /\
    written_at b u (norm_start start (nth (b_cursor_dim b) (ashape (b_data b)) 0)
                                     (nth (b_cursor_dim b) (ashape u) 0)) b'.
Proof.
  intros H. destruct (update_buffer_ok b u start H) as (b' & E & H1 & H2 & H3 & H4 & H5 & H6).
  exists b'. split; [auto|]. split; [repeat split; auto|]. split.
  - intros jx ix Hj Hs. apply shifted_iff in Hs. subst ix. apply H5. now apply valid_index_iff.
  - intros ix Hix. apply H6. intros jx Hj He. apply (Hix jx); [now apply valid_index_iff|].
    now apply shifted_iff.
Qed.

Lemma C01_proof b u (start : nat) :
  fits_shape b u ->
  start + nth (b_cursor_dim b) (ashape u) 0 <= nth (b_cursor_dim b) (ashape (b_data b)) 0 ->
  exists b', update_buffer b u (Z.of_nat start) = Ok b' /\ same_header b b' /\
             written_at b u start b'.
Proof.
  intros H Hs. destruct (update_written b u (Z.of_nat start) H) as (b' & E & H1 & H2).
  exists b'. rewrite norm_start_fit in H2 by lia. rewrite Nat2Z.id in H2. auto.
Qed.

Lemma C02_shape_proof b u start b' :
  update_buffer b u start = Ok b' -> same_header b b'.
Proof.
  intros H. pose proof (update_buffer_fits _ _ _ _ H) as Hf.
  destruct (update_written b u start Hf) as (b'' & E & H1 & _). congruence.
Qed.

Lemma C02_overrun_proof b u (start : Z) :
  fits_shape b u ->
  let ext := nth (b_cursor_dim b) (ashape (b_data b)) 0 in
  let len := nth (b_cursor_dim b) (ashape u) 0 in
  (0 <= start)%Z -> (Z.of_nat ext < start + Z.of_nat len)%Z ->
  exists b', update_buffer b u start = Ok b' /\ same_header b b' /\ written_at b u (ext - len) b'.
Proof.
  intros H ext len Hp Hs. destruct (update_written b u start H) as (b' & E & H1 & H2).
  exists b'. rewrite norm_start_over in H2; auto. destruct H as (Ha & Hl & Hd). apply Hd. lia.
Qed.

Lemma C02_negative_proof b u (start : Z) :
  fits_shape b u ->
  let ext := nth (b_cursor_dim b) (ashape (b_data b)) 0 in
  let len := nth (b_cursor_dim b) (ashape u) 0 in
  (start < 0)%Z ->
  exists b', update_buffer b u start = Ok b' /\ same_header b b' /\
    written_at b u (Nat.min (Z.to_nat (start + Z.of_nat ext)) (ext - len)) b'.
Proof.
  intros H ext len Hs. destruct (update_written b u start H) as (b' & E & H1 & H2).
  exists b'. split; [auto|]. split; [auto|]. revert H2. fold ext len. unfold norm_start.
  rewrite (proj2 (Z.ltb_lt _ _)) by auto.
  replace (Z.to_nat (Z.min (Z.max (start + Z.of_nat ext) 0) (Z.of_nat (ext - len))))
    with (Nat.min (Z.to_nat (start + Z.of_nat ext)) (ext - len)) by lia. auto.
Qed.

End Core.

(* -------------------------------------------------------------------------- State *)
Lemma last_value_app {V} (l m : list (string * V)) k :
  last_value (l ++ m) k = match last_value m k with Some v => Some v | None => last_value l k end.
Proof.
  unfold last_value. rewrite rev_app_distr, filter_app.
  destruct (filter _ (rev m)); simpl; auto.
Qed.

Lemma fold_dset_get {V} (l : list (string * V)) d k :
  dget (fold_left (fun d kv => dset d (fst kv) (snd kv)) l d) k
  = match last_value l k with Some v => Some v | None => dget d k end.
Proof.
  revert d; induction l as [|[k' v] l IH] using rev_ind; intros d; [reflexivity|].
  rewrite fold_left_app, last_value_app. cbn [fold_left fst snd].
  unfold last_value at 1. simpl. destruct (String.eqb k k') eqn:E; simpl.
  - apply String.eqb_eq in E. subst. apply dget_dset_eq.
  - apply String.eqb_neq in E. rewrite dget_dset_neq by auto. apply IH.
Qed.

Lemma C03_proof (s : state) keys values k :
  dget (s_data (state_update s keys values)) k
  = match last_value (combine keys values) k with
    | Some v => Some v | None => dget (s_data s) k end.
Proof. apply fold_dset_get. Qed.

(* -------------------------------------------------------------------------- LogPDF names *)
Lemma append_inj_l p a b : append p a = append p b -> a = b.
Proof. induction p; simpl; auto. intros H; injection H; auto. Qed.

Lemma append_nil_r s : append s "" = s.
Proof. induction s; simpl; congruence. Qed.
Lemma append_length a b : String.length (append a b) = String.length a + String.length b.
Proof. induction a; simpl; auto. Qed.

Lemma append_char_inj a b c d :
  append a (String c "") = append b (String d "") -> a = b /\ c = d.
Proof.
  revert b; induction a as [|x a IH]; intros [|y b] H; simpl in H.
  - injection H; auto.
  - injection H as -> H. destruct b; discriminate.
  - injection H as -> H. destruct a; discriminate.
  - injection H as -> H. apply IH in H as [-> ->]. auto.
Qed.

Lemma ascii_digit_inj a b : a < 10 -> b < 10 ->
  Ascii.ascii_of_nat (48 + a) = Ascii.ascii_of_nat (48 + b) -> a = b.
Proof.
  intros Ha Hb H. apply (f_equal Ascii.nat_of_ascii) in H.
  rewrite !Ascii.nat_ascii_embedding in H by lia. lia.
Qed.

Lemma str_of_nat_aux_nonempty f n : str_of_nat_aux (S f) n <> ""%string.
Proof.
  simpl. destruct (n <? 10); [discriminate|]. intros H.
  apply (f_equal String.length) in H. rewrite append_length in H. simpl in H. lia.
Qed.

Lemma str_of_nat_aux_inj f g n m : n < f -> m < g ->
  str_of_nat_aux f n = str_of_nat_aux g m -> n = m.
Proof.
  revert g n m; induction f as [|f IH]; intros [|g] n m Hn Hm H; try lia.
  cbn [str_of_nat_aux] in H.
  destruct (Nat.ltb_spec n 10) as [L1|L1]; destruct (Nat.ltb_spec m 10) as [L2|L2].
  - apply (append_char_inj "" "") in H as [_ H]. rewrite (Nat.mod_small n), (Nat.mod_small m) in H by lia.
    apply ascii_digit_inj; auto.
  - exfalso. destruct g as [|g]; [lia|].
    apply (append_char_inj "") in H as [H _]. symmetry in H. now apply str_of_nat_aux_nonempty in H.
  - exfalso. destruct f as [|f]; [lia|].
    apply (append_char_inj _ "") in H as [H _]. now apply str_of_nat_aux_nonempty in H.
  - apply append_char_inj in H as [H1 H2].
    assert (n / 10 < n) by (apply Nat.div_lt; lia). assert (m / 10 < m) by (apply Nat.div_lt; lia).
    apply IH in H1; [|lia|lia].
    apply ascii_digit_inj in H2; try (apply Nat.mod_upper_bound; lia).
    rewrite (Nat.div_mod n 10), (Nat.div_mod m 10) by lia. lia.
Qed.

Lemma str_of_nat_inj n m : str_of_nat n = str_of_nat m -> n = m.
Proof. apply str_of_nat_aux_inj; lia. Qed.

Section LogPdf.
Context {N : Num}.
Lemma C50_names_proof f n :
  exists l, logpdf_init f None (Some n) = Ok l /\ l_pdf l = f /\ length (l_vars l) = n /\ logpdf_n_dims l = n /\
    (forall i d, i < n -> v_name (nth i (l_vars l) d) = append "x_" (str_of_nat i) /\
                          v_cont (nth i (l_vars l) d) = true) /\
    NoDup (map v_name (l_vars l)).
Proof.
  eexists; split; [reflexivity|]. unfold logpdf_n_dims. simpl. rewrite map_length, seq_length. repeat split; auto.
  1,2: rewrite (nth_map_seq (fun i => mkVar (append "x_" (str_of_nat i)) true)) by auto; reflexivity.
  rewrite map_map. cbn [v_name]. generalize 0. induction n as [|n IH]; intros o; simpl; constructor.
  - intros H. apply in_map_iff in H as [x [H1 H2]]. apply in_seq in H2.
    injection H1 as H1. apply str_of_nat_inj in H1. lia.
  - apply IH.
Qed.
End LogPdf.

Lemma C03_full_proof (s : state) keys values k :
  s_name (state_update s keys values) = s_name s /\
  dget (s_data (state_update s keys values)) k
  = match last_value (combine keys values) k with
    | Some v => Some v | None => dget (s_data s) k end.
Proof. split; [reflexivity|apply C03_proof]. Qed.

From Verif Require Import M_Kernels M_Strategies.

Lemma C02_refused_proof {N : Num} {G : Rng} {NF : NFOps} (w : world) (l : loc) (b : buffer) u start :
  hget l w = Some (OBuf b) -> ~ fits_shape b u ->
  exists e, buf_update l u start w = (Raise e, w).
Proof.
  intros H Hf. destruct (update_buffer_bad b u start Hf) as [e He].
  exists e. unfold buf_update. rewrite H, He. reflexivity.
Qed.

Section Save.
Context {N : Num}.
Lemma C48_buffer_proof (b : buffer) :
  let b' := buffer_load (buffer_save b) in
  b_name b' = b_name b /\ ashape (b_data b') = ashape (b_data b) /\
  (forall ix, aget (b_data b') ix = aget (b_data b) ix) /\
  b_cursor b' = 0%Z /\ b_cursor_dim b' = 0 /\
  (b' = b <-> b_cursor b = 0%Z /\ b_cursor_dim b = 0).
Proof.
  destruct b as [n d c cd]. simpl. repeat split; auto.
  - now injection H. - now injection H.
  - intros [-> ->]. reflexivity.
Qed.
Lemma C48_buffer_refuted_proof : exists b : buffer, buffer_load (buffer_save b) <> b.
Proof. exists (buffer_init "positions_training" [2; 3; 4] 1). intros H. discriminate. Qed.

Lemma C50_precedence_proof (f : lpdf) (v : list variable) (n : option nat) :
  (exists l, logpdf_init f (Some v) n = Ok l /\ l_pdf l = f /\ l_vars l = v /\ logpdf_n_dims l = length v) /\
  logpdf_init f None None = Raise ValueError.
Proof. split; auto. exists (mkLogPDF f v). auto. Qed.
Lemma C50_roundtrip_proof (l : logpdf_res) (t : tempered) :
  logpdf_unflatten (logpdf_flatten l) = Ok l /\
  tempered_unflatten (tempered_flatten t) = Ok t.
Proof. destruct l, t as [[]]; auto. Qed.
End Save.

Lemma C48_state_proof (pickle_ok : bool) (s : state) :
  match state_load pickle_ok (state_save s) with
  | Ok p => pickle_ok = true /\ py_data p = PStr (s_name s) /\ py_name p = PDict (s_data s) /\
            ~ (py_name p = PStr (s_name s) /\ py_data p = PDict (s_data s))
  | Raise e => pickle_ok = false /\ e = ValueError
  end.
Proof. destruct pickle_ok; simpl; auto. repeat split; auto. intros [H _]. discriminate. Qed.

Lemma C03_strategy_proof (N : Num) (G : Rng) (NF : NFOps) name keys values k xs d (w : world) :
  (forall l s, dget (rdict w) name = Some (RObj l) -> hget l w = Some (OState s) ->
    exists s' w', update_state name keys values k xs d w = (Ok (k, xs), w') /\
      rdict w' = rdict w /\ hget l w' = Some (OState s') /\ s_name s' = s_name s /\
      (forall q, dget (s_data s') q = match last_value (combine keys values) q with Some v => Some v | None => dget (s_data s) q end) /\
      (forall l', l' <> l -> hget l' w' = hget l' w)) /\
  ((forall l s, dget (rdict w) name = Some (RObj l) -> hget l w <> Some (OState s)) ->
    exists e, update_state name keys values k xs d w = (Raise e, w)).
Proof.
  split.
  - intros l s H1 H2. exists (state_update s keys values), (hset l (OState (state_update s keys values)) w).
    split; [unfold update_state, get_state, mbind, res_get; rewrite H1, H2; reflexivity|].
    split; [reflexivity|]. split.
    { unfold hget, hset. cbn [heap]. unfold hget in H2. rewrite (nth_error_nth' _ (OCursor 0)).
      - rewrite nth_set_nth_eq; [reflexivity|]. apply nth_error_Some. congruence.
      - rewrite set_nth_length. apply nth_error_Some. congruence. }
    split; [reflexivity|]. split; [intros q; apply C03_full_proof|].
    intros l' Hl. unfold hget, hset. cbn [heap]. 
    destruct (le_lt_dec (length (heap w)) l') as [Hge|Hlt].
    + rewrite !(proj2 (nth_error_None _ _)); auto. now rewrite set_nth_length.
    + rewrite !(nth_error_nth' _ (OCursor 0)) by (rewrite ?set_nth_length; auto). rewrite nth_set_nth_neq by auto. reflexivity.
  - intros H. unfold update_state, get_state, mbind, res_get.
    destruct (dget (rdict w) name) as [[l| | | | |]|] eqn:E; try (eexists; reflexivity).
    destruct (hget l w) as [[]|] eqn:E2; try (eexists; reflexivity). exfalso. exact (H _ _ eq_refl E2).
Qed.

Lemma C41_truth_proof v :
  (truthy v = false <-> v = SInt 0 \/ v = SBool false \/ v = SStr EmptyString) /\
  (truthy v = true <-> ~ (v = SInt 0 \/ v = SBool false \/ v = SStr EmptyString)).
Proof.
  assert (A : truthy v = false <-> v = SInt 0 \/ v = SBool false \/ v = SStr EmptyString).
  { destruct v as [z|b|s]; cbn.
    - destruct (Z.eqb_spec z 0) as [->|Hz]; cbn; split; intros H; auto; try discriminate.
      destruct H as [H|[H|H]]; congruence.
    - destruct b; cbn; split; intros H; auto; try discriminate. destruct H as [H|[H|H]]; congruence.
    - destruct (String.eqb_spec s EmptyString) as [->|Hs]; cbn; split; intros H; auto; try discriminate.
      destruct H as [H|[H|H]]; congruence. }
  split; [exact A|]. rewrite <- A. destruct (truthy v); split; intros H; congruence.
Qed.
