(** Adding a constant to the log-density: strategies and worlds. *)
From Verif Require Import Prelude Num M_Core M_Kernels M_Strategies M_PT M_Bundle P_Lists P_Kernels P_Steps
  Spec_Bundle Spec_Shift P_Shift1.
Open Scope nat_scope.

Lemma in_window_shape : forall st sh ix, in_window st sh ix = true -> in_shape sh (map2 Nat.sub ix st) = true.
Proof.
  induction st as [|s st IH]; intros [|d sh] [|i ix]; cbn; try discriminate; auto. intros H.
  apply andb_prop in H as [H H3]. apply andb_prop in H as [H1 H2]. apply Nat.leb_le in H1. apply Nat.ltb_lt in H2.
  apply andb_true_intro. split; [apply Nat.ltb_lt; lia|auto].
Qed.
Lemma in_shape_len : forall sh ix, in_shape sh ix = true -> length ix = length sh.
Proof. induction sh as [|d sh IH]; intros [|i ix]; cbn; try discriminate; auto. intros H. apply andb_prop in H as [_ H]. f_equal; auto. Qed.

Section Shift.
Context {N : Num} {G : Rng} {NF : NFOps}.
Hypothesis LAWS : ShiftLaws N.
Hypothesis HS : forall m k n, length (m_sample m k n) = n.
Variables c q : F.

(** Where the bundles' mutable resources live. *)
Definition tab : dict loc :=
  [ ("positions_training", L_pos_tr); ("log_prob_training", L_lp_tr); ("local_accs_training", L_la_tr);
    ("global_accs_training", L_ga_tr); ("loss_buffer", L_loss); ("positions_production", L_pos_pr);
    ("log_prob_production", L_lp_pr); ("local_accs_production", L_la_pr); ("global_accs_production", L_ga_pr);
    ("optimizer", L_opt); ("sampler_state", L_state); ("tempered_positions", L_tpos); ("temperatures", L_temp) ]%string.
Definition is_lp (l : loc) : bool := (l =? L_lp_tr) || (l =? L_lp_pr).
(** The names a state entry can hold. *)
Definition names_for (key : string) : list string :=
  (if String.eqb key "target_positions" then ["positions_training"; "positions_production"]
  else if String.eqb key "target_log_prob" then ["log_prob_training"; "log_prob_production"]
  else if String.eqb key "target_local_accs" then ["local_accs_training"; "local_accs_production"]
  else if String.eqb key "target_global_accs" then ["global_accs_training"; "global_accs_production"]
  else [])%string.
Definition state_ok (s : state) : Prop := forall key v,
  In key ["target_positions"; "target_log_prob"; "target_local_accs"; "target_global_accs"]%string ->
  dget (s_data s) key = Some (SStr v) -> In v (names_for key).

Definition arel (a a' : arr) : Prop := ashape a' = ashape a /\ forall ix, in_shape (ashape a) ix = true -> aget a' ix = aget a ix +. c.
Definition brel (b b' : buffer) : Prop :=
  b_name b' = b_name b /\ ashape (b_data b') = ashape (b_data b) /\ b_cursor b' = b_cursor b /\ b_cursor_dim b' = b_cursor_dim b /\
  forall ix, in_shape (ashape (b_data b)) ix = true ->
      (aget (b_data b) ix = fninf /\ aget (b_data b') ix = fninf) \/ aget (b_data b') ix = aget (b_data b) ix +. c.
Definition objrel (l : loc) (o o' : obj) : Prop :=
  if is_lp l then exists b b', o = OBuf b /\ o' = OBuf b' /\ brel b b'
  else o' = o /\ forall s, o = OState s -> state_ok s.
Definition entrel (name : string) (r r' : resource) : Prop :=
  match r with
  | RLog a => exists b, r' = RLog b /\ plus_constant c (l_pdf a) (l_pdf b) /\ name = "logpdf"%string
  | RTemp a => exists b, r' = RTemp b /\ trel c q a b /\ name = "tempered_logpdf"%string
  | RSer k => r' = r /\ kshift k
  | RObj l => r' = r /\ dget tab name = Some l
  | _ => r' = r /\ True
  end.
Definition optrel {A B} (V : A -> B -> Prop) (a : option A) (b : option B) : Prop :=
  match a, b with Some x, Some y => V x y | None, None => True | _, _ => False end.
Record rel (w w' : world) : Prop := mkRel {
  rl_heap : forall l, optrel (objrel l) (hget l w) (hget l w');
  rl_dict : forall name, optrel (entrel name) (dget (rdict w) name) (dget (rdict w') name);
  rl_named : forall name l, dget tab name = Some l -> is_lp l = true -> dget (rdict w) name = Some (RObj l);
  rl_some : forall l, is_lp l = true -> hget l w <> None }.

(** Two computations that end alike from related worlds. *)
Definition sim {A B} (V : A -> B -> Prop) (m : M world A) (m' : M world B) : Prop := forall w w', rel w w' ->
  rrel V (fst (m w)) (fst (m' w')) /\ rel (snd (m w)) (snd (m' w')).
Lemma sim_ret {A B} (V : A -> B -> Prop) a b : V a b -> sim V (mret a) (mret b).
Proof. intros H w w' R. cbn. auto. Qed.
Lemma sim_raise {A B} (V : A -> B -> Prop) e : sim V (mraise e) (mraise e).
Proof. intros w w' R. cbn. auto. Qed.
Lemma sim_lift {A B} (V : A -> B -> Prop) r r' : rrel V r r' -> sim V (mlift r) (mlift r').
Proof. intros H w w' R. cbn. auto. Qed.
Lemma sim_bind {A B A' B'} (V : A -> A' -> Prop) (U : B -> B' -> Prop) m m' f f' :
  sim V m m' -> (forall a a', V a a' -> sim U (f a) (f' a')) -> sim U (mbind m f) (mbind m' f').
Proof.
  intros H K w w' R. destruct (H w w' R) as [H1 H2]. unfold mbind. destruct (m w) as [[a|e] w1], (m' w') as [[a'|e'] w1']; cbn in H1, H2; try contradiction.
  - apply K; auto.
  - cbn. auto.
Qed.
Lemma sim_weaken {A B} (V U : A -> B -> Prop) m m' : sim V m m' -> (forall a b, V a b -> U a b) -> sim U m m'.
Proof. intros H K w w' R. destruct (H w w' R) as [H1 H2]. split; [|auto]. destruct (fst (m w)), (fst (m' w')); cbn in * ; auto. Qed.

(* ------------------------------------------------------------------ look-ups *)
Lemma sim_res_get name : sim (entrel name) (res_get name) (res_get name).
Proof.
  intros w w' R. unfold res_get. pose proof (rl_dict _ _ R name) as H.
  destruct (dget (rdict w) name), (dget (rdict w') name); cbn in H |- * ; try contradiction; auto.
Qed.
Definition same_obj (o : option obj) (l : loc) : Prop := True.
(** A resource that is not an object of the wanted kind raises in both. *)
Lemma sim_get_state name : sim (fun a b => b = a /\ dget tab name = Some (fst a) /\ state_ok (snd a)) (get_state name) (get_state name).
Proof.
  unfold get_state. eapply sim_bind; [apply sim_res_get|]. intros r r' H w w' R.
  destruct r as [l|a|a|k|p|m]; cbn [entrel] in H; try (destruct H as (b & -> & _)); try (destruct H as [-> H]); subst; cbn; auto.
  pose proof (rl_heap _ _ R l) as K. unfold optrel, objrel in K. destruct (hget l w) as [o|], (hget l w') as [o'|]; try contradiction; [|cbn; auto].
  destruct (is_lp l).
  - destruct K as (b & b' & -> & -> & K). cbn. auto.
  - destruct K as [-> K]. destruct o as [b|s|op|z]; cbn; auto.
Qed.
Lemma sim_get_buffer name l : dget tab name = Some l -> is_lp l = false -> sim (fun a b => b = a /\ fst a = l) (get_buffer name) (get_buffer name).
Proof.
  intros Hn Hl. unfold get_buffer. eapply sim_bind; [apply sim_res_get|]. intros r r' H w w' R.
  destruct r as [l0|a|a|k|p|m]; cbn [entrel] in H; try (destruct H as (b & -> & _)); try (destruct H as [-> H]); subst; cbn; auto.
  rewrite Hn in H. injection H as <-.
  pose proof (rl_heap _ _ R l) as K. unfold optrel, objrel in K. destruct (hget l w) as [o|], (hget l w') as [o'|]; try contradiction; [|cbn; auto].
  rewrite Hl in K. destruct K as [-> K]. destruct o as [b|s|op|z]; cbn; auto.
Qed.
Lemma sim_get_lp name l : dget tab name = Some l -> is_lp l = true -> sim (fun a b => fst b = fst a /\ fst a = l) (get_buffer name) (get_buffer name).
Proof.
  intros Hn Hl. unfold get_buffer. eapply sim_bind; [apply sim_res_get|]. intros r r' H w w' R.
  destruct r as [l0|a|a|k|p|m]; cbn [entrel] in H; try (destruct H as (b & -> & _)); try (destruct H as [-> H]); subst; cbn; auto.
  rewrite Hn in H. injection H as <-.
  pose proof (rl_heap _ _ R l) as K. unfold optrel, objrel in K. destruct (hget l w) as [o|], (hget l w') as [o'|]; try contradiction; [|cbn; auto].
  rewrite Hl in K. destruct K as (b & b' & -> & -> & K). cbn. auto.
Qed.
Lemma sim_get_optimizer name l : dget tab name = Some l -> is_lp l = false -> sim (fun a b => b = a /\ fst a = l) (get_optimizer name) (get_optimizer name).
Proof.
  intros Hn Hl. unfold get_optimizer. eapply sim_bind; [apply sim_res_get|]. intros r r' H w w' R.
  destruct r as [l0|a|a|k|p|m]; cbn [entrel] in H; try (destruct H as (b & -> & _)); try (destruct H as [-> H]); subst; cbn; auto.
  rewrite Hn in H. injection H as <-.
  pose proof (rl_heap _ _ R l) as K. unfold optrel, objrel in K. destruct (hget l w) as [o|], (hget l w') as [o'|]; try contradiction; [|cbn; auto].
  rewrite Hl in K. destruct K as [-> K]. destruct o as [b|s|op|z]; cbn; auto.
Qed.
Lemma sim_get_cursor l : is_lp l = false -> sim eq (get_cursor l) (get_cursor l).
Proof.
  intros Hl w w' R. unfold get_cursor. pose proof (rl_heap _ _ R l) as K. unfold optrel, objrel in K.
  destruct (hget l w) as [o|], (hget l w') as [o'|]; try contradiction; [|cbn; auto].
  rewrite Hl in K. destruct K as [-> K]. destruct o as [b|s|op|z]; cbn; auto.
Qed.

(* ------------------------------------------------------------------ writes *)
Lemma rel_hset l o o' w w' : rel w w' -> objrel l o o' -> rel (hset l o w) (hset l o' w').
Proof.
  intros R H.
  assert (Z : forall (v : world) p, hget l v = None -> hget l (hset l p v) = None).
  { intros v p Hv. unfold hget, hset in * . cbn. apply nth_error_None in Hv. apply nth_error_None. rewrite set_nth_length. exact Hv. }
  constructor; [|exact (rl_dict _ _ R)|exact (rl_named _ _ R)|].
  - intros l0. pose proof (rl_heap _ _ R l0) as K. destruct (Nat.eq_dec l l0) as [<-|Hn].
    + destruct (hget l w) as [x|] eqn:E1, (hget l w') as [y|] eqn:E2; cbn in K; try contradiction.
      * rewrite (hget_hset_eq _ _ _ _ E1), (hget_hset_eq _ _ _ _ E2). exact H.
      * rewrite (Z w o E1), (Z w' o' E2). exact I.
    + rewrite !hget_hset_neq by auto. exact K.
  - intros l0 Hl0. pose proof (rl_some _ _ R l0 Hl0) as K. destruct (Nat.eq_dec l l0) as [<-|Hn].
    + destruct (hget l w) as [x|] eqn:E1; [|contradiction]. rewrite (hget_hset_eq _ _ _ _ E1). discriminate.
    + rewrite !hget_hset_neq by auto. exact K.
Qed.
Lemma sim_heap_set l o : is_lp l = false -> (forall s, o = OState s -> state_ok s) -> sim eq (heap_set l o) (heap_set l o).
Proof.
  intros Hl Ho w w' R. unfold heap_set. cbn. split; [reflexivity|]. apply rel_hset; [exact R|]. unfold objrel. rewrite Hl. auto.
Qed.
Definition lp_name (name : string) : bool := String.eqb name "log_prob_training" || String.eqb name "log_prob_production".
Lemma lp_name_spec name l : dget tab name = Some l -> is_lp l = true -> lp_name name = true.
Proof.
  unfold tab, lp_name. cbn [dget].
  repeat match goal with |- context [String.eqb name ?s] => destruct (String.eqb name s); [intros H; injection H as <-; intros X; try reflexivity; discriminate X|] end.
  discriminate.
Qed.
Lemma sim_res_set name r r' : lp_name name = false -> entrel name r r' -> sim eq (res_set name r) (res_set name r').
Proof.
  intros Hn H w w' R. unfold res_set. cbn. split; [reflexivity|]. constructor; [exact (rl_heap _ _ R)| | |exact (rl_some _ _ R)].
  - intros n0. cbn. destruct (String.string_dec name n0) as [<-|Hne].
    + rewrite !dget_dset_eq. exact H.
    + rewrite !dget_dset_neq by auto. apply (rl_dict _ _ R).
  - intros n0 l Ht Hl. cbn. destruct (String.string_dec name n0) as [<-|Hne].
    + rewrite (lp_name_spec _ _ Ht Hl) in Hn. discriminate.
    + rewrite !dget_dset_neq by auto. now apply (rl_named _ _ R).
Qed.
Lemma sim_buf_update l a z : is_lp l = false -> sim eq (buf_update l a z) (buf_update l a z).
Proof.
  intros Hl w w' R. unfold buf_update. pose proof (rl_heap _ _ R l) as K. unfold optrel, objrel in K.
  destruct (hget l w) as [o|] eqn:E1, (hget l w') as [o'|] eqn:E2; try contradiction; [|cbn; auto].
  rewrite Hl in K. destruct K as [-> K]. destruct o as [b|s|op|z0]; cbn; auto.
  destruct (update_buffer b a z); cbn; [|auto]. split; [reflexivity|]. apply rel_hset; [exact R|]. unfold objrel. rewrite Hl. split; [reflexivity|discriminate].
Qed.
Lemma dus_shift b b' a a' z : brel b b' -> arel a a' ->
  rrel brel (update_buffer b a z) (update_buffer b' a' z).
Proof.
  intros (B1 & B2 & B3 & B4 & B5) [A1 A2]. unfold update_buffer, dus_in_dim. rewrite B2, B4, A1.
  destruct (length (ashape (b_data b)) <=? b_cursor_dim b); [reflexivity|].
  destruct (negb (length (ashape (b_data b)) =? length (ashape a))) eqn:E1; [reflexivity|].
  destruct (forallb _ _); cbn [negb]; [|exact eq_refl]. cbn [rbind rrel]. unfold brel. cbn. repeat (split; [auto|]).
  intros ix Hix. destruct (in_window _ _ ix) eqn:E.
  - right. apply A2. now apply in_window_shape in E.
  - auto.
Qed.
Lemma sim_buf_update_lp l a a' z : is_lp l = true -> arel a a' -> sim eq (buf_update l a z) (buf_update l a' z).
Proof.
  intros Hl Ha w w' R. unfold buf_update. pose proof (rl_heap _ _ R l) as K. unfold optrel, objrel in K.
  destruct (hget l w) as [o|] eqn:E1, (hget l w') as [o'|] eqn:E2; try contradiction; [|cbn; auto].
  rewrite Hl in K. destruct K as (b & b' & -> & -> & K). pose proof (dus_shift _ _ _ _ z K Ha) as D.
  destruct (update_buffer b a z), (update_buffer b' a' z); cbn in D |- * ; try contradiction; [|auto].
  split; [reflexivity|]. apply rel_hset; [exact R|]. unfold objrel. rewrite Hl. eauto.
Qed.

(* ------------------------------------------------------------------ take_steps *)
Lemma stride_rel {A B} (V : A -> B -> Prop) th l l' : Forall2 V l l' -> Forall2 V (stride th l) (stride th l').
Proof.
  intros H. unfold stride. generalize 0 as j. induction H as [|a b l l' Hab _ IH]; intros [|j]; cbn; try constructor; auto.
Qed.
Lemma stack2_rel (l l' : list (list F)) n : Forall2 (Forall2 (fun a b => b = a +. c)) l l' -> (forall r, In r l -> length r = n) ->
  arel (stack2 l) (stack2 l').
Proof.
  intros H Hn. unfold arel, stack2. cbn [ashape aget].
  assert (E0 : length (nth 0 l' []) = length (nth 0 l [])).
  { destruct H as [|r r' l l' Hr _]; [reflexivity|]. cbn. symmetry. clear -Hr. induction Hr; cbn; congruence. }
  assert (EL : length l' = length l) by (clear -H; induction H; cbn; congruence).
  split; [now rewrite E0, EL|]. intros [|i [|j [|]]]; cbn [in_shape]; try discriminate.
  { rewrite andb_false_r. discriminate. } 2:{ rewrite !andb_false_r. discriminate. }
  intros Hix. apply andb_prop in Hix as [Hi Hj]. apply andb_prop in Hj as [Hj _]. apply Nat.ltb_lt in Hi, Hj.
  assert (L0 : length (nth 0 l []) = n) by (apply Hn, nth_In; lia).
  assert (Li : length (nth i l []) = n) by (apply Hn, nth_In; lia).
  pose proof (Forall2_nth' _ _ _ [] [] i H Hi) as Hr.
  refine (Forall2_nth' (fun a b => b = a +. c) _ _ f0 f0 j Hr _). lia.
Qed.
Lemma state_str_rel s key : rrel (fun a b => b = a /\ dget (s_data s) key = Some (SStr a)) (state_str s key) (state_str s key).
Proof. unfold state_str. destruct (dget (s_data s) key) as [[z|b|v]|] eqn:E; cbn; auto. Qed.
Lemma name_loc s key v : state_ok s -> In key ["target_positions"; "target_log_prob"; "target_local_accs"; "target_global_accs"]%string ->
  dget (s_data s) key = Some (SStr v) -> exists l, dget tab v = Some l /\ is_lp l = String.eqb key "target_log_prob".
Proof.
  intros Hs Hk Hv. pose proof (Hs key v Hk Hv) as H. clear Hs Hv.
  destruct Hk as [<-|[<-|[<-|[<-|[]]]]]; vm_compute in H; destruct H as [<-|[<-|[]]]; eexists; split; reflexivity.
Qed.

Definition ts_names (ts : takesteps) : Prop :=
  ts_pos_key ts = "target_positions"%string /\ ts_lp_key ts = "target_log_prob"%string /\
  In (ts_acc_key ts) ["target_local_accs"; "target_global_accs"]%string /\ is_lp (ts_cur ts) = false.
Definition samp_ok (samp : resource -> resource -> datad -> nat -> key -> vec -> res (list (vec * F * bool))) : Prop :=
  forall n1 n2 r r' f f' d n k x, entrel n1 r r' -> entrel n2 f f' ->
    rrel (fun l l' => Forall2 (orel c) l l' /\ length l = n) (samp r f d n k x) (samp r' f' d n k x).

Lemma as_lpdf_rel n2 f f' : entrel n2 f f' -> optrel (plus_constant c) (as_lpdf f) (as_lpdf f').
Proof. destruct f as [l|a|a|k|p|m]; cbn; try (intros (b & -> & H)); try (intros [-> H]); cbn; auto; [exact (proj1 H)|exact (proj1 (proj1 H))]. Qed.
Lemma samp_serial_ok : samp_ok samp_serial.
Proof.
  intros n1 n2 r r' f f' d n k x Hr Hf. unfold samp_serial. pose proof (as_lpdf_rel _ _ _ Hf) as A.
  destruct (as_lpdf f) as [g|], (as_lpdf f') as [g'|]; cbn in A; try contradiction; [|reflexivity].
  destruct r as [l|a|a|kf|p|m]; cbn [entrel] in Hr; try (destruct Hr as (b & -> & _)); try (destruct Hr as [-> Hr]); subst; try reflexivity.
  unfold serial_sample. rewrite (proj1 (A x d)). pose proof (serial_scan_shift c g g' kf d n Hr A k x (lp_val g x d)) as H.
  destruct (serial_scan kf g d n k x (lp_val g x d)) as [o|e] eqn:E, (serial_scan kf g' _ _ _ _ _); cbn in H |- * ; auto.
  split; [exact H|]. eapply serial_scan_length; eauto.
Qed.
Lemma samp_group_ok : samp_ok samp_group.
Proof.
  intros n1 n2 r r' f f' d n k x Hr Hf. unfold samp_group. pose proof (as_lpdf_rel _ _ _ Hf) as A.
  destruct (as_lpdf f) as [g|], (as_lpdf f') as [g'|]; cbn in A; try contradiction; [|reflexivity].
  destruct r as [l|a|a|kf|p|m]; cbn [entrel] in Hr; try (destruct Hr as (b & -> & _)); try (destruct Hr as [-> Hr]); subst; try reflexivity.
  unfold group_sample. rewrite (proj1 (A x d)). apply (nfp_shift LAWS HS c g g' p k x); [exact A|]. unfold with_n_steps. apply dget_dset_eq.
Qed.

Lemma map_rel_eq {A B C} (V : A -> B -> Prop) (h : A -> C) (h' : B -> C) l l' : Forall2 V l l' -> (forall a b, V a b -> h' b = h a) -> map h' l' = map h l.
Proof. intros H K. induction H; cbn; [reflexivity|]. f_equal; auto. Qed.
Lemma map_rel {A B C D} (V : A -> B -> Prop) (U : C -> D -> Prop) (h : A -> C) (h' : B -> D) l l' : Forall2 V l l' -> (forall a b, V a b -> U (h a) (h' b)) -> Forall2 U (map h l) (map h' l').
Proof. intros H K. induction H; cbn; constructor; auto. Qed.
Lemma sim_take_steps samp ts : ts_names ts -> samp_ok samp -> forall k xs d, sim eq (take_steps samp ts k xs d) (take_steps samp ts k xs d).
Proof.
  intros (T1 & T2 & T3 & T4) HSamp k xs d. unfold take_steps. cbv zeta.
  eapply sim_bind; [apply sim_get_state|]. intros [sl s] b (-> & Hsl & Hs). cbn [snd] in Hs.
  eapply sim_bind; [apply sim_lift, state_str_rel|]. intros pn b (-> & Hp). cbv beta.
  eapply sim_bind; [apply sim_lift, state_str_rel|]. intros ln b (-> & Hl). cbv beta.
  eapply sim_bind; [apply sim_lift, state_str_rel|]. intros an b (-> & Ha). cbv beta.
  assert (Hacc : In (ts_acc_key ts) ["target_positions"; "target_log_prob"; "target_local_accs"; "target_global_accs"]%string).
  { cbn in T3 |- * . tauto. }
  destruct (name_loc s (ts_pos_key ts) pn Hs ltac:(rewrite T1; left; reflexivity) Hp) as (pl & P1 & P2). rewrite T1 in P2. change (is_lp pl = false) in P2.
  destruct (name_loc s (ts_lp_key ts) ln Hs ltac:(rewrite T2; right; left; reflexivity) Hl) as (ll & L1 & L2). rewrite T2 in L2. change (is_lp ll = true) in L2.
  destruct (name_loc _ _ _ Hs Hacc Ha) as (al & A1 & A2).
  assert (A3 : is_lp al = false). { rewrite A2. destruct T3 as [<-|[<-|[]]]; reflexivity. }
  eapply sim_bind; [apply (sim_get_buffer pn pl P1 P2)|]. intros [pl0 pb] b (-> & Q). cbn [fst] in Q. subst pl0.
  eapply sim_bind; [apply (sim_get_lp ln ll L1 L2)|]. intros [ll0 lb] [ll1 lb'] (Q & Q'). cbn [fst] in Q, Q'. subst ll0 ll1.
  eapply sim_bind; [apply (sim_get_buffer an al A1 A3)|]. intros [al0 ab] b (-> & Q). cbn [fst] in Q. subst al0.
  eapply sim_bind; [apply sim_res_get|]. intros kr kr' Hk.
  eapply sim_bind; [apply sim_res_get|]. intros fr fr' Hf.
  eapply sim_bind.
  { apply sim_lift. rewrite !run_chains_batch by apply split_keys_length. unfold vmap_chains.
    apply (rrel_mapM (fun l l' => Forall2 (orel c) l l' /\ length l = ts_n_steps ts)).
    generalize (combine (split_keys (split k 2 1) (length xs)) xs). induction l; constructor; auto. eapply HSamp; eassumption. }
  intros out out' HO.
  eapply (sim_bind (fun _ _ => ts_thinning ts <> 0)).
  { destruct (ts_thinning ts =? 0) eqn:Eth; [apply sim_raise|]. apply sim_ret. now apply Nat.eqb_neq. }
  intros _ _ Hth.
  set (kept := map (stride (ts_thinning ts)) out). set (kept' := map (stride (ts_thinning ts)) out').
  assert (HK : Forall2 (fun l l' => Forall2 (orel c) l l' /\ length l = cdiv (ts_n_steps ts) (ts_thinning ts)) kept kept').
  { eapply map_rel; [exact HO|]. intros a b [Hab Hl0]. split; [now apply stride_rel|]. rewrite length_stride by lia. now rewrite Hl0. }
  assert (EP : map (map (fun o : vec * F * bool => fst (fst o))) kept' = map (map (fun o => fst (fst o))) kept).
  { eapply map_rel_eq; [exact HK|]. intros a b [Hab _]. eapply map_rel_eq; [exact Hab|]. intros u v (E & _). exact E. }
  assert (EA : map (map (fun o : vec * F * bool => b2f (snd o))) kept' = map (map (fun o => b2f (snd o))) kept).
  { eapply map_rel_eq; [exact HK|]. intros a b [Hab _]. eapply map_rel_eq; [exact Hab|]. intros u v (_ & _ & E). now rewrite E. }
  assert (EL : arel (stack2 (map (map (fun o : vec * F * bool => snd (fst o))) kept)) (stack2 (map (map (fun o => snd (fst o))) kept'))).
  { apply (stack2_rel _ _ (cdiv (ts_n_steps ts) (ts_thinning ts))).
    - eapply map_rel; [exact HK|]. intros a b [Hab _]. eapply map_rel; [exact Hab|]. intros u v (_ & E & _). exact E.
    - intros r Hr. apply in_map_iff in Hr as (o & <- & Ho). rewrite map_length. clear -HK Ho.
      induction HK as [|a b l l' [_ E] _ IH]; [destruct Ho|]. destruct Ho as [->|Ho]; auto. }
  rewrite EP, EA.
  eapply sim_bind; [apply sim_get_cursor; exact T4|]. intros cur b <-.
  eapply sim_bind; [apply sim_buf_update; exact P2|]. intros _ _ _.
  eapply sim_bind; [apply sim_buf_update_lp; [exact L2|exact EL]|]. intros _ _ _.
  eapply sim_bind; [apply sim_buf_update; exact A3|]. intros _ _ _.
  eapply sim_bind; [apply sim_heap_set; [exact T4|discriminate]|]. intros _ _ _.
  eapply sim_bind; [apply sim_lift, rrel_refl_eq|]. intros ls b <-. apply sim_ret. reflexivity.
Qed.

(* ------------------------------------------------------------------ the other strategies *)
Lemma sim_train_model tm : dget tab (tm_data tm) = Some L_pos_tr -> dget tab (tm_opt tm) = Some L_opt -> tm_loss tm = "loss_buffer"%string ->
  lp_name (tm_model tm) = false -> lp_name (tm_opt tm) = false ->
  forall k xs d, sim eq (train_model tm k xs d) (train_model tm k xs d).
Proof.
  intros H1 H2 H3 H4 H5 k xs d. unfold train_model. cbv zeta.
  eapply sim_bind; [apply sim_res_get|]. intros r r' Hr.
  eapply (sim_bind eq).
  { destruct r as [l|a|a|kf|p|m]; cbn [entrel] in Hr; try (destruct Hr as (b & -> & _)); try (destruct Hr as [-> Hr]); subst; try apply sim_raise.
    now apply sim_ret. }
  intros m b <-.
  eapply sim_bind; [apply (sim_get_buffer _ _ H1); reflexivity|]. intros [dl db] b (-> & _).
  eapply sim_bind; [apply (sim_get_optimizer _ _ H2); reflexivity|]. intros [ol op] b (-> & Eo). cbn [fst] in Eo. subst ol.
  eapply sim_bind; [apply sim_lift, rrel_refl_eq|]. intros pool b <-.
  eapply sim_bind; [apply sim_lift, rrel_refl_eq|]. intros ex b <-.
  eapply sim_bind; [apply sim_lift, rrel_refl_eq|]. intros [[k3 [m' st']] losses] b <-.
  eapply (sim_bind eq).
  { rewrite H3. change (String.eqb "loss_buffer" "") with false. cbv iota.
    eapply sim_bind; [apply (sim_get_buffer "loss_buffer" L_loss); reflexivity|]. intros [l0 lb] b (-> & E). cbn [fst] in E. subst l0.
    eapply sim_bind; [apply sim_buf_update; reflexivity|]. intros _ _ _.
    eapply sim_bind; [apply (sim_get_buffer "loss_buffer" L_loss); reflexivity|]. intros [l0 lb1] b (-> & E). cbn [fst] in E. subst l0.
    eapply sim_bind; [apply sim_heap_set; [reflexivity|discriminate]|]. intros _ _ _.
    apply sim_res_set; [reflexivity|]. cbn. auto. }
  intros _ _ _.
  eapply sim_bind; [apply sim_heap_set; [reflexivity|discriminate]|]. intros _ _ _.
  eapply sim_bind; [apply sim_res_set; [assumption|cbn; auto]|]. intros _ _ _.
  eapply sim_bind; [apply sim_res_set; [assumption|cbn; auto]|]. intros _ _ _. apply sim_ret. reflexivity.
Qed.
Lemma prod_state_ok s : state_ok s -> state_ok (state_update s prod_keys prod_values).
Proof.
  intros Hs key v Hk. unfold state_update. cbn [s_data prod_keys prod_values combine fold_left fst snd].
  destruct Hk as [<-|[<-|[<-|[<-|[]]]]]; rewrite ?dget_dset_neq by discriminate; rewrite ?dget_dset_eq; intros E; injection E as <-; right; left; reflexivity.
Qed.
Lemma sim_update_state name : forall k xs d, sim eq (update_state name prod_keys prod_values k xs d) (update_state name prod_keys prod_values k xs d).
Proof.
  intros k xs d w w' R. unfold update_state.
  assert (K : sim (fun a b => b = a /\ dget tab name = Some (fst a) /\ state_ok (snd a) /\ is_lp (fst a) = false) (get_state name) (get_state name)).
  { clear. intros w w' R. destruct (sim_get_state name w w' R) as [A B]. split; [|exact B]. unfold get_state, res_get, mbind in A |- * .
    pose proof (rl_dict _ _ R name) as D.
    destruct (dget (rdict w) name) as [r|], (dget (rdict w') name) as [r'|]; cbn in D |- * ; try contradiction; auto.
    destruct r as [l|a|a|kf|p|m]; cbn [entrel] in D; try (destruct D as (b & -> & _)); try (destruct D as [-> D]); subst; cbn; auto.
    pose proof (rl_heap _ _ R l) as K. unfold optrel, objrel in K. destruct (hget l w) as [o|], (hget l w') as [o'|]; try contradiction; [|cbn; auto].
    destruct (is_lp l) eqn:El.
    - destruct K as (b & b' & -> & -> & K). cbn. auto.
    - destruct K as [-> K]. destruct o as [b|s|op|z]; cbn; auto. }
  revert w w' R. eapply sim_bind; [exact K|]. intros [l s] b (-> & _ & Hs & Hl). cbn [fst snd] in Hs, Hl.
  eapply sim_bind; [apply sim_heap_set; [exact Hl|]|].
  { intros s0 E. injection E as <-. now apply prod_state_ok. }
  intros _ _ _. now apply sim_ret.
Qed.
Lemma sim_lambda f : (forall k xs d, sim eq (f k xs d) (f k xs d)) -> forall k xs d, sim eq (lambda f k xs d) (lambda f k xs d).
Proof. intros H k xs d. unfold lambda. eapply sim_bind; [apply H|]. intros _ _ _. now apply sim_ret. Qed.
Lemma sim_update_model k xs d : sim eq (update_model k xs d) (update_model k xs d).
Proof.
  apply sim_lambda. intros _ _ _. eapply sim_bind; [apply sim_res_get|]. intros r r' Hr.
  eapply sim_bind; [apply sim_res_get|]. intros g g' Hg.
  destruct r as [l|a|a|kf|p|m]; cbn [entrel] in Hr; try (destruct Hr as (b & -> & _)); try (destruct Hr as [-> Hr]); subst; try apply sim_raise.
  destruct g as [l|a|a|kf|p|m0]; cbn [entrel] in Hg; try (destruct Hg as (b & -> & _)); try (destruct Hg as [-> Hg]); subst; try apply sim_raise.
  apply sim_res_set; [reflexivity|]. cbn. auto.
Qed.
Definition strat_sim (st : strategy) : Prop := forall k xs d, sim eq (st k xs d) (st k xs d).
Lemma base_sim cf win name st : dget (base_strategies cf win) name = Some st -> strat_sim st.
Proof.
  unfold base_strategies. cbn [dget].
  destruct (String.eqb name "local_stepper"). { intros E; injection E as <-. intros k xs d. apply sim_take_steps; [|apply samp_serial_ok]. split; [reflexivity|split; [reflexivity|split; [cbn; auto|reflexivity]]]. }
  destruct (String.eqb name "global_stepper"). { intros E; injection E as <-. intros k xs d. apply sim_take_steps; [|apply samp_group_ok]. split; [reflexivity|split; [reflexivity|split; [cbn; auto|reflexivity]]]. }
  destruct (String.eqb name "model_trainer"). { intros E; injection E as <-. intros k xs d. apply sim_train_model; reflexivity. }
  destruct (String.eqb name "update_state"). { intros E; injection E as <-. intros k xs d. apply sim_update_state. }
  destruct (String.eqb name "update_global_step").
  { intros E; injection E as <-. intros k xs d. apply sim_lambda. intros _ _ _. eapply sim_bind; [apply sim_get_cursor; reflexivity|]. intros z b <-. apply sim_heap_set; [reflexivity|discriminate]. }
  destruct (String.eqb name "update_local_step").
  { intros E; injection E as <-. intros k xs d. apply sim_lambda. intros _ _ _. eapply sim_bind; [apply sim_get_cursor; reflexivity|]. intros z b <-. apply sim_heap_set; [reflexivity|discriminate]. }
  destruct (String.eqb name "reset_steppers").
  { intros E; injection E as <-. intros k xs d. apply sim_lambda. intros _ _ _. eapply sim_bind; [apply sim_heap_set; [reflexivity|discriminate]|]. intros z b <-. apply sim_heap_set; [reflexivity|discriminate]. }
  destruct (String.eqb name "update_model"); [|discriminate]. intros E; injection E as <-. intros k xs d. apply sim_update_model.
Qed.

(* ------------------------------------------------------------------ parallel tempering *)
Lemma sim_pt pc : strat_sim (parallel_tempering (pt_strat pc)).
Proof.
  intros k xs d. unfold parallel_tempering. cbv zeta. cbn [pt_strat pt_kernel pt_logpdf pt_pos_buf pt_temp_buf pt_state].
  eapply sim_bind; [apply sim_res_get|]. intros kr kr' Hk.
  assert (Ek : kr' = kr \/ (exists a b, kr = RLog a /\ kr' = RLog b) \/ (exists a b, kr = RTemp a /\ kr' = RTemp b)).
  { destruct kr as [l|a|a|kf|p|m]; cbn [entrel] in Hk; try (destruct Hk as (b & -> & _)); try (destruct Hk as [-> Hk]); eauto 6. }
  eapply (sim_bind (fun _ _ => kr' = kr)).
  { destruct Ek as [->|[(a & b & -> & ->)|(a & b & -> & ->)]]; try apply sim_raise. destruct kr; try apply sim_raise; now apply sim_ret. }
  intros _ _ ->. clear Ek.
  eapply sim_bind; [apply sim_res_get|]. intros tr tr' Ht.
  eapply (sim_bind (trel c q)).
  { destruct tr as [l|a|a|kf|p|m]; cbn [entrel] in Ht; try (destruct Ht as (b & -> & Ht)); try (destruct Ht as [-> Ht]); subst; try apply sim_raise. apply sim_ret. exact (proj1 Ht). }
  intros t t' HT.
  eapply sim_bind; [apply (sim_get_buffer "tempered_positions" L_tpos); reflexivity|]. intros [tpl tpb] b (-> & E). cbn [fst] in E. subst tpl.
  eapply sim_bind; [apply (sim_get_buffer "temperatures" L_temp); reflexivity|]. intros [tml tmb] b (-> & E). cbn [fst] in E. subst tml.
  eapply sim_bind; [apply sim_get_state|]. intros [sl s] b (-> & _ & _).
  eapply (sim_bind (fun a b => b = a /\ kshift a)).
  { destruct kr as [l|a|a|kf|p|m]; try apply sim_raise. destruct Hk as [_ Hk]. now apply sim_ret. }
  intros kern b (-> & HK).
  eapply (sim_bind eq).
  { destruct (ashape (b_data tpb)) as [|c0 [|c1 [|c2 [|]]]]; try apply sim_raise. destruct (_ && _); [now apply sim_ret|apply sim_raise]. }
  intros _ _ _.
  match goal with |- sim _ (mbind (mlift ?r) _) (mbind (mlift ?r') _) => assert (E1 : r' = r) end.
  { apply rmapM_ext. intros kx _. apply (ensemble_shift LAWS c q); assumption. }
  rewrite E1. clear E1. eapply sim_bind; [apply sim_lift, rrel_refl_eq|]. intros stepped b <-.
  set (sub' := split_keys _ _). set (temps := unstack1 (b_data tmb)).
  assert (EX : forall kx, fst (fst (exchange t' d temps (fst kx) (snd kx))) = fst (fst (exchange t d temps (fst kx) (snd kx))) /\
                          snd (exchange t' d temps (fst kx) (snd kx)) = snd (exchange t d temps (fst kx) (snd kx))).
  { intros kx. apply (exchange_shift LAWS c q _ _ d temps (fst kx) (snd kx) HT). }
  assert (E1 : map (fun o : list vec * list F * list bool => fst (fst o)) (map (fun kx => exchange t' d temps (fst kx) (snd kx)) (combine sub' stepped)) =
               map (fun o => fst (fst o)) (map (fun kx => exchange t d temps (fst kx) (snd kx)) (combine sub' stepped))).
  { rewrite !map_map. apply map_ext. intros kx. apply EX. }
  assert (E2 : map (@snd (list vec * list F) (list bool)) (map (fun kx => exchange t' d temps (fst kx) (snd kx)) (combine sub' stepped)) =
               map snd (map (fun kx => exchange t d temps (fst kx) (snd kx)) (combine sub' stepped))).
  { rewrite !map_map. apply map_ext. intros kx. apply EX. }
  rewrite E1, E2.
  eapply (sim_bind eq).
  { destruct (dget (s_data s) "training") as [v|]; [now apply sim_ret|apply sim_raise]. }
  intros tr0 b <-.
  eapply (sim_bind eq).
  { destruct tr0; [|now apply sim_ret]. eapply sim_bind; [apply sim_buf_update; reflexivity|]. intros _ _ _. apply sim_buf_update. reflexivity. }
  intros _ _ _. now apply sim_ret.
Qed.
Lemma sim_init pc : strat_sim (initialize_tempered_positions pc).
Proof. intros k xs d. apply sim_lambda. intros _ ys _. apply sim_buf_update. reflexivity. Qed.
Lemma pt_sim pc name st : dget (pt_strategies pc) name = Some st -> strat_sim st.
Proof.
  unfold pt_strategies. intros H.
  assert (D : dget (base_strategies (p_base pc) (c_window (p_base pc))) name = Some st \/
    dget [("parallel_tempering", parallel_tempering (pt_strat pc)); ("initialize_tempered_positions", initialize_tempered_positions pc)]%string name = Some st).
  { revert H. generalize (base_strategies (p_base pc) (c_window (p_base pc))) as S0. induction S0 as [|[k v] S0 IH]; [now right|].
    cbn [app dget]. destruct (String.eqb name k); auto. }
  destruct D as [D|D]; [eapply base_sim; eassumption|]. cbn [dget] in D.
  destruct (String.eqb name "parallel_tempering"). { injection D as <-. apply sim_pt. }
  destruct (String.eqb name "initialize_tempered_positions"); [|discriminate]. injection D as <-. apply sim_init.
Qed.

(* ------------------------------------------------------------------ runs and histories *)
Lemma sim_run (S0 : dict strategy) : (forall name st, dget S0 name = Some st -> strat_sim st) -> forall order k xs d, sim eq (run_order S0 order k xs d) (run_order S0 order k xs d).
Proof.
  intros H. induction order as [|name order IH]; intros k xs d; cbn [run_order]; [now apply sim_ret|].
  destruct (dget S0 name) as [st|] eqn:E; [|apply sim_raise]. eapply sim_bind; [eapply H; eassumption|].
  intros [k' xs'] b <-. apply IH.
Qed.
End Shift.
