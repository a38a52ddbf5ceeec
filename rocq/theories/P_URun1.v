(** A bundle run in other units: loops. *)
From Coq Require Import Reals Psatz Permutation.
From Verif Require Import Prelude Num M_Core M_Kernels M_Strategies M_PT M_Bundle P_Lists RNum Spec Spec_Core Spec_Steps Spec_Kernels Spec_Train Spec_PT Spec_Bundle
  Spec_Prog Spec_Real Spec_HMC P_Real1 Spec_Units P_Units1 P_Units2 Spec_URun P_Ext.
From Verif Require P_Train.
Open Scope nat_scope.

Lemma f2_nth {A B} (V : A -> B -> Prop) l l' d d' : Forall2 V l l' -> forall i, i < length l -> V (nth i l d) (nth i l' d').
Proof. induction 1 as [|u v l l' H _ IH]; intros [|i] Hi; cbn in *; try lia; auto. apply IH. lia. Qed.
Lemma f2_of_nth {A B} (V : A -> B -> Prop) d d' : forall l l', length l = length l' -> (forall i, i < length l -> V (nth i l d) (nth i l' d')) -> Forall2 V l l'.
Proof.
  induction l as [|u l IH]; intros [|v l'] L H; try discriminate; constructor; [apply (H 0); cbn; lia|]. apply IH; [cbn in L; lia|]. intros i Hi. apply (H (S i)). cbn. lia.
Qed.
Lemma f2_mapseq {B C} (V : B -> C -> Prop) f g l : (forall i, In i l -> V (f i) (g i)) -> Forall2 V (@map nat B f l) (map g l).
Proof. induction l as [|i l IH]; intros H; cbn; constructor; auto with datatypes. Qed.
Lemma f2_nth_error {A B} (V : A -> B -> Prop) l l' : Forall2 V l l' -> forall i u, nth_error l i = Some u -> exists v, nth_error l' i = Some v /\ V u v.
Proof. induction 1 as [|u v l l' H _ IH]; intros [|i] w E; cbn in *; try discriminate; [injection E as <-; eauto|eauto]. Qed.
Lemma f2_of_error {A B} (V : A -> B -> Prop) : forall l l', length l = length l' -> (forall i u v, nth_error l i = Some u -> nth_error l' i = Some v -> V u v) -> Forall2 V l l'.
Proof.
  induction l as [|u l IH]; intros [|v l'] L H; try discriminate; constructor; [apply (H 0); reflexivity|]. apply IH; [cbn in L; lia|]. intros i u' v' E E'. apply (H (S i)); assumption.
Qed.
Lemma app_split {A} : forall (p v q r : list A), length p = length v -> p ++ q = v ++ r -> p = v /\ q = r.
Proof. induction p as [|x p IH]; intros [|y v] q r L E; try discriminate L; [auto|]. cbn in L, E. injection E as -> E. destruct (IH v q r ltac:(lia) E) as [-> ->]. auto. Qed.

Section URun.
Context {G : @Rng RNum} {NF : @NFOps RNum G}.
Variables (n : nat) (a b : nat -> R).
Notation iu := (in_units n a b).
Notation siu := (step_in_units n a b).

(* ------------------------------------------------------------------ chains *)
Lemma chains_run_units (samp samp' : nat -> key -> list R -> res (list (list R * R * bool))) N th k xs xs' out out' ys ys' :
  (forall q x x', iu x x' -> both (Forall2 siu) (samp N q x) (samp' N q x')) -> Forall2 iu xs xs' ->
  chains_run samp N th k xs out ys -> chains_run samp' N th k xs' out' ys' ->
  Forall2 (Forall2 siu) out out' /\ Forall2 iu ys ys' /\ length out = length xs /\ Forall (fun o => length o = N) out.
Proof.
  intros S X (A1 & A2 & A3) (B1 & B2 & B3). pose proof (f2_len _ _ _ X) as LX. rnorm.
  assert (O : forall i, i < length xs -> Forall2 siu (nth i out []) (nth i out' [])).
  { intros i Hi. destruct (A3 i Hi) as (P & _), (B3 i ltac:(lia)) as (Q & _). rewrite <- LX in Q.
    destruct (S (split (split k 2 1) (length xs) i) (nth i xs []) (nth i xs' []) (f2_nth iu _ _ [] [] X i Hi)) as (u & v & E & E' & W).
    rnorm. rewrite E in P. rewrite E' in Q. injection P as <-. injection Q as <-. exact W. }
  split; [|split; [|split]].
  - apply (f2_of_nth _ [] []); [lia|]. intros i Hi. apply O. lia.
  - apply (f2_of_nth _ [] []); [lia|]. intros i Hi. rewrite A2 in Hi. destruct (A3 i Hi) as (_ & _ & o & P1 & P2), (B3 i ltac:(lia)) as (_ & _ & o' & Q1 & Q2).
    destruct (f2_nth_error _ _ _ (O i Hi) _ _ P1) as (v & E & W). rnorm. rewrite E in Q1. injection Q1 as <-. rewrite P2, Q2. apply W.
  - exact A1.
  - apply Forall_forall. intros o Ho. apply (In_nth _ _ []) in Ho as (i & Hi & <-). apply A3. lia.
Qed.

(* ------------------------------------------------------------------ histories *)
(** Related loops, with [chains] chains each. *)
Definition lrel (c : config) (chains : nat) (l l' : loop) : Prop :=
  Forall2 (Forall2 siu) (lo_local l) (lo_local l') /\ Forall2 (Forall2 siu) (lo_global l) (lo_global l') /\ lo_losses l' = lo_losses l /\
  length (lo_local l) = chains /\ length (lo_global l) = chains /\
  Forall (fun o => length o = c_local c) (lo_local l) /\ Forall (fun o => length o = c_global c) (lo_global l).
Definition hsiu (o o' : bool * (list R * R * bool)) : Prop := fst o' = fst o /\ siu (snd o) (snd o').
Lemma kept_units N th co co' : Forall2 siu co co' -> length co = N -> Forall2 siu (kept_steps N th co) (kept_steps N th co').
Proof.
  intros H L. unfold kept_steps. apply f2_mapseq. intros j Hj. apply in_seq in Hj. apply (f2_nth _ _ _ _ _ H). rewrite L.
  destruct th as [|t]; [cbn in Hj; lia|]. pose proof (Nat.div_mod N (S t) ltac:(lia)). nia.
Qed.
Lemma history_units c c' chains ls ls' i : c_local c' = c_local c -> c_global c' = c_global c -> c_local_th c' = c_local_th c -> c_global_th c' = c_global_th c ->
  Forall2 (lrel c chains) ls ls' -> i < chains -> Forall2 hsiu (chain_history c ls i) (chain_history c' ls' i).
Proof.
  intros E1 E2 E3 E4 H Hi. unfold chain_history. rewrite E1, E2, E3, E4. apply f2_concat. eapply f2_map; [|exact H].
  intros l l' (P1 & P2 & _ & P3 & P4 & P5 & P6).
  assert (Q : forall (o o' : list (list (list R * R * bool))) N, Forall2 (Forall2 siu) o o' -> length o = chains -> Forall (fun u => length u = N) o -> forall th, Forall2 siu (kept_steps N th (nth i o [])) (kept_steps N th (nth i o' []))).
  { intros o o' N F L FO th. apply kept_units; [apply (f2_nth _ _ _ _ _ F); lia|]. rewrite Forall_forall in FO. apply FO, nth_In. lia. }
  apply Forall2_app; (eapply f2_map; [|apply Q; eassumption]); intros u v W; split; auto.
Qed.

(* ------------------------------------------------------------------ training set *)
Lemma filter_units l l' : Forall2 (fun x y => iu x y /\ finite_row x = finite_row y) l l' -> Forall2 iu (filter (@finite_row RNum) l) (filter (@finite_row RNum) l').
Proof. induction 1 as [|x y l l' [H E] _ IH]; cbn [filter]; [constructor|]. rnorm. rewrite <- E. destruct (finite_row x); auto. Qed.
Lemma blocks_units : forall (bl bl' : list (list (list R))) m, length bl = length bl' -> (forall u, In u bl -> length u = m) -> (forall u, In u bl' -> length u = m) ->
  Forall2 iu (concat bl) (concat bl') -> Forall2 (Forall2 iu) bl bl'.
Proof.
  induction bl as [|u bl IH]; intros [|v bl'] m L H1 H2 H; try discriminate L; [constructor|]. cbn in L, H.
  apply Forall2_app_inv_l in H as (p & q & P & Q & E). assert (Lp : length p = length v) by (rewrite <- (f2_len _ _ _ P), H1, H2 by (left; reflexivity); reflexivity).
  destruct (app_split _ _ _ _ (eq_sym Lp) E) as [<- <-].
  constructor; [exact P|]. apply (IH _ m); [lia|intros; apply H1; right; auto|intros; apply H2; right; auto|exact Q].
Qed.
Lemma training_set_units win max k hist hist' ex ex' : @choice_law RNum G ->
  Forall2 (Forall2 (fun x y => iu x y /\ finite_row x = finite_row y)) hist hist' ->
  training_set win max k hist ex -> training_set win max k hist' ex' -> Forall2 iu ex ex' /\ length ex = max.
Proof.
  intros CL HH (b1 & n1 & A1 & A2 & A3 & A4 & A5 & A6) (b2 & n2 & B1 & B2 & B3 & B4 & B5 & B6). rnorm.
  assert (LH := f2_len _ _ _ HH).
  assert (CC : Forall2 iu (concat b1) (concat b2)).
  { rnorm. rewrite A1, B1. apply f2_concat. clear - HH. induction HH; cbn; constructor; auto. now apply filter_units. }
  assert (BB : Forall2 (Forall2 iu) b1 b2).
  { destruct hist as [|h hist].
    - destruct b1; [|discriminate A2]. destruct b2; [constructor|]. rewrite <- LH in B2. discriminate B2.
    - assert (E : n1 = n2).
      { pose proof (concat_length_const _ _ A3) as P. pose proof (concat_length_const _ _ B3) as Q. pose proof (f2_len _ _ _ CC) as R0. rnorm. rewrite P, Q, A2, B2, <- LH in R0. cbn [length] in R0. nia. }
      subst n2. apply (blocks_units _ _ n1); auto; lia. }
  assert (PP : Forall2 iu (concat (map (recent win) b1)) (concat (map (recent win) b2))).
  { apply f2_concat. eapply f2_map; [|exact BB]. intros u v W. pose proof (f2_len _ _ _ W) as LW. unfold recent, last_elements. destruct (win =? 0); [exact W|]. rnorm. rewrite <- LW. now apply f2_skipn. }
  split; [|exact A5]. revert A4 A6 B4 B6 PP. cbv zeta. generalize (concat (map (recent win) b1)) (concat (map (recent win) b2)). intros p p' A4 A6 B4 B6 PP.
  destruct p as [|u p].
  - destruct ex as [|x ex]; [|destruct (A6 x (or_introl eq_refl))]. destruct ex' as [|x' ex']; [constructor|]. inversion PP; subst p'. destruct (B6 x' (or_introl eq_refl)).
  - rnorm. rewrite A4, B4. pose proof (f2_len _ _ _ PP) as LP. rnorm. rewrite <- LP. apply f2_mapseq. intros i Hi. apply (f2_nth _ _ _ _ _ PP).
    apply (proj2 (CL k (length (u :: p)) max)); [cbn; lia|exact Hi].
Qed.

(* ------------------------------------------------------------------ training *)
Section Train.
Variables (tx : gtx) (max : nat) (okst : optst -> Prop) (pre conv : mdl -> mdl -> Prop).
Hypothesis FC : flows_convert n a b tx max okst pre conv.
Hypothesis PL : @permutation_law RNum G.
Lemma epoch_units m m' st v bl bl' : conv m m' -> okst st -> Forall2 (Forall2 iu) bl bl' ->
  let r := epoch_loop m tx st v bl in let r' := epoch_loop m' tx st v bl' in
  fst (fst r') = fst (fst r) /\ conv (snd (fst r)) (snd (fst r')) /\ snd r' = snd r /\ okst (snd r).
Proof.
  intros C OS H. revert m m' st v C OS. induction H as [|u u' bl bl' U _ IH]; intros m m' st v C OS; cbn [epoch_loop]; [auto|].
  destruct (fc_step _ _ _ _ _ _ _ _ FC m m' u u' st C OS U) as (E1 & C1 & E2 & OS2).
  destruct (m_step m u tx st) as [[v1 m1] s1], (m_step m' u' tx st) as [[v2 m2] s2]. cbn [fst snd] in * . subst v2 s2. now apply IH.
Qed.
Lemma batches_units2 k data data' bs : Forall2 iu data data' -> Forall2 (Forall2 iu) (epoch_batches k data bs) (epoch_batches k data' bs).
Proof.
  intros H. unfold epoch_batches. pose proof (f2_len _ _ _ H) as LD. rnorm. rewrite <- LD.
  assert (Q : forall l, (forall u, In u l -> forall i, In i u -> i < length data) -> Forall2 (Forall2 iu) (map (gather [] data) l) (map (gather [] data') l)).
  { induction l as [|u l IH]; intros Q; cbn; constructor; [|apply IH; intros; eapply Q; [right|]; eassumption].
    unfold gather. apply f2_mapseq. intros i Hi. apply (f2_nth _ _ _ _ _ H). apply (Q u); [left; reflexivity|exact Hi]. }
  apply Q. intros u Hu i Hi. pose proof (P_Train.reshape_rows_In _ _ _ _ _ Hu Hi) as K. 
  assert (K2 : In i (permutation k (length data))) by (rewrite <- (firstn_skipn (length data / bs * bs)); apply in_or_app; left; exact K).
  apply (Permutation_in _ (PL k (length data))) in K2. apply in_seq in K2. lia.
Qed.
Lemma train_epoch_units m m' k st data data' bs : conv m m' -> okst st -> Forall2 iu data data' ->
  match train_epoch m k tx st data bs, train_epoch m' k tx st data' bs with
  | Ok r, Ok r' => fst (fst r') = fst (fst r) /\ conv (snd (fst r)) (snd (fst r')) /\ snd r' = snd r /\ okst (snd r)
  | Raise e, Raise e' => e = e'
  | _, _ => False end.
Proof.
  intros C OS H. unfold train_epoch. pose proof (f2_len _ _ _ H) as LD. rnorm. rewrite <- LD. destruct (bs =? 0); [reflexivity|]. destruct (0 <? _).
  - apply epoch_units; [exact C|exact OS|]. now apply batches_units2.
  - now apply (fc_step _ _ _ _ _ _ _ _ FC).
Qed.
Lemma loop_units data data' bs : Forall2 iu data data' ->
  let ep := fun D (k' : key) (ms : mdl * optst) => rmap (fun o : R * mdl * optst => (fst (fst o), (snd (fst o), snd o))) (train_epoch (fst ms) k' tx (snd ms) D bs) in
  forall N k cur cur' best best' bl kf ms ls kf' ms' ls', conv (fst cur) (fst cur') -> snd cur' = snd cur -> okst (snd cur) -> pre (fst best) (fst best') -> snd best' = snd best -> okst (snd best) ->
  best_epoch_loop (ep data) N k cur best bl = Ok (kf, ms, ls) -> best_epoch_loop (ep data') N k cur' best' bl = Ok (kf', ms', ls') ->
  kf' = kf /\ snd ms' = snd ms /\ ls' = ls /\ pre (fst ms) (fst ms') /\ okst (snd ms) /\
  (conv (fst best) (fst best') \/ (exists v, In v ls /\ (v < bl)%R) -> conv (fst ms) (fst ms')).
Proof.
  intros HD ep. induction N as [|N IH]; intros k [m st] [m' st'] best best' bl kf ms ls kf' ms' ls' C E O1 P Eb O2 H H'; cbn [best_epoch_loop] in H, H'; cbn [fst snd] in C, E, O1; subst st'.
  - injection H as <- <- <-. injection H' as <- <- <-. split; [reflexivity|]. split; [exact Eb|]. split; [reflexivity|]. split; [exact P|]. split; [exact O2|]. intros [K|(v & [] & _)]. exact K.
  - unfold ep in H at 1. unfold ep in H' at 1. cbn [fst snd] in H, H'.
    pose proof (train_epoch_units m m' (split k 2 1) st data data' bs C O1 HD) as TE.
    change (@F RNum) with R in * .
    destruct (train_epoch m (split k 2 1) tx st data bs) as [[[v m1] s1]|]; [|discriminate H].
    destruct (train_epoch m' (split k 2 1) tx st data' bs) as [[[v' m1'] s1']|]; [|discriminate H'].
    cbn [fst snd] in TE. destruct TE as (-> & C1 & -> & O3). cbn [rmap rbind fst snd] in H, H'.
    destruct (best_epoch_loop (ep data) N _ _ _ _) as [[[kf1 b1] l1]|] eqn:H1; [|discriminate H].
    destruct (best_epoch_loop (ep data') N _ _ _ _) as [[[kf2 b2] l2]|] eqn:H2; [|discriminate H'].
    cbn [rbind] in H, H'. injection H as <- <- <-. injection H' as <- <- <-.
    change (@flt RNum v bl) with (Rltb v bl) in H1, H2.
    destruct (Rltb v bl) eqn:B.
    + destruct (IH _ (m1, s1) (m1', s1) (m1, s1) (m1', s1) _ _ _ _ _ _ _ C1 eq_refl O3 (fc_pre _ _ _ _ _ _ _ _ FC _ _ C1) eq_refl O3 H1 H2) as (-> & E2 & -> & Q & O4 & K).
      repeat split; auto.
    + destruct (IH _ (m1, s1) (m1', s1) _ _ _ _ _ _ _ _ _ C1 eq_refl O3 P Eb O2 H1 H2) as (-> & E2 & -> & Q & O4 & K).
      repeat split; auto. intros [Z|(u & [<-|Hu] & LU)]; apply K; [left; exact Z| |right; eauto].
      exfalso. unfold Rltb in B. destruct (Rlt_dec v bl); [discriminate|contradiction].
Qed.
Lemma train_units m m' k ex ex' st N bs kf ms ls kf' ms' ls' : pre m m' -> okst st -> length ex = max -> Forall2 iu ex ex' ->
  train m k ex tx st N bs = Ok (kf, ms, ls) -> train m' k ex' tx st N bs = Ok (kf', ms', ls') ->
  kf' = kf /\ snd ms' = snd ms /\ ls' = ls /\ okst (snd ms) /\ (conv m m' \/ (exists v, In v ls /\ (v < 1000000000)%R) -> conv (fst ms) (fst ms')).
Proof.
  intros P O1 L H T T'. unfold train in T, T'.
  destruct (loop_units ex ex' bs H N k (m_stats m ex, st) (m_stats m' ex', st) (m, st) (m', st) _ _ _ _ _ _ _ (fc_stats _ _ _ _ _ _ _ _ FC _ _ _ _ P L H) eq_refl O1 P eq_refl O1 T T') as (A & B & C & _ & O2 & D).
  repeat split; auto.
Qed.
End Train.
End URun.
