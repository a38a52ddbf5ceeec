(** General list lemmas. *)
From Verif Require Import Prelude.

Lemma set_nth_length {A} i (x : A) l : length (set_nth i x l) = length l.
Proof. revert i; induction l as [|y l IH]; intros [|i]; simpl; auto. Qed.

Lemma nth_set_nth_eq {A} i (x d : A) l : i < length l -> nth i (set_nth i x l) d = x.
Proof. revert i; induction l as [|y l IH]; intros [|i] H; simpl in *; try lia; auto.
  apply IH; lia. Qed.

Lemma nth_set_nth_neq {A} i j (x d : A) l : i <> j -> nth j (set_nth i x l) d = nth j l d.
Proof. revert i j; induction l as [|y l IH]; intros [|i] [|j] H; simpl; auto; try lia. Qed.

Lemma nth_error_set_nth_eq {A} i (x : A) l : i < length l -> nth_error (set_nth i x l) i = Some x.
Proof. revert i; induction l as [|y l IH]; intros [|i] H; simpl in *; try lia; auto.
  apply IH; lia. Qed.

Lemma nth_error_set_nth_neq {A} i j (x : A) l :
  i <> j -> nth_error (set_nth i x l) j = nth_error l j.
Proof. revert i j; induction l as [|y l IH]; intros [|i] [|j] H; simpl; auto; try lia. Qed.

Lemma set_nth_overflow {A} i (x : A) l : length l <= i -> set_nth i x l = l.
Proof. revert i; induction l as [|y l IH]; intros [|i] H; simpl in *; auto; try lia.
  f_equal. apply IH; lia. Qed.

Lemma map2_length {A B C} (f : A -> B -> C) l m :
  length (map2 f l m) = Nat.min (length l) (length m).
Proof. revert m; induction l as [|x l IH]; intros [|y m]; simpl; auto. Qed.

Lemma map2_nil_r {A B C} (f : A -> B -> C) l : map2 f l [] = [].
Proof. destruct l; reflexivity. Qed.

Lemma map2_combine {A B C} (f : A -> B -> C) l m :
  map2 f l m = map (fun p => f (fst p) (snd p)) (combine l m).
Proof. revert m; induction l as [|x l IH]; intros [|y m]; simpl; auto. f_equal; auto. Qed.

Lemma nth_map2 {A B C} (f : A -> B -> C) l m i da db dc :
  i < length l -> i < length m -> nth i (map2 f l m) dc = f (nth i l da) (nth i m db).
Proof. revert m i; induction l as [|x l IH]; intros [|y m] [|i] H1 H2; simpl in *; try lia; auto.
  apply IH; lia. Qed.

Lemma map2_map_l {A A' B C} (f : A -> B -> C) (g : A' -> A) l m :
  map2 f (map g l) m = map2 (fun x y => f (g x) y) l m.
Proof. revert m; induction l as [|x l IH]; intros [|y m]; simpl; auto. f_equal; auto. Qed.
Lemma map2_map_r {A B B' C} (f : A -> B -> C) (g : B' -> B) l m :
  map2 f l (map g m) = map2 (fun x y => f x (g y)) l m.
Proof. revert m; induction l as [|x l IH]; intros [|y m]; simpl; auto. f_equal; auto. Qed.
Lemma map_map2 {A B C D} (g : C -> D) (f : A -> B -> C) l m :
  map g (map2 f l m) = map2 (fun x y => g (f x y)) l m.
Proof. revert m; induction l as [|x l IH]; intros [|y m]; simpl; auto. f_equal; auto. Qed.

Lemma list_eq_nth {A} (d : A) l m :
  length l = length m -> (forall i, i < length l -> nth i l d = nth i m d) -> l = m.
Proof.
  revert m; induction l as [|x l IH]; intros [|y m] Hl H; simpl in *; try lia; auto.
  f_equal. - apply (H 0); lia. - apply IH; [lia|]. intros i Hi. apply (H (S i)); lia.
Qed.

Lemma nth_firstn {A} i n (l : list A) d : i < n -> nth i (firstn n l) d = nth i l d.
Proof. revert i l; induction n as [|n IH]; intros i [|x l] H; try lia; auto.
  destruct i; simpl; auto. apply IH; lia. Qed.

Lemma nth_skipn {A} i n (l : list A) d : nth i (skipn n l) d = nth (n + i) l d.
Proof. revert l; induction n as [|n IH]; intros [|x l]; simpl; auto. destruct i; auto. Qed.

Lemma nth_slice {A} i a b (l : list A) d : i < b - a -> nth i (slice a b l) d = nth (a + i) l d.
Proof. intros. unfold slice. rewrite nth_firstn by lia. apply nth_skipn. Qed.

Lemma slice_length {A} a b (l : list A) :
  length (slice a b l) = Nat.min (b - a) (length l - a).
Proof. unfold slice. rewrite firstn_length, skipn_length. reflexivity. Qed.

Lemma combine_nth' {A B} (l : list A) (m : list B) i da db :
  i < length l -> i < length m -> nth i (combine l m) (da, db) = (nth i l da, nth i m db).
Proof. revert m i; induction l as [|x l IH]; intros [|y m] [|i] H1 H2; simpl in *; try lia; auto.
  apply IH; lia. Qed.

Lemma nth_map' {A B} (f : A -> B) l i da db : i < length l -> nth i (map f l) db = f (nth i l da).
Proof. revert i; induction l as [|x l IH]; intros [|i] H; simpl in *; try lia; auto. apply IH; lia. Qed.

Lemma nth_map_seq {B} (f : nat -> B) n i db : i < n -> nth i (map f (seq 0 n)) db = f i.
Proof. intros. rewrite (nth_map' f (seq 0 n) i 0 db) by now rewrite seq_length.
  f_equal. rewrite seq_nth by lia. lia. Qed.

Lemma last_indep {A} (l : list A) d d' : l <> [] -> last l d = last l d'.
Proof.
  induction l as [|x l IH]; intros H; [congruence|]. destruct l as [|y l]; [reflexivity|].
  change (last (x :: y :: l) d) with (last (y :: l) d).
  change (last (x :: y :: l) d') with (last (y :: l) d'). apply IH. discriminate.
Qed.

Lemma last_cons_default {A} (x : A) l d : last (x :: l) d = last l x.
Proof. destruct l as [|y l]; [reflexivity|]. change (last (x :: y :: l) d) with (last (y :: l) d).
  apply last_indep. discriminate. Qed.

Lemma last_nth {A} (l : list A) d : last l d = nth (length l - 1) l d.
Proof.
  induction l as [|x l IH]; [reflexivity|]. destruct l as [|y l]; [reflexivity|].
  change (last (x :: y :: l) d) with (last (y :: l) d). rewrite IH. simpl.
  rewrite Nat.sub_0_r. reflexivity.
Qed.

Lemma last_opt_last {A} (l : list A) d : l <> [] -> last_opt l = Some (last l d).
Proof. destruct l as [|x l]; [congruence|]. intros _. simpl last_opt. now rewrite <- (last_cons_default x l d). Qed.

Lemma last_opt_Some {A} (l : list A) x : last_opt l = Some x -> exists l', l = l' ++ [x].
Proof.
  intros H. destruct l as [|a l]; [discriminate|]. rewrite (last_opt_last (a :: l) a) in H by discriminate.
  assert (E : last (a :: l) a = x) by congruence. exists (removelast (a :: l)). rewrite <- E. apply app_removelast_last. discriminate.
Qed.

Lemma last_opt_nth {A} (l : list A) d : l <> [] -> last_opt l = Some (nth (length l - 1) l d).
Proof. intros H. rewrite (last_opt_last l d H). now rewrite last_nth. Qed.

(** Ceiling division *)
Lemma cdiv_spec a b : 0 < b -> (cdiv a b - 1) * b < a \/ a = 0.
Proof.
  intros Hb. unfold cdiv. destruct a; [now right|left].
  pose proof (Nat.div_mod (S a + b - 1) b). pose proof (Nat.mod_upper_bound (S a + b - 1) b).
  set (q := (S a + b - 1) / b) in *. set (r := (S a + b - 1) mod b) in *.
  destruct q; [nia|]. simpl. rewrite Nat.sub_0_r. nia.
Qed.

Lemma cdiv_mul_ge a b : 0 < b -> a <= cdiv a b * b.
Proof.
  intros Hb. unfold cdiv.
  pose proof (Nat.div_mod (a + b - 1) b). pose proof (Nat.mod_upper_bound (a + b - 1) b). nia.
Qed.

Lemma cdiv_lt a b j : 0 < b -> j * b < a <-> j < cdiv a b.
Proof.
  intros Hb. pose proof (cdiv_spec a b Hb). pose proof (cdiv_mul_ge a b Hb).
  split; intros. - destruct (Nat.le_gt_cases (cdiv a b) j); auto. nia.
  - destruct H as [H|H]. + nia. + subst. unfold cdiv in *. simpl in *.
    rewrite Nat.div_small in H1 by lia. lia.
Qed.

Lemma cdiv_pos a b : 0 < b -> 0 < a -> 0 < cdiv a b.
Proof. intros. apply (cdiv_lt a b 0); lia. Qed.

Lemma cdiv_le a b n : 0 < b -> a <= n * b -> cdiv a b <= n.
Proof. intros. destruct (Nat.le_gt_cases (cdiv a b) n) as [H1|H1]; auto. apply cdiv_lt in H1; lia. Qed.

Lemma cdiv_exact a b : 0 < b -> a mod b = 0 -> cdiv a b = a / b.
Proof.
  intros Hb Hm. apply Nat.le_antisymm.
  - apply cdiv_le; auto. pose proof (Nat.div_mod a b). nia.
  - destruct (Nat.le_gt_cases (a / b) (cdiv a b)) as [|H]; auto.
    pose proof (cdiv_mul_ge a b Hb). pose proof (Nat.div_mod a b). nia.
Qed.

Lemma cdiv_notexact a b : 0 < b -> a mod b <> 0 -> cdiv a b = S (a / b).
Proof.
  intros Hb Hm. pose proof (Nat.div_mod a b). pose proof (Nat.mod_upper_bound a b).
  apply Nat.le_antisymm.
  - apply cdiv_le; auto. nia.
  - apply (cdiv_lt a b (a / b)); auto. nia.
Qed.

(** stride *)
Lemma nth_stride_from {A} k c (l : list A) j d :
  0 < k -> nth j (stride_from k c l) d = nth (c + j * k) l d.
Proof.
  intros Hk. revert c j; induction l as [|x l IH]; intros c j; simpl.
  - destruct j, c; simpl; auto; destruct (j * k); auto; destruct (_ + _); auto; destruct k; auto.
  - destruct c as [|c].
    + destruct j as [|j]; simpl; auto.
      rewrite IH. replace (k - 1 + j * k) with (k + j * k - 1) by lia.
      destruct (k + j * k) eqn:E; [lia|]. simpl. now rewrite Nat.sub_0_r.
    + rewrite IH. reflexivity.
Qed.

Lemma length_stride_from {A} k c (l : list A) :
  0 < k -> length (stride_from k c l) = cdiv (length l - c) k.
Proof.
  intros Hk. revert c; induction l as [|x l IH]; intros c.
  - simpl. unfold cdiv. simpl. rewrite Nat.div_small; lia.
  - simpl. destruct c as [|c]; simpl.
    + rewrite IH. unfold cdiv.
      destruct (Nat.le_gt_cases (k - 1) (length l)).
      * replace (S (length l) + k - 1) with (length l - (k-1) + k - 1 + 1 * k) by lia.
        rewrite Nat.div_add by lia. lia.
      * replace (length l - (k - 1)) with 0 by lia. simpl.
        rewrite Nat.div_small by lia.
        replace (length l + k - 0) with (length l + 1 * k) by lia. rewrite Nat.div_add by lia.
        rewrite Nat.div_small by lia. reflexivity.
    + apply IH.
Qed.

Lemma nth_stride {A} k (l : list A) j d : 0 < k -> nth j (stride k l) d = nth (j * k) l d.
Proof. intros. unfold stride. now rewrite nth_stride_from. Qed.
Lemma length_stride {A} k (l : list A) : 0 < k -> length (stride k l) = cdiv (length l) k.
Proof. intros. unfold stride. rewrite length_stride_from by auto. now rewrite Nat.sub_0_r. Qed.

Lemma stride_from_map {A B} (f : A -> B) k c l :
  stride_from k c (map f l) = map f (stride_from k c l).
Proof. revert c; induction l as [|x l IH]; intros c; simpl; auto.
  destruct c; simpl; rewrite IH; auto. Qed.
Lemma stride_map {A B} (f : A -> B) k l : stride k (map f l) = map f (stride k l).
Proof. apply stride_from_map. Qed.

Lemma stride_1 {A} (l : list A) : stride 1 l = l.
Proof. unfold stride. induction l as [|x l IH]; simpl; auto. f_equal. exact IH. Qed.

Lemma skipn_skipn' {A} x y (l : list A) : skipn x (skipn y l) = skipn (x + y) l.
Proof.
  revert x l; induction y as [|y IH]; intros x l.
  - now rewrite Nat.add_0_r.
  - destruct l as [|a l]; [now rewrite !skipn_nil|]. rewrite Nat.add_succ_r. simpl. apply IH.
Qed.

(** consecutive slices *)
Lemma concat_slices {A} b (l : list A) n :
  0 < b -> length l <= n * b ->
  concat (map (fun j => slice (j * b) (Nat.min (j * b + b) (length l)) l) (seq 0 n)) = l.
Proof.
  intros Hb. revert l. 
  assert (G: forall n o (l : list A), length l <= (o + n) * b ->
     concat (map (fun j => slice (j * b) (Nat.min (j * b + b) (length l)) l) (seq o n))
     = skipn (o * b) l).
  { clear n. induction n as [|n IH]; intros o l H; simpl.
    - symmetry. apply skipn_all2. lia.
    - rewrite IH by lia. unfold slice.
      destruct (Nat.le_gt_cases (o * b + b) (length l)).
      + rewrite Nat.min_l by lia. replace (o * b + b - o * b) with b by lia.
        replace (S o * b) with (b + o * b) by lia. rewrite <- (firstn_skipn b (skipn (o * b) l)) at 2.
        f_equal. symmetry. apply skipn_skipn'.
      + rewrite Nat.min_r by lia.
        rewrite firstn_all2 by (rewrite skipn_length; lia).
        rewrite (skipn_all2 (n := S o * b)) by lia. apply app_nil_r. }
  intros l H. rewrite G by lia. reflexivity.
Qed.

Lemma rmapM_app {A B} (f : A -> res B) l m :
  rmapM f (l ++ m) = let* a := rmapM f l in let* b := rmapM f m in Ok (a ++ b).
Proof.
  induction l as [|x l IH]; simpl.
  - destruct (rmapM f m); reflexivity.
  - destruct (f x); simpl; auto. rewrite IH. destruct (rmapM f l); simpl; auto.
    destruct (rmapM f m); reflexivity.
Qed.

Lemma rmapM_Ok {A B} (f : A -> res B) l ys :
  rmapM f l = Ok ys <-> Forall2 (fun x y => f x = Ok y) l ys.
Proof.
  revert ys; induction l as [|x l IH]; intros ys; simpl.
  - split; intros H. + injection H as <-. constructor. + inversion H; reflexivity.
  - destruct (f x) as [y|e] eqn:E; simpl.
    + destruct (rmapM f l) as [ys'|e] eqn:E2; simpl.
      * split; intros H. -- injection H as <-. constructor; auto. apply IH; reflexivity.
        -- inversion H; subst. rewrite E in H2. injection H2 as <-. f_equal. f_equal.
           apply IH in H4. congruence.
      * split; intros H; [discriminate|]. inversion H; subst. apply IH in H4. discriminate.
    + split; intros H; [discriminate|]. inversion H; subst. congruence.
Qed.

Lemma Forall2_length' {A B} (P : A -> B -> Prop) l m : Forall2 P l m -> length l = length m.
Proof. induction 1; simpl; auto. Qed.

Lemma rmapM_length {A B} (f : A -> res B) l ys : rmapM f l = Ok ys -> length ys = length l.
Proof. intros H. apply rmapM_Ok in H. symmetry. eapply Forall2_length'; eauto. Qed.

Lemma rmapM_concat {A B} (f : A -> res B) ls :
  rmapM f (concat ls) = rmap (@concat B) (rmapM (rmapM f) ls).
Proof.
  induction ls as [|l ls IH]; simpl; auto.
  rewrite rmapM_app, IH. destruct (rmapM f l); simpl; auto.
  destruct (rmapM (rmapM f) ls); reflexivity.
Qed.

Lemma rmapM_map {A B C} (f : B -> res C) (g : A -> B) l :
  rmapM f (map g l) = rmapM (fun x => f (g x)) l.
Proof. induction l as [|x l IH]; simpl; auto. rewrite IH. reflexivity. Qed.

Lemma rmapM_ext {A B} (f g : A -> res B) l :
  (forall x, In x l -> f x = g x) -> rmapM f l = rmapM g l.
Proof. induction l as [|x l IH]; simpl; intros H; auto. rewrite H by auto. rewrite IH; auto. Qed.

Lemma Forall2_nth' {A B} (P : A -> B -> Prop) l m da db i :
  Forall2 P l m -> i < length l -> P (nth i l da) (nth i m db).
Proof. intros H; revert i; induction H; intros [|i] Hi; simpl in *; try lia; auto. apply IHForall2; lia. Qed.

Lemma combine_slice {A B} a b (l : list A) (m : list B) :
  combine (slice a b l) (slice a b m) = slice a b (combine l m).
Proof. unfold slice. rewrite <- combine_firstn. f_equal.
  revert l m; induction a as [|a IH]; intros [|x l] [|y m]; simpl; auto.
  destruct (skipn a l); reflexivity. Qed.

(** reshape *)
Lemma concat_reshape_rows {A} n m (l : list A) : length l = n * m -> concat (reshape_rows n m l) = l.
Proof.
  intros H. destruct m as [|m].
  - replace l with (@nil A) by (destruct l; simpl in H; try lia; auto).
    unfold reshape_rows. induction (seq 0 n) as [|i s IH]; simpl; auto.
    rewrite IH. unfold slice. rewrite skipn_nil, firstn_nil. reflexivity.
  - rewrite <- (concat_slices (S m) l n) at 2 by lia. f_equal. unfold reshape_rows.
    apply map_ext_in. intros i Hi. apply in_seq in Hi. f_equal. rewrite Nat.min_l; nia.
Qed.

Lemma reshape_rows_length {A} n m (l : list A) : length (reshape_rows n m l) = n.
Proof. unfold reshape_rows. now rewrite map_length, seq_length. Qed.

Lemma nth_reshape_rows {A} n m (l : list A) i d :
  i < n -> nth i (reshape_rows n m l) d = slice (i * m) (i * m + m) l.
Proof. intros. unfold reshape_rows. rewrite (nth_map_seq (fun i => slice (i * m) (i * m + m) l)) by auto. reflexivity. Qed.

Lemma Forall_reshape_rows {A} n m (l : list A) :
  length l = n * m -> Forall (fun r => length r = m) (reshape_rows n m l).
Proof.
  intros H. unfold reshape_rows. apply Forall_map, Forall_forall. intros i Hi.
  apply in_seq in Hi. rewrite slice_length. nia.
Qed.

Lemma nth_concat_uniform {A} (ls : list (list A)) m i j d :
  Forall (fun r => length r = m) ls -> j < m -> i < length ls ->
  nth (i * m + j) (concat ls) d = nth j (nth i ls []) d.
Proof.
  intros H; revert i; induction H as [|r ls Hr H IH]; intros i Hj Hi; simpl in *; [lia|].
  destruct i as [|i].
  - simpl. rewrite app_nth1 by lia. reflexivity.
  - rewrite app_nth2 by (simpl; lia). simpl. rewrite Hr.
    replace (m + i * m + j - m) with (i * m + j) by lia. apply IH; lia.
Qed.

(** Dictionaries *)
Lemma dget_dset_eq {V} (d : dict V) k v : dget (dset d k v) k = Some v.
Proof.
  induction d as [|[k' v'] d IH]; simpl.
  - now rewrite String.eqb_refl.
  - destruct (String.eqb k k') eqn:E; simpl; rewrite E; auto.
Qed.
Lemma dget_dset_neq {V} (d : dict V) k k' v : k <> k' -> dget (dset d k v) k' = dget d k'.
Proof.
  intros Hn. induction d as [|[k0 v0] d IH]; simpl.
  - destruct (String.eqb k' k) eqn:E; auto. apply String.eqb_eq in E. congruence.
  - destruct (String.eqb k k0) eqn:E; simpl.
    + apply String.eqb_eq in E. subst k0.
      destruct (String.eqb k' k) eqn:E; auto. apply String.eqb_eq in E. congruence.
    + destruct (String.eqb k' k0); auto.
Qed.
Lemma dget_app {V} (d e : dict V) k :
  dget (d ++ e) k = match dget d k with Some v => Some v | None => dget e k end.
Proof. induction d as [|[k' v] d IH]; simpl; auto. destruct (String.eqb k k'); auto. Qed.
Lemma dget_In {V} (d : dict V) k v : dget d k = Some v -> In (k, v) d.
Proof. induction d as [|[k' v'] d IH]; simpl; [discriminate|].
  destruct (String.eqb k k') eqn:E; intros H. - injection H as <-. apply String.eqb_eq in E. subst. now left.
  - right. auto. Qed.
Lemma dget_None_keys {V} (d : dict V) k : dget d k = None <-> ~ In k (dkeys d).
Proof.
  unfold dkeys. induction d as [|[k' v'] d IH]; simpl; [tauto|].
  destruct (String.eqb k k') eqn:E.
  - apply String.eqb_eq in E. subst. split; [discriminate|tauto].
  - apply String.eqb_neq in E. rewrite IH. intuition congruence.
Qed.
