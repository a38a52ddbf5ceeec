(** C67: files written by save_resource. *)
From Verif Require Import Prelude Num M_Core M_Files Spec P_Lists P_Core.
From Verif Require P_Tree2 Spec_Files.
Import Spec_Files.
Open Scope nat_scope.

Lemma append_assoc a b c : append (append a b) c = append a (append b c).
Proof. induction a; cbn; [auto|now rewrite IHa]. Qed.
Lemma substring_all s : substring 0 (String.length s) s = s.
Proof. induction s; cbn; [auto|now rewrite IHs]. Qed.
Lemma substring_suffix a b : substring (String.length a) (String.length b) (append a b) = b.
Proof. induction a; cbn; [apply substring_all|exact IHa]. Qed.
Lemma prefix_split s n : n <= String.length s -> exists a b, s = append a b /\ String.length a = n.
Proof.
  revert s. induction n; intros s H; [exists EmptyString, s; auto|]. destruct s as [|c s]; cbn in H; [lia|].
  destruct (IHn s) as (a & b & -> & L); [lia|]. exists (String c a), b. split; [reflexivity|cbn; now rewrite L].
Qed.
Lemma ends_npz_iff s : ends_npz s = true <-> exists a, s = append a ".npz".
Proof.
  unfold ends_npz. split.
  - intros H. apply andb_true_iff in H as [H1 H2]. apply Nat.leb_le in H1. apply String.eqb_eq in H2.
    destruct (prefix_split s (String.length s - 4)) as (a & b & E & L); [lia|]. exists a. rewrite <- L in H2.
    assert (String.length b = 4) as Lb. { apply (f_equal String.length) in E. rewrite append_length in E. lia. }
    rewrite E in H2. rewrite <- Lb in H2 at 1. rewrite substring_suffix in H2. now rewrite H2 in E.
  - intros [a ->]. rewrite append_length. change (String.length ".npz") with 4. apply andb_true_iff. split; [apply Nat.leb_le; lia|].
    apply String.eqb_eq. replace (String.length a + 4 - 4) with (String.length a) by lia. exact (substring_suffix a ".npz").
Qed.
Lemma stored_savez p n f : stored_as p n f <-> f = savez_name (append p n).
Proof.
  unfold stored_as, savez_name. destruct (ends_npz (append p n)) eqn:E.
  - apply ends_npz_iff in E. split; [intros [[_ H]|[H _]]; [exact H|tauto]|auto].
  - assert (~ exists s, append p n = append s ".npz") by (intros H; apply ends_npz_iff in H; congruence).
    split; [intros [[H1 _]|[_ H1]]; [tauto|exact H1]|auto].
Qed.
Lemma savez_inj s t : savez_name s = savez_name t <->
  s = t \/ (s = append t ".npz" /\ ~ exists a, t = append a ".npz") \/ (t = append s ".npz" /\ ~ exists a, s = append a ".npz").
Proof.
  unfold savez_name. destruct (ends_npz s) eqn:Es, (ends_npz t) eqn:Et.
  - apply ends_npz_iff in Es, Et. tauto.
  - apply ends_npz_iff in Es. assert (~ exists a, t = append a ".npz") by (intros H; apply ends_npz_iff in H; congruence).
    split; [auto|]. intros [->|[[-> H2]|[-> H1]]]; solve [reflexivity|exfalso; tauto].
  - apply ends_npz_iff in Et. assert (~ exists a, s = append a ".npz") by (intros H; apply ends_npz_iff in H; congruence).
    split; [auto|]. intros [->|[[-> H2]|[-> H1]]]; solve [reflexivity|exfalso; tauto].
  - assert (~ exists a, s = append a ".npz") by (intros H; apply ends_npz_iff in H; congruence).
    assert (~ exists a, t = append a ".npz") by (intros H0; apply ends_npz_iff in H0; congruence).
    split; [intros E; left; exact (P_Tree2.append_inj_l _ _ _ E)|]. intros [->|[[-> H1]|[-> H1]]]; [auto| |]; exfalso; [apply H|apply H0]; eauto.
Qed.

Section FilesP.
Context {N : Num}.
Lemma stored_total p n : exists f, stored_as p n f /\ forall g, stored_as p n g -> g = f.
Proof. exists (savez_name (append p n)). split; [now apply stored_savez|]. intros g H. now apply stored_savez. Qed.
Lemma same_file p n f p' n' f' : stored_as p n f -> stored_as p' n' f' ->
  (f = f' <-> append p n = append p' n' \/
     (append p n = append (append p' n') ".npz" /\ ~ exists a, append p' n' = append a ".npz") \/
     (append p' n' = append (append p n) ".npz" /\ ~ exists a, append p n = append a ".npz")).
Proof. intros H1 H2. apply stored_savez in H1, H2. subst. apply savez_inj. Qed.
Lemma save_other fs c g : ~ writes c g -> dget (save_any fs c) g = dget fs g.
Proof. intros H. destruct c; cbn in *; unfold buffer_save_to, state_save_to; apply dget_dset_neq; intros E; apply H, stored_savez; auto. Qed.
Lemma saves_other cs fs g : (forall c, In c cs -> ~ writes c g) -> dget (save_all fs cs) g = dget fs g.
Proof.
  unfold save_all. revert fs. induction cs as [|c cs IH]; intros fs H; [reflexivity|]. cbn [fold_left]. rewrite IH by (intros; apply H; now right).
  apply save_other, H. now left.
Qed.
Lemma save_load fs path b file later :
  stored_as path (b_name b) file -> (forall c, In c later -> ~ writes c file) ->
  exists b', buffer_load_from (save_all (buffer_save_to fs path b) later) file = Ok b' /\ reset_copy b b'.
Proof.
  intros H1 H2. unfold buffer_load_from. rewrite saves_other by exact H2. apply stored_savez in H1. subst file.
  unfold buffer_save_to. rewrite dget_dset_eq. exists (buffer_load (buffer_save b)). split; [reflexivity|]. repeat split; reflexivity.
Qed.
Lemma state_file fs path s file later :
  stored_as path (s_name s) file -> (forall c, In c later -> ~ writes c file) ->
  buffer_load_from (save_all (state_save_to fs path s) later) file = Raise ValueError.
Proof.
  intros H1 H2. unfold buffer_load_from. rewrite saves_other by exact H2. apply stored_savez in H1. subst file.
  unfold state_save_to. now rewrite dget_dset_eq.
Qed.
Lemma not_written fs cs file : dget fs file = None -> (forall c, In c cs -> ~ writes c file) -> buffer_load_from (save_all fs cs) file = Raise OtherError.
Proof. intros H0 H. unfold buffer_load_from. now rewrite saves_other, H0 by exact H. Qed.
Lemma own_argument p n : stored_as p n p <-> n = EmptyString /\ exists a, p = append a ".npz".
Proof.
  rewrite stored_savez. unfold savez_name. split.
  - intros H. destruct (ends_npz (append p n)) eqn:E.
    + assert (n = EmptyString) as ->. { apply (f_equal String.length) in H. rewrite append_length in H. destruct n; [auto|cbn in H; lia]. }
      split; [auto|]. rewrite append_nil_r in E. now apply ends_npz_iff.
    + exfalso. apply (f_equal String.length) in H. rewrite !append_length in H. cbn in H. lia.
  - intros [-> H]. rewrite append_nil_r. apply ends_npz_iff in H. now rewrite H.
Qed.
Lemma npz_suffix n p n' : append p n = append (append p n') ".npz" -> n = append n' ".npz".
Proof. rewrite append_assoc. apply append_inj_l. Qed.
Lemma one_path fs path bs i b :
  NoDup (map b_name bs) -> (forall b, In b bs -> ~ exists a, b_name b = append a ".npz") -> nth_error bs i = Some b ->
  exists file b', stored_as path (b_name b) file /\
    buffer_load_from (save_all fs (map (SaveBuffer path) bs)) file = Ok b' /\ reset_copy b b'.
Proof.
  intros ND Hn Hi. destruct (nth_error_split _ _ Hi) as (l1 & l2 & -> & _).
  destruct (stored_total path (b_name b)) as (f & Hf & _). exists f.
  rewrite map_app. cbn [map]. unfold save_all. rewrite fold_left_app. cbn [fold_left save_any].
  destruct (save_load (fold_left save_any (map (SaveBuffer path) l1) fs) path b f (map (SaveBuffer path) l2) Hf) as (b' & H1 & H2).
  - intros c Hc Hw. apply in_map_iff in Hc as (b2 & <- & Hb2). cbn in Hw.
    rewrite map_app in ND. cbn [map] in ND. apply NoDup_remove_2 in ND. apply ND, in_or_app. right. apply in_map_iff. exists b2. split; [|auto].
    destruct (proj1 (same_file _ _ _ _ _ _ Hw Hf) eq_refl) as [E|[[E _]|[E _]]].
    + now apply append_inj_l in E.
    + exfalso. apply npz_suffix in E. apply (Hn b2); [apply in_or_app; right; now right|eauto].
    + exfalso. apply npz_suffix in E. apply (Hn b); [apply in_or_app; right; now left|eauto].
  - exists b'. auto.
Qed.
End FilesP.
