(** Proofs about trees of leaves: structure, serialisation, precision. *)
From Coq Require Import Ascii.
From Verif Require Import Prelude Num M_Core M_Kernels M_Strategies M_Flow M_Net M_Model M_Tree P_Lists Spec_Kernels Spec_Train Spec_Net Spec_Tree P_Net P_Net4.

Section Tree1.
Context {N : Num}.

Lemma same_kind_skel l x : l <> LFun -> same_kind l x = true <-> skeleton x = skeleton l.
Proof.
  destruct l as [d sh v|b|z|y|], x as [d' sh' v'|b'|z'|y'|]; cbn; intros Hl; split; intros H; try discriminate; try reflexivity; try congruence.
  - apply andb_prop in H as [H1 H2]. destruct (list_eq_dec Nat.eq_dec sh sh') as [->|]; [|discriminate].
    destruct d, d'; try discriminate; reflexivity.
  - injection H as -> ->. destruct (list_eq_dec Nat.eq_dec sh sh); [|congruence]. destruct d; reflexivity.
Qed.
Lemma deser_cons l r file : l <> LFun -> deserialise (l :: r) file =
  match file with [] => Raise OtherError | x :: file' => if same_kind l x then let* o := deserialise r file' in Ok (x :: o) else Raise OtherError end.
Proof. destruct l; [reflexivity..|congruence]. Qed.
Lemma ser_cons l r : l <> LFun -> serialise (l :: r) = l :: serialise r.
Proof. destruct l; [reflexivity..|congruence]. Qed.
Lemma fun_dec (l : leaf) : {l = LFun} + {l <> LFun}.
Proof. destruct l; [right; discriminate..|left; reflexivity]. Qed.
Lemma skel_fun (l : leaf) : skeleton l = LFun <-> l = LFun.
Proof. destruct l; cbn; split; congruence. Qed.

Lemma deser_ok : forall like lv extra, same_structure like lv -> deserialise like (serialise lv ++ extra) = Ok lv.
Proof.
  induction like as [|l like IH]; intros [|x lv] extra H; try discriminate; [reflexivity|].
  injection H as H1 H2. destruct (fun_dec l) as [->|Hl].
  - assert (x = LFun) as -> by (apply skel_fun; now rewrite <- H1). cbn. fold (serialise lv). now rewrite (IH lv extra H2).
  - assert (Hx : x <> LFun) by (intros ->; apply Hl, skel_fun; now rewrite H1).
    rewrite deser_cons, ser_cons by auto. cbn [app]. rewrite (proj2 (same_kind_skel l x Hl)) by auto. now rewrite (IH lv extra H2).
Qed.
Lemma deser_inv : forall like file r, (forall x, In x file -> x <> LFun) -> deserialise like file = Ok r ->
  same_structure r like /\ exists rest, file = serialise r ++ rest.
Proof.
  induction like as [|l like IH]; intros file r Hf H.
  - injection H as <-. split; [reflexivity|]. now exists file.
  - destruct (fun_dec l) as [->|Hl].
    + cbn in H. destruct (deserialise like file) as [o|] eqn:E; [|discriminate]. injection H as <-.
      destruct (IH file o Hf E) as [H1 (rest & H2)]. split; [unfold same_structure in *; cbn; now rewrite H1|]. now exists rest.
    + rewrite deser_cons in H by auto. destruct file as [|x file]; [discriminate|]. destruct (same_kind l x) eqn:K; [|discriminate].
      destruct (deserialise like file) as [o|] eqn:E; [|discriminate]. injection H as <-.
      destruct (IH file o (fun y Hy => Hf y (or_intror Hy)) E) as [H1 (rest & H2)]. apply same_kind_skel in K; auto.
      split; [unfold same_structure in *; cbn; now rewrite K, H1|]. exists rest.
      rewrite ser_cons by (apply Hf; now left). cbn. now rewrite H2.
Qed.
Lemma ser_nofun lv x : In x (serialise lv) -> x <> LFun.
Proof. intros H. apply filter_In in H as [_ H]. now destruct x. Qed.
Lemma deser_iff like lv r : deserialise like (serialise lv) = Ok r <-> same_structure r like /\ exists rest, serialise lv = serialise r ++ rest.
Proof.
  split.
  - apply deser_inv. apply ser_nofun.
  - intros [H (rest & ->)]. apply deser_ok. now symmetry.
Qed.
Lemma ss_length a b : same_structure a b -> length a = length b.
Proof. intros H. unfold same_structure in H. apply (f_equal (@length _)) in H. now rewrite !map_length in H. Qed.
Lemma ss_nth a b i : same_structure a b -> skeleton (lv_at a i) = skeleton (lv_at b i).
Proof.
  intros H. unfold lv_at. change LFun with (skeleton LFun) at 1. 
  assert (E : forall l : list leaf, skeleton (nth i l LFun) = nth i (map skeleton l) (skeleton LFun)) by (intros l; symmetry; apply map_nth).
  rewrite !E. now rewrite H.
Qed.
Lemma ss_ser a b : same_structure a b -> same_structure (serialise a) (serialise b).
Proof.
  revert b. induction a as [|l a IH]; intros [|x b] H; try discriminate; [reflexivity|]. injection H as H1 H2.
  destruct (fun_dec l) as [->|Hl].
  - assert (x = LFun) as -> by (apply skel_fun; now rewrite <- H1). cbn. now apply IH.
  - assert (Hx : x <> LFun) by (intros ->; apply Hl, skel_fun; now rewrite H1).
    rewrite !ser_cons by auto. unfold same_structure. cbn. rewrite H1. f_equal. now apply IH.
Qed.
End Tree1.
