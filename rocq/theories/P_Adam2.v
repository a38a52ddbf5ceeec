(** How far AdamOptimization moves; what training can make of a parameter. *)
From Coq Require Import Reals Psatz.
From Coquelicot Require Import Coquelicot.
From Verif Require Import Prelude Num M_Core M_Kernels M_Strategies M_PT M_Flow M_Net M_Model M_Tree P_Lists RNum Spec_Kernels Spec_PT Spec_Net Spec_Tree P_Real1 P_Decay P_PT P_PT2 P_PT3 P_PT5
  P_Tree1 P_Tree2 P_Tree3 P_Tree7 P_Tree8 M_Adam Spec_Adam P_Adam1.
Open Scope R_scope.

Lemma fpow_pow (x : R) n : @fpow RNum x n = x ^ n.
Proof. induction n as [|n IH]; [reflexivity|]. cbn [fpow pow]. now rewrite IH. Qed.
Lemma adam_b1_val : @adam_b1 RNum = 9 / 10. Proof. reflexivity. Qed.
Lemma adam_b2_val : @adam_b2 RNum = b2_. Proof. reflexivity. Qed.

(* ------------------------------------------------------------------ one coordinate of optax.adam *)
Definition aframe (b : R) (s : @adamw_state RNum) : Prop := forall j, minv b (@nth R j (as_mu s) 0) (@nth R j (as_nu s) 0).
Lemma init_frame b (p : list R) : aframe b (@adamw_init RNum p).
Proof. intros j. destruct (init_zero p j) as [E1 E2]. unfold minv. rnorm. rewrite E1, E2. apply minv_0. Qed.
Lemma adam_coord_R (lr : R) t (g mu nu : R) : @adam_coord RNum lr (S t) g mu nu =
  (- lr * (((1 - 9 / 10) * g + 9 / 10 * mu) / (1 - (9 / 10) ^ S t) / (sqrt (((1 - b2_) * (g * g) + b2_ * nu) / (1 - b2_ ^ S t)) + 1 / 100000000)),
   (1 - 9 / 10) * g + 9 / 10 * mu, (1 - b2_) * (g * g) + b2_ * nu).
Proof. unfold adam_coord. rewrite !fpow_pow. reflexivity. Qed.
Lemma b09 : 0 <= 9 / 10 /\ 9 / 10 <= 9 / 10. Proof. lra. Qed.
Lemma scaled_bound (lr u r : R) : Rabs u <= r -> Rabs (- lr * u) <= Rabs lr * r.
Proof. intros H. rewrite Rabs_mult, Rabs_Ropp. apply Rmult_le_compat_l; [apply Rabs_pos|exact H]. Qed.
Lemma nth_upd (f : nat -> R * R * R) n j (g : R * R * R -> R) : (j < n)%nat -> @nth R j (map g (map f (seq 0 n))) 0 = g (f j).
Proof.
  intros H. assert (Lq : (j < length (map f (seq 0 n)))%nat) by now rewrite map_length, seq_length.
  etransitivity; [exact (nth_map' g _ j (0, 0, 0) 0 Lq)|]. exact (f_equal g (nth_map_seq f n j (0, 0, 0) H)).
Qed.
Lemma nth_upd_out (f : nat -> R * R * R) n j (g : R * R * R -> R) : (n <= j)%nat -> @nth R j (map g (map f (seq 0 n))) 0 = 0.
Proof. intros H. apply nth_overflow. now rewrite !map_length, seq_length. Qed.
Lemma minv_eq b (m n m' n' : R) : m = m' -> n = n' -> minv b m' n' -> minv b m n.
Proof. now intros -> ->. Qed.
Lemma rabs_eq (u v r : R) : u = v -> Rabs v <= r -> Rabs u <= r.
Proof. now intros ->. Qed.
Lemma adam_update_frame (lr : R) (g p : list R) s : aframe (9 / 10) s -> let o := @adam_update RNum lr g s p in
  aframe (9 / 10) (snd o) /\ length (fst o) = length g /\ forall j, Rabs (@nth R j (fst o) 0) <= Rabs lr * reach (9 / 10).
Proof.
  intros H o. unfold o, adam_update. cbn [fst snd]. set (f := fun i => adam_coord lr (S (as_count s)) (nth i g f0) (nth i (as_mu s) f0) (nth i (as_nu s) f0)).
  assert (FE : forall j, f j = @adam_coord RNum lr (S (as_count s)) (@nth R j g 0) (@nth R j (as_mu s) 0) (@nth R j (as_nu s) 0)) by reflexivity.
  split; [|split].
  - intros j. cbn [as_mu as_nu]. destruct (le_lt_dec (length g) j) as [L|L].
    + pose proof (nth_upd_out f (length g) j (fun x => snd (fst x)) L) as E1. pose proof (nth_upd_out f (length g) j (fun x => snd x) L) as E2. exact (minv_eq _ _ _ _ _ E1 E2 (minv_0 _)).
    + pose proof (nth_upd f (length g) j (fun x => snd (fst x)) L) as E1. pose proof (nth_upd f (length g) j (fun x => snd x) L) as E2. refine (minv_eq _ _ _ _ _ E1 E2 _).
      rewrite FE, adam_coord_R. cbn [fst snd]. exact (minv_step (9 / 10) (proj1 b09) (proj2 b09) (@nth R j g 0) (@nth R j (as_mu s) 0) (@nth R j (as_nu s) 0) (H j)).
  - now rewrite !map_length, seq_length.
  - intros j. destruct (le_lt_dec (length g) j) as [L|L].
    + pose proof (nth_upd_out f (length g) j (fun x => fst (fst x)) L) as E1. refine (rabs_eq _ _ _ E1 _). rewrite Rabs_R0. apply Rmult_le_pos; [apply Rabs_pos|left; apply reach_pos; lra].
    + pose proof (nth_upd f (length g) j (fun x => fst (fst x)) L) as E1. refine (rabs_eq _ _ _ E1 _). rewrite FE, adam_coord_R. cbn [fst snd]. apply scaled_bound.
      apply (update_bound (9 / 10) (proj1 b09) (proj2 b09)); [exact (minv_step (9 / 10) (proj1 b09) (proj2 b09) (@nth R j g 0) (@nth R j (as_mu s) 0) (@nth R j (as_nu s) 0) (H j))|lra].
Qed.
(** The first step. *)
Lemma adam_first (lr : R) (g p : list R) j : (j < length g)%nat ->
  @nth R j (fst (@adam_update RNum lr g (adamw_init p) p)) 0 = - lr * (nth j g 0 / (Rabs (nth j g 0) + 1 / 100000000)).
Proof.
  intros L. unfold adam_update. cbn [fst snd]. set (f := fun i => adam_coord lr (S (as_count (adamw_init p))) (nth i g f0) (nth i (as_mu (adamw_init p)) f0) (nth i (as_nu (adamw_init p)) f0)).
  pose proof (nth_upd f (length g) j (fun x => fst (fst x)) L) as E1. refine (eq_trans E1 _).
  assert (FE : f j = @adam_coord RNum lr 1 (@nth R j g 0) (@nth R j (as_mu (@adamw_init RNum p)) 0) (@nth R j (as_nu (@adamw_init RNum p)) 0)) by reflexivity.
  destruct (init_zero p j) as [Z1 Z2]. rewrite FE, adam_coord_R. cbn [fst snd]. rnorm. rewrite Z1, Z2. set (x := @nth R j g 0).
  assert (B : 0 < 1 - b2_) by (unfold b2_; lra). rewrite !pow_1.
  replace (((1 - b2_) * (x * x) + b2_ * 0) / (1 - b2_)) with (Rsqr x) by (unfold Rsqr; field; lra). rewrite sqrt_Rsqr_abs.
  replace (((1 - 9 / 10) * x + 9 / 10 * 0) / (1 - 9 / 10)) with x by field. reflexivity.
Qed.
