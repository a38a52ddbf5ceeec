(** The initial temperatures in binary32: [linspace 1 M n] is a non-decreasing ladder from 1 to M. *)
From Coq Require Import ZArith Reals Lra Lia Psatz.
From Flocq Require Import Core BinarySingleNaN.
From Verif Require Import Prelude Num M_Core M_Kernels M_Strategies M_PT M_Bundle Float32 Float32t Spec_Kernels Spec_Order P_Lists P_PT3.
Open Scope R_scope.
Local Strategy 100 [Bplus Bminus Bmult Bdiv Bopp Bsqrt].

Section Ladder.
Variables (M : B32) (m : Z).
Hypothesis HM : fin M.
Hypothesis Hm : (1 <= m <= 2 ^ 20)%Z.
Hypothesis Hbig : V M <= IZR (2 ^ 126).
Hypothesis Hgap : IZR m * (V M + 1) <= IZR (2 ^ 21) * (V M - 1).

Definition one32 : B32 := b32_ofZ 1.
Definition step32 (i : Z) : B32 := Bdiv mode_NE (b32_ofZ i) (b32_ofZ m).
Definition left32 (i : Z) : B32 := Bmult mode_NE one32 (Bminus mode_NE one32 (step32 i)).
Definition right32 (i : Z) : B32 := Bmult mode_NE M (step32 i).
Definition entry32 (i : Z) : B32 := Bplus mode_NE (left32 i) (right32 i).

Lemma m_R : 1 <= IZR m <= 1048576. Proof. split; apply IZR_le; lia. Qed.
Lemma gap_R : IZR m * (V M + 1) <= 2097152 * (V M - 1). Proof. exact Hgap. Qed.
Lemma M_gt : 1 < V M.
Proof. pose proof m_R. pose proof gap_R. destruct (Rlt_dec 1 (V M)); auto. exfalso. assert (V M + 1 <= 0 \/ 0 < V M + 1) as [|] by lra; nra. Qed.
Lemma eta_R : 0 < eta <= / 1000000000000000. Proof. unfold eta. split; [apply Rinv_0_lt_compat, IZR_lt; lia|]. apply Rinv_le_contravar; [lra|apply IZR_le; lia]. Qed.
Lemma one_ok : fin one32 /\ V one32 = 1. Proof. apply ofZ_ok. lia. Qed.

Lemma frac_in i : (0 <= i <= m)%Z -> 0 <= IZR i / IZR m <= 1.
Proof.
  intros Hi. pose proof m_R as [A _]. pose proof (IZR_le 0 i ltac:(lia)). pose proof (IZR_le i m ltac:(lia)). split; [apply Rmult_le_pos; [lra|left; apply Rinv_0_lt_compat; lra]|].
  apply (Rmult_le_reg_r (IZR m)); [lra|]. unfold Rdiv. rewrite Rmult_assoc, Rinv_l by lra. lra.
Qed.
Lemma step_ok i : (0 <= i <= m)%Z -> fin (step32 i) /\ 0 <= V (step32 i) <= 1 /\ Rabs (V (step32 i) - IZR i / IZR m) <= u + eta.
Proof.
  intros Hi. destruct (ofZ_ok i ltac:(lia)) as [Fi Vi]. destruct (ofZ_ok m ltac:(lia)) as [Fm Vm]. pose proof m_R as [A _]. pose proof (frac_in i Hi) as Q.
  assert (Nz : V (b32_ofZ m) <> 0) by (rewrite Vm; lra).
  destruct (div_in (b32_ofZ i) (b32_ofZ m) 0 1 Fi Nz (fbZ 0 ltac:(lia)) (fbZ 1 ltac:(lia))) as [F1 B1]; [rewrite Vi, Vm; exact Q|].
  assert (Q' : Rabs (IZR i / IZR m) <= 1) by (rewrite Rabs_pos_eq; lra).
  destruct (div_ok (b32_ofZ i) (b32_ofZ m) Fi Nz) as [_ E]; [rewrite Vi, Vm; apply Rle_trans with 1; [exact Q'|apply (IZR_le 1 (2 ^ 127)); lia]|].
  split; [exact F1|]. split; [exact B1|]. unfold step32. rewrite E, Vi, Vm. eapply Rle_trans; [apply rnd_rel|]. assert (0 < u) by (unfold u; lra). nra.
Qed.
Lemma left_ok i : (0 <= i <= m)%Z -> fin (left32 i) /\ 0 <= V (left32 i) <= 1 /\ Rabs (V (left32 i) - (1 - V (step32 i))) <= u + eta.
Proof.
  intros Hi. destruct (step_ok i Hi) as (Fs & Bs & _). destruct one_ok as [F1 V1]. unfold left32.
  destruct (minus_in one32 (step32 i) 0 1 F1 Fs (fbZ 0 ltac:(lia)) (fbZ 1 ltac:(lia))) as [Fd Bd]; [rewrite V1; lra|].
  assert (Q : Rabs (1 - V (step32 i)) <= 1) by (rewrite Rabs_pos_eq; lra).
  destruct (minus_ok one32 (step32 i) F1 Fs) as [_ Ed]; [rewrite V1; apply Rle_trans with 1; [exact Q|apply (IZR_le 1 (2 ^ 127)); lia]|]. rewrite V1 in Ed.
  set (d := Bminus mode_NE one32 (step32 i)) in * . clearbody d.
  destruct (mult_ok one32 d F1 Fd) as [Fl El]; [rewrite V1, Rmult_1_l, Rabs_pos_eq by lra; apply Rle_trans with 1; [lra|apply (IZR_le 1 (2 ^ 127)); lia]|].
  rewrite V1, Rmult_1_l, rnd_V in El. split; [exact Fl|]. rewrite El. split; [exact Bd|]. rewrite Ed. eapply Rle_trans; [apply rnd_rel|]. assert (0 < u) by (unfold u; lra). nra.
Qed.
Lemma right_ok i : (0 <= i <= m)%Z -> fin (right32 i) /\ 0 <= V (right32 i) <= V M /\ Rabs (V (right32 i) - V M * V (step32 i)) <= u * V M + eta.
Proof.
  intros Hi. destruct (step_ok i Hi) as (Fs & Bs & _). pose proof M_gt as G. unfold right32.
  assert (QM : Rabs (V M) <= big) by (rewrite Rabs_pos_eq by lra; eapply Rle_trans; [exact Hbig|apply IZR_le; lia]).
  assert (P0 : 0 <= V M * V (step32 i) <= V M) by nra.
  destruct (mult_in M (step32 i) 0 (V M) HM Fs (fbZ 0 ltac:(lia)) (fbV M HM QM)) as [Fp Bp]; [exact P0|].
  destruct (mult_ok M (step32 i) HM Fs) as [_ Ep]; [rewrite Rabs_pos_eq by lra; rewrite Rabs_pos_eq in QM by lra; lra|].
  split; [exact Fp|]. split; [exact Bp|]. rewrite Ep. eapply Rle_trans; [apply rnd_rel|]. rewrite Rabs_pos_eq by lra. assert (0 < u) by (unfold u; lra). nra.
Qed.
Lemma entry_ok i : (0 <= i <= m)%Z -> fin (entry32 i) /\ V (entry32 i) = rnd (V (left32 i) + V (right32 i)).
Proof.
  intros Hi. destruct (left_ok i Hi) as (Fl & Bl & _). destruct (right_ok i Hi) as (Fr & Br & _). pose proof M_gt. apply plus_ok; auto.
  rewrite Rabs_pos_eq by lra. apply Rle_trans with (1 + V M); [lra|]. apply Rle_trans with (V M + V M); [lra|].
  replace big with (IZR (2 ^ 126) + IZR (2 ^ 126)) by (unfold big; rewrite <- plus_IZR; f_equal). lra.
Qed.
Lemma errs : 4 * (u + eta) + (2 * (u * V M + eta) + 2 * V M * (u + eta)) <= (V M - 1) * / IZR m.
Proof.
  pose proof m_R as [A B]. pose proof gap_R as Gp. pose proof M_gt as G. pose proof eta_R as E.
  apply (Rmult_le_reg_r (IZR m)); [lra|]. rewrite (Rmult_assoc (V M - 1)), Rinv_l, Rmult_1_r by lra.
  replace ((4 * (u + eta) + (2 * (u * V M + eta) + 2 * V M * (u + eta))) * IZR m) with (4 * u * (IZR m * (V M + 1)) + eta * (IZR m * (6 + 2 * V M))) by ring.
  assert (X : 4 * u * (IZR m * (V M + 1)) <= (V M - 1) / 2) by (unfold u; lra).
  assert (Y : IZR m * (6 + 2 * V M) <= 8388608 * (V M - 1)) by nra.
  assert (eta * (IZR m * (6 + 2 * V M)) <= / 1000000000000000 * (8388608 * (V M - 1))).
  { apply Rmult_le_compat; [lra| |lra|exact Y]. apply Rmult_le_pos; lra. }
  lra.
Qed.
(** Entries do not decrease. *)
Lemma sums_le i : (0 <= i < m)%Z -> V (left32 i) + V (right32 i) <= V (left32 (i + 1)) + V (right32 (i + 1)).
Proof.
  intros Hi. destruct (step_ok i ltac:(lia)) as (_ & B0 & S0). destruct (step_ok (i + 1) ltac:(lia)) as (_ & B1 & S1).
  destruct (left_ok i ltac:(lia)) as (_ & _ & L0). destruct (left_ok (i + 1) ltac:(lia)) as (_ & _ & L1).
  destruct (right_ok i ltac:(lia)) as (_ & _ & R0). destruct (right_ok (i + 1) ltac:(lia)) as (_ & _ & R1).
  pose proof m_R as [A _]. pose proof errs as E. pose proof M_gt as G. pose proof eta_R as Et. assert (U : 0 < u) by (unfold u; lra).
  apply Rabs_le_inv in S0, S1, L0, L1, R0, R1.
  assert (D : IZR (i + 1) / IZR m = IZR i / IZR m + / IZR m) by (rewrite plus_IZR; field; lra). rewrite D in S1.
  set (q := IZR i / IZR m) in * . set (j := / IZR m) in * . clearbody q j.
  set (s0 := V (step32 i)) in * . set (s1 := V (step32 (i + 1))) in * . clearbody s0 s1.
  assert (X : V M * (s1 - s0) >= V M * (j - 2 * (u + eta))) by (apply Rle_ge, Rmult_le_compat_l; lra).
  rewrite Rmult_minus_distr_l, (Rmult_minus_distr_l (V M) j) in X. nra.
Qed.
Lemma entries_le i : (0 <= i < m)%Z -> V (entry32 i) <= V (entry32 (i + 1)).
Proof. intros Hi. destruct (entry_ok i ltac:(lia)) as [_ ->]. destruct (entry_ok (i + 1) ltac:(lia)) as [_ ->]. apply rnd_le, sums_le, Hi. Qed.
Lemma step_last : V (step32 m) = 1.
Proof.
  destruct (ofZ_ok m ltac:(lia)) as [Fm Vm]. pose proof m_R as [A _]. assert (Q : IZR m / IZR m = 1) by (field; lra).
  destruct (div_ok (b32_ofZ m) (b32_ofZ m) Fm) as [_ E]; [rewrite Vm; lra|rewrite Vm, Q, Rabs_pos_eq by lra; apply (IZR_le 1 (2 ^ 127)); lia|].
  unfold step32. rewrite E, Vm, Q. apply rnd_fmt, (fmt_Z 1). lia.
Qed.
Lemma step_first : V (step32 0) = 0.
Proof.
  destruct (ofZ_ok m ltac:(lia)) as [Fm Vm]. destruct (ofZ_ok 0 ltac:(lia)) as [F0 V0]. pose proof m_R as [A _].
  assert (Q : 0 / IZR m = 0) by (field; lra).
  destruct (div_ok (b32_ofZ 0) (b32_ofZ m) F0) as [_ E]; [rewrite Vm; lra|rewrite V0, Vm, Q, Rabs_R0; apply (IZR_le 0 (2 ^ 127)); lia|].
  unfold step32. rewrite E, V0, Vm, Q. apply rnd_fmt, fmt_0.
Qed.
Lemma entry_last : V (entry32 m) = V M.
Proof.
  destruct (entry_ok m ltac:(lia)) as [_ ->]. destruct one_ok as [F1 V1]. destruct (step_ok m ltac:(lia)) as (Fs & _). pose proof step_last as SL. pose proof M_gt as G.
  assert (A : V (left32 m) = 0).
  { destruct (minus_ok one32 (step32 m) F1 Fs) as [Fd Ed]; rewrite V1, SL in * .
    - replace (1 - 1) with 0 by ring. rewrite Rabs_R0. apply (IZR_le 0 (2 ^ 127)). lia.
    - replace (1 - 1) with 0 in Ed by ring. rewrite (rnd_fmt 0 fmt_0) in Ed. unfold left32.
      destruct (mult_ok one32 (Bminus mode_NE one32 (step32 m)) F1 Fd) as [_ E]; rewrite V1, Ed, Rmult_0_r in * .
      + rewrite Rabs_R0. apply (IZR_le 0 (2 ^ 127)). lia.
      + rewrite E. apply rnd_fmt, fmt_0. }
  assert (B : V (right32 m) = V M).
  { destruct (mult_ok M (step32 m) HM Fs) as [_ E]; rewrite SL, Rmult_1_r in * .
    - rewrite Rabs_pos_eq by lra. eapply Rle_trans; [exact Hbig|apply IZR_le; lia].
    - unfold right32. rewrite E. apply rnd_V. }
  rewrite A, B, Rplus_0_l. apply rnd_V.
Qed.
Lemma entry_first : V (entry32 0) = 1.
Proof.
  destruct (entry_ok 0 ltac:(lia)) as [_ ->]. destruct one_ok as [F1 V1]. destruct (step_ok 0 ltac:(lia)) as (Fs & _). pose proof step_first as SL. pose proof M_gt as G.
  assert (A : V (left32 0) = 1).
  { destruct (minus_ok one32 (step32 0) F1 Fs) as [Fd Ed]; rewrite V1, SL in * .
    - replace (1 - 0) with 1 by ring. rewrite Rabs_R1. apply (IZR_le 1 (2 ^ 127)). lia.
    - replace (1 - 0) with 1 in Ed by ring. rewrite (rnd_fmt 1 (fmt_Z 1 ltac:(lia))) in Ed. unfold left32.
      destruct (mult_ok one32 (Bminus mode_NE one32 (step32 0)) F1 Fd) as [_ E]; rewrite V1, Ed, Rmult_1_r in * .
      + rewrite Rabs_R1. apply (IZR_le 1 (2 ^ 127)). lia.
      + rewrite E. apply rnd_fmt, (fmt_Z 1). lia. }
  assert (B : V (right32 0) = 0).
  { destruct (mult_ok M (step32 0) HM Fs) as [_ E]; rewrite SL, Rmult_0_r in * .
    - rewrite Rabs_R0. apply (IZR_le 0 (2 ^ 127)). lia.
    - unfold right32. rewrite E. apply rnd_fmt, fmt_0. }
  rewrite A, B, Rplus_0_r. apply rnd_fmt, (fmt_Z 1). lia.
Qed.
Lemma entries_mono i k : (0 <= i)%Z -> (0 <= k)%Z -> (i + k <= m)%Z -> V (entry32 i) <= V (entry32 (i + k)).
Proof.
  intros Hi Hk. revert k Hk. refine (natlike_ind (fun k => (i + k <= m)%Z -> V (entry32 i) <= V (entry32 (i + k))) _ _).
  - intros _. rewrite Z.add_0_r. lra.
  - intros k Hk IH H. eapply Rle_trans; [apply IH; lia|]. replace (i + Z.succ k)%Z with ((i + k) + 1)%Z by lia. apply entries_le. lia.
Qed.
Lemma entry_one : entry32 0 = one32.
Proof.
  pose proof entry_first as E. destruct one_ok as [F1 V1]. apply (B2R_inj 24 128).
  - destruct (entry_ok 0 ltac:(lia)) as [Fe _]. revert E Fe. unfold V, fin. generalize (entry32 0). intros x. destruct x; cbn; intros; try discriminate; auto. exfalso. lra.
  - reflexivity.
  - change (V (entry32 0) = V one32). now rewrite E, V1.
Qed.
End Ladder.
Section Lin.
Variables (pi : B32) (fe fl ft : B32 -> B32).
Notation BN := (B32Num pi fe fl ft).
(** Settings for which the statement holds: at least two temperatures, and a maximum not too close to 1 (nor near overflow). *)
Variables (M : B32) (n : nat).
Hypothesis HM : fin M.
Hypothesis Hn : (2 <= n)%nat.
Hypothesis Hn2 : (Z.of_nat n - 1 <= 2 ^ 20)%Z.
Hypothesis Hbig : V M <= IZR (2 ^ 126).
Hypothesis Hgap : IZR (Z.of_nat n - 1) * (V M + 1) <= IZR (2 ^ 21) * (V M - 1).
Let m := (Z.of_nat n - 1)%Z.

Lemma lin_entry i : (i < n - 1)%nat -> nth i (@linspace BN f1 M n) f0 = entry32 M m (Z.of_nat i).
Proof.
  intros Hi. unfold m. destruct n as [|[|k]]; [lia|lia|]. unfold linspace. rewrite app_nth1 by (rewrite map_length, seq_length; lia).
  replace (Z.of_nat (S (S k)) - 1)%Z with (Z.of_nat (S k)) by lia.
  rewrite (nth_indep _ _ (let s := @fofZ BN (Z.of_nat 0) /. @fofZ BN (Z.of_nat (S k)) in @f1 BN *. (@f1 BN -. s) +. (M : @F BN) *. s)) by (rewrite map_length, seq_length; lia).
  rewrite (map_nth (fun i => let s := @fofZ BN (Z.of_nat i) /. @fofZ BN (Z.of_nat (S k)) in @f1 BN *. (@f1 BN -. s) +. (M : @F BN) *. s)), seq_nth by lia. reflexivity.
Qed.
Lemma lin_last : nth (n - 1) (@linspace BN f1 M n) f0 = M.
Proof.
  destruct n as [|[|k]]; [lia|lia|]. unfold linspace. rewrite app_nth2; rewrite map_length, seq_length; [|lia]. replace (S (S k) - 1 - S k)%nat with 0%nat by lia. reflexivity.
Qed.
Lemma lin_V i : (i < n)%nat -> fin (nth i (@linspace BN f1 M n) f0 : B32) /\ V (nth i (@linspace BN f1 M n) f0) = V (entry32 M m (Z.of_nat i)).
Proof.
  intros Hi. destruct (Nat.eq_dec i (n - 1)) as [->|D].
  - rewrite lin_last. split; [exact HM|]. replace (Z.of_nat (n - 1)) with m by (unfold m; lia). symmetry. apply entry_last; auto; unfold m; lia.
  - rewrite lin_entry by lia. split; [|reflexivity]. apply entry_ok; auto; unfold m; lia.
Qed.
Lemma lin_le i j : (i <= j < n)%nat -> (nth i (@linspace BN f1 M n) f0 <=.? nth j (@linspace BN f1 M n) f0) = true.
Proof.
  intros H. destruct (lin_V i ltac:(lia)) as [Fi Vi]. destruct (lin_V j ltac:(lia)) as [Fj Vj].
  apply (proj2 (leb_V _ _ Fi Fj)). rewrite Vi, Vj. replace (Z.of_nat j) with (Z.of_nat i + Z.of_nat (j - i))%Z by lia. apply entries_mono; auto; unfold m; lia.
Qed.
Lemma lin_first : nth 0 (@linspace BN f1 M n) f0 = f1.
Proof. rewrite lin_entry by lia. refine (entry_one M m HM _ Hbig Hgap). unfold m. lia. Qed.
Lemma lin_ladder : @ladder_from_one BN (@linspace BN f1 M n).
Proof.
  split.
  - rewrite (nth_indep _ _ f0) by (rewrite linspace_length; lia). exact lin_first.
  - intros i Hi. rewrite linspace_length in Hi. left. apply lin_le. lia.
Qed.
End Lin.
