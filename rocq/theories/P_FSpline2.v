(** Knots of the spline in single precision: bin sizes and knots. *)
From Coq Require Import ZArith Reals Lra Lia Psatz.
From Flocq Require Import Core BinarySingleNaN.
From Verif Require Import Prelude Num M_Flow Float32 Float32t Spec_FSpline P_Lists P_FSpline1.
Open Scope R_scope.
Lemma u_val : u = / 16777216. Proof. reflexivity. Qed.
Lemma eta_small : 0 <= eta <= / IZR (2 ^ 60).
Proof.
  unfold eta. assert (0 < IZR (2 ^ 60)) by (apply IZR_lt; lia). assert (IZR (2 ^ 60) <= IZR (2 ^ 150)) by (apply IZR_le; lia).
  split; [apply Rlt_le, Rinv_0_lt_compat; lra|apply Rinv_le_contravar; lra].
Qed.
Lemma eta_tiny : 0 <= eta <= u / 1000000.
Proof. pose proof eta_small as E. rewrite u_val. assert (/ IZR (2 ^ 60) <= / 16777216 / 1000000). { change (IZR (2 ^ 60)) with 1152921504606846976. lra. } lra. Qed.
Global Opaque eta.

Section Knots.
Variables (pi : B32) (fe fl ft : B32 -> B32).
Hypothesis LIB : lib_ok fe fl.
Let BN := B32Num pi fe fl ft.

(** The exponentials. *)
Definition exps (w : list B32) : list B32 := map (fun x => fe (Bminus mode_NE x (bvmax w))) w.
Lemma softmax_exps (w : list B32) : @softmax BN w = map (fun x => Bdiv mode_NE x (bsum (exps w))) (exps w).
Proof. reflexivity. Qed.
Lemma exps_ok w : w <> [] -> (forall x, In x w -> fin x) -> (forall e, In e (exps w) -> fin e /\ 0 <= V e <= 1) /\ exists e, In e (exps w) /\ V e = 1.
Proof.
  intros Hw H. destruct (bvmax_ok w Hw H) as (F & A & C). split.
  - intros e He. apply in_map_iff in He as (x & <- & Hx). apply (lb_exp _ _ LIB). apply minus_neg; auto.
  - exists (fe (Bminus mode_NE (bvmax w) (bvmax w))). split; [apply in_map_iff; eauto|].
    destruct (minus_ok (bvmax w) (bvmax w) F F) as [F1 E1]. { rewrite Rminus_diag_eq by reflexivity. rewrite Rabs_R0. unfold big. apply IZR_le. lia. }
    apply (lb_exp0 _ _ LIB); [exact F1|]. change (V (Bminus mode_NE (bvmax w) (bvmax w)) = 0). rewrite E1, Rminus_diag_eq by reflexivity. apply rnd_fmt, fmt_0.
Qed.

(** One normalised size, from the exponential it comes from. *)
Definition size_of (S T m e : B32) : B32 := Bplus mode_NE (Bmult mode_NE (Bdiv mode_NE e S) T) m.
Lemma size_ok S T m e : fin S -> 1 <= V S -> fin T -> 0 <= V T <= 21 -> fin m -> 0 <= V m <= 10 -> fin e -> 0 <= V e <= 1 -> V e <= V S ->
  fin (size_of S T m e) /\ V m <= V (size_of S T m e) /\
  V (size_of S T m e) <= (V e / V S) * V T + 72 * u * (V e / V S) + V m + u * V m + u / 1000.
Proof.
  intros FS HS FT HT Fm Hm Fe He HeS. pose proof eta_tiny as ET. pose proof u_val as U.
  assert (Q : 0 <= V e / V S <= 1). { split; [apply Rmult_le_pos; [lra|apply Rlt_le, Rinv_0_lt_compat; lra]|]. apply Rmult_le_reg_r with (V S); [lra|]. unfold Rdiv. rewrite Rmult_assoc, Rinv_l by lra. lra. }
  destruct (div_ok e S Fe ltac:(lra)) as [F1 E1]. { rewrite Rabs_pos_eq by lra. unfold big. apply Rle_trans with 1; [lra|]. apply IZR_le. lia. }
  set (s := Bdiv mode_NE e S) in * . set (q := V e / V S) in * .
  assert (B1 : 0 <= V s <= 1) by (rewrite E1; apply rnd_in; [apply fmt_0|apply (fmt_Z 1); lia|lra]).
  assert (R1 : V s <= q + u * q + eta). { rewrite E1. pose proof (rnd_rel q) as R. rewrite (Rabs_pos_eq q) in R by lra. apply Rabs_le_inv in R. lra. }
  assert (P0 : 0 <= V s * V T <= 21) by nra.
  destruct (mult_ok s T F1 FT) as [F2 E2]. { rewrite Rabs_pos_eq by lra. unfold big. apply Rle_trans with 21; [lra|]. apply IZR_le. lia. }
  set (p := Bmult mode_NE s T) in * .
  assert (B2 : 0 <= V p <= 21) by (rewrite E2; apply rnd_in; [apply fmt_0|apply (fmt_Z 21); lia|lra]).
  assert (R2 : V p <= V s * V T + u * (V s * V T) + eta). { rewrite E2. pose proof (rnd_rel (V s * V T)) as R. rewrite (Rabs_pos_eq (V s * V T)) in R by lra. apply Rabs_le_inv in R. lra. }
  destruct (plus_ok p m F2 Fm) as [F3 E3]. { rewrite Rabs_pos_eq by lra. unfold big. apply Rle_trans with 31; [lra|]. apply IZR_le. lia. }
  change (size_of S T m e) with (Bplus mode_NE p m). split; [exact F3|]. rewrite E3. split.
  - rewrite <- (rnd_V m) at 1. apply rnd_le. lra.
  - pose proof (rnd_plus_rel p m) as R. rewrite (Rabs_pos_eq (V p + V m)) in R by lra. apply Rabs_le_inv in R.
    (* V s*T <= q T + (u q + eta) 21 *)
    assert (X1 : V s * V T <= q * V T + 21 * (u * q) + 21 * eta).
    { assert (V s * V T <= (q + u * q + eta) * V T) by (apply Rmult_le_compat_r; lra).
      assert ((u * q + eta) * V T <= (u * q + eta) * 21). { apply Rmult_le_compat_l; [|lra]. assert (0 <= u * q) by (rewrite U; nra). lra. } nra. }
    assert (X2 : q * V T <= 21 * q) by nra.
    assert (UQ : 0 <= u * q) by (rewrite U; lra).
    assert (X3 : V p <= q * V T + 45 * (u * q) + u / 20000).
    { assert (u * (V s * V T) <= u * (q * 21 + 21 * (u * q) + 21 * eta)) by (apply Rmult_le_compat_l; [rewrite U; lra|lra]).
      assert (u * (u * q) <= u * q / 100). { rewrite U. lra. } assert (u * eta <= eta) by (rewrite U; lra). lra. }
    assert (X4 : u * (V p + V m) <= 22 * (u * q) + u * V m + u / 20000).
    { assert (V p <= 21 * q + 45 * (u * q) + u / 20000) by lra. assert (45 * (u * q) <= q / 2) by (rewrite U; lra).
      assert (u * V p <= u * (43 / 2 * q + u / 20000)) by (apply Rmult_le_compat_l; [rewrite U; lra|lra]).
      assert (u * (u / 20000) <= u / 20000) by (rewrite U; lra). assert (0 <= u * q) by (rewrite U; lra). lra. }
    assert (0 <= u) by (rewrite U; lra). lra.
Qed.

(** The room the minimal sizes leave. *)
Definition room_of (lo hi m : B32) (K : nat) : B32 := Bminus mode_NE (Bminus mode_NE hi lo) (Bmult mode_NE (b32_ofZ (Z.of_nat K)) m).
Lemma room_ok lo hi m K : range_ok lo hi m K ->
  fin (room_of lo hi m K) /\ 0 <= V (room_of lo hi m K) <= 21 /\ V (room_of lo hi m K) <= V hi - V lo - INR K * V m + 48 * u.
Proof.
  intros (Fl & Fh & Fm & HK & Hl & Hh & Hm & HT). change val with V in * . pose proof eta_tiny as ET. pose proof u_val as U.
  assert (K1 : 1 <= INR K <= 16). { split; [replace 1 with (INR 1) by reflexivity|replace 16 with (INR 16) by (cbn; lra)]; apply le_INR; lia. }
  assert (M0 : 0 < V m) by lra. assert (KM : 0 <= INR K * V m <= 10) by nra.
  destruct (minus_ok hi lo Fh Fl) as [F1 E1]. { rewrite Rabs_pos_eq by nra. unfold big. apply Rle_trans with 20; [lra|]. apply IZR_le. lia. }
  assert (B1 : Rabs (V (Bminus mode_NE hi lo) - (V hi - V lo)) <= 20 * u).
  { rewrite E1. pose proof (rnd_plus_rel hi (Bopp lo)) as R. unfold V in R at 2 4 6. rewrite B2R_Bopp in R. fold (V lo) in R.
    change (V hi + - V lo) with (V hi - V lo) in R. eapply Rle_trans; [exact R|]. rewrite Rabs_pos_eq by nra. rewrite U. lra. }
  destruct (ofZ_ok (Z.of_nat K)) as [FK EK]; [lia|]. rewrite <- INR_IZR_INZ in EK.
  destruct (mult_ok (b32_ofZ (Z.of_nat K)) m FK Fm) as [F2 E2]. { rewrite EK, Rabs_pos_eq by lra. unfold big. apply Rle_trans with 10; [lra|]. apply IZR_le. lia. }
  rewrite EK in E2.
  assert (B2 : Rabs (V (Bmult mode_NE (b32_ofZ (Z.of_nat K)) m) - INR K * V m) <= 8 * u).
  { rewrite E2. eapply Rle_trans; [apply (rnd_abs_err _ 4); [lia|]|]. { rewrite Rabs_pos_eq by lra. cbn. lra. } rewrite U. cbn. lra. }
  set (A := Bminus mode_NE hi lo) in * . set (B := Bmult mode_NE (b32_ofZ (Z.of_nat K)) m) in * . change (room_of lo hi m K) with (Bminus mode_NE A B).
  apply Rabs_le_inv in B1, B2.
  assert (D0 : 0 <= V A - V B). { assert (16 * / 16384 * INR K <= 16 * V m * INR K) by nra. assert (/ 16384 <= INR K * V m) by nra. rewrite U in * . lra. }
  assert (D1 : V A - V B <= V hi - V lo - INR K * V m + 28 * u) by lra. assert (D2 : V A - V B <= 20 + 28 * u) by lra.
  destruct (minus_ok A B F1 F2) as [F3 E3]. { rewrite Rabs_pos_eq by lra. unfold big. apply Rle_trans with 21; [rewrite U in * ; lra|]. apply IZR_le. lia. }
  split; [exact F3|]. rewrite E3. split; [apply rnd_in; [apply fmt_0|apply (fmt_Z 21); lia|rewrite U in * ; lra]|].
  pose proof (rnd_plus_rel A (Bopp B)) as R. unfold V in R at 2 4 6. rewrite B2R_Bopp in R. fold (V B) in R.
  change (V A + - V B) with (V A - V B) in R. rewrite (Rabs_pos_eq (V A - V B)) in R by lra. apply Rabs_le_inv in R.
  assert (0 < INR K * V m) by nra. assert (V hi - V lo - INR K * V m <= 20 - / 16384) by nra. rewrite U in * . lra.
Qed.
End Knots.
